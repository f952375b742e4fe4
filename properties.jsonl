{"id": "C01", "title": "Command line: last supplied value wins, names are case-insensitive", "statement": "After any sequence of accepted `add_input` calls, `get_value(name)` returns exactly the value that was supplied last under that name (comparing names case-insensitively), and throws parserException if the name was never declared or never supplied; declaring further arguments never changes an answer.", "quantifier": "every set of declared required/optional arguments and every history of accepted inputs", "why_tests_cant": "the space of argument sets and input orders is unbounded; a test fixes one command line", "anchors": ["src/utility/parser.cpp: parser::add_input, parser::get_value_as_string, parser::add_argument", "include/BSMPT/utility/parser.h: parser::get_value"]}
{"id": "C02", "title": "Command line: an unknown option is reported and nothing after it is applied", "statement": "`add_input` throws parserException if and only if some supplied key (other than help) is not declared; when it throws, exactly the options before the first unknown one have been applied and all other options keep their previous value; the help text is shown exactly when some key is `help`, in any case.", "quantifier": "every declared option set, parser state and list of key/value inputs", "why_tests_cant": "needs all positions of the offending key and all interleavings with known keys", "anchors": ["src/utility/parser.cpp: parser::add_input"]}
{"id": "C03", "title": "Command line: required-parameter check is exact", "statement": "`check_required_parameters` succeeds if and only if every declared required argument has been supplied; optional arguments have no influence.", "quantifier": "every declared option set and history of inputs", "why_tests_cant": "quantifies over all subsets of supplied arguments", "anchors": ["src/utility/parser.cpp: all_required_set, check_required_parameters"]}
{"id": "C04", "title": "Command line: --key=value is split losslessly", "statement": "For every key without '=' that does not start with '-' and is non-empty, and for every value (which may itself contain '=', blanks or dashes), the input --key=value is understood as exactly (key, value). An argument without any separator is not rejected.", "quantifier": "all strings", "why_tests_cant": "strings are unbounded; corner cases (second '=', empty value, blanks) are easily missed", "anchors": ["src/utility/parser.cpp: parser::get_key_value"]}
{"id": "C05", "title": "Logger prints exactly the enabled levels", "statement": "After any history of SetLevel/Disable/status queries, a message of level L is written if and only if the last operation that touched L enabled it; after Disable nothing is written until a level is enabled again; querying a level's status never changes what is written.", "quantifier": "every history of logger operations, every level", "why_tests_cant": "histories are unbounded", "anchors": ["include/BSMPT/utility/Logger.h: BSMPTLogger::Write, Logger::GetLoggingLevelStatus", "src/utility/Logger.cpp: SetLevel, Disable"]}
{"id": "C06", "title": "Logging options given on the command line are all honoured", "statement": "When the logger is configured from parsed options, every logging level for which the user supplied a value ends in the state the user asked for, whatever other logging options were given.", "quantifier": "every assignment of values to the logging options", "why_tests_cant": "the interaction between --logginglevel::complete and individual levels depends on the internal processing order; 2^10 combinations", "anchors": ["src/utility/Logger.cpp: SetLogger(const parser&)"]}
{"id": "C07", "title": "Configuring the logger from raw arguments is safe", "statement": "SetLogger(args) never has undefined behaviour, whatever the raw argument strings are, and afterwards each level is in the state its last setting asked for (complete=true switches on everything except the minimiser details).", "quantifier": "every argument vector", "why_tests_cant": "undefined behaviour is invisible to most tests and depends on arbitrary strings", "anchors": ["src/utility/Logger.cpp: SetLogger(const std::vector<std::string>&)"]}
{"id": "C08", "title": "Model names round-trip and are case-insensitive", "statement": "Every selectable model's printed name is parsed back to the same model, parsing ignores case, two different models never share a name, and every other string gives NotSet, which model construction rejects with an exception.", "quantifier": "all strings and all models", "why_tests_cant": "all casings and all non-names cannot be enumerated", "anchors": ["src/models/IncludeAllModels.cpp: getModel, InvertModelNames, FChoose", "src/utility/utility.cpp: ModelIDToString"]}
{"id": "C09", "title": "String helpers: split and prefix/suffix tests meet their specification", "statement": "Joining the result of split(s,d) with d gives back s, except that one trailing delimiter is lost; no piece contains d. StringStartsWith(s,p) holds iff s = p ++ rest, StringEndsWith(s,p) iff s = rest ++ p.", "quantifier": "all strings and delimiters", "why_tests_cant": "unbounded strings", "anchors": ["src/utility/utility.cpp: split, StringStartsWith, StringEndsWith"]}
{"id": "C10", "title": "Vector and matrix helpers are linear algebra", "statement": "Vector +, -, scalar *, dot product and matrix*vector either report a size mismatch or return the component-wise mathematical result; Transpose swaps indices and is an involution on non-empty rectangular matrices; the squared L2 norm is the dot product of a vector with itself; a rectangular matrix with more columns than rows can be multiplied with a vector of matching length.", "quantifier": "all dimensions and entries", "why_tests_cant": "unbounded dimensions", "anchors": ["include/BSMPT/utility/utility.h: operator+, operator-, operator*, flatten", "src/utility/utility.cpp: Transpose, L2NormVector"]}
{"id": "C11", "title": "Numerical gradient and Hessian are exact on low-degree polynomials and the Hessian is symmetric", "statement": "For any function, point and step, the numerical Hessian is a symmetric matrix; for any potential that is a quadratic form plus linear plus constant the Hessian and gradient equal the exact ones; along each axis the gradient stencil is exact for polynomials of degree at most four, and the diagonal Hessian stencil for degree at most three.", "quantifier": "all functions, dimensions, points, steps eps<>0", "why_tests_cant": "real-valued quantifiers", "anchors": ["src/utility/NumericalDerivatives.cpp: NablaNumerical, HessianNumerical"]}
{"id": "C12", "title": "A traced phase is always a sorted temperature table", "statement": "After any sequence of Add calls a phase holds its minima strictly increasing in temperature with no temperature twice, contains every temperature ever added (first value added at a temperature is kept), and T_low/T_high are exactly the smallest/largest temperature added.", "quantifier": "every history of added minima", "why_tests_cant": "insertion histories are unbounded", "anchors": ["src/minimum_tracer/minimum_tracer.cpp: Phase::Add"]}
{"id": "C13", "title": "Phase tracing stays inside the requested temperature range", "statement": "Every minimum recorded when tracking a phase from initialT to finalT has a temperature between initialT and finalT, and temperatures are monotone in tracking direction.", "quantifier": "every behaviour of the local minimiser, every initial step and range", "why_tests_cant": "depends on which minimisations fail; adversarial sequences are not tested", "anchors": ["src/minimum_tracer/minimum_tracer.cpp: MinimumTracer::TrackPhase"]}
{"id": "C14", "title": "Phase tracing terminates", "statement": "TrackPhase returns for every sequence of outcomes of the local minimiser.", "quantifier": "every sequence of minimiser outcomes", "why_tests_cant": "non-termination needs an adversarial infinite sequence", "anchors": ["src/minimum_tracer/minimum_tracer.cpp: MinimumTracer::TrackPhase"]}
{"id": "C15", "title": "Every coexisting pair of phases is examined exactly once", "statement": "After tracing, the list of coexisting phase pairs contains each unordered pair of distinct phases whose temperature ranges overlap exactly once, and nothing else; the false phase is the one that is earlier in the phase list (higher or equal upper end, lower id), the interval of the pair is exactly the set of common temperatures, and pairs are numbered consecutively.", "quantifier": "any number of phases with any temperature ranges", "why_tests_cant": "all configurations of n phases", "anchors": ["src/minimum_tracer/minimum_tracer.cpp: Vacuum::setCoexPhases"]}
{"id": "C16", "title": "Critical temperature is bracketed or classified correctly", "statement": "For a pair of phases, status 'success' means the returned temperature lies in the coexistence interval and the energy difference changes sign within the stated relative accuracy around it; the other statuses mean that the false (true) phase is energetically lower at both ends. The search terminates.", "quantifier": "every energy-difference function on the interval, every interval", "why_tests_cant": "continuum of functions and intervals", "anchors": ["src/minimum_tracer/minimum_tracer.cpp: CoexPhases::CalculateTc"]}
{"id": "C17", "title": "Registering phases never loses or duplicates a phase", "statement": "After any sequence of addPhase calls every stored phase has at least two minima in increasing temperature with labelled ends, phases accepted earlier are never removed and never lose a temperature, and a newly traced phase with at least three minima is recorded. The ids the user sees are pairwise distinct and consecutive 0..n-1, ordered by upper temperature end.", "quantifier": "every history of addPhase calls and every outcome of the comparison of phases", "why_tests_cant": "unbounded histories", "anchors": ["src/minimum_tracer/minimum_tracer.cpp: Vacuum::addPhase"]}
{"id": "C18", "title": "Multi-step tracing terminates and covers the range", "statement": "The recursive multi-step tracer terminates and its phases leave no gap in the requested temperature range.", "quantifier": "every behaviour of phase tracking", "why_tests_cant": "recursion depth depends on minimiser behaviour", "anchors": ["src/minimum_tracer/minimum_tracer.cpp: Vacuum::MultiStepPTTracer"]}
{"id": "C19", "title": "Overlap test between phases is safe", "statement": "Checking whether the global minimum is shared between the last phase and an earlier one never dereferences an invalid pointer; phases apart in temperature never share it, and overlapping ones share it exactly when both ends of the common temperature range are global minima.", "quantifier": "all phase lists and temperature ranges", "why_tests_cant": "undefined behaviour for particular nestings of temperature ranges", "anchors": ["src/minimum_tracer/minimum_tracer.cpp: Vacuum::DoGlobMinOverlap"]}
{"id": "C20", "title": "Vacuum expectation values are reduced within their symmetry orbit", "statement": "ReduceVEV maps a configuration to one related to it by a discrete symmetry of the model (so the potential is unchanged), never decreases the sign measure, and related configurations are mapped to the same representative.", "quantifier": "all symmetry groups found for the model and all configurations", "why_tests_cant": "all groups of sign flips and all field values", "anchors": ["src/minimum_tracer/minimum_tracer.cpp: MinimumTracer::ReduceVEV"]}
{"id": "C21", "title": "The reported transition history is the earliest-completion chain", "statement": "The reported history starts in phase 0, each step uses a transition that completed (has a completion temperature) out of the current phase, with the highest completion temperature not above the one of the previous step, ends only when no such transition exists, and always terminates.", "quantifier": "every list of transitions with arbitrary completion temperatures (including missing and NaN)", "why_tests_cant": "unbounded lists, cyclic transition graphs", "anchors": ["src/transition_tracer/transition_tracer.cpp: TransitionTracer::TransitionTracer (history evaluation)"]}
{"id": "C22", "title": "Every status/result column exists for every transition pair", "statement": "For every coexisting pair exactly one status per stage (critical, bounce, approximate nucleation, nucleation, percolation, completion) is reported, so the row printed for a parameter point has exactly as many columns as its legend.", "quantifier": "any number of pairs, any outcome of each stage, with or without gravitational-wave output", "why_tests_cant": "all outcome combinations for all pair counts", "anchors": ["src/transition_tracer/transition_tracer.cpp: TransitionTracer::TransitionTracer", "src/minimum_tracer/minimum_tracer.cpp: MinimumTracer::GetLegend", "src/prog/CalcTemps.cpp: main", "src/prog/CalcGW.cpp: main"]}
{"id": "C23", "title": "Output tables are rectangular", "statement": "The output file written for several parameter points has the same number of columns in every line including the header, whatever number of transitions each point has.", "quantifier": "every list of parameter points and results whose input lines have no more columns than the header line", "why_tests_cant": "number of transitions per point varies without bound", "anchors": ["src/prog/CalcTemps.cpp: main", "src/prog/CalcGW.cpp: main"]}
{"id": "C24", "title": "Only the requested input lines are processed", "statement": "Exactly the parameter points in lines firstline..lastline of the input file are evaluated, in order, each exactly once, independently of how many lines follow.", "quantifier": "every file length and every line range", "why_tests_cant": "all combinations of ranges and file lengths", "anchors": ["src/prog/CalcTemps.cpp: main", "src/prog/CalcGW.cpp: main"]}
{"id": "C25", "title": "User-supplied probabilities for percolation and completion are used", "statement": "The percolation (completion) temperature computed for a transition is computed for the false-vacuum fraction the user asked for.", "quantifier": "every requested fraction", "why_tests_cant": "effect only visible for non-default values", "anchors": ["src/transition_tracer/transition_tracer.cpp: TransitionTracer::TransitionTracer", "include/BSMPT/transition_tracer/transition_tracer.h: user_input::perc_prbl, compl_prbl"]}
{"id": "C26", "title": "Reported wall velocity is the one used", "statement": "The wall velocity reported in the gravitational-wave data of a transition is the one with which its transition strength and spectrum were computed.", "quantifier": "every requested wall velocity mode and every strength", "why_tests_cant": "depends on the order of internal updates", "anchors": ["src/transition_tracer/transition_tracer.cpp: TransitionTracer::TransitionTracer", "src/bounce_solution/bounce_solution.cpp: CalculatePTStrength"]}
{"id": "C27", "title": "Bounce solutions are kept sorted without duplicates", "statement": "The list of action values at computed temperatures is strictly increasing in temperature after any sequence of evaluations, and evaluating again at a temperature within the resolution of an existing one never adds an entry.", "quantifier": "every history of evaluated temperatures", "why_tests_cant": "unbounded histories", "anchors": ["src/bounce_solution/bounce_solution.cpp: BounceSolution::CalculateActionAt"]}
{"id": "C28", "title": "Nucleation temperature search is a correct bisection", "statement": "If the search reports success, the nucleation condition (tunnelling rate over Hubble rate to the fourth, resp. S3/T=140) changes sign within relative 1e-10 of the returned temperature, which lies in the scanned range; if a sign change exists at the ends and the range is not too wide the search succeeds.", "quantifier": "every tunnelling-rate function and temperature range", "why_tests_cant": "continuum of functions", "anchors": ["src/bounce_solution/bounce_solution.cpp: CalculateNucleationTemp, CalculateNucleationTempApprox"]}
{"id": "C29", "title": "Percolation/completion status is consistent with the temperature", "statement": "Whenever the percolation (completion) status is success, a positive temperature at which the false-vacuum fraction condition is met within tolerance is reported.", "quantifier": "every false-vacuum fraction function", "why_tests_cant": "requires failing second searches and exact initial guesses", "anchors": ["src/bounce_solution/bounce_solution.cpp: CalcTempAtFalseVacFraction, CalculatePercolationTemp, CalculateCompletionTemp"]}
{"id": "C30", "title": "Wall velocity estimates are physical", "statement": "For non-negative transition strength and every mode the computed wall velocity lies in [0,1] and the Chapman-Jouguet velocity lies between the sound speed and 1.", "quantifier": "all alpha >= 0 and all pressures", "why_tests_cant": "real-valued", "anchors": ["src/bounce_solution/bounce_solution.cpp: CalculateWallVelocity"]}
{"id": "C31", "title": "Gravitational-wave spectrum peaks where reported", "statement": "Once the peak data are set, the sound-wave contribution at every frequency is at most the reported peak amplitude, with equality exactly at the reported peak frequency; it vanishes for f->0 like f^3.", "quantifier": "all frequencies and all positive peak data", "why_tests_cant": "all real frequencies", "anchors": ["src/gravitational_waves/gw.cpp: CalcGWAmplitude, CalcPeakFrequencySoundWave, CalcPeakAmplitudeSoundWave"]}
{"id": "C32", "title": "Evaluating the spectrum does not depend on evaluation history", "statement": "CalcGWAmplitude(f) returns the same value whether it is the first or a later evaluation on the object.", "quantifier": "every history of evaluations", "why_tests_cant": "needs a fresh-object evaluation history", "anchors": ["src/gravitational_waves/gw.cpp: CalcGWAmplitude"]}
{"id": "C33", "title": "Turbulence spectrum has the documented f^3/(1+f/fp)^(11/3) shape", "statement": "The turbulence contribution uses the exponent 11/3 in the denominator.", "quantifier": "all frequencies", "why_tests_cant": "exponents that agree at integers", "anchors": ["src/gravitational_waves/gw.cpp: CalcGWAmplitude"]}
{"id": "C34", "title": "Efficiency factor is continuous in the wall velocity", "statement": "The kinetic efficiency factor for sound waves is continuous across the boundaries between deflagration, hybrid and detonation regimes (values agree at v = c_s and v = v_J).", "quantifier": "all alpha > 0", "why_tests_cant": "one-sided limits at data-dependent points", "anchors": ["src/gravitational_waves/gw.cpp: Getkappa_sw"]}
{"id": "C35", "title": "Low-temperature/high-temperature expansions return matching derivatives", "statement": "For the interpolated thermal functions the derivative requested with diff=1 is the derivative of the function requested with diff=0 in the high-temperature (small x) and low-temperature (large x) expansions.", "quantifier": "all x > 0, all expansion orders", "why_tests_cant": "real-valued; tests compare a few points with loose tolerance", "anchors": ["src/ThermalFunctions/ThermalFunctions.cpp: JfermionInterpolatedLow, JbosonInterpolatedLow, JInterpolatedHigh"]}
{"id": "C36", "title": "Cached expansion coefficients equal recomputed ones", "statement": "The thermal coefficient provider returns for every order exactly what the calculation routine returns, whether or not the order was cached; a provider built with a non-negative cache size rejects negative orders.", "quantifier": "all orders, all cache sizes", "why_tests_cant": "cache/non-cache boundary at any size", "anchors": ["src/ThermalFunctions/thermalcoefficientcalculator.cpp: ThermalCoefficientCalculator"]}
{"id": "C37", "title": "Minimiser selection code round-trips", "statement": "The integer computed from the (CMA-ES, GSL, NLopt) switches decodes to exactly the same switches and different selections have different codes.", "quantifier": "all selections and all integers", "why_tests_cant": "-", "anchors": ["src/minimizer/Minimizer.cpp: GetMinimizers", "include/BSMPT/minimizer/Minimizer.h: CalcWhichMinimizer"]}
{"id": "C38", "title": "The global minimum returned is the best candidate and independent of multithreading", "statement": "The minimiser returns a candidate whose potential is lowest among all candidates produced by the enabled algorithms and the origin, and enabling or disabling multithreading does not change which candidates are considered.", "quantifier": "every set of enabled algorithms and candidate results", "why_tests_cant": "depends on thread configuration", "anchors": ["src/minimizer/Minimizer.cpp: Minimize_gen_all"]}
{"id": "C39", "title": "Critical temperature search (legacy) reports success only for a genuine transition", "statement": "If the electroweak phase-transition finder reports SUCCESS, then at the returned temperature the VEV is non-zero with v/T above the threshold, and the returned temperature brackets the disappearance of the VEV within the stated tolerance; the search terminates.", "quantifier": "every behaviour of the minimiser over temperature", "why_tests_cant": "minimiser behaviour is arbitrary", "anchors": ["src/minimizer/Minimizer.cpp: PTFinder_gen_all"]}
{"id": "C40", "title": "Parallel minimisation from many starting points is free of data races on the work queue", "statement": "For every number of worker threads and every schedule, no worker pops from an empty queue, the number of collected solutions reaches the requested number or the starting points are exhausted.", "quantifier": "every thread schedule", "why_tests_cant": "interleavings are not controllable in a test", "anchors": ["src/minimizer/MinimizeGSL.cpp: GSL_Minimize_gen_all"]}
{"id": "C41", "title": "Tracing minima with temperature visits the requested temperatures", "statement": "MinimaDevelopmentWithTemperature evaluates exactly the temperatures start, start+step, ... up to the stopping temperature and never beyond, and terminates for every step.", "quantifier": "all start/stop/step values", "why_tests_cant": "boundary and sign cases of the step", "anchors": ["src/minimizer/Minimizer.cpp: MinimaDevelopmentWithTemperature"]}
{"id": "C42", "title": "Coordinates on the minimisation plane lie in the plane", "statement": "Every vector obtained from plane coordinates satisfies the plane equation n.(v-P)=0 and each point of the plane is reached; wrong coordinate counts are rejected.", "quantifier": "all normals with a usable component, all points", "why_tests_cant": "real-valued", "anchors": ["src/minimizer/MinimizePlane.cpp: TransformCoordinates, MinimizePlane"]}
{"id": "C43", "title": "Cubic spline passes through its data and is continuous", "statement": "A spline built from strictly increasing abscissae returns the supplied ordinate at every abscissa, is continuous everywhere, and for the natural (default) boundary has continuous first and second derivatives at the interior knots.", "quantifier": "all data sets of at least three points", "why_tests_cant": "all data sets", "anchors": ["src/utility/spline/spline.cpp: spline::set_points, spline::operator(), band_matrix"]}
{"id": "C44", "title": "Spline boundary conditions requested by the user are respected", "statement": "For every combination of left and right boundary conditions the spline satisfies both of them.", "quantifier": "all combinations of boundary types and values", "why_tests_cant": "combinations with non-zero values", "anchors": ["src/utility/spline/spline.cpp: spline::set_points"]}
{"id": "C45", "title": "Monotonicity filter yields slopes that keep the spline monotone", "statement": "After make_monotonic on Hermite data, on every interval where the data are non-decreasing (non-increasing) the interpolant is too.", "quantifier": "all data sets", "why_tests_cant": "all data sets", "anchors": ["src/utility/spline/spline.cpp: spline::make_monotonic"]}
{"id": "C46", "title": "Path smoothing uses the Bernstein basis with exact binomial coefficients", "statement": "Bernstein polynomials used for path deformation are non-negative on [0,1] and sum to one; the deformation basis vanishes at the false-vacuum end so that end point never moves; the number of combinations is the binomial coefficient.", "quantifier": "all degrees and x in [0,1]", "why_tests_cant": "all degrees", "anchors": ["src/bounce_solution/action_calculation.cpp: BernsteinPolynomial, nChoosek, SinglePathDeformation"]}
{"id": "C47", "title": "Matching of near- and far-field bounce solutions is a convex combination", "statement": "The logistic weight lies in [0,1] (strictly inside for arguments between -10 and 10), is nondecreasing, L(x)+L(-x)=1, so the blended radius and slope lie between those of the two exact solutions whenever the exponent is a number.", "quantifier": "all real arguments", "why_tests_cant": "real-valued", "anchors": ["src/bounce_solution/action_calculation.cpp: LogisticFunction, ExactSolution"]}
{"id": "C48", "title": "Action integrals use a correct quadrature rule", "statement": "The kinetic part of the action integrates r^(d-1) (dl/dr)^2/2 with a rule that is exact for constant dl/dr.", "quantifier": "all profiles", "why_tests_cant": "quadrature bias is small for test profiles", "anchors": ["src/bounce_solution/action_calculation.cpp: CalculateKineticTermAction, CalculatePotentialTermAction"]}
{"id": "C49", "title": "An action value is only reported for a converged bounce", "statement": "CalculateAction assigns an action only if some trajectory of the one-dimensional problem comes to rest at the false vacuum (or a bracket around one was narrowed to the tolerance) and, in more than one dimension, the path deformation converged; every failure leaves a failure status and the previous action.", "quantifier": "every outcome sequence of the one-dimensional solver and path deformation", "why_tests_cant": "all outcome sequences", "anchors": ["src/bounce_solution/action_calculation.cpp: CalculateAction"]}
{"id": "C50", "title": "Symmetrised coupling tensors are symmetric and keep canonical entries", "statement": "After the symmetrisation helpers, a rank 2/3/4 tensor is invariant under every permutation of its indices and every entry with non-decreasing indices is unchanged.", "quantifier": "all dimensions and tensors", "why_tests_cant": "all permutations in all dimensions", "anchors": ["src/models/ClassPotentialOrigin.cpp: sym2Dim, sym3Dim, sym4Dim"]}
{"id": "C51", "title": "Tree-level potential derivatives agree with the potential", "statement": "For symmetric coupling tensors, the tree-level (and counterterm) potential's reported derivative in direction i is the derivative of the reported potential, the reported Higgs mass matrix at T=0 is its Hessian, and skipping vanishing fields does not change the value.", "quantifier": "all numbers of fields, tensors, field values", "why_tests_cant": "real-valued, all dimensions", "anchors": ["src/models/ClassPotentialOrigin.cpp: VTree, CounterTerm, HiggsMassMatrix, NablaVCT, HessianCT"]}
{"id": "C52", "title": "The effective potential does not depend on the form of the VEV vector", "statement": "Evaluating the effective potential with the nVEV minimiser coordinates or with the corresponding full field vector gives the same value for every requested loop order.", "quantifier": "all configurations, loop orders, temperatures", "why_tests_cant": "argument forwarding only visible for non-default order", "anchors": ["src/models/ClassPotentialOrigin.cpp: VEff, MinimizeOrderVEV"]}
{"id": "C53", "title": "Mapping minimiser coordinates to fields is safe and faithful", "statement": "MinimizeOrderVEV places coordinate k at field VevOrder[k] and zero elsewhere, without reading outside its tables, for every shipped model.", "quantifier": "all models and configurations", "why_tests_cant": "out-of-bounds reads are silent", "anchors": ["src/models/ClassPotentialOrigin.cpp: MinimizeOrderVEV, SetEWVEVZero", "src/models/ClassPotentialSM.cpp: Class_SM"]}
{"id": "C54", "title": "Constant-velocity spline: adding a point keeps the path well formed", "statement": "Adding a point to a path terminates and never reads outside the list of positions; a point before the start becomes the first and a point behind the end the last point of the path; a point in between is inserted where its position belongs, so that the positions stay increasing.", "quantifier": "all paths and points", "why_tests_cant": "boundary positions", "anchors": ["src/utility/const_velocity_spline.cpp: cvspline::add_point, cvspline::initialize"]}
{"id": "C55", "title": "Text plots stay inside their canvas", "statement": "Adding curves and drawing them never writes outside the arrays or the plot area, the plotted range covers all data and is attained by the data, and the padding of titles and legends is as wide as the space that is left.", "quantifier": "all data sets, window sizes, titles", "why_tests_cant": "degenerate data and long titles", "anchors": ["src/utility/asciiplotter/asciiplotter.cpp: AsciiPlotter::show, resample"]}
{"id": "C56", "title": "Programs accept every documented option value and reject contradictory ranges", "statement": "Each documented value of the electroweak-symmetry-restoration option is accepted by both transition programs and temperature ranges with lower bound above the upper bound are rejected by both.", "quantifier": "all option combinations", "why_tests_cant": "option matrix", "anchors": ["src/prog/CalcTemps.cpp: CLIOptions::good, convert_input", "src/prog/CalcGW.cpp: CLIOptions::good, convert_input"]}
{"id": "C57", "title": "One-loop mass terms: requested derivative matches the function", "statement": "The Coleman-Weinberg term's derivative with respect to the squared mass is the derivative of the term for every squared mass away from the cut-off, for positive and negative squared masses; the same holds for the full boson and fermion terms built from it, also for the derivative with respect to the temperature.", "quantifier": "all squared masses, renormalisation scales", "why_tests_cant": "sign cases", "anchors": ["src/models/ClassPotentialOrigin.cpp: CWTerm, FCW, boson, fermion"]}
{"id": "C58", "title": "Loop functions are symmetric in their mass arguments and continuous at degeneracies", "statement": "The two- and three-point base functions give the same value for every ordering of their mass arguments and agree with the limit of the non-degenerate formula.", "quantifier": "all masses", "why_tests_cant": "all orderings and degenerate limits", "anchors": ["src/models/ClassPotentialOrigin.cpp: fbase, fbaseTri"]}
{"id": "C59", "title": "NLO vacuum stability check rejects bad minima", "statement": "The NLO stability check accepts a configuration iff every component's modulus is within 1 GeV of the tree-level one; configurations containing NaN are rejected.", "quantifier": "all configurations", "why_tests_cant": "NaN handling", "anchors": ["src/models/ClassPotentialOrigin.cpp: CheckNLOVEV"]}
{"id": "C60", "title": "The phase-edge scan counts coexisting phases and reports gaps exactly", "statement": "At each temperature where a phase begins or ends, the recorded count is the number of phases that live just below that temperature, and the list is ordered from high to low; without gap patching, the status 'no coverage' is reported exactly if there is a gap between phases, and coexistence is reported exactly if two phases share a temperature interval of positive length.", "quantifier": "any number of phases and ranges", "why_tests_cant": "all configurations of interval end points", "anchors": ["src/minimum_tracer/minimum_tracer.cpp: Vacuum::setCoexRegion"]}
{"id": "C61", "title": "Asking a phase for a temperature never loses information", "statement": "Phase::Get returns a stored minimum unchanged if the temperature is stored; otherwise it either returns the closest stored minimum or the last minimum of a new track that starts at the closest one, and the phase afterwards contains all old temperatures, all tracked ones and nothing else, still as a sorted table with correct ends.", "quantifier": "every phase, temperature and outcome of tracking", "why_tests_cant": "histories of queries and tracker outcomes are unbounded", "anchors": ["src/minimum_tracer/minimum_tracer.cpp: Phase::Get"]}
{"id": "C62", "title": "The temperature where a minimum turns into a saddle is bracketed", "statement": "FindZeroSmallestEigenvalue returns a temperature between the two given ones whenever the Hessian's smallest eigenvalue has different sign at both ends, on the same side of the sign change as the first one and within a relative 1e-8 of it, and it terminates for positive temperatures whatever the minimiser does.", "quantifier": "every behaviour of the minimiser and pair of temperatures", "why_tests_cant": "continuum of behaviours", "anchors": ["src/minimum_tracer/minimum_tracer.cpp: MinimumTracer::FindZeroSmallestEigenvalue"]}
{"id": "C63", "title": "Sign-symmetry searches try every combination of signs exactly once", "statement": "FindDiscreteSymmetries examines every one of the 2^n diagonal sign matrices exactly once (identity first) and keeps exactly those that pass the invariance check; FindSignSymmetries does the same for all sign vectors except the identity. Both terminate.", "quantifier": "every number of VEVs, every outcome of the invariance checks", "why_tests_cant": "2^n combinations for every n; depends on the permutation algorithm", "anchors": ["src/minimum_tracer/minimum_tracer.cpp: MinimumTracer::FindDiscreteSymmetries", "src/models/ClassPotentialOrigin.cpp: Class_Potential_Origin::FindSignSymmetries"]}
{"id": "C64", "title": "Percolation and completion temperatures are those for the requested wall velocity", "statement": "The percolation and completion temperatures reported for a transition are computed with the wall velocity the user asked for, and the reported percolation temperature is the one at which the transition strength is evaluated.", "quantifier": "every requested wall velocity", "why_tests_cant": "needs a non-default velocity and a comparison of two internal temperatures", "anchors": ["src/transition_tracer/transition_tracer.cpp: TransitionTracer::TransitionTracer", "src/bounce_solution/bounce_solution.cpp: BounceSolution::BounceSolution, CalculatePercolationTemp, CalculatePTStrength"]}
{"id": "C65", "title": "The computation of the transition strength terminates", "statement": "Computing strength, percolation temperature and wall velocity self-consistently ends after finitely many steps for every transition with a percolation temperature.", "quantifier": "every dependence of strength and percolation temperature on the wall velocity", "why_tests_cant": "continuum of dependences, unbounded recursion", "anchors": ["src/bounce_solution/bounce_solution.cpp: BounceSolution::CalculatePTStrength"]}
{"id": "C66", "title": "A transition without percolation does not abort the run", "statement": "Evaluating a list of parameter points never ends with an exception because one transition has no percolation temperature.", "quantifier": "every requested transition temperature and stage outcome", "why_tests_cant": "combination of outcomes of independent stages", "anchors": ["src/transition_tracer/transition_tracer.cpp: TransitionTracer::TransitionTracer", "src/bounce_solution/bounce_solution.cpp: BounceSolution::CalculatePTStrength"]}
{"id": "C67", "title": "The temperature scan for bounce solutions terminates and its status reflects the number of solutions", "statement": "For every pair of phases the scan performed when a bounce solution is constructed terminates; the resulting list is strictly increasing in temperature, stays between the lower end of the coexistence region and the critical temperature, contains only positive actions, and the status is success exactly if it has at least four entries.", "quantifier": "every behaviour of the bounce solver, every coexistence region, every number of scan temperatures", "why_tests_cant": "the bounce solver's behaviour is arbitrary and the extrapolation loops have data-dependent lengths", "anchors": ["src/bounce_solution/bounce_solution.cpp: GWInitialScan, GWSecondaryScan, GWScanTowardsHighAction, GWScanTowardsLowAction, SetBounceSol"]}
{"id": "C68", "title": "Sound-wave peak amplitude and turbulence fraction follow the shock formation time", "statement": "With tau = (2/sqrt 3) HR / sqrt K the reported sound-wave peak amplitude equals the documented long-lived amplitude times min(1,tau); the upper-bound turbulence fraction (epsilon = -1) lies in [0,1] and is zero exactly when tau >= 1; any other epsilon is used unchanged.", "quantifier": "all positive HR, K, g*", "why_tests_cant": "the two branches agree only on a measure-zero boundary, so a swapped branch looks plausible", "anchors": ["src/gravitational_waves/gw.cpp: CalcEpsTurb, CalcPeakAmplitudeSoundWave, IsFluidTurnoverApproxOne"]}
{"id": "C69", "title": "Integrands of the thermal integrals and their derivatives agree", "statement": "For every momentum and every argument at which the integrand is smooth, the boson and fermion integrand requested with diff=1 is the derivative with respect to the argument of the one requested with diff=0, also where the energy is imaginary.", "quantifier": "all real momenta and arguments", "why_tests_cant": "complex arithmetic with branch cuts; tests sample a few points", "anchors": ["src/ThermalFunctions/ThermalFunctions.cpp: JbosonIntegrand, JfermionIntegrand"]}
{"id": "C70", "title": "Switching off the electroweak VEVs changes exactly the gauge-coupled coordinates", "statement": "SetEWVEVZero sets every minimiser coordinate whose field couples to gauge bosons to zero, leaves all other coordinates as they are, and never reads outside the table of VEV positions.", "quantifier": "all field layouts, VEV tables and points", "why_tests_cant": "depends on the order of doublet and singlet fields in the table", "anchors": ["src/models/ClassPotentialOrigin.cpp: SetEWVEVZero", "src/minimizer/Minimizer.cpp: Minimize_gen_all"]}
{"id": "C71", "title": "The electroweak VEV is the norm of the gauge-coupled fields", "statement": "EWSBVEV returns the root of the sum of squares of the fields that couple to gauge bosons, or 0 if that is at most 0.5 GeV; fields without gauge coupling and signs of fields do not influence it, and a vector that is too short is rejected.", "quantifier": "all field vectors and coupling patterns", "why_tests_cant": "real-valued inputs around the threshold", "anchors": ["src/models/ClassPotentialOrigin.cpp: EWSBVEV"]}
{"id": "C72", "title": "The expansion about the true minimum is used close to it and the linear solution far from it", "statement": "When ExactSolution blends its two solutions, the solution expanded about the true minimum has weight at least one half for starting points closer to the minimum than the threshold distance and at most one half for points further away.", "quantifier": "all thresholds, start distances, positions of the minimum and gradients", "why_tests_cant": "needs a path whose true minimum lies away from its start", "anchors": ["src/bounce_solution/action_calculation.cpp: ExactSolution 572-626, CalculateExactSolutionThreshold 536-571, BackwardsPropagation 729-779"]}
{"id": "C73", "title": "Programs reject numeric options outside their documented ranges", "statement": "Both transition programs reject an upper temperature that is not above the lower one or not positive, wall velocities that are neither in (0,1] nor one of the two documented modes, probabilities outside [0,1], a turbulence efficiency outside [0,1], and line numbers that are not positive or in the wrong order.", "quantifier": "all numeric option values including not-a-number", "why_tests_cant": "not-a-number and negative values", "anchors": ["src/prog/CalcTemps.cpp: CLIOptions::good", "src/prog/CalcGW.cpp: CLIOptions::good"]}
{"id": "C74", "title": "Positional arguments mean the same as the named options", "statement": "Giving model, input, output, first line and last line as positional arguments configures the program exactly as the named options do, and no further argument is silently ignored.", "quantifier": "all argument lists", "why_tests_cant": "argument order", "anchors": ["src/prog/CalcTemps.cpp: convert_input", "src/prog/CalcGW.cpp: convert_input"]}
{"id": "C75", "title": "Constant-velocity spline: the table of path lengths is the integral of the speed", "statement": "The tabulated length at each parameter value is the integral of the path's speed from the start to that parameter value, up to the error of the integration rule: it is exact for speeds for which the rule is exact, it grows strictly along a path of positive speed, and lies between the extreme speeds times the parameter.", "quantifier": "all speeds, step widths and table sizes", "why_tests_cant": "every test path is close to constant speed", "anchors": ["src/utility/const_velocity_spline.cpp: cvspline::initialize, Simpson_step"]}
{"id": "C76", "title": "Constant-velocity spline: tangent and acceleration", "statement": "The tangent of the path with respect to its length has length one, the second derivative is orthogonal to it, and both are the derivatives of the path's components with respect to the length.", "quantifier": "all paths, parameters and dimensions", "why_tests_cant": "formula for all derivatives", "anchors": ["src/utility/const_velocity_spline.cpp: cvspline::dl, cvspline::d2l"]}
{"id": "C77", "title": "Options from a json file equal options from the command line", "statement": "Calling a program with --json=FILE has the same effect as supplying the members of the file (except those whose key ends in _comment) as options; a file that cannot be opened is reported with parserException and changes nothing; giving --json together with further options still reads the file.", "quantifier": "all json objects, parser states and argument lists", "why_tests_cant": "all files and argument combinations", "anchors": ["src/utility/parser.cpp: parser::add_input, parser::add_json_input"]}
{"id": "C78", "title": "A boolean option has one meaning in all programs", "statement": "A boolean option is read as true exactly when its text is `true` up to case, in every program; a missing option keeps the default of the build.", "quantifier": "all option texts, all programs", "why_tests_cant": "all casings, all programs", "anchors": ["include/BSMPT/utility/parser.h: parser::get_value", "src/prog/CalcTemps.cpp: CLIOptions::CLIOptions", "src/prog/CalcGW.cpp: CLIOptions::CLIOptions"]}
{"id": "C79", "title": "Every value of the output tables stands under the column that names it", "statement": "In the files written by CalcTemps and CalcGW each row has, for every column named in the header line, exactly the value that column names: the input parameters, the counterterms, the status words, the run time and, for pair i, statuses, temperatures and vevs of the critical, approximate nucleation, nucleation, percolation and completion stage (and the gravitational wave quantities in CalcGW) under names ending in _i, then the transition history. Pairs which a point does not have but another point of the file has read nan in all their columns.", "quantifier": "for all input files, ranges of lines, models and numerical results (input lines having as many columns as the header line)", "why_tests_cant": "Tests run single points and read no table by its header; the header comes from the point with most pairs, and rows are padded by counting tabs, so a swapped or missing column in one of 35 places only shows in tables of points with different numbers of pairs.", "anchors": ["src/prog/CalcTemps.cpp", "src/prog/CalcGW.cpp", "src/transition_tracer/transition_tracer.cpp"]}
{"id": "C80", "title": "Checks of a point are reported as made and stop the calculation exactly as requested", "statement": "TransitionTracer reports the NLO stability as off if the check is not requested, else as success or no_nlo_stability, and stops there in the last case with everything else not set. The symmetry restoration check is off for levels <= 0 and otherwise its code is reported as: 3 restored, 2 not restored, 1 flat region, 0 failure, -1 not bounded from below, anything else failure; level 2 gives up points with a code below 2, level 3 those with a code below 3, all other levels none. Points not given up carry the tracing and coexistence statuses of the vacuum, the number of its coexisting pairs, and if both succeeded the results of all pairs in order and the printed history.", "quantifier": "for all user inputs and all results of the vacuum and minimum tracer", "why_tests_cant": "The tests use few combinations of check levels and codes; the remaining combinations of four levels and five codes never run.", "anchors": ["src/transition_tracer/transition_tracer.cpp", "include/BSMPT/transition_tracer/transition_tracer.h"]}
{"id": "C81", "title": "The gravitational wave columns belong to the transition temperature chosen by the user", "statement": "A pair has gravitational wave results only if requested and if the stage chosen as transition succeeded; then the reported strength and inverse time scale are those of the bounce, trans_temp is the reported temperature of the chosen stage, the status is failure without a spectrum if the inverse time scale is below 1, and success together with the computed spectrum otherwise. False: with percolation as the transition the reported trans_temp may differ from the reported percolation temperature, because the latter is recomputed with the updated wall velocity.", "quantifier": "for all user inputs and all numerical results of a pair", "why_tests_cant": "Tests check that individual numbers agree with earlier runs; that two columns of the table contradict each other only shows for wall velocities that are iterated.", "anchors": ["src/transition_tracer/transition_tracer.cpp", "src/bounce_solution/bounce_solution.cpp"]}
{"id": "C82", "title": "The symmetry restoration check reports what its documentation says", "statement": "IsThereEWSymmetryRestoration follows the smallest eigenvalue of the Hessian at the origin divided by T^2 through rising temperatures until it agrees with the two previous ones up to 1e-6; it returns 0 if that never happens or the matrix cannot be inverted, -1 for a negative limit, 3 (stored point has EW vev <= 0.5) or 2 for a positive limit, and 1 for a flat region. False: the result 1 is impossible, and a potential which is flat at all temperatures is reported as a failed calculation.", "quantifier": "for all sequences of eigenvalues including not-a-number, and all stored points", "why_tests_cant": "No test has a flat high-temperature potential; an unreachable status cannot be found by running the code.", "anchors": ["src/minimum_tracer/minimum_tracer.cpp", "include/BSMPT/minimum_tracer/minimum_tracer.h"]}
{"id": "C83", "title": "The high-temperature minimum stored by the symmetry restoration check is the minimum", "statement": "The point stored as HighTemperatureVEV is the minimum of the quadratic approximation of the potential at the origin. False: H^-1 times the gradient is stored, while the minimum is at minus this point; the two agree only for a vanishing gradient. The reported status is not affected as the electroweak vev does not depend on the sign.", "quantifier": "for all gradients and all symmetric positive semidefinite Hessians of any dimension", "why_tests_cant": "For the tested models the gradient at the origin vanishes, so the sign is invisible; only models with linear terms show it.", "anchors": ["src/minimum_tracer/minimum_tracer.cpp"]}
{"id": "C84", "title": "Kinetic energy fraction and bubble separation keep to their physical ranges", "statement": "For beta/H > 0, wall velocity and sound speed > 0 the reported mean bubble separation is positive and equals (8 pi)^(1/3) max(v, cs) / (beta/H). The sound wave energy fraction K_sw lies strictly between 0 and 1 for every detonation (sound speed below the Chapman-Jouguet velocity, wall faster than it and at most luminal) and for every subsonic wall, and K_turb is exactly the requested share of K_sw. (Refuted for subsonic walls with large alpha: the fit formulas are used without any range check and give K_sw > 1, e.g. alpha = 1e5, v = 0.9 cs; proved for alpha <= 1/2.)", "quantifier": "all real alpha, v, cs, beta in the stated ranges", "why_tests_cant": "the fractions come from fits with fractional powers; tests check a few benchmark points and never the whole range of alpha and v", "anchors": ["src/gravitational_waves/gw.cpp:10-35", "src/gravitational_waves/gw.cpp:223-278"]}
{"id": "C85", "title": "The logarithm of the mass cancels in the one-loop potential at high temperature", "statement": "For a boson with squared mass m at or above the cut of the Coleman-Weinberg term and below the threshold of the low expansion (m < 9.469 T^2), boson(m, T, cb, 0) equals - pi^2 T^4/90 + m T^2/24 - T m^(3/2)/(12 pi) + m^2/(32 pi^2) (ln(4 pi T/scale) - gamma_E - (cb - 3/2)/2) plus the zeta(3) and zeta(5) terms of the expansion: the logarithm of the mass in the Coleman-Weinberg term cancels the one of the thermal term exactly. For fermions (m < 2.216 T^2) the same holds with ln(pi T/scale), no m^(3/2) term, terms up to zeta(7), and the constant shift that makes the two expansions meet.", "quantifier": "all real m, T, scale, cb in the stated range; all values of the zeta oracle", "why_tests_cant": "cancellation between two separately coded formulas (different files, different constants) for all masses; tests compare single numbers with a tolerance", "anchors": ["src/models/ClassPotentialOrigin.cpp:80-168", "src/ThermalFunctions/ThermalFunctions.cpp:35-63", "src/ThermalFunctions/ThermalFunctions.cpp:180-273", "include/BSMPT/ThermalFunctions/ThermalFunctions.h:24-40"]}
{"id": "C86", "title": "The two expansions of the thermal functions meet at their thresholds", "statement": "At the argument where JfermionInterpolated and JbosonInterpolated switch from the low to the high expansion their values do not jump: arbitrarily close to the threshold, values from the two branches differ by less than 1e-6. The same is expected of the derivatives (diff = 1). (Refuted for the derivatives: the fermionic derivative jumps by more than 0.04 and the bosonic one by more than 0.005, because of an integer division in the exponent of the high expansion.)", "quantifier": "all arguments in a neighbourhood of the thresholds; zeta the exact Riemann zeta values", "why_tests_cant": "needs rigorous error bounds for both expansions at the transcendental coefficients; tests evaluate away from the thresholds", "anchors": ["src/ThermalFunctions/ThermalFunctions.cpp:180-339", "include/BSMPT/ThermalFunctions/ThermalFunctions.h:24-40"]}
{"id": "C87", "title": "The initial scan solves the bounce at equidistant temperatures from the top until the action is small", "statement": "The initial scan visits Tc - k dT for k = 1 .. N-1 with dT = (Tc - T_low)/N, in this order, skips exactly those where the true vacuum is not deeper, calculates at all others, and stops after the first one with positive action over temperature below 40. The list afterwards contains exactly the visited temperatures with a positive action, in increasing order.", "quantifier": "all regions 0 <= T_low < Tc, all N > 0, all viability tests and action oracles", "why_tests_cant": "the number of calculations and the early stop depend on the results of all earlier ones; tests only look at final benchmark temperatures", "anchors": ["src/bounce_solution/bounce_solution.cpp:118-185"]}
{"id": "C88", "title": "Between two neighbouring solutions the refinement asks for steps of at most 20 in action over temperature", "statement": "For neighbours a, b with rising action over temperature, a at most 200 and b at least 50, the temperatures asked for cut the straight line between them into equal steps of at most 20, with the least number of temperatures, dropping only those whose interpolated value is outside (0, 400). For neighbours outside this range or not rising nothing is asked for.", "quantifier": "all pairs of entries with positive temperatures", "why_tests_cant": "exact count (ceiling) and equal spacing for all pairs of values; not observable in tests", "anchors": ["src/bounce_solution/bounce_solution.cpp:291-330"]}
{"id": "C89", "title": "The list is extended until action over temperature leaves the range from 50 to 200", "statement": "Extending the list upwards (downwards) adds entries only beyond its end, each at the temperature where the line through the two outermost entries has risen (fallen) by 10, or, if that lies outside the region, at the mirrored temperature inside it. It goes on until action over temperature exceeds 200 (falls below 50), unless the outermost entries do not rise, there is no room left in the region, or the calculation there (retried from a straight path) gives no positive action. (Refuted: the loop bound is recomputed from the shrinking distance while the counter grows, so the scan also gives up half-way: for action over temperature exactly linear, with all calculations succeeding, the complete scan ends at 70 instead of 50. The partial theorems add this fourth reason, the number of projected temperatures exceeding 1 + distance/10.)", "quantifier": "all lists with at least two entries, all oracles, all regions with T_low > 0", "why_tests_cant": "the stop depends on the interplay of counter and recomputed bound over a whole run with arbitrary actions", "anchors": ["src/bounce_solution/bounce_solution.cpp:338-413"]}
{"id": "C90", "title": "Options of CalcTemps and CalcGW mean what the help text says", "statement": "For CalcTemps and CalcGW: leaving out an optional option gives exactly the same settings as passing the default text that --help prints for it; every number passed is the number used for that setting, and every documented word (on/off, keep_bfb, keep_ewsr, default/auto, nucl_approx/nucl/perc/compl, true/false) selects the documented choice; leaving out one of the required options is reported as a parser error; a word that is not documented is refused.", "quantifier": "all option texts given or missing in any combination, both programs, every build configuration", "why_tests_cant": "The number of combinations of given and missing options is unbounded and the two programs duplicate the code; tests try a few command lines.", "anchors": ["src/prog/CalcTemps.cpp:32-52", "src/prog/CalcTemps.cpp:367-618", "src/prog/CalcGW.cpp:32-56", "src/prog/CalcGW.cpp:392-690"]}
{"id": "C91", "title": "Splines outside the data and their higher derivatives", "statement": "Outside the data range a cubic spline (either construction) goes on as a parabola with the value, slope and curvature of the neighbouring cubic at the end point, or as the tangent straight line if the slope was prescribed at that end; the linear type is the straight line through neighbouring points and goes on along the first and last of these lines; for every type and every order k, deriv(k+1, x) is the derivative of deriv(k, x) at every x that is not a data point.", "quantifier": "all admissible data, boundary conditions, types, evaluation points and derivative orders", "why_tests_cant": "Tests evaluate a few splines at a few points; the coefficients used only for extrapolation and the third derivative are hardly ever exercised.", "anchors": ["src/utility/spline/spline.cpp:92-108", "src/utility/spline/spline.cpp:209-290", "src/utility/spline/spline.cpp:360-432"]}
{"id": "C92", "title": "Multi-step mode 0 reports what it traced", "statement": "Mode 0 traces one phase from each end of the temperature range and always finishes. 'no minima at the boundaries' is reported exactly when one of the two tracked phases consists of at most one temperature; otherwise 'no coverage' is reported exactly when the phase from below does not reach above the lower end of the phase from above; otherwise the verdict depends on whether the two minima checked at the ends of the common range are global ones. Success with two properly traced phases means that together they cover the whole temperature range.", "quantifier": "all tracked phases, all answers of the global minimiser", "why_tests_cant": "The tests run mode 0 on a few benchmark points; the statuses of failing trackings are not covered.", "anchors": ["src/minimum_tracer/minimum_tracer.cpp:1767-1904"]}
{"id": "C93", "title": "Multi-step mode 1 covers the temperature range", "statement": "Mode 1 closes the range between the low- and the high-temperature phase by tracing intermediate phases. When it finishes with any status other than 'no coverage', the traced phases cover every temperature of the range; it always finishes, does not throw and has defined behaviour.", "quantifier": "all tracked phases and intermediate phases, all answers of the global minimiser", "why_tests_cant": "A gap, an endless loop or an exception needs particular ends of the tracked phases.", "anchors": ["src/minimum_tracer/minimum_tracer.cpp:1906-2078"]}
{"id": "C94", "title": "Multi-step mode 2 covers the temperature range with global minima", "statement": "Mode 2 searches for global minima from both sides until the searched range is empty. When it finishes, the traced phases cover the temperature range; the range still to be searched shrinks from both sides; the search ends and only reads initialised values.", "quantifier": "all tracked phases and reported ends of the region in which they are the global minimum", "why_tests_cant": "The order of the search and an end that is never assigned are not visible in the final phases of the benchmark points.", "anchors": ["src/minimum_tracer/minimum_tracer.cpp:2080-2190", "src/minimum_tracer/minimum_tracer.cpp:360-480"]}
{"id": "C95", "title": "Tracing status and coexisting pairs of a finished vacuum", "statement": "When the vacuum object reports successful tracing, its phases cover the temperature range without gaps. No pairs of phases are reported after a failed tracing or if only tracing was asked for, and otherwise exactly the pairs of phases that exist at a common temperature. Mode 'auto' gives the result of mode 1 unless mode 1 misses the global minimum, and ends with that status only if mode 1 left a gap. Mode numbers other than -1 to 3 trace nothing and report failure.", "quantifier": "all modes, all tracked phases, all answers of the minimiser and of the comparison of phases", "why_tests_cant": "The constructor is run on a few benchmark points; the combination of mode, failing trackings and gaps is not explored.", "anchors": ["src/minimum_tracer/minimum_tracer.cpp:2268-2421", "src/minimum_tracer/minimum_tracer.cpp:2564-2690"]}
{"id": "C96", "title": "Coupling tensors encode the scalar potential of the model", "statement": "For SM, CxSM, R2HDM, C2HDM, N2HDM and CP in the Dark, for all values of the Lagrangian parameters and all field values, VTree evaluates to the textbook potential of the model written with doublets and singlets, and CounterTerm to the same potential with the counterterm parameters plus the linear tadpole terms. The tensors are totally symmetric, VTree and CounterTerm with diff = i+1 are the derivatives, the zero-temperature mass matrix and HessianCT the second derivatives of these potentials.", "quantifier": "all real parameters, counterterms and field vectors of six models", "why_tests_cant": "Hundreds of hand-written tensor entries; tests compare final numbers at single benchmark points and a wrong entry for a field without vacuum expectation value changes nothing there.", "anchors": ["src/models/ClassPotentialSM.cpp:160-190", "src/models/ClassPotentialSM.cpp:363-420", "src/models/ClassPotentialCxSM.cpp:279-330", "src/models/ClassPotentialCxSM.cpp:903-960", "src/models/ClassPotentialR2HDM.cpp:299-515", "src/models/ClassPotentialR2HDM.cpp:882-1090", "src/models/ClassPotentialC2HDM.cpp:300-640", "src/models/ClassPotentialC2HDM.cpp:2576-2790", "src/models/ClassPotentialN2HDM.cpp:263-425", "src/models/ClassPotentialN2HDM.cpp:1390-1600", "src/models/ClassPotentialCPintheDark.cpp:284-1000", "src/models/ClassPotentialCPintheDark.cpp:1461-2100"]}
{"id": "C97", "title": "Potentials are invariant under electroweak gauge transformations", "statement": "VTree of the six models takes the same value on two field vectors whose doublets are related by one unitary 2x2 matrix and whose singlets agree, and so does CounterTerm up to the tadpole terms.", "quantifier": "all parameters, all unitary matrices, all field vectors", "why_tests_cant": "Gauge invariance relates infinitely many field points; tests evaluate the potential on the few vacuum directions only.", "anchors": ["src/models/ClassPotentialSM.cpp:363-420", "src/models/ClassPotentialCxSM.cpp:903-960", "src/models/ClassPotentialR2HDM.cpp:882-1090", "src/models/ClassPotentialC2HDM.cpp:2576-2790", "src/models/ClassPotentialN2HDM.cpp:1390-1600", "src/models/ClassPotentialCPintheDark.cpp:1461-2100"]}
{"id": "C98", "title": "The stored vacuum is a stationary point with massless would-be Goldstone bosons", "statement": "For every input vector accepted by set_gen, the vector vevTreeMin it stores, embedded by MinimizeOrderVEV, is a stationary point of VTree for the couplings it stores; its doublet components have length v0; and the mass matrix of HiggsMassesSquared at T = 0 annihilates all directions generated by the electroweak gauge group.  In the Standard Model the remaining mass is the Higgs mass of the input.", "quantifier": "all input parameter vectors of SM, CxSM, R2HDM, C2HDM, N2HDM, CPintheDark with TanBeta different from 0", "why_tests_cant": "The conditions are polynomial identities in up to thirteen real inputs, and the branches on zero singlet vevs and on the sign of TanBeta are not exercised by the benchmark points.", "anchors": ["src/models/ClassPotentialSM.cpp:136-158", "src/models/ClassPotentialCxSM.cpp:203-273", "src/models/ClassPotentialR2HDM.cpp:215-297", "src/models/ClassPotentialC2HDM.cpp:218-298", "src/models/ClassPotentialN2HDM.cpp:221-261", "src/models/ClassPotentialCPintheDark.cpp:244-278"]}
{"id": "C99", "title": "The counterterms cancel the first and second derivatives of the one-loop potential", "statement": "For every function that is invariant under the electroweak gauge group (and under the discrete symmetry of the model) and twice differentiable at the vacuum stored by set_gen, calling calc_CT with its derivatives and passing the result to set_CT_Pot_Par gives a counterterm potential whose gradient (NablaVCT) and Hessian (HessianCT) at that vacuum are minus the gradient and Hessian of the function; so minimum and masses stay at their tree-level values.", "quantifier": "all invariant functions and all input points with non-zero doublet vevs, for SM, CxSM, R2HDM, C2HDM, N2HDM, CPintheDark", "why_tests_cant": "The statement is about 36 to 81 second derivatives as functions of arbitrary one-loop derivatives; tests compare the counterterms of a few benchmark points with stored numbers, so a wrong formula that vanishes there, or a cut-off, is not seen.", "anchors": ["src/models/ClassPotentialSM.cpp:229-269", "src/models/ClassPotentialCxSM.cpp:581-766", "src/models/ClassPotentialR2HDM.cpp:635-743", "src/models/ClassPotentialC2HDM.cpp:2287-2397", "src/models/ClassPotentialN2HDM.cpp:616-773", "src/models/ClassPotentialCPintheDark.cpp:1251-1315", "src/models/ClassPotentialOrigin.cpp:1640-1654"]}
{"id": "C100", "title": "The hand-written simplified potentials agree with the tensors on the vacuum fields", "statement": "For every parameter point and every value of the fields in which the model looks for vacua, the value returned by VTree (and CounterTerm) through the model's hand-written simplified potential is the value of the full contraction of the coupling tensors (counterterm tensors) at the same field configuration, also for the gradient requested with diff. For full field vectors with nonzero components outside the vacuum fields this fails: the simplified branch ignores those components while the derivative branch does not.", "quantifier": "all real parameter values and all field vectors of the vacuum directions, for SM, C2HDM and CPintheDark", "why_tests_cant": "A test compares numbers at sampled points with one tolerance; equality of two polynomials in all parameters and fields needs an algebraic proof.", "anchors": ["src/models/ClassPotentialOrigin.cpp:2826-2946", "src/models/ClassPotentialC2HDM.cpp:3132-3193", "src/models/ClassPotentialCPintheDark.cpp:2288-2362", "src/models/ClassPotentialSM.cpp:624-648"]}
{"id": "C101", "title": "A model object belongs to one parameter point after every sequence of calls", "statement": "After initModel, called with a parameter vector or with an input line on an object with any history, the stored parameters, the members, the coupling tensors, the physical couplings, the thermal masses and the counterterms all belong to the new point, as on a new object. After any sequence of initModel, resetScale and TripleHiggsCouplings calls, exceptions included, an object that stores a parameter point is consistent in this sense at its current scale, and no call meets uninitialised data once the object was initialised. set_All on an initialised object keeps the old coupling tensors, and in the C2HDM the triple Higgs couplings stay those of the first scale after resetScale.", "quantifier": "all parameter vectors, scales, lines and all finite sequences of calls on one object", "why_tests_cant": "Stale state shows only for particular orders of calls on a reused object; the tests build a new object per point.", "anchors": ["src/models/ClassPotentialOrigin.cpp:50-96", "src/models/ClassPotentialOrigin.cpp:3472-3479", "src/models/ClassPotentialOrigin.cpp:3751-3796", "src/models/ClassPotentialC2HDM.cpp:2399-2410"]}
{"id": "C102", "title": "The one-loop potential reports its own derivatives", "statement": "V1Loop(v, T, diff) is the derivative of V1Loop(v, T, 0): with respect to field diff for 1 <= diff <= NHiggs, with respect to the temperature for diff = -1, given that the mass routines report the derivatives of the squared masses and the thermal functions theirs. It holds for the first field and at zero temperature. For the other fields at T > 0 the thermal part is missing, and the temperature derivative, which the strength of a transition is computed from, lacks the change of the thermal masses; both errors are stated exactly. With the other resummation the gauge bosons get the constant of the scalars and the value of the potential stands in the place of its derivative.", "quantifier": "all spectra of any size with squared masses that are any differentiable functions, all temperatures, all fields, both resummation schemes", "why_tests_cant": "Tests compare single numbers with stored ones, so a wrong derivative formula is stored as reference; only a proof relates the two branches for all spectra.", "anchors": ["src/models/ClassPotentialOrigin.cpp:2991-3221", "src/models/ClassPotentialOrigin.cpp:112-168", "src/bounce_solution/bounce_solution.cpp:967-980"]}
{"id": "C103", "title": "VEff adds the loop corrections exactly when they are asked for", "statement": "VEff with a full field vector returns the tree-level potential for Order = 0 or with SetUseTreeLevel(true), and tree level plus counterterms plus one-loop part otherwise; a vector of any other size than NHiggs and nVEV raises a runtime_error; a vector of vacuum coordinates gives the same as the full vector it stands for. The last part fails for Order = 0: the call for vacuum coordinates returns the one-loop potential.", "quantifier": "all models, field vectors, temperatures, derivative indices and orders", "why_tests_cant": "The dropped argument has a default value, so every test that uses the default passes.", "anchors": ["src/models/ClassPotentialOrigin.cpp:2948-2989"]}
{"id": "C104", "title": "Every model takes each parameter from the column with its name and rejects lines that lack columns", "statement": "initModel(line) of the six models modelled here passes to set_gen a vector in which every parameter equals the number in the column whose header carries the name of that parameter (headers of the files in example/), whatever follows on the line and whether or not the file has an index column; the Yukawa type is converted to int. A line that does not start with enough numbers is rejected.", "quantifier": "All lines, models SM, CxSM, R2HDM, C2HDM, N2HDM, CPintheDark, with and without index column, any trailing content.", "why_tests_cant": "The unit tests read one valid point per model; a swapped pair of columns with similar values, or a truncated line, never appears there.", "anchors": ["src/models/ClassPotentialSM.cpp:112-134", "src/models/ClassPotentialCxSM.cpp:158-201", "src/models/ClassPotentialR2HDM.cpp:147-210", "src/models/ClassPotentialC2HDM.cpp:170-216", "src/models/ClassPotentialN2HDM.cpp:162-219", "src/models/ClassPotentialCPintheDark.cpp:178-239", "src/models/ClassPotentialOrigin.cpp:3534-3537"]}
{"id": "C105", "title": "The gauge boson mass matrix is the one of the covariant derivative and gives the W, Z and photon masses in the stored vacuum", "statement": "In each of the six bundled models the matrix that GaugeMassesSquared (without temperature) diagonalises equals, for all couplings and all field values, the matrix of the square of the covariant derivative of the doublets. With the couplings and vacuum expectation value of GetSMConstants and the vacuum that set_gen stores, its eigenvectors W1, W2, the Z combination and the photon combination have the eigenvalues MassW^2, MassW^2, MassZ^2 and 0. The CxSM takes the vacuum expectation value of the doublet from the input line instead and does not compare it with C_vev0, so there the masses are scaled by their ratio.", "quantifier": "all couplings, all field values, all input lines, all boson masses with 0 < MassW <= MassZ and all positive Fermi constants", "why_tests_cant": "The tables have hundreds of hand-written entries per model; a test compares the spectrum at one parameter point, where many entries multiply a zero field value.", "anchors": ["src/models/SMParam.cpp:5-62", "src/models/ClassPotentialOrigin.cpp (CalculateGaugeMassesSquared / GaugeMassesSquared)", "src/models/ClassPotential*.cpp (Curvature_Gauge_G2H2)", "src/models/ClassPotentialCxSM.cpp (set_gen)"]}
{"id": "C106", "title": "Fermion couplings follow from the Yukawa Lagrangian with a unitary mixing matrix and give the input masses in the stored vacuum", "statement": "GetSMConstants returns a unitary mixing matrix with the given Wolfenstein parameters. In each of the six bundled models QuarkMassMatrix and LeptonMassMatrix are, for all field values, the mass matrices of the gauge invariant Yukawa Lagrangian with that mixing matrix, where in the two-doublet models the Yukawa type selects the doublet for down-type quarks and leptons. In the vacuum stored by set_gen the squared masses are those of the input, for Yukawa types 1 to 4. Any other type is accepted without an error and multiplies the masses of down-type quarks and leptons by cos(beta)/sin(beta).", "quantifier": "all mixing parameters, all masses, all field values, all Yukawa types, all input lines with nonzero TanBeta", "why_tests_cant": "Each table has about a hundred complex entries; a test sees the masses in one vacuum, where only the neutral CP-even entries matter.", "anchors": ["src/models/SMParam.cpp:8-37", "src/models/ClassPotentialOrigin.cpp:3835-3849", "src/models/ClassPotentialOrigin.cpp:3909-3921", "src/models/ClassPotentialR2HDM.cpp:1209-1375", "src/models/ClassPotential*.cpp (Curvature_Quark_F2H1, Curvature_Lepton_F2H1)"]}
{"id": "C107", "title": "Thermal masses are the second derivatives of the T^2 part of the thermal potential, and gauge bosons get their screening masses", "statement": "For every parameter set and every pair of scalar fields, the entry of DebyeHiggs that CalculateDebye stores is the second derivative of 1/24 (Tr M_S^2 + 3 Tr M_G^2 + 3 Tr M_Q^2 + Tr M_L^2) made of the mass matrices the library itself uses. The entries of DebyeGauge are the electric screening masses of SU(2) and U(1) with the Standard Model fermions and the doublets of the model (11/6 g^2 for one, 2 g^2 for two).", "quantifier": "all six models, all parameters, all field values, all pairs of fields, all four Yukawa types; with and without forced calculation", "why_tests_cant": "Tests compare a few temperatures of a few benchmark points against stored numbers that contain the same formulas; a missing or wrong term of relative size 1e-4 is invisible there.", "anchors": ["src/models/ClassPotentialOrigin.cpp:CalculateDebye", "src/models/ClassPotentialOrigin.cpp:CalculateDebyeGauge", "src/models/ClassPotentialR2HDM.cpp:CalculateDebyeSimplified", "src/models/ClassPotentialC2HDM.cpp:CalculateDebyeSimplified", "src/models/ClassPotentialN2HDM.cpp:CalculateDebyeSimplified"]}
{"id": "C108", "title": "Wall profiles run from the broken to the symmetric phase and report their own derivatives", "statement": "Along the bubble wall every field value that the transport equations use (calculate_vev, and the profile inside top_func and tau_func) is a smooth function of the position that tends to the critical vev behind the wall and to the symmetric vev in front of it; calculate_vev_derivative and omegaprime are its derivative; calculate_theta with diff = 0, 1, 2 is a phase that runs from the broken to the symmetric value and its first and second derivative; the second implementation Calc_theta returns the same three numbers, or zeros where the phase stays below 1e-12. False in one point: the profile ends in zero also when the symmetric vev, which is found by a minimisation and stored, is not zero.", "quantifier": "all wall thicknesses > 0, all vectors of vevs, all boundary phases, all positions", "why_tests_cant": "Tests only compare the final asymmetry of one benchmark point, where the symmetric vev is zero.", "anchors": ["src/baryo_calculation/transport_equations.cpp:445-514", "src/baryo_calculation/Fluid_Type/gen_func_fluid.cpp:415-418", "src/baryo_calculation/Fluid_Type/gen_func_fluid.cpp:452-530"]}
{"id": "C109", "title": "The right hand side of the transport equations solves the continuity and force equations of the plasma", "statement": "The eight derivatives computed by transport_equations::operator() with plasma velocities are the one solution of the four continuity and four force equations for left-handed top and bottom, right-handed top and Higgs bosons, with the interaction rates, diffusion constants and the CP-violating source of the semiclassical formalism; the squared-mass derivative is the chain rule along the wall profile and get_W_mass returns the doubly degenerate gauge boson mass. Without plasma velocities the result is the derivative of the force equations with the continuity equations inserted. The last part fails: the derivative of the source lacks the terms with the third derivative of the phase and the second derivative of the squared mass.", "quantifier": "all temperatures, wall velocities, masses, phases, averages K with nonzero determinant, and all states of the eight fluid variables", "why_tests_cant": "The formulas are solved by hand for 8 unknowns and spread over 200 lines; a test would need an independent solver, and the stored numbers contain the same formulas.", "anchors": ["src/baryo_calculation/transport_equations.cpp:368-443", "src/baryo_calculation/transport_equations.cpp:516-801", "src/baryo_calculation/transport_equations.cpp:877-893"]}
{"id": "C110", "title": "The diffusion networks of the vev-insertion approach are networks of reactions", "statement": "For each of top_source, bot_source and tau_source, operator() should compute, from densities and their gradients, derivatives that solve vw n' - D n'' = (sum over Yukawa, relaxation, strong sphaleron reactions of stoichiometric coefficient times rate times affinity) + source, with one common list of reactions; baryon number, lepton number and the Higgs difference are only transported; the reactions lower the free energy; the three networks agree where the extra particles are massless and without reactions; the mass flags decide only about mass dependent terms; the returned left-handed density is the sum over the left-handed quarks and leptons of the network. Proved: conservation laws, accepted flags, the exact network each class implements, dissipation for a massless bottom quark. Refuted: dissipation with a massive bottom quark (sign of the Higgs densities in mu_Y_b), the strong sphaleron term of the right-handed top in top_source, agreement of the top-only network with the massless bottom case, the tau source for a massless bottom quark, and the total left-handed density (one light generation is left out).", "quantifier": "all rates, statistical factors, diffusion constants, densities and gradients, all mass flags", "why_tests_cant": "The right hand sides are only used inside an ODE solver that needs K functions, a model and a minimiser; conservation and dissipation are statements about all densities.", "anchors": ["src/baryo_calculation/Fluid_Type/top_source.cpp:28-120", "src/baryo_calculation/Fluid_Type/bot_source.cpp:30-190", "src/baryo_calculation/Fluid_Type/tau_source.cpp:30-254", "include/BSMPT/baryo_calculation/Fluid_Type/gen_func_fluid.h:465-470"]}
{"id": "C111", "title": "Relaxation rates, CP-violating sources and thermal masses follow from the propagators and the charges", "statement": "The integrand of Calc_Gam_M equals the imaginary part of the thermal propagator expression to first order in the thermal width, its mass-difference terms are the derivative with respect to the mass difference, and the returned value is the rate per colour times the number of colours up to the cut at 1e-20; the integrand of Calc_Scp equals the analogous source to first order in the width; nf', hf, hf' are the derivatives of the Fermi distribution; the rate is defined on the whole range of integration; thermal masses of top, bottom and tau follow from hypercharge, isospin and colour; the Yukawa couplings of set_class reproduce the quark and lepton masses; squared masses below the thresholds throw. Proved except: the source divides by k^4 where w^4 is needed, the tau is given three colours, below T = 14 the exponential overflows at large momenta and the program throws, and the thermal masses of the bottom (hypercharge of the top) and the tau (3/4 instead of 3/32) deviate; refuted with witnesses and exact deviations.", "quantifier": "all temperatures, masses, momenta, widths and couplings", "why_tests_cant": "The formulas are checked nowhere; a wrong power changes numbers by amounts that look plausible.", "anchors": ["src/baryo_calculation/Fluid_Type/gen_func_fluid.cpp:21-205", "src/baryo_calculation/Fluid_Type/gen_func_fluid.cpp:559-673"]}
{"id": "C112", "title": "The asymmetry of Calc_eta is the baryon density at the wall", "statement": "For a left-handed density nL that is continuous between the wall and zmax, the value returned by Nintegrate_eta(C_eta, 0, zmax) is the baryon density at the wall divided by the entropy density of the plasma, where the baryon density solves diffusion, washout and production by weak sphalerons with the constants of the code in front of the wall, decays beyond zmax and matches the region behind the wall. Proved when sphalerons also act behind the wall; refuted (with the exact factor) when the density is frozen there, as it is in the broken phase. The exponent is a root of the characteristic polynomial; the orientation of the integral relative to the documented arguments is computed; set_up_nL_grid gives n_step+1 equidistant positions with the density at each and throws for a class that does not fit the method; the spline takes its values at exactly these positions (refuted for decreasing grids, which set_class accepts and mirrors).", "quantifier": "all temperatures, wall velocities, densities, grids", "why_tests_cant": "The integral of a density along z is compared with the solution of a boundary value problem for all densities.", "anchors": ["src/baryo_calculation/Fluid_Type/gen_func_fluid.cpp:267-387", "src/baryo_calculation/Fluid_Type/gen_calc.cpp:21-78", "src/baryo_calculation/CalculateEtaInterface.cpp:258-303"]}
{"id": "C113", "title": "The asymmetry of the vev-insertion approach is odd under CP and its plasma moves with the wall", "statement": "Changing the sign of all CP-violating phases changes the sign of the left-handed density at every position and of the asymmetry, for each of the three networks, all masses, flags, step controls and explicit Runge-Kutta methods; phases below 1e-12 give no asymmetry at all; the integrand of the source is odd in the derivative of the phase. A density that is only transported can extend in front of a wall that moves towards the symmetric phase: refuted for the networks, whose free equation has no solution that vanishes for large positive positions, since the sign of the wall velocity is the one of a wall moving towards the broken phase (the profile has the broken phase at negative positions and Calc_eta uses the opposite sign).", "quantifier": "all masses, phases, rates, tableaus, step controls, numbers of steps", "why_tests_cant": "Exact oddness for every adaptive integration cannot be sampled; the sign of the velocity only shows up in the shape of the tail.", "anchors": ["src/baryo_calculation/Fluid_Type/top_source.cpp:28-120", "src/baryo_calculation/Fluid_Type/bot_source.cpp:30-191", "src/baryo_calculation/Fluid_Type/tau_source.cpp:30-255", "src/baryo_calculation/Fluid_Type/gen_func_fluid.cpp:472-518", "src/baryo_calculation/Fluid_Type/gen_calc.cpp:21-78"]}
{"id": "C114", "title": "K functions of the transport equations and their tables", "statement": "The integrands of K_integrand are the stated derivatives of the thermal distribution (with respect to momentum along the wall normal, squared mass or energy), even in each momentum component, and scale with a fixed power under a common rescaling of momenta, mass and temperature. Ktilde_normalization depends on m^2/T^2 up to a factor T^3, and the tabulated range covers the grid. Where the tables have nodes, the interpolated normalised functions equal K_functions. The array given to GSL is filled within bounds, completely and in GSL's order; exactly the function numbers above 10 end the program.", "quantifier": "for all momenta, masses, temperatures, statistics, function numbers, integration rules, splines and table sizes", "why_tests_cant": "K_integration is a Monte Carlo integral over a cube, tests compare a few interpolated values with numbers from the same code", "anchors": ["src/Kfactors/Kfactors.cpp:24-215", "src/Kfactors/KfactorsinterpolatedGSL.cpp:26-443", "src/prog/Kfactor_grid.cpp:32-200", "src/baryo_calculation/transport_equations.cpp:540-566"]}
{"id": "C115", "title": "Interface of the baryogenesis calculation", "statement": "ReadConfigFile accepts a file exactly if each line is a setting (Include or Massive followed by yes or no, in any case) or other text, and returns the Include settings in their order and whether some Massive setting says yes; otherwise it throws std::runtime_error. The constructor accepts exactly five settings. legend() and CalcEta() have one entry per chosen scheme in the same order. CalcEta gives results for every accepted configuration. A setNumerics that throws leaves the object unchanged.", "quantifier": "for all files, settings, walls, fluids, integrators and splines", "why_tests_cant": "tests construct the interface from one vector of flags with a massive bottom quark", "anchors": ["src/baryo_calculation/CalculateEtaInterface.cpp:27-314", "src/baryo_calculation/Fluid_Type/bot_source.cpp:51-130", "src/baryo_calculation/Fluid_Type/tau_source.cpp:57-103", "src/baryo_calculation/Fluid_Type/gen_calc.cpp:20-85"]}
{"id": "C116", "title": "Wall thickness from plane minimisation in threads", "statement": "calculate_wall_thickness_plane throws for vectors of different length, evaluates eleven equidistant points from the symmetric to the broken vacuum, and every point gets its value whatever the number of threads and their schedule. The result is vc/sqrt(8 Vb) with Vb the height of the barrier above the lower end, which for a quartic potential with degenerate minima is the thickness for which the tanh profile solves phi'' = V'(phi).", "quantifier": "for all vacua, numbers of threads and points, schedules, splines, minimisers and quartic potentials", "why_tests_cant": "the race between test and increment of the index depends on the schedule", "anchors": ["src/WallThickness/WallThicknessLib.cpp:34-145"]}
{"id": "C117", "title": "Wall thickness along the straight line", "statement": "calculate_wall_thickness_1D ends and returns vc/sqrt(8 Vb) with Vb the height of the highest point of the line between the vacua above the lower end.", "quantifier": "for all potentials, vacua, one-dimensional minimisers and starting points", "why_tests_cant": "depends on the number of maxima along the line and on a symmetric phase away from the origin", "anchors": ["src/WallThickness/WallThickness1D.cpp:39-200"]}
{"id": "C118", "title": "Vacua and phases used for the wall", "statement": "GSL_integration_mubl::init keeps a vacuum whose squared distance from the tree-level vacuum is at most the squared norm of the latter; otherwise it applies the first sign symmetry whose image is nearer than that, and keeps it if there is none. The choice is idempotent and leaves every function with these sign symmetries unchanged. It is not the nearest image, and the two ends of the wall are treated independently, so that their distance can change. The phase of the top, bottom and tau is that of the last, last but two and last eigenvalue, or of the entry before it if that is in the left half plane: for an opposite pair it lies in [-pi/2, pi/2] and is the phase of the mass up to its sign; it does not depend on the order of the pair unless the mass is imaginary; and between two masses on different sides of pi/2 the difference of the phases is wrong by pi. Lists that are too short are reported as out of range; phases below 1e-14 become 0; the symmetric phase is read a hundredth of the way to the broken vacuum.", "quantifier": "for all tree-level vacua, lists of sign symmetries, vacua and eigenvalues", "why_tests_cant": "Whether the ends of a wall are folded alike and whether a phase crosses pi/2 depends on the parameter point; no test calls init.", "anchors": ["src/baryo_calculation/transport_equations.cpp:154-347", "src/models/ClassPotentialOrigin.cpp:3853-3875"]}
{"id": "C119", "title": "Squared masses and their derivatives", "statement": "FirstDerivativeOfEigenvalues throws for a matrix that is not square and otherwise returns n eigenvalues followed by n derivatives. For a hermitian matrix depending differentiably on a parameter, an eigenvalue that differs from the others by more than 1e-6 is returned together with the derivative of its branch (numbers below 1e-6 as 0). Sums over the spectrum with weights that agree on eigenvalues within 1e-6 are right up to 1e-6 times the sum of the weights, degeneracies included, so the derivatives add up to the trace of the derivative matrix; for different eigenvalues within 1e-6 of each other the derivatives may be exchanged. GaugeMassesSquared, QuarkMassesSquared and LeptonMassesSquared return masses and their derivatives with respect to field diff, the first one for diff = -1 also with respect to the temperature. HiggsMassesSquared does not: it passes diff on to HiggsMassMatrix and diagonalises the derivative matrix; its masses for diff <> 0 do not depend on the mass parameters, for diff = -1 not even on the fields, and each returned derivative equals the number returned as mass. The temperature derivative of the one-loop potential therefore has the same Higgs part at every field point.", "quantifier": "for all solvers that diagonalise the matrices they are given, all dimensions, tensors, fields, temperatures and differentiable branches", "why_tests_cant": "No test compares VEff with diff = -1 or diff > 0 to a numerical derivative beyond tree level; degenerate and nearly degenerate spectra are not constructed.", "anchors": ["src/models/ClassPotentialOrigin.cpp:170-286", "src/models/ClassPotentialOrigin.cpp:2324-2824", "src/models/ClassPotentialOrigin.cpp:3153-3221", "src/bounce_solution/bounce_solution.cpp:960-980"]}
{"id": "C120", "title": "Four-point one-loop function", "statement": "fbaseFour, the loop function of the fourth derivatives of the Coleman-Weinberg potential, treats masses less than 1e-6 apart as equal and masses below 1e-6 as zero. It should be the third divided difference of x ln(x/scale^2), symmetric in its arguments, with the limits of that function for equal and for vanishing masses, and the difference quotient of fbaseTri. This holds for four positive masses in every pattern of equalities, for one vanishing mass if two others agree, and for two vanishing masses once the diverging logarithm is taken away. For one vanishing mass and three different ones the limit is negative but the function returns 0: the branches written for this case cannot be reached. For three vanishing masses the value differs from the difference quotient of fbaseTri. For masses closer than 1e-6 the result depends on their order.", "quantifier": "for all masses and scales; every pattern of equal and vanishing masses", "why_tests_cant": "A numerical test picks a few mass patterns; a Goldstone boson or photon with three different masses in the loop gives a finite, plausible-looking number.", "anchors": ["src/models/ClassPotentialOrigin.cpp:389-857", "src/models/ClassPotentialOrigin.cpp:288-387"]}
{"id": "C121", "title": "WeinbergFirstDerivative and WeinbergSecondDerivativeAsMatrixXd are the gradient and Hessian of the one-loop potential", "statement": "After CalculatePhysicalCouplings, WeinbergFirstDerivative returns the gradient of V1Loop at zero temperature with respect to the Higgs fields at the tree-level vev, and WeinbergSecondDerivativeAsMatrixXd the matrix of second derivatives, up to the cuts of small numbers at 1e-10. This holds for every theory (any numbers of scalars, gauge bosons, quarks and leptons, any curvature tensors, any diagonalising basis the solver picks, also with degenerate masses) whose squared masses are 0 or above 1e-4. Called before the couplings have been calculated, both report an error; a negative squared scalar mass gives NaN.", "quantifier": "all curvature tensors, field numbers, vevs, scales and eigenvector choices of the solver", "why_tests_cant": "The test suite compares numbers for a few parameter points of the shipped models; it cannot show that the sum over couplings is the derivative of the potential for every theory and every basis of degenerate eigenspaces, and the shipped neutral vacua all have real fermion eigenvectors.", "anchors": ["src/models/ClassPotentialOrigin.cpp:962-1401", "src/models/ClassPotentialOrigin.cpp:1403-1495", "src/models/ClassPotentialOrigin.cpp:1497-1639", "src/models/ClassPotentialOrigin.cpp:2948-3063"]}
{"id": "C122", "title": "The first step of the bounce follows the linearised equation of motion", "statement": "BounceActionInt::ExactSolutionLin(l0, l, dVdl, d2Vdl2) and ExactSolutionFromMinimum(l) replace the start of the bounce by the motion l'' + Alpha/rho l' = dVdl + (l - l0) d2Vdl2 that begins at rest in l0 (force TrueVacuumHessian (l - lmin) near the minimum). They return {rho, l, v}: the motion passes l within 1e-10 of rho and v is its speed at rho. For a negative curvature the target is moved towards l0 by powers of ten until the motion reaches it, which ends after at most 12 calls.", "quantifier": "all start points, slopes, curvatures and targets, Alpha = 2 and 3; the unique solution of the differential equation", "why_tests_cant": "The tests compare one bounce action with a reference value; they cannot say that the closed forms with sinh, sin and Bessel functions solve the differential equation for all parameters, nor find the parameters where they are not used.", "anchors": ["src/bounce_solution/action_calculation.cpp:232-514"]}
{"id": "C123", "title": "The Runge-Kutta step of the bounce equation has order five, with an embedded estimate of order four", "statement": "RK5_step computes one step of an explicit Runge-Kutta method whose coefficients satisfy all order conditions up to order 5, and yerr is the difference to a method with the same stages that satisfies all conditions up to order 4.  It is exact for slopes that are polynomials of degree 4 in rho and reproduces the exponential series of a linear system up to the fifth power of the step.  The step that IntegrateBounce appends is the step from rho to the next rho.", "quantifier": "for all right-hand sides, states, positions and steps", "why_tests_cant": "A wrong digit in one of 25 coefficients lowers the order but still gives numbers that look right; tests compare actions to a few percent.", "anchors": ["src/bounce_solution/action_calculation.cpp:153-230", "src/bounce_solution/action_calculation.cpp:672-697"]}
{"id": "C124", "title": "IntegrateBounce returns an increasing sequence of Runge-Kutta steps and the status that fits its last point", "statement": "Every integration ends; the points start with rho = 0 and the exact first step, rho strictly increases, every further point is one Runge-Kutta step from its predecessor, at least min(maxiter,5) and at most maxiter steps are made, and beyond the seventh point only while the speed exceeds error and l is below L(1+error).  Converged means that speed and distance from L are within error; Undershoot means that the speed fell to error elsewhere, and then the last point is dropped; Overshoot means that the end of the path was passed.  The second derivative returned for rho = 0 is that of the motion.", "quantifier": "for all potentials, dimensions, starts, tolerances and iteration limits", "why_tests_cant": "The branches depend on the trajectory; the branch marked 'this shouldnt happen' is not reached by the test potentials.", "anchors": ["src/bounce_solution/action_calculation.cpp:628-729"]}
{"id": "C125", "title": "The overshoot-undershoot search starts at a minimum with a fitting threshold and covers the whole allowed interval", "statement": "BackwardsPropagation stores in Initial_lmin a position before the first hundredth of the path that a step shorter than 1e-8 of the path led to, with positive curvature, and in ExactSolutionThreshold the distance from this minimum, out of 1001 distances up to one per cent of the path, at which the two analytic solutions agree best; the fraction of the path they cover is reduced while they disagree by more than one per cent.  If no such position is found Initial_lmin is -L/1000 and there is no threshold.  Solve1DBounce then searches up to the first of 1000 equidistant points at which the potential exceeds that of the false vacuum or falls along the path.", "quantifier": "for all potentials along the path, path lengths, analytic solutions and states of the object", "why_tests_cant": "The uninitialised member usually is 0, which is near the minimum; the shifted gradient and the unused retry change results by less than the tolerances of the tests.", "anchors": ["src/bounce_solution/action_calculation.cpp:536-571", "src/bounce_solution/action_calculation.cpp:730-779", "src/bounce_solution/action_calculation.cpp:795-838", "include/BSMPT/bounce_solution/action_calculation.h:54-94"]}
{"id": "C126", "title": "Deformation of the tunnelling path until the normal force vanishes", "statement": "For a path traversed with unit speed, the equations of motion of all fields hold along it if and only if the one-dimensional equation along the path holds and NormalForce vanishes; NormalForce is perpendicular to the path, and so is NormalForceBernstein. The matrix K is the Gram matrix of the Bernstein polynomials over [l.front(), l.back()]. PathDeformationCheck returns true exactly if at each of the 499 positions between the ends the force is smaller than 5 per cent of the gradient there. PathDeformation hands on a path that ends in the false vacuum, and PathDeformationConvergedWithout1D says that on this path the force is smaller than 5 per cent of the gradient at every knot. The step size stays between 1e-4 and 0.1 and the recorded error never grows.", "quantifier": "all dimensions, curves, potentials, friction constants, profiles, starting paths and smoothing, force and gradient functions; Bernstein degrees up to 14", "why_tests_cant": "tests run a few potentials with a known path and look only at the final action; they do not look at the force on the path that is handed on nor at knots where the gradient is small", "anchors": ["src/bounce_solution/action_calculation.cpp:124-151", "src/bounce_solution/action_calculation.cpp:1003-1090", "src/bounce_solution/action_calculation.cpp:1092-1456"]}
{"id": "C127", "title": "Flat directions of the potential are symmetries, and points are converted to representatives", "statement": "FindFlatDirections lists every pair and triple of fields under whose rotations the tree-level potential is invariant and every field it does not depend on, and nothing else. ConvertToNonFlatDirections does not change the potential nor the length of the point; afterwards the second field of each plane is zero and the first is not negative; points connected by a symmetry are converted to the same point, and converting again changes nothing.", "quantifier": "all numbers of fields, potentials and points", "why_tests_cant": "tests trace a few models, whose flat directions are exact rotations; they have no potential that is symmetric under exchange of fields only", "anchors": ["src/minimum_tracer/minimum_tracer.cpp:776-963", "src/minimum_tracer/minimum_tracer.cpp:1428-1438", "include/BSMPT/minimum_tracer/minimum_tracer.h:325"]}
{"id": "C128", "title": "The search for a stationary point returns a stationary point", "statement": "LocateMinimum(guess, df, Hessian, error, const_multiplier, maxiter) returns a point where the length of the gradient is at most error. It takes at most maxiter steps and stops at the first point with a small gradient. For a quadratic function whose curvature is at least lambda every step reduces the gradient by the factor 1e-3/(lambda+1e-3), and the result lies within error/lambda of the minimum.", "quantifier": "all dimensions, functions, guesses, errors and numbers of steps; any linear solver that solves", "why_tests_cant": "tests start close to a minimum of a few models; they do not start near a maximum with a curvature below the shift of the diagonal, nor run out of steps", "anchors": ["src/minimum_tracer/minimum_tracer.cpp:54-122", "include/BSMPT/minimum_tracer/minimum_tracer.h:287", "include/BSMPT/minimum_tracer/minimum_tracer.h:521-542"]}
{"id": "C129", "title": "Tunnelling starts from the closest copy of the true vacuum, and paths are carried over between temperatures", "statement": "CalculateOptimalDiscreteSymmetry chooses among the discrete symmetries of the potential the one that brings the true vacuum at the critical temperature closest to the false vacuum; the transformed vacuum has the same potential. WarpPath(path, T1, F1, T2, F2) carries a path from T1 to F1 into a path from T2 to F2: straight lines with their parameter go to straight lines, a path between unchanged vacua is not changed, and carrying back gives the path again.", "quantifier": "all numbers of fields, symmetries, vacua and paths", "why_tests_cant": "the tests have potentials whose phases are already in one sector, so that every choice of symmetry gives the same action; vacua with an equal component that separate at another temperature do not occur", "anchors": ["src/bounce_solution/bounce_solution.cpp:74-116", "src/minimum_tracer/minimum_tracer.cpp:734-757", "include/BSMPT/bounce_solution/bounce_solution.h:160-180"]}
{"id": "C130", "title": "One-dimensional grids and approximate equality", "statement": "Create1DimGrid between two points gives npoints + 1 evenly spaced points of the line, the ends included; along a field it gives nsteps + 1 points in which this field runs evenly from the low to the high value and the others keep their values, and throws for a field that does not exist. almost_the_same of two values is reflexive and symmetric and means a difference below rel_precision times the mean, or two values below num_zero. Of two vectors it throws if their sizes differ, and otherwise holds if all components are almost the same; a component of the opposite sign is accepted if and only if allow_for_sign_flip is set.", "quantifier": "all points, fields, limits, numbers of steps, precisions and vectors", "why_tests_cant": "no test calls the vector version with components of opposite sign, the grid with no steps, or a field out of range", "anchors": ["src/minimum_tracer/minimum_tracer.cpp:1380-1472", "include/BSMPT/minimum_tracer/minimum_tracer.h:554-599"]}
{"id": "C131", "title": "Decay rate, expansion rate and the fraction of the false vacuum", "statement": "HubbleRate(T) is the expansion rate of a universe filled with radiation (Friedmann equation with GetGstar() degrees of freedom and the reduced Planck mass), and CalcGstarPureRad counts the degrees of freedom of the model. TunnelingRate(T) is T^4 (S3/(2 pi T))^(3/2) exp(-S3/T) at temperatures covered by the solutions and 0 elsewhere; where the interpolated action is negative it does not lead to a decay. CalcFalseVacFraction is 1 at the critical temperature, lies between 0 and 1, does not grow while the universe cools and is smaller for faster walls; hence the completion temperature lies below the percolation temperature. CalculateInvTimeScale gives T d(S3/T)/dT, which is minus the logarithmic derivative of the rate up to that of the prefactor.", "quantifier": "all continuous actions, ranges of solutions, temperatures, wall velocities and numbers of fields", "why_tests_cant": "tests compare final temperatures of a few points with stored numbers, which contain the same count of degrees of freedom, and have no spline with a negative action", "anchors": ["src/bounce_solution/bounce_solution.cpp:564-601", "src/bounce_solution/bounce_solution.cpp:717-722", "src/bounce_solution/bounce_solution.cpp:852-928", "src/bounce_solution/bounce_solution.cpp:1050-1092", "include/BSMPT/models/SMparam.h:223-225"]}
{"id": "C132", "title": "Second derivatives of eigenvalues", "statement": "SecondDerivativeOfEigenvaluesNonRepeated(M, MDiffX, MDiffY, MDiffXY) returns the eigenvalues of M in increasing order, followed for each of them by the eigenvalue, its derivatives with respect to x and y and its mixed second derivative; this holds for every differentiable family of symmetric matrices with a differentiable normalised eigenvector whose eigenvalue is not repeated. A repeated eigenvalue is reported, and a matrix that is not square is an exception.", "quantifier": "all sizes, families of symmetric matrices, eigenvalues; any eigenvalue solver and any solver of linear systems that solves uniquely solvable systems", "why_tests_cant": "no test calls it; a numerical test would check a few matrices and no repeated eigenvalue", "anchors": ["src/models/ClassPotentialOrigin.cpp:886-960", "include/BSMPT/models/ClassPotentialOrigin.h:1120-1137"]}
{"id": "C133", "title": "The strength of the transition is the difference of the trace anomalies of the phases", "statement": "CalculatePTStrength sets alpha to the difference of (e - 3p)/4 between the false and the true phase over the energy density of the radiation, where the pressure p is minus the effective potential in a phase. The temperature derivative VEff(..., -1) at fixed fields that it uses is the derivative along the phase. At the critical temperature alpha is the latent heat over four times that density, with the equation of state of the bag model the difference of the vacuum energies. Below the critical temperature, if the false phase has at least the entropy of the true one, alpha is positive and the wall velocity of mode -1 lies between 0 and 1. psi of mode -2 is the ratio of the enthalpies.", "quantifier": "for all numbers of fields, differentiable potentials, phases, temperatures and degrees of freedom", "why_tests_cant": "tests compare alpha at a few points with stored numbers that the same formula produced", "anchors": ["src/bounce_solution/bounce_solution.cpp:934-990", "src/bounce_solution/bounce_solution.cpp:992-1052"]}
{"id": "C134", "title": "Triple Higgs couplings of the mass basis", "statement": "TripleHiggsCouplings returns, for three named scalars, the third derivative of the potential along the three directions of the fields that belong to these names: the sum over the rotation of the sorted matrix is the third directional derivative of the polynomial potential at the vacuum, for every matrix, and does not depend on the order of the three scalars. The sorted matrix uses every row of the diagonalisation once, each under a name of its sector (G+, G-, H+, H-, G0, A, h, H and so on), with the Goldstone bosons among the first three rows and the neutral scalars in ascending mass; in the N2HDM the scalar between 124 and 126 GeV has the first name whatever point was calculated before. The output of TripleHiggsNLO has one column for each part and each i <= j <= k, in the order of the legend.", "quantifier": "all numbers of fields, all symmetric tensors, all vacua and rotations; all rotations whose rows are not mixed between sectors and all arrangements of the sectors; all masses; all legends", "why_tests_cant": "The tests compare the couplings of single benchmark points with reference values; they do not show that the names fit for every arrangement of the rows, nor what happens for equal masses or for a point that follows another one.", "anchors": ["src/models/ClassPotentialR2HDM.cpp:773-880", "src/models/ClassPotentialC2HDM.cpp:2423-2570", "src/models/ClassPotentialN2HDM.cpp:797-945", "src/models/ClassPotentialCxSM.cpp:775-880", "src/models/ClassPotentialCPintheDark.cpp:1313-1450", "src/models/ClassPotentialOrigin.cpp:61-78", "src/models/ClassPotentialOrigin.cpp:1076-1091", "src/prog/TripleHiggsNLO.cpp:88-139"]}
{"id": "C135", "title": "Arguments where a spline takes a value", "statement": "spline::solve(y) returns all arguments at which the spline has the value y, ascending and each once. For each piece the roots of the cubic polynomial are all real roots, ascending and each once, for the degrees one to three. With ignore_extrapolation = false the arguments left and right of the points are added. No argument is returned at which the spline has another value.", "quantifier": "all splines with ascending points, all values, all coefficients of the polynomials, any number of Newton steps, both settings of ignore_extrapolation", "why_tests_cant": "A test inverts a spline at a few values; it does not reach the value at the last point, two nearly equal roots, or a root of one piece that lies just outside of it.", "anchors": ["src/utility/spline/spline.cpp:434-492", "src/utility/spline/spline.cpp:659-864", "include/BSMPT/utility/spline/spline.h:1-200"]}
{"id": "C136", "title": "The checks of an implemented model find what they name", "statement": "Test and CheckImplementation say \"You're good to go!\" only for a model that meets the checks: the scalar, gauge and fermion tensors have equal dimensions and are symmetric under permutations of like indices; the numbers of labels fit; gauge boson, lepton and quark masses in the vacuum are those of SMparam.h; the given vacuum is the minimum and the tadpoles vanish; one-loop masses equal tree-level masses; the simplified potentials equal the tensors; the counterterms cancel the derivatives. The program checks the point of the requested line and its exit status tells whether the checks passed.", "quantifier": "all tensors of any dimensions (also ragged), all lists of masses, derivatives and values of potentials including NaN, all points, all input files and line numbers", "why_tests_cant": "The functions are themselves the tests of the project; nothing tests them against wrong models, missing masses, NaN or other signs.", "anchors": ["src/models/ModelTestfunctions.cpp:1-1049", "src/models/ClassPotentialOrigin.cpp:3544-3707", "src/prog/Test.cpp:51-119"]}
{"id": "C137", "title": "The table of the potential covers the grid that was asked for", "statement": "For a model with n field directions (1 <= n <= 6), PotPlotter writes one row for each combination of the values of the directions, in lexicographic order, each combination once: the values of a scanned direction go from its lower to its upper bound in equal steps and have the requested number, the other directions stay at the reference point. Each row holds the point, the reference point, both potentials and the temperature. The slice mode divides the segment between two points into equal parts. Bounds are those given on the command line; the parameters are those of the requested line of the input file, and a line that is not there is reported.", "quantifier": "all potentials, all reference points, all numbers of steps, all integer bounds, all input texts and line numbers", "why_tests_cant": "the six levels of nested loops run for every start direction but only one of them writes; tests would have to enumerate dimensions, steps and bounds, and the default marker -1 of the bounds is only hit by chance", "anchors": ["src/prog/PotPlotter.cpp:85-160", "src/prog/PotPlotter.cpp:186-345", "src/prog/PotPlotter.cpp:374-425", "src/prog/PotPlotter.cpp:503-607", "src/minimum_tracer/minimum_tracer.cpp:1380-1426", "include/BSMPT/utility/parser.h:114-117"]}
{"id": "C138", "title": "Scans over temperature and wall velocity visit the requested values and end", "statement": "VEVEVO writes one row for each temperature Start, Start + Step, ... up to and including End and then stops; each row holds the minimum found at its temperature, the search of which starts at the previous minimum (at the tree-level minimum for the first). PlotEWBG_vw visits the velocities from vw_min to vw_max in positive steps inside (0, 1] and then stops; steps that are not positive are refused. All lines of the output of PlotEWBG_vw and PlotEWBG_nL have the columns of the header.", "quantifier": "all start, end and step values, all minimizers and potentials, all input lines and legends", "why_tests_cant": "the loops add the step to a double: whether the end is visited or the loop ends at all depends on the rounding of every addition; the failure branch needs a point without a strong transition", "anchors": ["src/prog/VEVEVO.cpp:118-147", "src/prog/VEVEVO.cpp:184-197", "src/prog/PlotEWBG_vw.cpp:94-99", "src/prog/PlotEWBG_vw.cpp:154-173", "src/prog/PlotEWBG_vw.cpp:265-278", "src/prog/PlotEWBG_nL.cpp:98-103", "src/prog/PlotEWBG_nL.cpp:207-210"]}
{"id": "C139", "title": "Numbers in the tables of the programs stand under their labels", "statement": "In the tables of BSMPT, CalculateEWBG, CalcCT and NLOVEV each number stands in the column whose header names it (in BSMPT the status code replaces the ratio of the critical vev and temperature if there is no strong transition; in CalculateEWBG fixed numbers replace what was not computed). There is a row for each line of the input from FirstLine (at least 2) to LastLine and no other. The summary that CalculateEWBG prints for a single point does not fail.", "quantifier": "all input lines, numbers of counterterms, vevs and transport methods, all results of the search for the transition, all files and line ranges", "why_tests_cant": "the order of the columns is only visible for points of a certain kind (no strong transition), and the tests of the repository do not run the programs", "anchors": ["src/prog/BSMPT.cpp:93-224", "src/prog/CalculateEWBG.cpp:95-240", "src/prog/CalcCT.cpp:80-102", "src/prog/NLOVEV.cpp:83-134", "include/BSMPT/minimizer/Minimizer.h:116-125"]}
{"id": "C140", "title": "Tables of traced minima", "statement": "MinimaTracer writes for the k-th requested line of the input a file PREFIX_k.tsv whose legend names the columns of the input, the counterterms, the three statuses, for every phase temperature, vevs and potential, and the run time. The file has as many rows as the longest phase has minima (one row if there is no phase), row i holds in every column what the legend names for the i-th minimum of the phase, and nan for phases with fewer minima. No file name is used twice, and only parameter points are traced, not the legend.", "quantifier": "for all models (labels, dimensions), all input files, all line numbers and all results of the tracing", "why_tests_cant": "the unit tests do not run the programs; tables with several phases of different lengths arise only from particular parameter points", "anchors": ["src/prog/MinimaTracer.cpp:59-265", "src/prog/MinimaTracer.cpp:316-331", "include/BSMPT/utility/utility.h:96-112"]}
{"id": "C141", "title": "Searches by the minimisation libraries", "statement": "The box in which NLopt searches for the global minimum contains the tree-level minimum with all signs of the fields, the origin from which it starts, and all fields up to 300 GeV; on a plane it is the box without the eliminated field. A successful result is a point of the box together with its potential and has one of the three success codes; without success there is no minimum. The simplex search of GSL succeeds exactly if one of its first 600 steps is small enough and none before fails, and gives the point of that step. FindNextLocalMinima returns the minimum of the first successful one of at most 600 GSL searches and that of NLopt if successful.", "quantifier": "for all tree-level minima, potentials, planes and all behaviours of the libraries", "why_tests_cant": "the unit tests use parameter points with positive vevs, and cannot make the libraries fail at chosen steps", "anchors": ["src/minimizer/LibNLOPT/MinimizeNLOPT.cpp:31-163", "src/minimizer/MinimizeGSL.cpp:61-121", "src/minimizer/Minimizer.cpp:446-487"]}
{"id": "C142", "title": "WeinbergThirdDerivative and WeinbergForthDerivative are the third and fourth derivatives of the one-loop potential", "statement": "Once the physical couplings have been calculated, WeinbergThirdDerivative and WeinbergForthDerivative return N^3 and N^4 numbers whenever no squared mass is negative, and never numbers if one is; before, they report an error. The tensors are symmetric in all their indices. Contracted with a direction in field space they give the third and fourth derivative of the one-loop potential at zero temperature along that direction, up to the cut at 1e-10 of each entry.", "quantifier": "for all numbers of fields, couplings, squared masses, rotations, scales and directions", "why_tests_cant": "the unit tests compare with the same formulas at a few points; a wrong combinatorial factor, a wrong pairing of indices or a loop function used outside its range shows up as a small change of couplings that no test compares with a derivative", "anchors": ["src/models/ClassPotentialOrigin.cpp:1656-1902", "src/models/ClassPotentialOrigin.cpp:1903-2322", "src/models/ClassPotentialOrigin.cpp:288-387", "src/models/ClassPotentialOrigin.cpp:389-857"]}
{"id": "C143", "title": "The diagram of the phases shows where each phase exists", "statement": "PrintPhasesDiagram divides the range of temperatures into the given number of cells and writes for each phase a bar with one character per cell, a dot exactly in the cells which the phase reaches into. The phase is plotted at equally spaced temperatures from its lower to its upper end, with a visible marker; neighbouring phases have different markers.", "quantifier": "for all sizes of the diagram, all ranges of temperatures, all phases and numbers of phases", "why_tests_cant": "the diagram is only written at a logging level that no test enables, and no test looks at it", "anchors": ["src/minimum_tracer/minimum_tracer.cpp:2192-2266", "src/minimum_tracer/minimum_tracer.cpp:2409"]}
{"id": "C144", "title": "Integrate_mubl_interpolated is the baryon asymmetry that the sphalerons leave at the wall", "statement": "For a left-handed chemical potential mu_BL in front of the wall, Integrate_mubl_interpolated is the value at the wall of the density that obeys the equation of production and washout by weak sphalerons and vanishes at zmax, up to the constant of the source times zmax times the largest error of the interpolation. Integrate_mubl times that constant is the same density without an interpolation. The spline is given mu_BL at nstep + 1 equidistant points from the wall to zmax, together with the left end and the step that belong to them.", "quantifier": "for all chemical potentials that are continuous in front of the wall, all splines, wall velocities, temperatures and zmax", "why_tests_cant": "the unit tests compare eta with stored numbers of the program itself at a few points; a wrong damping, factor or step would be stored with them", "anchors": ["src/baryo_calculation/transport_equations.cpp:901-1000", "include/BSMPT/baryo_calculation/transport_equations.h:452-490"]}
{"id": "C145", "title": "Signal-to-noise ratio of gravitational waves", "statement": "For a transition whose peak data have been set, GetSNR(fmin, fmax, T) returns a number rho >= 0 with rho^2 = (seconds in T years) * integral over [fmin, fmax] of (h2Omega(f) / h2Omega_sens(f))^2, where h2Omega is the spectrum returned by CalcGWAmplitude for the sources switched on and h2Omega_sens is the published sensitivity of LISA. The ratios of the two sources and of both together satisfy SNR_sw^2 + SNR_turb^2 <= SNR^2 and SNR <= SNR_sw + SNR_turb. The ratio grows like the square root of the observation time, and the squares over adjacent frequency bands add up.", "quantifier": "all transitions with positive temperature, length scale, degrees of freedom, Hubble rate and sound-wave fraction, turbulence fraction zero or positive; all choices of sources; all bands 0 < fmin <= fmax; all T >= 0", "why_tests_cant": "The integral runs over seven decades in frequency and depends on ten real parameters; a test compares a handful of ratios to stored numbers and cannot see a broken relation between the three reported ratios.", "anchors": ["src/gravitational_waves/gw.cpp:148-221", "src/transition_tracer/transition_tracer.cpp:293-316"]}
{"id": "C146", "title": "Fermion masses along the wall and the derivatives of their squares", "statement": "For a query of the model that lists the squared masses of the fermions in ascending order followed by their derivatives with respect to one field, top_func(z) returns as m_quark the square roots of the largest squared mass (top) and of the third from the end (bottom) at the fields v_i/(1+exp(2z/LW)), and as m_quark_prime the derivatives along z of the squares of these two masses; tau_func does so for the heaviest lepton. If the squared mass is quadratic in the fields, the mass of the tau at z is its mass in the broken phase divided by 1+exp(2z/LW).", "quantifier": "all wall thicknesses other than zero, all critical vacuum expectation values, all positions z, all numbers of fermions (at least three quarks, one lepton), all mass functions differentiable along the wall", "why_tests_cant": "The relation between a value and a derivative holds at every z for every model; a test evaluates the rates at a few positions of one parameter point and the derivative enters only through the source terms.", "anchors": ["src/baryo_calculation/Fluid_Type/gen_func_fluid.cpp:402-461", "src/baryo_calculation/Fluid_Type/gen_func_fluid.cpp:520-555"]}
{"id": "C147", "title": "Statistical factor of the transport equations", "statement": "NIntegrate_kappa for mass m and temperature T returns 6/pi^2 times the integral of x sqrt(x^2-(m/T)^2) e^x/(e^x+1)^2 from m/T+1e-5 to 300. It is never negative, positive exactly if m/T+1e-5 < 300, strictly decreasing in the mass where it is positive, and at most 6/pi^2 ((m/T)^2+2 m/T+2) exp(-m/T).", "quantifier": "all temperatures T > 0 and masses m >= 0", "why_tests_cant": "Monotonicity and the exponential bound are statements about all pairs of masses and all temperatures; the factor divides chemical potentials, so a zero or a negative value would appear only for unusual points.", "anchors": ["src/baryo_calculation/Fluid_Type/gen_func_fluid.cpp:230-265"]}
{"id": "C148", "title": "Points of all fields and vacuum expectation values convert into each other", "statement": "ConvertToVEVDim applied to MinimizeOrderVEV(v) returns v, so that ConvertToVEVDim(GetGlobalMinimum(T)) is what the minimiser found. Conversely MinimizeOrderVEV(ConvertToVEVDim(p)) is p exactly if every field without a vacuum expectation value vanishes at p. A point with fewer fields than the table refers to is reported by std::out_of_range.", "quantifier": "all tables VevOrder that are increasing and within the number of fields (for the converse: that contain the last field), all vectors of matching length", "why_tests_cant": "Both directions are statements about all tables and all vectors; tests use one model and points that come from the minimiser.", "anchors": ["src/minimum_tracer/minimum_tracer.cpp:1053-1094", "src/models/ClassPotentialOrigin.cpp:3966-3983"]}
{"id": "C149", "title": "A traced minimum is recognised as the global one", "statement": "IsGlobMin reports a minimum as global exactly if, after applying the discrete symmetries and the flat directions, it lies closer than 1 GeV to what the minimiser finds from it. Hence an equivalent point is always confirmed, and two confirmed minima agree within 2 GeV in every reduced coordinate. Every minimum that is not above the minimum found should be confirmed.", "quantifier": "all reductions, all results of the minimiser, all increasing tables VevOrder that contain the last field, all points and temperatures", "why_tests_cant": "The verdict depends on a stochastic minimiser; tests see it only where the minimiser succeeds.", "anchors": ["src/minimum_tracer/minimum_tracer.cpp:1066-1127"]}
