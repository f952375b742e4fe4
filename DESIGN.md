# Formal model of BSMPT in Coq: design

Source modelled: `/repo` (phbasler/BSMPT, pinned commit), read as text only.
Nothing in `/repo` was built or executed.

## 1. Layout

```
properties.jsonl          the English properties (C01 ...)
MANIFEST.json             property -> theorem names and status
seeded/LOG.jsonl          mutation experiments on the model
rocq/theories/Model/*.v   executable model of the code; each definition cites file:lines
rocq/theories/Spec/*.v    small independent specifications (no model helper is used to state a property
                          when the property can be said without it)
rocq/theories/Proofs/*.v  lemmas
rocq/theories/Props/*.v   property theorems (closed by `exact`), an Example per theorem showing that the
                          hypotheses are met by a concrete non-trivial case, and `Print Assumptions`
```

## 2. How C++ is modelled

* **Strings** are `list ascii`.  **Vectors** are lists.  `std::map`/`unordered_map` are association lists with
  explicit first-wins / overwrite semantics as in the code.
* **Finite doubles that are only compared** (temperatures in tables, completion temperatures) are `Z`: each
  finite IEEE double is an integer multiple of 2^-1074, and that embedding preserves order and equality, so for
  comparison-only code this is exact.  Where the code adds or subtracts, the `Z`/`Q`/`R` model ignores rounding;
  this is said at the definition.
* **NaN** is an explicit constructor wherever the code can meet it and the property depends on it.
* **Floating point formulas** are modelled over Coq's `R` (no rounding, no overflow).  A theorem over `R`
  is a statement about the formula the code writes down, not about its rounding error.
* **Undefined behaviour** (out-of-range `operator[]`, dereferencing an end iterator, popping an empty queue),
  **exceptions** and **non-termination** are separate outcomes in the model, never a default value.  A loop that
  need not terminate gets explicit fuel and an `OutOfFuel` outcome; "does not terminate" is proved as "for every
  fuel the outcome is OutOfFuel".
* **External numerics** (GSL, NLopt, libcmaes, Eigen, the effective potential itself) are Section variables
  (oracles): universally quantified functions or outcome streams, so a theorem holds for every behaviour of them.
* **Threads**: a step relation over an explicit shared state; a schedule is an arbitrary list of thread ids, and
  theorems quantify over all schedules.

## 3. Properties that turn out false

The unchanged code violates some of the properties.  In that case the full property is kept in
`properties.jsonl`, a theorem `..._refuted : exists ..., ...` gives the witness in the faithful model, and a
`..._partial` theorem gives the strongest positive statement proved.  Such properties have status "partial" in
`MANIFEST.json`, with a note that starts with "refuted".  Section 6 lists them as findings.

## 4. Per property: what is modelled and how it is proved

"Model" and "Props" are file names below `rocq/theories`.

| Id | Title | Status | Model | Props | Proof method | Note |
|----|-------|--------|-------|-------|--------------|------|
| C01 | Command line: last supplied value wins, names are case-insensitive | proved | Logger, Models, Options, Parser, Strings | ParserProps | refinement to an abstract history (last assignment wins), induction over histories and strings | holds for histories in which no name is declared both required and optional; C01_redeclaration_refuted shows that proviso is needed (optional value shadowed by a later required declaration). The key 'help' never stores a value. |
| C02 | Command line: an unknown option is reported and nothing after it is applied | proved | Logger, Models, Options, Parser, Strings | ParserProps | refinement to an abstract history (last assignment wins), induction over histories and strings | also shows the logger is not reconfigured when an option is rejected |
| C03 | Command line: required-parameter check is exact | proved | Logger, Models, Options, Parser, Strings | ParserProps | refinement to an abstract history (last assignment wins), induction over histories and strings | a required argument named 'help' could never be satisfied, which the statement makes explicit |
| C04 | Command line: --key=value is split losslessly | proved | Logger, Models, Options, Parser, Strings | ParserProps | refinement to an abstract history (last assignment wins), induction over histories and strings | includes the exact failure set: all-dash arguments escape as std::out_of_range |
| C05 | Logger prints exactly the enabled levels | proved | Logger, Parser, Strings | LoggerProps | refinement to a last-write function, case analysis, witness by computation | output text redirection not modelled |
| C06 | Logging options given on the command line are all honoured | partial | Logger, Parser, Strings | LoggerProps | refinement to a last-write function, case analysis, witness by computation | refuted: --logginglevel::bouncedetailed=false is overridden by complete=true; the partial theorem shows it is the only option not honoured |
| C07 | Configuring the logger from raw arguments is safe | partial | Logger, Parser, Strings | LoggerProps | refinement to a last-write function, case analysis, witness by computation | refuted: an unrecognised argument dereferences the end iterator (Logger.cpp 108); the partial theorem is an exact characterisation of the safe inputs; the effect of understood arguments is proved |
| C08 | Model names round-trip and are case-insensitive | proved | Models, Strings | ModelsProps | case analysis on the table, permutation invariance of look-up | for every iteration order of the unordered_map |
| C09 | String helpers: split and prefix/suffix tests meet their specification | proved | Models, Strings | ModelsProps | induction on strings |  |
| C10 | Vector and matrix helpers are linear algebra | partial | Vectors | VectorsProps | induction on lists, index reasoning | refuted in part: a matrix times vector product works for square matrices only; C10_matrix_vector_refuted proves that every non-square matrix with at least one row makes it throw. All other parts are proved. |
| C11 | Numerical gradient and Hessian are exact on low-degree polynomials and the Hessian is symmetric | proved | NumDeriv | NumDerivProps | polynomial algebra over R, Coquelicot limits | over the reals; also proves that the gradient tends to the derivative for every differentiable function |
| C12 | A traced phase is always a sorted temperature table | proved | Phase | PhaseProps | invariant over all histories of operations, list combinatorics | for phases built by the Phase constructors used in the code; a default-constructed Phase filled with Add does not maintain its range (C12_default_constructed_refuted) |
| C13 | Phase tracing stays inside the requested temperature range | partial | Track | TrackProps | loop invariants with an oracle per iteration, explicit fuel, refutation by a concrete oracle | refuted: a failed step after the truncated last step goes back a full step, so minima before initialT can be recorded; proved: never beyond finalT, at most one step before initialT, and the full claim if the minimiser succeeds at finalT |
| C14 | Phase tracing terminates | partial | Track | TrackProps | loop invariants with an oracle per iteration, explicit fuel, refutation by a concrete oracle | refuted: the loop alternates for ever if the minimiser fails exactly at finalT; proved to return whenever it succeeds there |
| C15 | Every coexisting pair of phases is examined exactly once | proved | Phase | PhaseProps | invariant over all histories of operations, list combinatorics |  |
| C16 | Critical temperature is bracketed or classified correctly | partial | Tc, Track | TcProps | bracketing invariant of the bisection, halving of the width | status meaning fully proved; termination refuted for phases touching at one temperature (zero step in the plotting loop) and proved for proper intervals |
| C17 | Registering phases never loses or duplicates a phase | partial | Phase | PhaseProps | invariant over all histories of operations, list combinatorics | registration invariants and final ids proved; refuted for the list left by setCoexRegion after patching a gap (patched phase keeps id 0) |
| C18 | Multi-step tracing terminates and covers the range | partial | MultiStep, Phase | MultiStepProps | invariants of the phase list under arbitrary oracles; refutations by computation or induction on fuel | refuted: endless recursion if a traced phase has a single minimum, and gaps where two-minimum phases are discarded; proved: termination when tracking stays in range and makes progress, coverage up to 1 GeV when phases have three minima |
| C19 | Overlap test between phases is safe | partial | Modes, MultiStep, Phase | ModesProps, PhaseProps | invariants of the phase list under arbitrary oracles; refutations by computation or induction on fuel | refuted: undefined behaviour exactly when the new phase lies strictly inside the old one (exact characterisation proved); the value in all other cases is proved |
| C20 | Vacuum expectation values are reduced within their symmetry orbit | partial | Signs | SignsProps | orbit of a group action; enumeration by sorted subsets | orbit membership, invariance of the potential and monotone measure proved for every group; canonical representative refuted for a four-element group and proved for independent flips |
| C21 | The reported transition history is the earliest-completion chain | partial | History, Phase | HistoryProps | termination measure on remaining pairs, chain specification | chain, termination and unambiguous printing proved; refuted: completion temperatures along the chain need not decrease, and duplicate phase ids (after gap patching) loop for ever |
| C22 | Every status/result column exists for every transition pair | proved | History, Report, Tracer | ReportProps | state machine over stage outcomes; counts of separators by list induction | Status vectors are modelled as separately pushed lists; numerics are oracles. Column counts are counts of tab characters in the model's output strings. |
| C23 | Output tables are rectangular | proved | History, Report, Tracer | ReportProps | state machine over stage outcomes; counts of separators by list induction | For input tables whose lines have no more columns than the header; the model prints the rows as strings. Formatting of doubles is an oracle without tab characters. |
| C24 | Only the requested input lines are processed | proved | History, Report, Tracer | ReportProps | state machine over stage outcomes; counts of separators by list induction | getline and the line counter are modelled on the file content; int overflow of the line counter is not modelled. |
| C25 | User-supplied probabilities for percolation and completion are used | partial | History, Report, Tracer | ReportProps | state machine over stage outcomes; counts of separators by list induction | refuted: the percolation and completion searches are called without arguments, so the requested fractions are ignored; holds for the defaults 0.71 and 0.01. |
| C26 | Reported wall velocity is the one used | partial | History, Report, Tracer | ReportProps | state machine over stage outcomes; counts of separators by list induction | refuted: the velocity is recorded before the strength is computed, the report is always 0.95; holds when 0.95 is requested. The velocity used is characterised in C26_used_velocity. |
| C27 | Bounce solutions are kept sorted without duplicates | proved | BounceScan, Tracer | BounceScanProps | invariant over all histories of operations, list combinatorics | the bounce solver and the comparison of the two potentials are arbitrary; temperatures are exact rationals and the lower end of the region is non-negative |
| C28 | Nucleation temperature search is a correct bisection | proved | BounceScan, Tracer | BounceScanProps | bracketing invariant of the bisection, halving of the width | one theorem covers both searches (threshold 1 and 140); completeness needs the highest temperature to be at most 1e5 times the lowest, because of the fixed number of 50 bisections |
| C29 | Percolation/completion status is consistent with the temperature | partial | BounceScan, Tracer | BounceScanProps | bracketing invariant of the bisection, halving of the width | refuted: C29_success_without_temperature_refuted has status success with temperature -1, C29_exact_midpoint_refuted a crossing that is not found. Proved: the search terminates, returns -1 or a genuine solution, and the status is decided by the first of the two searches. Theorem for percolation; completion has the same structure. |
| C30 | Wall velocity estimates are physical | partial | GW | GWProps | real inequalities, monotonicity through derivatives | refuted for mode -2: the enthalpy-ratio estimate exceeds 1 for alpha=1e-6, psi=0.99; proved for mode -1 and the Chapman-Jouguet velocity for every alpha >= 0, and for mode -2 when 3 alpha >= 1 - psi |
| C31 | Gravitational-wave spectrum peaks where reported | proved | GW | GWProps | real inequalities, monotonicity through derivatives | real arithmetic |
| C32 | Evaluating the spectrum does not depend on evaluation history | partial | GW | GWProps | state machine with lazy fields | refuted for fresh objects: the lazy initialisation sets only one of amplitude/frequency per call, the first evaluation is NaN; proved for objects whose peaks were set as TransitionTracer does |
| C33 | Turbulence spectrum has the documented f^3/(1+f/fp)^(11/3) shape | partial | GW | GWProps | real inequalities, monotonicity through derivatives | refuted: 11/3 is an integer division, the exponent is 3; the computed value is strictly larger than documented at every positive frequency |
| C34 | Efficiency factor is continuous in the wall velocity | proved | GW | GWProps | real inequalities, monotonicity through derivatives | for alpha >= 1e-20 with the code's sound speed constant, and for every sound speed below the Jouguet velocity |
| C35 | Low-temperature/high-temperature expansions return matching derivatives | partial | Thermal | ThermalProps | differentiation of closed forms (Coquelicot), numeric bounds proved by series estimates | refuted for the large-argument expansion: the exponent (1-l)/2 on line 300 is an integer division, so the derivative reported above the thresholds is wrong (witness x=16 for both functions); proved: small-argument expansions for all x>0, all orders and coefficients, right derivatives at 0, interpolated functions below their thresholds, and the exact condition under which the large-argument derivative is right |
| C36 | Cached expansion coefficients equal recomputed ones | proved | Thermal | ThermalProps | case analysis over all inputs, decoding lemmas | for every cache size and order; also what happens for negative cache sizes |
| C37 | Minimiser selection code round-trips | proved | Minim, Plane | MinimProps | case analysis over all inputs, decoding lemmas | codes decode to the same switches for every build configuration; injective; every int decodes to |w| mod 8 |
| C38 | The global minimum returned is the best candidate and independent of multithreading | partial | Minim, Plane | MinimProps | candidate lists; step relation over all schedules | refuted: without multithreading the CMA-ES candidate is computed but never considered, so the returned minimum depends on the thread setting; also a NaN potential at the origin hides all candidates. Proved: with multithreading the best of all produced candidates is returned; without it the best except CMA-ES; no difference if CMA-ES is not used |
| C39 | Critical temperature search (legacy) reports success only for a genuine transition | partial | Minim, Plane | MinimProps | bracketing invariant of the bisection, halving of the width | refuted: SUCCESS with v_c = 0 at T_c = TempStart when the VEV is gone at every midpoint. Proved: in all other SUCCESS cases a broken minimum above threshold, disappearance within 0.01 GeV, termination with explicit fuel |
| C40 | Parallel minimisation from many starting points is free of data races on the work queue | partial | Minim, Plane | MinimProps | candidate lists; step relation over all schedules | refuted: the loop condition is tested outside the lock, so two workers can pop the same last starting point (front() of an empty queue). Proved: safe for one worker and whenever max + (n-1) + failures <= number of starting points; complete results, bounded overshoot and termination for every schedule |
| C41 | Tracing minima with temperature visits the requested temperatures | partial | Minim, Plane | MinimProps | loop invariants with an oracle per iteration, explicit fuel, refutation by a concrete oracle | refuted: tolerance n/100 GeV overshoots the final temperature for small steps, and a zero or wrong-sign step never ends. Proved: arithmetic progression on every track, exact n steps if n <= 100|step|, termination towards the final temperature |
| C42 | Coordinates on the minimisation plane lie in the plane | proved | Minim, Plane | MinimProps | index and sum algebra, out-of-range access as a distinct outcome | plane equation, surjectivity, wrong counts rejected; the whole plane minimisation returns a point of the plane with the lowest potential among the candidates |
| C43 | Cubic spline passes through its data and is continuous | proved | Spline | SplineProps | band LU solver invariant with diagonal dominance, cubic algebra, derivatives | All three spline types and all nine boundary combinations; band solver modelled and its pivots proved non-zero. Second derivatives for type cspline, except at an end knot with a prescribed slope, where the code deliberately extrapolates linearly. |
| C44 | Spline boundary conditions requested by the user are respected | partial | Spline | SplineProps | band LU solver invariant with diagonal dominance, cubic algebra, derivatives | refuted: with a not-a-knot condition on the right, line 181 overwrites rhs[0], so the value prescribed on the left is discarded (type cspline). All other combinations, and the Hermite type, are proved. |
| C45 | Monotonicity filter yields slopes that keep the spline monotone | partial | Spline | SplineProps | band LU solver invariant with diagonal dominance, cubic algebra, derivatives | refuted for an interval next to a local extremum of the data (the filter only clamps slopes at points where both neighbours agree). Proved for intervals whose neighbours are monotone in the same direction, hence for monotone data sets. |
| C46 | Path smoothing uses the Bernstein basis with exact binomial coefficients | partial | Action | ActionProps | binomial identities with 32-bit wrap-around, convexity, quadrature sums, control-flow machine | refuted for large degrees: nChoosek(31,15) overflows int. Proved: non-negativity and fixed false-vacuum end for every degree, the coefficient is exact whenever no product overflows, all degrees up to 29 (10 and 20 are in use) form a partition of unity and have the slopes the code uses |
| C47 | Matching of near- and far-field bounce solutions is a convex combination | proved | Action | ActionProps | binomial identities with 32-bit wrap-around, convexity, quadrature sums, control-flow machine | range, monotonicity, symmetry and convexity; the only case without a number (threshold = position of the minimum = start distance) is characterised |
| C48 | Action integrals use a correct quadrature rule | partial | Action | ActionProps | binomial identities with 32-bit wrap-around, convexity, quadrature sums, control-flow machine | refuted: a constant slope is integrated to 8006001/8000000 (O(3)) or (2001/2000)^2 (O(4)) times the exact value, a zero radius never ends. Proved: that factor exactly, and two-sided bounds for every bounded integrand |
| C49 | An action value is only reported for a converged bounce | partial | Action | ActionProps | binomial identities with 32-bit wrap-around, convexity, quadrature sums, control-flow machine | refuted: if every trajectory falls short the solver still reports convergence by proximity and an action is assigned. Proved: control flow of CalculateAction for every outcome, meaning of convergence once a shot has overshot, and that the state 'success' is never reached |
| C50 | Symmetrised coupling tensors are symmetric and keep canonical entries | proved | Potential, Vacua | PotentialProps | permutation of indices, multilinear sums and their derivatives | all dimensions, any entry type |
| C51 | Tree-level potential derivatives agree with the potential | proved | Potential, Vacua | PotentialProps | permutation of indices, multilinear sums and their derivatives | for the generic tensor contraction (models that switch on VTreeSimplified/VCounterSimplified use their own formula, not covered here); exact real arithmetic |
| C52 | The effective potential does not depend on the form of the VEV vector | partial | Potential, Vacua | PotentialProps | index and sum algebra, out-of-range access as a distinct outcome | refuted: with an nVEV-sized vector the requested Order is dropped (ClassPotentialOrigin.cpp 2976), so the tree-level request returns the loop-corrected potential; the forms agree for every other order |
| C53 | Mapping minimiser coordinates to fields is safe and faithful | partial | Potential, Vacua | PotentialProps | index and sum algebra, out-of-range access as a distinct outcome | refuted for the Standard Model, whose VEV table ends before the last field, so that MinimizeOrderVEV reads past its end; proved for all other shipped layouts and characterised in general |
| C54 | Constant-velocity spline: adding a point keeps the path well formed | partial | CVSpline | CVSplineProps | search loop invariant, Simpson rule exactness, chain rule | refuted: for every path of at least two points every insertion between the ends reads vev_position one past its end (upper starts at phipath.size()); if that read is granted an arbitrary value, a point exactly at a stored position makes the search loop forever. Proved: insertions before and behind the path, and correct placement with increasing positions for all other points if the read is granted a value. |
| C55 | Text plots stay inside their canvas | partial | Ascii | AsciiProps | index bounds over Q, padding lengths modulo 2^64 | refuted: constant data, a single abscissa (division by zero cast to int), more than ten curves (array overrun), title longer than the plot or label longer than width-5 (2^63 blanks). Proved for one to ten curves of at least two points left to right with at least two different values: no access outside, ranges cover the data and are attained, only markers drawn. Rounding of the index computations is not modelled. |
| C56 | Programs accept every documented option value and reject contradictory ranges | partial | Minim, Models, Options, Strings | OptionsProps | case analysis over all inputs, decoding lemmas | refuted: CalcTemps rejects the documented value keep_ewsr. Proved: all other documented values are accepted by both programs and contradictory ranges rejected. |
| C57 | One-loop mass terms: requested derivative matches the function | partial | Loop | LoopProps | differentiation of closed forms (Coquelicot), numeric bounds proved by series estimates | refuted for the full boson term with negative squared mass: boson/fermion pass |m^2| to CWTerm also for the derivative, so the sign of the zero-temperature part is wrong; proved: CWTerm itself for both signs, the full term for non-negative squared masses, the exact error for negative ones, the temperature derivative (thermal functions as parameters) |
| C58 | Loop functions are symmetric in their mass arguments and continuous at degeneracies | partial | Loop | LoopProps | differentiation of closed forms (Coquelicot), numeric bounds proved by series estimates | refuted inside the identification thresholds (fbase: |A-B| <= 1e-5; fbaseTri: 1e-8), where the result depends on the order of the arguments; proved outside them: all permutations, the value, and that the special cases are the limits of the general formula; fbaseFour is not modelled |
| C59 | NLO vacuum stability check rejects bad minima | partial | Potential, Vacua | PotentialProps | index and sum algebra, out-of-range access as a distinct outcome | refuted: NaN components are ignored and so accepted; the criterion holds for configurations without NaN |
| C60 | The phase-edge scan counts coexisting phases and reports gaps exactly | proved | Phase | PhaseProps | invariant over all histories of operations, list combinatorics |  |
| C61 | Asking a phase for a temperature never loses information | proved | Phase | PhaseProps | invariant over all histories of operations, list combinatorics |  |
| C62 | The temperature where a minimum turns into a saddle is bracketed | partial | Track | TrackProps | loop invariants with an oracle per iteration, explicit fuel, refutation by a concrete oracle | refuted for the accuracy: when a probe hits the zero exactly the search stops with the last accepted temperature (zero at 105 between 100 and 110 gives 100). Proved: bracketing, side, termination, and accuracy 1e-8 when no probe hits the zero exactly. |
| C63 | Sign-symmetry searches try every combination of signs exactly once | proved | Signs | SignsProps | orbit of a group action; enumeration by sorted subsets |  |
| C64 | Percolation and completion temperatures are those for the requested wall velocity | partial | History, Report, Tracer | ReportProps | state machine over stage outcomes; counts of separators by list induction | refuted: vwall is only set from the user's choice inside CalculatePTStrength, after the temperatures have been stored; holds for 0.95. |
| C65 | The computation of the transition strength terminates | partial | History, Report, Tracer | ReportProps | state machine over stage outcomes; counts of separators by list induction | refuted: infinite recursion when the strength is zero or NaN; terminates with at most one recursion if the strength at the percolation temperature for velocity 0.95 is finite and non-zero. |
| C66 | A transition without percolation does not abort the run | partial | History, Report, Tracer | ReportProps | state machine over stage outcomes; counts of separators by list induction | refuted: with transition temperature 1, 2 or 4 a missing percolation temperature raises runtime_error, which ends main; never happens for the default 3 or without gravitational waves. |
| C67 | The temperature scan for bounce solutions terminates and its status reflects the number of solutions | partial | BounceScan, Tracer | BounceScanProps | loop invariants with an oracle per iteration, explicit fuel, refutation by a concrete oracle | refuted for a region whose lower end is the critical temperature (C67_no_room_refuted: the scan never ends); proved in all other cases |
| C68 | Sound-wave peak amplitude and turbulence fraction follow the shock formation time | proved | GW | GWProps | real inequalities, monotonicity through derivatives | real arithmetic |
| C69 | Integrands of the thermal integrals and their derivatives agree | proved | Thermal | ThermalProps | differentiation of closed forms (Coquelicot), numeric bounds proved by series estimates | complex square root, exponential, logarithm modelled by their real and imaginary parts; numerical integration itself is not modelled |
| C70 | Switching off the electroweak VEVs changes exactly the gauge-coupled coordinates | partial | Potential, Vacua | PotentialProps | index and sum algebra, out-of-range access as a distinct outcome | refuted for layouts where an uncoupled coordinate precedes a coupled one and for the Standard Model's table; proved for tables with the coupled coordinates first |
| C71 | The electroweak VEV is the norm of the gauge-coupled fields | proved | Potential, Vacua | PotentialProps | index and sum algebra, out-of-range access as a distinct outcome |  |
| C72 | The expansion about the true minimum is used close to it and the linear solution far from it | partial | Action | ActionProps | binomial identities with 32-bit wrap-around, convexity, quadrature sums, control-flow machine | refuted when the minimum lies further along the path than the threshold distance (a position is subtracted from a distance); proved when it does not |
| C73 | Programs reject numeric options outside their documented ranges | partial | Minim, Models, Options, Strings | OptionsProps | case analysis over all inputs, decoding lemmas | refuted: both accept not-a-number for the temperature, wall velocity and probabilities; CalcGW accepts a negative first line, an upper temperature 0 and a not-a-number turbulence efficiency. Proved for numbers in the stated cases. |
| C74 | Positional arguments mean the same as the named options | partial | Minim, Models, Options, Strings | OptionsProps | case analysis over all inputs, decoding lemmas | refuted: arguments after the fifth positional one are silently dropped. Proved: positional arguments configure the same as the named ones. |
| C75 | Constant-velocity spline: the table of path lengths is the integral of the speed | partial | CVSpline | CVSplineProps | search loop invariant, Simpson rule exactness, chain rule | refuted: line 137 integrates from list_l.back() instead of list_x.back(), so lengths are wrong for every non-constant speed such as 1+x. Proved: the rule is exact on cubics, the table is exact for constant speed, bounded by the extreme speeds, strictly increasing. |
| C76 | Constant-velocity spline: tangent and acceleration | proved | CVSpline | CVSplineProps | search loop invariant, Simpson rule exactness, chain rule | dl and d2l over the reals, given that the spline derivatives, the length function and its inverse are what their names say (C44/C45 model the splines). |
| C77 | Options from a json file equal options from the command line | partial | Logger, Models, Options, Parser, Strings | ParserProps | case analysis over all inputs, decoding lemmas | refuted: --json is honoured only when it is the only argument and written in lower case; otherwise it is stored as an ordinary option and the file is never opened. Proved: the sole-argument case. json syntax errors and non-string members are not modelled. |
| C78 | A boolean option has one meaning in all programs | partial | Logger, Models, Options, Parser, Strings | ParserProps | case analysis over all inputs, decoding lemmas | refuted: CalcTemps and CalcGW compare with the exact text true, so --usegsl=True switches GSL off there but on in the programs that use get_value<bool>. Both readings are characterised exactly. |
| C79 | Every value of the output tables stands under the column that names it | proved | History, Report, Tracer | ColumnsProps | state machine over stage outcomes; counts of separators by list induction | Assumes printed numbers and names without tabs, at least one vev and counterterm name, and input lines with as many columns as the header line (shorter lines shift the last column). |
| C80 | Checks of a point are reported as made and stop the calculation exactly as requested | proved | History, Report, Tracer | ColumnsProps | state machine over stage outcomes; counts of separators by list induction | The vacuum's statuses and the pair results are oracles; run_pairs is specified by C22, C24, C81. |
| C81 | The gravitational wave columns belong to the transition temperature chosen by the user | partial | History, Report, Tracer | ColumnsProps | state machine over stage outcomes; counts of separators by list induction | refuted: for the percolation transition trans_temp is the recomputed temperature, not the reported T_perc. Partial theorem: everything else, with the recomputed temperature in that case. |
| C82 | The symmetry restoration check reports what its documentation says | partial | EWSR | EWSRProps | case analysis of the temperature loop, quadratic form algebra | refuted: status 1 is unreachable and flat potentials return 0. Partial theorem: all other results characterised. The numerics (Hessian, eigenvalues, inverse) are oracles; the inverse may be missing. |
| C83 | The high-temperature minimum stored by the symmetry restoration check is the minimum | partial | EWSR | EWSRProps | case analysis of the temperature loop, quadratic form algebra | refuted: sign of the stored point. Partial theorem: correct if the gradient vanishes; the minimum is shown to be the mirrored point and the status is shown to be independent of the sign. |
| C84 | Kinetic energy fraction and bubble separation keep to their physical ranges | partial | GW | FractionProps | real inequalities, monotonicity through derivatives | refuted for strong deflagrations (K_sw > 1 at alpha = 1e5, v = 0.9 cs); proved: separation, all detonations, deflagrations with alpha <= 1/2, share of turbulence. Missing: deflagrations with alpha between 1/2 and the (unknown) point where the fit exceeds 1, and hybrids. |
| C85 | The logarithm of the mass cancels in the one-loop potential at high temperature | proved | Loop, Thermal | MatchingProps | differentiation of closed forms (Coquelicot), numeric bounds proved by series estimates | exact identity over the reals, for every value of the zeta oracle; thermal spline for negative arguments not involved. |
| C86 | The two expansions of the thermal functions meet at their thresholds | partial | Loop, Thermal | MatchingProps | differentiation of closed forms (Coquelicot), numeric bounds proved by series estimates | refuted for the derivatives; values proved to meet within 1e-6 with the exact zeta values and verified bounds for exp, ln, sqrt and pi. |
| C87 | The initial scan solves the bounce at equidistant temperatures from the top until the action is small | proved | BounceScan | ScanProps | loop invariants with an oracle per iteration, explicit fuel, refutation by a concrete oracle | temperatures as iterated subtraction, shown equal to Tc - k dT over the rationals. |
| C88 | Between two neighbouring solutions the refinement asks for steps of at most 20 in action over temperature | proved | BounceScan | ScanProps | loop invariants with an oracle per iteration, explicit fuel, refutation by a concrete oracle | model of the inner double loop of GWSecondaryScan; rounding not modelled. |
| C89 | The list is extended until action over temperature leaves the range from 50 to 200 | partial | BounceScan | ScanProps | loop invariants with an oracle per iteration, explicit fuel, refutation by a concrete oracle | refuted: the loop bound shrinks while the counter grows, so the scan gives up half-way; partial theorems characterise every added temperature and every reason to stop including this one. Termination is C67. |
| C90 | Options of CalcTemps and CalcGW mean what the help text says | partial | Minim, Models, Options, Strings | OptionsProps | case analysis over all inputs, decoding lemmas | refuted for undocumented words: --checknlo, --checkewsr and --trans_temp silently fall back to the default (C90_unknown_word_refuted); defaults, given values and required options proved for all command lines; stoi/stod are oracles |
| C91 | Splines outside the data and their higher derivatives | proved | Spline | SplineOutsideProps | band LU solver invariant with diagonal dominance, cubic algebra, derivatives | exact arithmetic over the reals; evaluation at the data points themselves is C43 |
| C92 | Multi-step mode 0 reports what it traced | proved | Modes, MultiStep, Phase | ModesProps | invariants of the phase list under arbitrary oracles; refutations by computation or induction on fuel | modelled with the minimiser, tracking, global-minimum check and phase comparison as arbitrary functions |
| C93 | Multi-step mode 1 covers the temperature range | partial | Modes, MultiStep, Phase | ModesProps | invariants of the phase list under arbitrary oracles; refutations by computation or induction on fuel | refuted in general: after a failed tracking from the highest temperature with T_low = 0 success is reported with everything above the low phase untraced (C93_coverage_refuted); undefined behaviour when the intermediate phase from below lies strictly inside the one from above (C93_defined_refuted); endless loop (C93_terminates_refuted); the exception is characterised exactly (C93_exception_exact). Positive: coverage when every tracking gives a proper phase, termination when middle phases reach above their start, and which global minimum checks stand behind success (C93_global_minimum_partial) |
| C94 | Multi-step mode 2 covers the temperature range with global minima | partial | Modes, MultiStep, Phase | ModesProps | invariants of the phase list under arbitrary oracles; refutations by computation or induction on fuel | refuted: a gap of 2 GeV is not searched (C94_coverage_refuted), the lower bound moves down instead of up when a phase is found (C94_closes_in_refuted), uninitialised ends are read after a failed tracking (C94_defined_refuted), endless loop (C94_terminates_refuted). Positive: coverage up to 1 GeV, both bounds never rise, termination when regions reach below their start, steps of 10 GeV when tracking fails (C94_failed_steps_partial) |
| C95 | Tracing status and coexisting pairs of a finished vacuum | partial | Modes, MultiStep, Phase | ModesProps | invariants of the phase list under arbitrary oracles; refutations by computation or induction on fuel | refuted without assumption on the trackings at the two ends (C95_success_covers_refuted: mode 1, T_low = 0, tracking from above fails); proved for all modes with it (C95_success_covers_partial); pairs, auto mode and unknown modes proved |
| C96 | Coupling tensors encode the scalar potential of the model | proved | Potential, Tables | ScalarProps | the symmetrisation loops are shown to produce, for a table with sorted distinct keys, the sum over distinct permutations; the polynomial is then computed symbolically and compared with the doublet expression by field | tables transcribed entry by entry; theorems per model for VTree and CounterTerm, symmetry of all tensors, first and second derivatives |
| C97 | Potentials are invariant under electroweak gauge transformations | proved | Potential, Tables | ScalarProps | the symmetrisation loops are shown to produce, for a table with sorted distinct keys, the sum over distinct permutations; the polynomial is then computed symbolically and compared with the doublet expression by field | one theorem per model, tree potential and counterterm potential |
| C98 | The stored vacuum is a stationary point with massless would-be Goldstone bosons | partial | Potential, Tables, Vacua | VacuaProps | gradient and Hessian are evaluated from the tables at a vector with few non-zero components, once and symbolically; the minimum conditions and the Goldstone directions are then field identities | refuted for negative TanBeta in the C2HDM and the N2HDM, where sin(beta) loses its sign (C98_C2HDM_negative_TanBeta_refuted, C98_N2HDM_negative_TanBeta_refuted), and for CPintheDark, whose mass parameter m11^2 is a free input (C98_CPintheDark_free_mass_refuted). Proved without restriction for SM (with mass spectrum), CxSM and R2HDM, for positive TanBeta in C2HDM and N2HDM, and for CPintheDark exactly when m11^2 = -L1 v0^2/2 |
| C99 | The counterterms cancel the first and second derivatives of the one-loop potential | partial | CTs, Potential, Tables, Vacua | CTProps | Ward identities: a function invariant under one-parameter rotations has linear relations between its Taylor coefficients, proved from the epsilon-delta expansion; gradient and Hessian of the counterterm potential are evaluated symbolically and compared modulo these relations by field | refuted for R2HDM and CxSM, which set derivatives up to 1e-3 and 1e-5 to zero (C99_R2HDM_small_derivatives_refuted, C99_CxSM_small_derivatives_refuted), for the CxSM with both singlet vevs, whose portal counterterm is one number for two mixings (C99_CxSM_mixing_refuted), and for the N2HDM without singlet vev, which reads an uninitialised array (C99_N2HDM_no_singlet_vev_refuted). Proved without restriction for SM, C2HDM and CPintheDark (dark parity assumed of the function, as it holds in the model), and otherwise under the named conditions. The derivatives of the one-loop potential are inputs; calculation of WeinbergFirstDerivative and WeinbergSecondDerivative is not part of this property |
| C100 | The hand-written simplified potentials agree with the tensors on the vacuum fields | partial | Potential, Simplified, Tables, Vacua | SimplifiedProps | both polynomials are computed symbolically on the vacuum fields and compared by field; the gradient follows from the derivative lemmas for tensors | refuted for full field vectors: VTree and CounterTerm take the hand-written branch for any vector, which reads only the vacuum components (C100_*_other_fields_refuted), and the gradient is then not the derivative of the value (C100_C2HDM_gradient_refuted). Proved on the vacuum fields for all parameters (_partial theorems), for SM, C2HDM and CPintheDark; the other models do not use the simplified branch. |
| C101 | A model object belongs to one parameter point after every sequence of calls | partial | LifeCycle | LifeProps | invariant over all sequences of calls: stored point implies members, tensors, couplings, thermal masses and counterterms of that point; case analysis per call | refuted for set_All on an initialised object (C101_set_All_refuted) and for the cached triple couplings of the C2HDM after resetScale (C101_triple_refuted). Everything else is proved for all sequences of calls. Numbers are abstracted to the parameter point they were computed from. |
| C102 | The one-loop potential reports its own derivatives | partial | Loop, OneLoop | OneLoopProps | chain rule for each summand, induction over the mass lists; the difference between the program's expression and the derivative is computed exactly | refuted: V1Loop passes the field index diff to boson and fermion, which add the thermal part only for diff = 1 (C102_field_derivative_refuted), and the temperature derivative omits -T/(8 pi) sum sqrt(m) dm/dT of the thermal masses (C102_temperature_derivative_refuted); the exact errors are proved. Proved where right. Thermal functions are assumed to be differentiable with the reported derivative; the eigenvalue routines are arguments. |
| C103 | VEff adds the loop corrections exactly when they are asked for | partial | Loop, OneLoop | OneLoopProps | case analysis on sizes and flags | refuted: for a vector of vacuum coordinates the recursive call drops Order, so Order = 0 returns the one-loop potential (C103_order_dropped_refuted). Proved for all other orders and for full vectors. |
| C104 | Every model takes each parameter from the column with its name and rejects lines that lack columns | partial | ReadLine | ReadProps | Model/ReadLine.v: operator>> for double on a stringstream (end of line, malformed number, failbit), the loop of ReadAndSet with its
uninitialised variable, and per model the list which column each entry of par is taken from. Spec/ReadSpec.v holds the header names of the example files
and the parameter names in the order of set_gen; the theorem says that par equals the values below the parameter names. Simplified: numbers are
rational, overflowing numbers and a type outside int do not occur. | refuted in its last sentence: a line that ends early is read as if its last number were repeated (C104_short_line), everything from a malformed number on is read as 0 (C104_malformed_number), a textual index column makes all parameters 0 (C104_malformed_index), an empty line reads an uninitialised double (C104_empty_line). Proved: the column-to-parameter map of all six models for lines with enough numbers. |
| C105 | The gauge boson mass matrix is the one of the covariant derivative and gives the W, Z and photon masses in the stored vacuum | partial | Gauge, Potential, SMConst, Tables, Vacua | GaugeProps | Model/SMConst.v transcribes GetSMConstants, Model/Gauge.v the six tables (produced by a script from the source text) and the contraction of
GaugeMassesSquared. Spec/GaugeSpec.v defines the matrix of |D Phi|^2 from the Pauli matrices. The identity is proved entry by entry for all fields;
the vacuum theorem combines it with the vacua of C98. | refuted for the CxSM, whose input line carries its own vacuum expectation value that is never compared with C_vev0 (C105_CxSM_bosons_refuted; the masses scale with the ratio, C105_CxSM_bosons_partial). Proved for the other five models and, as a matrix identity for all fields, for all six. Not covered: rounding, and the numerical eigenvalue solver. |
| C106 | Fermion couplings follow from the Yukawa Lagrangian with a unitary mixing matrix and give the input masses in the stored vacuum | partial | Potential, SMConst, Tables, Vacua, Yukawa | YukawaProps | Model/Yukawa.v holds the three written-out tables (produced by a script from the source text) and the YIJ matrices of the two-doublet models.
Spec/YukawaSpec.v writes the Lagrangian with doublets and the mixing matrix; a mass matrix M belongs to it if it is symmetric and 1/2 psi^T M psi equals
the Lagrangian for all psi, which determines M. Unitarity of the mixing matrix enters in the neutral down-type couplings. | refuted for Yukawa types outside 1..4, which are accepted (C106_R2HDM_masses_refuted). Proved: the mixing matrix is unitary with the given parameters, all tables equal the Lagrangian for all fields, and the masses for types 1..4 in every model; for other types the wrong factor is proved (the _partial theorems). Not covered: rounding, the numerical eigenvalue solver. |
| C107 | Thermal masses are the second derivatives of the T^2 part of the thermal potential, and gauge bosons get their screening masses | partial | Debye, Gauge, Potential, SMConst, Tables, Yukawa | DebyeProps | Model/Debye.v: the sums of CalculateDebye with the cut at 1e-5, CalculateDebyeGauge and the formulas of the two-doublet models.
Spec/DebyeSpec.v: leading thermal potential from traces of mass matrices, second partial derivatives, group theory of the screening masses. The traces are
quadratic forms; equal forms have equal coefficients, and the fermion traces follow from the Lagrangian of C106 and unitarity. | refuted as stated: the formulas of R2HDM, C2HDM and N2HDM leave out u, d, s, c and the leptons, so that DebyeHiggs differs from the second derivative wherever the charm quark has a mass, and CalculateDebye sets entries up to 1e-5 to zero (witness: CxSM with d2 = 1e-5). Proved: with the exact missing terms added the formulas are the second derivatives for all four types; in SM, CxSM and CPintheDark entries above 1e-5 are exact; the gauge masses are the screening masses in all models (up to the same cut). |
| C108 | Wall profiles run from the broken to the symmetric phase and report their own derivatives | partial |  | WallProfileProps | Model/WallProfile.v: both implementations of the kink profile and of the phase. Spec/WallProfileSpec.v: limits at both ends and derivatives.
Proved with the derivative and the limits of tanh. | refuted for a nonzero symmetric vev (the profile ends in zero); limits, derivatives and agreement of both implementations are proved |
| C109 | The right hand side of the transport equations solves the continuity and force equations of the plasma | partial |  | TransportProps | Model/Transport.v: the right hand sides (produced by a script from the source text), coefficients and source. Spec/TransportSpec.v: continuity and
force equations of one fluid with its averages, and the four interaction rates. The solution property is field algebra, uniqueness is the 2x2 determinant;
the second-order form is obtained by differentiating the force equation. K factors are arbitrary numbers. | refuted for the derivative of the source in the second-order form (missing terms proved exactly); the velocity form is proved completely. The second-order theorem takes coefficients as independent of position and leaves out K5 u', as the code does |
| C110 | The diffusion networks of the vev-insertion approach are networks of reactions | partial |  | FluidProps, MoreProps | Model/Fluid.v: operator() of the three classes, with the mass flags as integers and exceptions. Spec/FluidSpec.v: reactions with stoichiometry,
rate and affinity, free energy, charges. Each right hand side is compared with its reaction network by field; dissipation is a sum of squares. Rates, sources and
statistical factors are arbitrary numbers. | refuted: bottom Yukawa affinity has the wrong sign of the Higgs densities, top_source lacks the strong sphaleron term of the right-handed top, the tau source depends on the bottom flag, and nL counts one light generation; conservation laws, flags and the exact networks are proved |
| C111 | Relaxation rates, CP-violating sources and thermal masses follow from the propagators and the charges | partial |  | RatesProps | Model/Rates.v: integrands with the cuts after every term, thermal masses, Yukawa couplings. Spec/RatesSpec.v: propagator expressions with complex
energies and group theory. The imaginary parts are computed by field, the difference is bounded by a constant times the third power of the width; the
refutation uses that a non-zero linear term cannot be so bounded. Momentum integrals themselves (GSL, Boost) are not modelled. | refuted: the source term divides by k^4 instead of w^4, three colours for the tau, overflow at low temperature, thermal masses of bottom and tau; first-order agreement of the relaxation rate, the derivative terms, the distributions, the top's thermal masses and the Yukawa couplings are proved |
| C112 | The asymmetry of Calc_eta is the baryon density at the wall | partial |  | EtaProps | Model/Eta.v: constants, prefactor, exponent, the integral (exact Riemann integral of Coquelicot) and the grid. Spec/EtaSpec.v: stationary baryon density
with boundary conditions. Proof: exp(exponent z) (D n' + (vw+omega)/2 n) has the weighted drive as derivative, then the fundamental theorem of calculus.
Quadratic densities show that the hypotheses can be met. | refuted for a density that is frozen behind the wall (exact factor proved) and for decreasing grids (values at mirrored positions); proved with washout on both sides, for the exponent, the orientation and the grid |
| C113 | The asymmetry of the vev-insertion approach is odd under CP and its plasma moves with the wall | partial |  | DensityProps, MoreProps | Model/Density.v: explicit Runge-Kutta integration with arbitrary tableau and a step control that sees absolute values only, on top of the models of C108, C110,
C111 and C112. Oddness by induction over stages and attempted steps; zero follows since the result equals its opposite. The tail is obtained by solving
n'' = (vw/D) n' with the mean value theorem. | refuted: the free equation of the networks has no solution that vanishes in front of the wall (sign of vw); oddness under CP and zero asymmetry without phases are proved for all Runge-Kutta methods and step controls |
| C114 | K functions of the transport equations and their tables | partial |  | KProps | Model/KFunctions.v: distribution, integrands, normalisations, tables; Monte Carlo integral, line integral and splines are arbitrary functions. Spec/KSpec.v: thermal
distribution, energy, speed, scaling degrees. Derivatives with DerivLib, scaling by field for every function number, the array by induction over the written pairs. | refuted for K8: K8fermion_normalized divides by the second normalisation where K_functions (and the comment at the call) use the first; the result has the opposite sign at every node (C114_K8_sign). All other tabulated functions agree at the nodes (C114_interpolated_partial); integrands, scaling, normalisation, exit and array proved. Integrals and splines are arbitrary functions. |
| C115 | Interface of the baryogenesis calculation | partial | Density, Eta, EtaConfig, Fluid, Strings, WallProfile | EtaConfigProps | Model/EtaConfig.v: configuration file as list of lines, tokenisation, legend, setup and results, on top of Model/Density.v. Spec/EtaConfigSpec.v: what a line says, as a decomposition
of its text. Both directions of the reading theorem by splitting words and gaps; order of results by induction over the flags. | refuted in two parts: with Massive: no the schemes with a bottom quark never give a result (flag 0 is neither 1 nor 2; C115_massless, C115_complete_refuted), and a failing setNumerics keeps the new velocity and temperature with the old wall (C115_setup_atomic_refuted). Reading, constructor, legend and order of results proved. |
| C116 | Wall thickness from plane minimisation in threads | partial |  | WallThicknessProps | Model/WallThickness.v: base points, thread_Job as step function with test, fetch and work as separate steps, barrier and division. Spec/WallThicknessSpec.v: barrier, static wall, quartic potential.
Invariant over arbitrary schedules; explicit schedule for the race; the tanh profile is differentiated twice. | refuted for two or more threads: test and increment of the index are separate, so a thread can call at() behind the end and the program is terminated (C116_race, C116_threads_refuted); without threads (hardware_concurrency 0) the data stay zero. Proved: points, mismatch, completeness whenever all threads finish, one thread, barrier and static wall. |
| C117 | Wall thickness along the straight line | partial |  | WallThicknessProps | Same model, line part: loop with fuel, selection by fold, evaluation. Selection by induction; counterexamples are a quartic polynomial with two humps and a double well. | refuted in three ways: of several maxima the lowest is taken (C117_lowest, C117_highest_refuted); a symmetric phase away from the origin is ignored when the potential is evaluated (C117_symmetric_vev_refuted); the loop has no bound on failures (C117_loop_refuted). Proved for a symmetric phase at the origin and minimisers that find the highest point (C117_line_partial). |
| C118 | Vacua and phases used for the wall | partial |  | WallInitProps | Model/WallInit transcribes the three foldings, the choice of the phases and their cut. The choice is described by a disjunction of three cases that together are a full specification (first match, with everything before it failing); phases are related to polar form through atan. The eigenvalue solver is not modelled: the list of eigenvalues is an argument. | refuted in three points: the image is not the nearest, the two ends may be folded differently, and the phase of an imaginary mass depends on the order of the eigenvalues; C118_jump gives the error of pi in phase differences. The rest of the statement is proved |
| C119 | Squared masses and their derivatives | partial |  | EigenProps, MoreProps | Model/EigenDeriv transcribes the grouping loop, the four mass routines and the matrices of derivatives; the eigenvalue solver is an argument, specified by `diagonalises` (sorted eigenvalues, unitary matrix of eigenvectors). The derivative of an isolated eigenvalue is proved by differentiating x† M x along a branch and by showing that the solver's eigenvector is the branch's up to a phase; sums over degenerate groups by an invariant of the loop (the processed indices are an initial segment, weighted sums agree) and the invariance of the trace. The matrices of derivatives are proved to be the derivatives of the mass matrices by induction over the sums. | refuted for the Higgs bosons (C119_higgs_refuted: masses 12 instead of 11) and for nearly degenerate eigenvalues (C119_close_refuted); proved for isolated eigenvalues, for sums over degenerate spectra, and for gauge bosons and fermions; the matrix of derivatives used for the Higgs bosons is right (C119_higgs_diff_partial) |
| C120 | Four-point one-loop function | partial | Loop, LoopFour | LoopFourProps | Model/LoopFour.v has the if / else if chain of fbaseFour as a list of conditions and values, generated from the source and compared with it, including the chains nested in four of the branches, which leave res = 0 if nothing in them matches; a NaN is the error the program throws. The specification is the divided difference four_point and limits of it. LoopFourBranch.v distinguishes the 52 patterns of four masses and zero and proves that the selected branch is symmetric under transpositions; LoopFourProofs.v treats the identification of close masses and all permutations; LoopFourValues.v computes the limits by derivatives, a mean value theorem for the case of four equal masses and x ln x -> 0; LoopFourRec.v proves the difference quotient in all patterns and the sign of the limit with one vanishing mass. | refuted for one vanishing and three different masses (C120_one_massless_refuted; C120_one_massless_always_zero shows that the result is 0 for all of them although the limit is negative), for three vanishing masses (C120_difference_quotient_refuted) and, as to the order of the arguments, for close masses (C120_symmetric_refuted); all other patterns of masses proved |
| C121 | WeinbergFirstDerivative and WeinbergSecondDerivativeAsMatrixXd are the gradient and Hessian of the one-loop potential | partial |  | WeinbergProps | Model/Weinberg.v transcribes CalculatePhysicalCouplings (mass matrices, rotation matrices, triple and quartic couplings in the mass basis), WeinbergFirstDerivative and WeinbergSecondDerivativeAsMatrixXd over real numbers; Eigen's solver is a parameter constrained only to diagonalise the mass matrices. The specification is the derivative (`derivable_pt_lim`) of the model of V1Loop at T = 0. Proofs/Spectral.v proves basis independence of spectral sums (single and double) and the first and second order perturbation formulas (Hellmann-Feynman and Daleckii-Krein) for differentiable orthonormal eigenframes; Proofs/WeinbergSector.v applies them to the Coleman-Weinberg function of one kind of particle; Proofs/WeinbergProofs.v undoes the rotation to the mass basis and identifies fbase with the divided difference of the first derivative; Proofs/WeinbergRun.v assembles the four kinds. Massless gauge bosons need that their squared masses are nowhere negative, which makes their mutual couplings vanish. The refutation computes both sides for a 2x2 complex Yukawa matrix and an arbitrary solver. | refuted as stated: QuarkRot and LeptonRot are the real parts of eigenvectors of a Hermitian matrix, so with complex eigenvectors (two quarks with a complex Yukawa matrix, any solver) the gradient is off by more than 1e-3 (C121_first_derivative_refuted). Proved for real fermion eigenvectors, squared masses that are 0 or above 1e-4, distinct ones more than 1e-5 apart, rotation entries that are 0 or at least 1e-10, and mass matrices with differentiable eigenvectors along the field: first derivative exact up to the 1e-10 cut, second derivative within (1+N^2) 1e-10. Degenerate masses are covered. The third and fourth derivatives are not modelled. |
| C122 | The first step of the bounce follows the linearised equation of motion | partial |  | BounceStartProps | `Model/BounceStart.v` has the four closed forms and their derivatives, the widening and the bisection, the nested calls for negative curvature and the two fallbacks. `Proofs/BesselSeries.v` proves the recurrence and the derivative of the Bessel power series (infinite radius of convergence, ratio test); `Proofs/BounceRolls.v` that each closed form solves the equation of motion with the right limits at rho = 0; `Proofs/BounceUnique.v` that the motion is unique (an energy that cannot grow). The bisection is analysed with the intermediate value theorem. That the motion with negative curvature reaches l0 + dVdl/|d2Vdl2| before the end of the search needs the sign of sin(4.4934) and of J1(5.1356), the latter from the alternating series. | refuted: where d2Vdl2 = 0 the function takes the branch for an invalid Alpha and returns a step without friction, too far and too fast by the factor Alpha + 1 (C122_flat_refuted, for every slope). When the search for rho ends at 101 the target is returned although the motion has not reached it (C122_far_refuted). Proved for all other parameters in a wide range: the closed forms solve the equation of motion, the motion exists and is unique, the returned rho is within 1e-10, the speed is exact (within 0.001 in rho for the numerical derivative of BesselJ), at most 12 nested calls (C122_start_partial, C122_ends, C122_from_minimum_partial). The Bessel functions are their full power series; the program cuts them off at a relative change of 1e-15. |
| C123 | The Runge-Kutta step of the bounce equation has order five, with an embedded estimate of order four | partial |  | RungeKuttaProps | RK5_step is modelled stage by stage with the literal coefficients; the float parameters are Flocq's rounding to 24 digits. The specification has Butcher's order conditions by rooted trees; the conditions for all trees of at most five vertices are computed on rationals and transferred. Exactness on polynomials and linear systems is algebra. | refuted: rho and the step are parameters of type float (24 binary digits) while rho is advanced by the step in double, so l is not at the position that belongs to the new rho (witness: uniform motion, where the step in doubles is exact).  The order conditions are proved for all trees; that they bound the local error by O(h^6) is Butcher's theorem and is not proved, exactness for polynomials and linear systems is. |
| C124 | IntegrateBounce returns an increasing sequence of Runge-Kutta steps and the status that fits its last point | partial |  | IntegrateProps | The loop is structural recursion on maxiter, the trajectory a list of points with the newest first. An invariant on consecutive points gives the steps, the order of rho and the reasons to go on; the end of the loop gives the status by case distinction. The refutations use a uniform motion that stays on integers, and free fall. | refuted: Overshoot is also returned when the iterations run out before the end of the path; the second derivative returned for rho = 0 omits the friction and is Alpha+1 times the true one.  Everything else is proved for all inputs; NaN and infinities are left out. |
| C125 | The overshoot-undershoot search starts at a minimum with a fitting threshold and covers the whole allowed interval | partial |  | BounceIntervalProps | The members of the object are a record in which Initial_lmin may have no value; reading it then is the outcome Undefined. Newton steps, gradient steps, probes and grid scan are structural recursions with the literal limits. The analytic solutions (C122) are oracles for rho. The minimum over the probes is a fold invariant; the stationary point follows from the mean value theorem used twice. | refuted: on a new object Initial_lmin is read before it has a value (undefined behaviour); on a used object the threshold is the one of the minimum of the earlier path; the fraction of the path is never reduced; the scan for the upper limit evaluates the gradient at a position shifted by the minimum.  Proved: what is stored in each case, that a short Newton step ends near a stationary point, and the interval for a minimum at 0.  Failures inside the analytic solutions are left out. |
| C126 | Deformation of the tunnelling path until the normal force vanishes | partial |  | PathDeformProps | NormalForce is one expression over R with tangent, curvature and gradient as arguments; the two C++ functions differ only in where tangent and curvature come from. The multi-field equation, unit speed and the inner product are in Spec/PathDeformSpec.v. The decomposition is the chain rule plus the projection on the tangent (the curvature of a unit-speed curve is perpendicular because the derivative of the squared speed is 0). K: the product of two Bernstein polynomials of degree n is a multiple of one of degree 2n, and the partial sums of the basis of degree m+1 are antiderivatives of the basis of degree m. PathDeformationCheck is modelled with the three possible quotients (number, infinite, not a number) and std::max as written. The rounds of PathDeformation are a recursion over 200; smoothing, force and gradient as functions of the whole path are arguments; a zero reductor is left out. | refuted: NormalForceBernstein uses a tangent that is not normalised, so its result has a component along the path (even one field gets a normal force); the convergence flag compares the largest force with the largest gradient of all knots, so at a knot the force can equal the whole gradient; and the best path is stored after it was moved by the force, so the recorded error belongs to another path, and on the path handed on the force can be above 5 per cent at every knot. Proved: decomposition of the field equations, perpendicularity for unit speed, the Gram matrix, PathDeformationCheck as an equivalence, the end of the path, what the flag does mean, bounds of step size and error. Missing: that the deformation converges; the solution of the linear system of the projection (Eigen inverse, Simpson's rule for the right-hand side) is an oracle. |
| C127 | Flat directions of the potential are symmetries, and points are converted to representatives | partial |  | FlatDirectionsProps | The potential is an argument, a function of the vector of vacuum expectation values; the three scans, the comparison with precision 1e-8, std::unique and the conversion are modelled as written. Symmetry is in Spec/FlatDirectionsSpec.v (equal values for points with equal squares in the plane). Invariance under rotations is transitive, so with sound lists the listed pairs form an equivalence in lexicographic order; an induction over the first index gives the closed form of the conversion (0, or the norm of the class), from which the claims follow. | refuted: FindFlatDirections compares the potential at (2, 100) and (100, 2), which tests exchange and not rotation; for V = x^4 + y^4 the pair is listed and the conversion changes the potential. Fields listed in flat_1D_dirs are never used by the conversion, so points that differ only there stay different; and triples start at k = j, so a 'three-dimensional' direction (i, j, j) can be listed. Proved: completeness of the three lists, and all claims about the conversion under the hypothesis that each listed plane is a symmetry plane. Missing: rounding; the list NonFlatDirections is only printed and left out. |
| C128 | The search for a stationary point returns a stationary point | partial |  | LocateProps | Model/Locate follows LocateMinimum: the loop with its two conditions, the shifted Hessian and the damped step, over vectors of any dimension as functions; the linear solver is a parameter with the specification that it solves. By induction the result is an iterate of the step; for quadratic functions the gradient after a step is the shift times the solution, and positivity of the Hessian with the Cauchy-Schwarz inequality bounds it. The witness of the refutation has curvature -1/2000 in one dimension. | refuted in part: around a maximum with curvature between -1e-3 and 0 the shift of the diagonal makes every step move away, and the point returned is not stationary; the caller gets no sign of it (C128_stationary_refuted). Proved: the result is the first point with a small gradient or the last of maxiter steps (C128_result_partial); convergence for quadratic functions of any dimension (C128_quadratic). Missing: convergence for functions that are not quadratic; rounding. Eigen's solver is a parameter that is assumed to solve. |
| C129 | Tunnelling starts from the closest copy of the true vacuum, and paths are carried over between temperatures | partial |  | StartPathProps | Model/StartPath follows the loop over the group elements with the vector DeltaVEV as the code builds it (a copy of the false vacuum to which the differences are appended) and WarpPath component by component with its branch for a vanishing difference. The choice is computed for every list of matrices; the map of paths is shown to be affine by induction over the components. Matrices are functions of two indices, numbers are real. | refuted in part: the distance that is compared does not contain the transformed vacuum, so that always the first symmetry (the identity, as FindDiscreteSymmetries lists it first) is chosen, even if another one brings the vacua closer (C129_closest_refuted); a component that is equal in T1 and F1 but not in T2 and F2 makes the carried path end outside of F2 (C129_end_refuted). Proved: which symmetry is chosen (C129_choice_partial), the potential of the image (C129_potential), start, lines and inverse of WarpPath (C129_start, C129_line, C129_back). |
| C130 | One-dimensional grids and approximate equality | partial |  | GridProps | Model/StartPath contains both grids (the exception of at() and a negative number of steps are outcomes) and both comparisons. The points are computed for every index; the count of the vector comparison equals the size iff every component passes. | refuted in part: allow_for_sign_flip has the opposite meaning (C130_flip_refuted); without steps the grid does not start at the low value and a negative number of steps gives no points (C130_steps_refuted). Proved: both grids (C130_line, C130_field), the comparison of values (C130_value, C130_reflexive) and what the comparison of vectors computes (C130_vector_partial). |
| C131 | Decay rate, expansion rate and the fraction of the false vacuum | partial |  | DecayRateProps | Model/DecayRate contains the formulas over the reals; gsl_integration_qags is the Riemann integral of Coquelicot and gsl_deriv_central the derivative. The inner integral is computed in closed form with the fundamental theorem of calculus; integrability of the outer integrand, which jumps at the first and last solution, is proved piece by piece, and monotonicity follows from the additivity and monotonicity of the integral. The bound of the rate uses exp x >= 1 + x. Spec/DecayRateSpec counts degrees of freedom above and below the electroweak scale independently. | refuted in part: CalcGstarPureRad counts the would-be Goldstone bosons among the scalars and again as polarisations of W and Z, three degrees of freedom too many in every model, 109.75 instead of 106.75 in the standard model (C131_degrees_refuted); where the spline of the action is negative the rate is 1e100, larger than for every action that is not negative, though the comment says that this kills the rate (C131_negative_refuted). Proved: Friedmann equation (C131_expansion), the formula of the rate where the action is not negative (C131_rate_partial), range and monotonicity of the fraction (C131_fraction, C131_order), the comoving distance (C131_distance), the time scale (C131_time_scale). Missing: the error of the quadrature and of the numerical derivative, which are exact here. |
| C132 | Second derivatives of eigenvalues | partial |  | EigenSecondProps | Model/EigenSecond follows the function with both Eigen solvers as arguments; a matrix is a function of two indices. The matrix C = (M - l)^2 + v v^T is shown to be injective if the eigenvalue is simple, so that the solution of the linear system is the derivative of the eigenvector, which satisfies the same equation by differentiation of (M - l) v = 0; the formula for the mixed derivative then follows from the derivative of l_x = v M_x v and the symmetry of the matrices. | refuted in part: the threshold for repeated eigenvalues is std::pow(10,-6) stored in a std::size_t, that is 0, so that nothing is ever reported (C132_repeated_refuted, C132_never); an empty matrix is read out of range (C132_empty_refuted). Proved: the layout (C132_layout) and the derivatives, by differentiating the eigenvalue equation (C132_derivatives_partial). Missing: that a differentiable eigenvector exists for a simple eigenvalue is a hypothesis; rounding. |
| C133 | The strength of the transition is the difference of the trace anomalies of the phases | partial |  | AnomalyProps | Model/Anomaly.v has alpha, the density of the radiation, the velocity of mode -1 (with the model of C30) and psi. The specification has Frechet differentiability for n fields, a phase as a differentiable curve of stationary points, and entropy, enthalpy, energy and trace anomaly as derivatives of the pressure along the phase. The envelope theorem is proved from the definition of the derivative with a Lipschitz bound of the curve; the rest is algebra. The example is a potential with two wells whose critical temperature is 2. | refuted in one point: the energy density of the radiation is the one of the degrees of freedom of CalcGstarPureRad, three too many, so that alpha is too small by 427/439 in the standard model (C133_degrees_refuted). Everything else is proved: the temperature derivative at fixed fields is the one along the phase for any number of fields (envelope theorem), alpha is the difference of the trace anomalies, the latent heat at the critical temperature, the bag model, sign and velocity of mode -1, enthalpy ratio of mode -2. Exact real arithmetic; phases are assumed differentiable in the temperature. |
| C134 | Triple Higgs couplings of the mass basis | partial |  | TripleHiggsProps | Model/TripleHiggs.v has LambdaHiggs_3, the six loops of TripleHiggsCouplings, the searches for the positions of the names in the R2HDM, C2HDM, N2HDM, CxSM and CPintheDark over an oracle for "a component in these columns is large", the choice by mass of the N2HDM with its member MSM, and the output of TripleHiggsNLO. The third derivative is defined with three nested derivatives of the polynomial potential; the proof expands the multilinear forms. For the order of the rows the rotation is replaced by the sectors of its rows and all arrangements of the sectors (a finite set, complete by proof) are evaluated by the kernel. The refutations use orthonormal matrices that diagonalise a mass matrix without mixed sectors, with entries 3/5 and 4/5. | refuted for equal masses and for a point that follows another one: massless Goldstone bosons mixed by the diagonalisation give two names to one row of the R2HDM; A and H of equal mass let posN[2] be written behind the array; a massless scalar in the first row of the CxSM (and CP in the dark) is named last; in the N2HDM the member MSM keeps the mass of an earlier point. Proved: the couplings are third directional derivatives of the potential, their symmetry, the order of the rows for unmixed sectors in five models, the columns of the output. The one-loop part enters as a tensor. |
| C135 | Arguments where a spline takes a value | partial |  | SplineRootsProps | `Model/SplineRoots.v` follows `solve_linear`, `solve_quadratic`, `solve_cubic` with its three cases of the discriminant, the rounding tolerances, the sort and the Newton steps (which do nothing at an exact root), and `spline::solve` with the merging of duplicates. The specification knows only the polynomial, its discriminants and the ordered list of all zeros. The trigonometric case is proved with the triple angle formula and the position of the three cosines, the single root with Cardano's formula and the positivity of the remaining quadratic, the double roots by factoring. Knots follow from the characterisation of the piece in `SplineProofs`. The three refutations are concrete splines and parabolas. | refuted: with the default ignore_extrapolation = true the argument of the last point is never returned; a root by up to the tolerance left of a knot is returned though the spline may not have the value anywhere (kink); two roots closer than the rounding tolerance become one number that is no root. Proved in exact arithmetic: for coefficients whose roots are equal or separated by more than the tolerance, solve_cubic gives all real roots in ascending order, each once (Cardano and trigonometric cases and the Newton steps included); solve returns exactly the crossings of the pieces, ascending, if they differ by at least 2^-43, hence every argument before the last point with the value; with extrapolation exactly the arguments outside are added. Rounding of the operations is not modelled, only the tolerances. |
| C136 | The checks of an implemented model find what they name | partial |  | ModelTestsProps | `Model/ModelTests.v` has all test functions of `ModelTestfunctions.cpp` except the one of the CKM matrix, whose result is an argument, `CheckImplementation` and the loop of `Test.cpp`. Doubles are real numbers or NaN, nested vectors are nested lists, and a failing `at()` is the outcome `Throw`. The specification states symmetry with `Permutation` of the index lists, not with the 24 rows of the code. The equivalences are proved by a lemma for early-return loops; the bounds by sums of non-negative numbers; the refutations are concrete points. | refuted: a model without quarks passes the quark test and one with more than twelve throws; a massless electron passes; the vacuum and the one-loop masses are compared without their signs, so a tachyon passes; NaN passes tadpoles, counterterm conditions and simplified potentials; a simplified counterterm potential wrong by 20 percent at all points passes; ragged Yukawa tensors pass or throw; Test returns EXIT_SUCCESS for failing models, for line 1 and for lines after the end without any check; one point with most of these faults is reported with 23 of 23 tests passed. Proved: the tests of scalar, gauge and fermion tensors pass exactly for symmetric tensors of equal dimensions and never throw; the label count; bounds that follow from each passed test for finite numbers; the report is good exactly if all tests passed; the requested line is checked once. |
| C137 | The table of the potential covers the grid that was asked for | partial |  | PotPlotterProps | Model/PotPlotter.v: the options and good(), std::stoi on texts, the loop over the lines of the input file (getline on a text), the nested loops as one function by recursion on the depth with the exception at the sixth level, the slice. The grids of one direction are those of C130. The theorem compares the output with a specification that knows only the values of one coordinate and the combinations of lists; the proof is an induction over the depth with the coordinates that are already fixed as prefix, and shows that the runs of the outer loop with start direction i > 0 write nothing. | refuted in four respects: a direction gets one value more than the requested number of points (C137_points_refuted); a bound of -1 is taken for a missing one (C137_bound_refuted); decimal bounds are cut at the decimal point (C137_decimal_refuted); the line after the last line end is taken for a line and an empty text is given to initModel (C137_line_refuted). Proved: the table is the product grid with each combination once (C137_grid_partial, C137_points, C137_ends, C137_count), the slice (C137_slice), what is refused (C137_refused), the reading of lines and integers (C137_line_partial, C137_integer_partial). With seven or more directions the program ends with std::out_of_range and never reaches its own message (C137_seven). |
| C138 | Scans over temperature and wall velocity visit the requested values and end | partial |  | ProgScansProps | Model/ProgScans.v: the two loops over a type of numbers with addition and comparisons, with the lines written so far and a flag for the end after a number of tests of the loop condition; the minimizer is an oracle that may depend on the number of the call. The positive theorems use real numbers, the refutations of the end use the doubles of SpecFloat (53 bits, rounding to nearest), computed in the kernel. The headers and the failure line are texts, columns are counted by tabulators. | refuted in four respects: with doubles the end of the interval is lost (0 to 0.3 in steps of 0.1, C138_end_refuted); a positive step below the resolution of the start is accepted and the scan never ends (C138_end_of_scan_refuted); PlotEWBG_vw accepts a negative step, never ends and computes at negative velocities (C138_step_refuted); the line without a transition has one column (C138_columns_refuted). Proved with exact arithmetic: the temperatures and velocities and the end of the scans (C138_temperatures_partial, C138_velocities_partial), contents of the rows and starting points (C138_rows), columns of the rows (C138_columns_partial). |
| C139 | Numbers in the tables of the programs stand under their labels | partial |  | ProgTablesProps | Model/ProgTables.v: headers as lists of what their labels name, rows as lists of cells in the order of the output statements; an empty vector after a separator leaves an empty cell. The specification is a function from labels to the contents of one set of results, and the theorems say that the row is this function applied to the header. The lines of the input file are those of Model/PotPlotter.v, with the loop over getline and the loop with eof at the end kept apart. The witness of the summary runs the bisection of Model/Minim.v (C139_summary_refuted). | refuted in three respects: without a strong transition CalculateEWBG writes the vevs one column too early and the ratio in the column of the last vev (C139_EWBG_refuted; C139_EWBG_weak_partial says what is written); a transition found with a vanishing vev ends CalculateEWBG for a single line with std::out_of_range (C139_summary_refuted, with a run of the bisection); NLOVEV takes the end of a file that ends with a line end for one more line (C139_NLOVEV_lines_refuted). Proved: rows and headers of BSMPT, CalcCT and NLOVEV, of CalculateEWBG with a strong transition, the summary then, and the choice of lines (C139_BSMPT, C139_CalcCT, C139_NLOVEV, C139_EWBG_partial, C139_summary_partial, C139_lines, C139_file). |
| C140 | Tables of traced minima | partial | History, MinimaTables, Report, Tracer | MinimaTablesProps | Model/MinimaTables.v: legend, rows and file names as texts, the loop over the lines is read_file of Model/Report.v; setUseIndexCol, initModel and the tracing of a line are one oracle. The specification splits lines at tabs and gives label and content of a column separately; induction over the phases. | refuted for the last clause: a first line of 1 passes good() and the legend is traced as a parameter point (C140_points_refuted); for first lines from 2 on there is one file per parameter point (C140_points_partial). Proved in general: names, legend, number of rows, content of every column (C140_table), distinct names (C140_names), accepted line numbers (C140_lines_good). |
| C141 | Searches by the minimisation libraries | partial | LocalMin, Plane | LocalMinProps | Model/LocalMin.v: bounds as functions of the tree-level vev over R, the library is an oracle behind the check of its arguments (start inside of the bounds, otherwise std::invalid_argument), loops with fuel equal to their bound. Proofs by cases on the sign and induction over the fields and the steps. | refuted for fields below -300 GeV at tree level: the upper bound is 1.5 v instead of 1.5 |v|, the box has no width and contains neither the minimum nor the starting point (C141_box_refuted), so the search always fails (C141_search_refuted) and the search on a plane throws (C141_plane_refuted). Proved for all other tree-level minima (C141_box_partial, C141_search_partial, C141_plane_partial); results, codes, simplex and FindNextLocalMinima in general. |
| C142 | WeinbergThirdDerivative and WeinbergForthDerivative are the third and fourth derivatives of the one-loop potential | partial |  | WeinbergHigherProps | the contraction with a direction turns the rotated couplings into diagonal entries (orthonormal rotation of the Higgs fields); symmetrisation drops out of the contraction; the loop functions at equal masses are evaluated; a chain of four derivatives of m^4 (log m^2 - c) along the line is shown with Coquelicot to exist in a neighbourhood and compared; totality from non-negative arguments of all logarithms | refuted for states with a squared mass between 0 and 1e-8 (third) or 1e-6 (fourth): the loop functions take it for 0 and the contribution is lost, also that of fermions, whose small masses are not cut before (C142_light_refuted). Proved: error before the couplings are known, numbers for squared masses that are not negative, none for negative ones, full symmetry, and equality with the derivatives along every line on which the rotations keep the squared mass matrices diagonal and states have squared masses of at least 1e-5 or are massless throughout. Missing: lines on which states mix. |
| C143 | The diagram of the phases shows where each phase exists | partial |  | PhaseDiagramProps | the integer parts that give the numbers of blanks are compared with the edges of the cells (Qfloor, field over Q); case distinction over the cell | refuted: every eighth phase is plotted with the null character (sizeof counts the end of the string), and a phase with a single temperature at an edge of a cell is plotted at 0/0 (C143_markers_refuted, C143_samples_refuted). Proved: the bar for all phases in the range, std::length_error for all others, the temperatures for all phases with different ends, markers of the others. Doubles are rational numbers. |
| C144 | Integrate_mubl_interpolated is the baryon asymmetry that the sphalerons leave at the wall | proved |  | EtaMublProps | integrating factor exp(-nu z): the fundamental theorem of calculus (Coquelicot) for density times factor; the error of the interpolation by an estimate of the integral | the integrals of GSL are exact, doubles are real numbers; mu_BL and the spline of Boost are arbitrary functions. |
| C145 | Signal-to-noise ratio of gravitational waves | proved |  | SNRProps | Model/SNR.v transcribes GetSNR, the noise functions and the integrand over the reals on top of the spectrum of Model/GW.v. The integral of GSL is the Riemann integral. Spec/SNRSpec.v states the LISA sensitivity and the ratio on its own. The integrand is shown to be continuous for positive frequencies, hence integrable. The two bounds between the ratios of the sources come from positivity of the spectra and from the Cauchy-Schwarz inequality for integrals, proved by the discriminant. An object whose peak data are set does not change in an evaluation, so the turbulence fraction may be zero. | For all transitions, sources, bands and times. The integral of GSL is taken as exact; rounding is not modelled. |
| C146 | Fermion masses along the wall and the derivatives of their squares | proved |  | WallMassesProps | Model/WallMasses.v transcribes top_func and tau_func on top of the profiles of Model/WallProfile.v; QuarkMassesSquared and LeptonMassesSquared are a parameter, and an index out of range is a distinct outcome. Spec/WallMassesSpec.v describes the fields by 1/(1+exp(2z/LW)) and says what the query has to answer. The fields at all positions are multiples of the critical ones, so the chain rule along that line gives the derivative. | For all walls, positions and mass functions. Eigenvalues and their derivatives are a query of the model that is assumed to answer correctly along the wall (C119 is about that query). |
| C147 | Statistical factor of the transport equations | proved |  | WallMassesProps | The integral is the Riemann integral of the transcribed integrand, which is continuous from the first point on. Positivity and monotonicity compare integrands and splits of the range. The bound integrates x^2 exp(-x) by its antiderivative. | For all temperatures and masses. The adaptive integration is taken as exact; it takes no step if the start is not below the end. |
| C148 | Points of all fields and vacuum expectation values convert into each other | proved |  | VevDimProps | Model/VevDim.v transcribes ConvertToVEVDim with the exception of at as an outcome. The proofs use the description of MinimizeOrderVEV proved for C53 (coordinate k sits at field VevOrder[k], all other fields vanish) and compare lists entry by entry. | For all tables and vectors; the standard model, whose table does not contain the last field, is the refuted case of C53. |
| C149 | A traced minimum is recognised as the global one | partial |  | GlobMinProps | Model/GlobMin.v transcribes GetGlobalMinimum and IsGlobMin on top of MinimizeOrderVEV and ConvertToVEVDim (C148), with the minimiser and the two reductions as arbitrary functions. The distance is compared with an independent definition (Spec/StartPathSpec.v). The refutation is a quartic potential with minima at 0 and 3, of which the minimiser returns the higher one. | refuted: IsGlobMin compares positions only and never the potential, so the true global minimum is reported as not global whenever the minimiser returns a higher local minimum; the position criterion and its consequences are proved, for any reduction functions. |

## 5. Trusted base

* Coq 8.16.1 kernel (and `coqchk`), with the axioms listed in section 7 and no others.  All of them come from
  Coq's standard library (classical real numbers, functional extensionality, excluded middle).
* The reading of the C++ code in `Model/*.v`: every definition cites the lines it was read from.

| Model file | Code it models | What is an oracle or left out |
|------------|----------------|-------------------------------|
| Base | outcomes of a call (value, exception, undefined behaviour, no end) | message texts |
| Strings, Parser | utility.cpp 19-48, parser.cpp, parser.h | help text; json syntax errors and members that are not strings; locale is "C" |
| Logger | Logger.h, Logger.cpp | where the text is written |
| Models | IncludeAllModels.h/.cpp | construction of the model objects |
| Vectors, NumDeriv | utility.h 115-245, utility.cpp 56-82, NumericalDerivatives.cpp 6-81 | rounding |
| Phase, MultiStep, Modes | minimum_tracer.cpp 1505-1846, 1848-2190, 2268-2690, 2776-2798 | locating and tracking of minima, comparison of two phases, check for the global minimum (arbitrary functions that may answer differently at every call) |
| Track | minimum_tracer.cpp 147-698 | field points, potential, Hessian matrix (tests answered by an oracle per iteration) |
| Tc, EWSR, Signs | minimum_tracer.cpp 1291-1378, 1174-1270, 700-727, 965-1051; ClassPotentialOrigin.cpp 3710-3744 | potential difference (its sign), eigenvalues and linear solver; rounding |
| BounceScan | bounce_solution.cpp 118-458, 601-797 | a single bounce calculation, infinite actions |
| Tracer, History, Report, Options | transition_tracer.cpp, bounce_solution.cpp 799-1053, CalcTemps.cpp, CalcGW.cpp | numerics of each stage, formatting of numbers, file system, stoi/stod |
| GW, SNR | gw.cpp 54-278; bounce_solution.cpp 992-1053 | the integration routine of GSL; rounding |
| Action | action_calculation.cpp: binomials, Bernstein, matching, quadrature, control flow | Runge-Kutta integration, path deformation forces, rounding |
| CVSpline, Spline, Ascii | const_velocity_spline.cpp, spline.cpp (without the root finders), asciiplotter.cpp | rounding (also float members) |
| Thermal, Loop, Potential | ThermalFunctions.cpp, ClassPotentialOrigin.cpp (tensors, tree, counterterm, CW and loop functions, vev conversion) | zeta values (parameters or exact), numerical integration, fbaseFour, Debye masses, rounding |
| Minim, Plane | Minimizer.cpp, MinimizeGSL.cpp, MinimizePlane.cpp | the numerical minimisers; rounding |
| Anomaly, DecayRate | bounce_solution.cpp 564-601, 717-722, 852-1090 | integrals and derivatives of GSL are exact; rounding |
| BounceInterval, BounceStart, RungeKutta, PathDeform | action_calculation.cpp 124-514, 536-838, 1003-1456 | rounding; conversion to float is a function; the spline of the path is given |
| StartPath, Locate, FlatDirections | bounce_solution.cpp 74-116; minimum_tracer.cpp 54-122, 734-963, 1095-1127, 1380-1472 | gradient and Hessian matrix, linear solver; rounding |
| PhaseDiagram | minimum_tracer.cpp 2192-2266 | the plot, the fields along a phase; rounding |
| WallThickness, Debye | wall thickness from the barrier (WallThicknessLib.cpp); thermal masses (ClassPotentialOrigin.cpp 3223-3400 and overrides) | minimisers, splines; rounding |
| SplineRoots | spline.cpp 434-492, 659-864 | rounding (its estimates are kept) |
| Tables, PotSM, PotCxSM, PotR2HDM, PotC2HDM, PotN2HDM, PotCPintheDark, Gauge, Yukawa, Simplified, Vacua, CTs, ReadLine | ClassPotential*.cpp of the six models: coupling tensors, vacuum, counterterms, reading of a line | derivatives of the one-loop potential are inputs; division by zero excluded; rounding |
| SMConst | SMParam.cpp | rounding |
| OneLoop, LoopFour, EigenDeriv, EigenSecond, Weinberg, WeinbergHigher, TripleHiggs, LifeCycle | ClassPotentialOrigin.cpp 61-78, 389-2322, 2420-3221; TripleHiggsNLO.cpp | the eigensolver and linear solver of Eigen; rounding |
| ModelTests | ModelTestfunctions.cpp, ClassPotentialOrigin.cpp 3544-3707, Test.cpp | the numbers that are compared; NaN is kept |
| LocalMin | MinimizeNLOPT.cpp, MinimizeGSL.cpp, FindNextLocalMinima | one call of NLopt, one iteration of the simplex; rounding |
| WallProfile, WallMasses, WallInit, Transport, KFunctions | transport_equations.cpp, Kfactors.cpp, gen_func_fluid.cpp 230-265, 402-461, 520-555 | ODE and Monte Carlo integration, tables of K; rounding |
| Fluid, Rates, Density, Eta, EtaConfig, EtaMubl | Fluid_Type/*.cpp, CalculateEtaInterface.cpp, transport_equations.cpp 901-1000 | ODE and momentum integration, spline of Boost; rounding |
| PotPlotter, ProgScans, ProgTables, MinimaTables | the programs PotPlotter, VEVEVO, PlotEWBG_vw, PlotEWBG_nL, BSMPT, CalculateEWBG, CalcCT, NLOVEV, MinimaTracer | results of the numerical stages, formatting of numbers, file system; the scans also with IEEE doubles |

Not modelled at all: the template model, the tabulated thermal function for negative squared masses, deprecated functions, the
internals of GSL, NLopt, libcmaes, Eigen and Boost, memory allocation, compiler behaviour.

## 6. Findings: where the code does not do what it promises

Each item is backed by a `_refuted` (or exact characterisation) theorem of the property in brackets, unless marked
"observed", which means it was seen while reading the code but is not the subject of a theorem.

**Command line and logger**
* [C01] An optional argument that already has a value and is declared again as required hides its value.
* [C04] An argument that consists of dashes only escapes as `std::out_of_range` instead of the parser's exception.
* [C06] `--logginglevel::bouncedetailed=false` is overridden by `complete=true`; it is the only option not honoured.
* [C07] `Logger.cpp` 108 dereferences the end iterator for every raw argument it does not recognise.
* [C56] CalcTemps rejects the documented value `keep_ewsr`.
* [C73] NaN passes all range checks of CalcTemps and CalcGW, `--thigh=inf` passes too; CalcGW accepts a negative first line and `thigh=0`.
* [C74] Arguments after the fifth positional one are dropped silently.
* [C77] `--json` is honoured only if it is the sole argument and lower case.
* [C78] `--usegsl=True` means "on" in most programs but "off" in CalcTemps and CalcGW.
* [C90] Unknown words for `--checknlo`, `--checkewsr`, `--trans_temp` silently select the default.

**Phase tracing**
* [C12] `Phase::Add` on a default-constructed phase leaves its temperature range at 0.
* [C13, C14] After the shortened last step `TrackPhase` goes back a full step, so minima outside the range are recorded, and it alternates for ever if the minimiser fails exactly at the final temperature.
* [C16] The plotting loop of `CalculateTc` never ends for phases that touch at a single temperature.
* [C17, C21] A phase patched into a gap keeps id 0; with duplicate ids the history evaluation does not end.
* [C18] `MultiStepPTTracer` recurses without end if a traced phase has a single minimum, and leaves gaps when a two-minimum phase is discarded.
* [C19] `DoGlobMinOverlap` has undefined behaviour exactly when the new phase lies strictly inside the old one.
* [C20] `ReduceVEV` does not give one representative per orbit for groups whose flips are not independent.
* [C62] If a probe of `FindZeroSmallestEigenvalue` hits the zero exactly, the last accepted temperature is returned, which can be far away.
* [C93] Mode 1: success although nothing above the low-temperature phase was traced (T_low = 0 and failed tracking from above); uncaught `invalid_argument` when an outer phase ends within 1 GeV of the range; undefined behaviour for nested intermediate phases; endless loop.
* [C94] Mode 2: one variable holds the ends of the upward and the downward tracking, so the lower bound moves down; uninitialised ends are read after a failed tracking; a gap of 2 GeV is left; endless loop.
* [C95] The vacuum object reports success in the situation of C93; mode numbers outside -1..3 are accepted and trace nothing.
* [C82, C83] `IsThereEWSymmetryRestoration`: the documented status 1 is unreachable, flat potentials return 0, the stored high-temperature minimum has the wrong sign.
* Observed: typo `ew_syum_non_res` in minimum_tracer.h 80; `almost_the_same` inverts `allow_for_sign_flip`; `GetGlobalMinimum(Temp)` passes a vector of size NHiggs; `PrintPhasesDiagram` overruns its buffers for more than ten phases.

**Transitions and bounce**
* [C25, C64] The user's percolation and completion fractions and the wall velocity are ignored in the searches for these temperatures.
* [C26] The reported wall velocity is always 0.95.
* [C29] Percolation can be reported as success with temperature -1; a crossing hit exactly at a midpoint is missed.
* [C65] `CalculatePTStrength` recurses without end for strength 0 or NaN.
* [C66] With transition temperature 1, 2 or 4 one pair without percolation aborts the whole run.
* [C67] `GWInitialScan` never ends if the lower end of the region is the critical temperature.
* [C81] `trans_temp` differs from the reported percolation temperature.
* [C89] The secondary scan gives up half-way because its bound shrinks while the counter grows.
* [C46] `nChoosek` overflows for n = 31.
* [C48] The action integral of a constant slope is too large by 8006001/8000000 (three dimensions) or (2001/2000)^2 (four); a zero radius never ends.
* [C49] A potential for which every trajectory falls short still counts as converged; the state Success is never assigned.
* [C54, C75] `add_point` reads one element past its end; line 137 of const_velocity_spline.cpp integrates from the wrong position.
* [C72] The blending of the two solutions near the true minimum has the wrong direction if the minimum lies further along the path than the threshold.

**Gravitational waves**
* [C30] Wall velocity mode -2 can exceed the speed of light.
* [C32] The first evaluation of a fresh spectrum object is NaN.
* [C33] The turbulence exponent 11/3 is an integer division, the exponent is 3.
* [C84] The kinetic energy fraction exceeds 1 for strong deflagrations.
* Observed: `GetSNR` sets its status to success unconditionally.

**Potential, thermal functions, minimisers**
* [C10] Matrix times vector throws for every non-square matrix.
* [C35, C86] The exponent `(1-l)/2` of line 300 of ThermalFunctions.cpp is an integer division; derivatives jump at the thresholds.
* [C57] The zero-temperature part of the boson derivative has the wrong sign for negative squared masses.
* [C58] `fbase` and `fbaseTri` depend on the order of their arguments inside the degeneracy thresholds.
* [C52] With a vector of nVEV components the requested order is dropped.
* [C53, C70] The Standard Model's VEV table is too short; `SetEWVEVZero` assumes gauge-coupled coordinates first.
* [C59] NaN components are accepted by the NLO stability check.
* [C38] Without multithreading the CMA-ES candidate is computed but ignored; a NaN potential at the origin hides all candidates.
* [C39] The legacy search reports SUCCESS with v_c = 0.
* [C40] Two workers can pop the same last starting point.
* [C41] Tracing overshoots the final temperature for small steps and never ends for a step in the wrong direction.

**Models**
* [C98] Negative TanBeta: only R2HDM gives sin(beta) its sign; in C2HDM and N2HDM the stored vacuum is then not a stationary point.
* [C98] CPintheDark takes m11^2 as an input although the minimum condition fixes it; nothing checks it.
* [C99] R2HDM sets second derivatives of the one-loop potential up to 1e-3 to zero before it computes counterterms, CxSM derivatives and counterterms up to 1e-5; the renormalisation conditions then fail by that amount.
* [C99] N2HDM leaves `VSol` uninitialised when the singlet vev is zero and returns it.
* [C99] CxSM with both singlet vevs cannot cancel the mixings of the doublet with both singlet components; the formula uses only one of them.
* [C100] The simplified potentials of C2HDM and CPintheDark ignore all fields outside the vacuum directions, also when VTree gets the full field vector; the derivative branch does not.
* [C101] `set_All` on an initialised object keeps the old coupling tensors, because only `initModel` resets the flags.
* [C101] The C2HDM caches the triple Higgs couplings; after `resetScale` they belong to the old scale.
* [C102] Temperature derivative of the potential (`VEff(v, T, -1)`, used for alpha and the wall velocity): the derivative of the thermal masses in the Debye term is missing, an error of -T/(8 pi) sum sqrt(m) dm/dT.
* [C102] Field derivatives at T > 0: `boson` and `fermion` add the thermal part only for diff = 1, but V1Loop passes the index of the field, so it is missing for all fields but the first.
* [C102] With `C_UseParwani`, field derivatives use the scalar constant 3/2 for gauge bosons and the temperature derivative multiplies by the value of the boson term in place of its mass derivative.
* [C103] `VEff` called with vacuum coordinates drops the argument Order.
* [C104] `ReadAndSet` never checks its stream: a short line repeats its last number in the missing parameters, a malformed number or a textual index column gives zeros, an empty line uses an uninitialised double.
* [C104] `Class_SM::set_gen` ignores the muSq and lambda it reads from the file.
* [C105] The CxSM takes v_h from the input line and never compares it with C_vev0, from which the gauge couplings are computed; the W and Z masses are off by the ratio.
* [C106] A Yukawa type outside 1..4 (also the default 0) is accepted in the R2HDM, C2HDM and N2HDM and gives down-type quarks and leptons the mass m cos(beta)/sin(beta).
* [C107] `CalculateDebyeSimplified` of R2HDM, C2HDM and N2HDM leaves out the light quarks and all leptons although their couplings are set, so `CalculateDebye(true)` and `CalculateDebye(false)` differ (e.g. by m_tau^2/(6 v_1^2) in Type II). `CalculateDebye` sets thermal masses up to 1e-5 to zero: a weakly coupled singlet gets none.
* [C108] `calculate_vev` and `gen_phi` run from the critical vev to zero; the symmetric vev that was minimised for is not used.
* [C109] In the second-order transport equations `dSt` is not the derivative of the source: the terms with the third derivative of theta and the second of m^2 are missing.
* [C110] bot_source/tau_source: `mu_Y_b` contains the Higgs densities with the sign opposite to the reaction terms, so the bottom Yukawa reaction can raise the free energy.
* [C110] top_source: the equation of the right-handed top has no strong sphaleron term; with kappa_q = kappa_tL kappa_bL/(kappa_tL+kappa_bL) it is also not the massless bottom case of bot_source.
* [C110] The bottom and tau sources are dropped unless both mass flags are 1; a massive tau with a massless bottom quark has no source.
* [C110] nL = q - 2u (and its counterparts) counts one of the two light generations of the network.
* [C111] `Calc_Scp` divides by k^4 in one term where the expansion has w^4 (the mass-difference terms are those of w^4).
* [C111] `Calc_Gam_M` and `Calc_Scp` use three colours for the tau as well.
* [C111] `Calc_Gam_M` throws for T below about 14 since exp overflows at the upper end of the integration range.
* [C111] `Calc_ThermalMass_q` uses the hypercharge of the top for the bottom; `Calc_ThermalMass_l` has 3/4 g'^2 where the charges give 3/32.
* [C111] Yukawa types 3 and 4 are not accepted by gen_fluid::set_class.
* [C112] Calc_eta continues the baryon density behind the wall with full washout; for a frozen density (sphalerons suppressed in the broken phase) the result is smaller by (vw+omega)/(2 omega).
* [C112] `Nintegrate_eta` documents z_start as the far end; the callers pass 0 as z_start, which turns the sign of prefactor times integral.
* [C112] `Calc_eta::set_class` accepts decreasing z but hands nL to the spline in unreversed order.
* [C113] The diffusion networks have vw n' - D n'' with the broken phase at z < 0, i.e. a wall moving towards the broken phase; Calc_eta and the Fromme-Huber equations have the opposite sign.
* [C114] `K8fermion_normalized` divides by CalculateNorm2 instead of CalculateNorm1 (K_functions and the comment in transport_equations.cpp 550 use the first): the K8 term of the source has the opposite sign and the wrong dimension.
* [C115] "Massive: no" in the EWBG configuration gives bottom mass flag 0, but bot_source and tau_source accept 1 and 2 only: CalcEta throws.
* [C115] `setNumerics` stores velocity, temperature and vevs before it checks the model; after the exception CalcEta() mixes them with the old wall.
* [C116] calculate_wall_thickness_plane: `while (index < size) at(index++)` in several threads can run past the end; the exception leaves the thread and std::terminate ends the program. With hardware_concurrency() = 0 nothing is computed and the thickness is infinite.
* [C117] `GSL_Find_Maximum_line` minimises -V but keeps the solution with the largest -V, i.e. the lowest of the maxima found.
* [C117] It evaluates V at tmax * vcritical and at the origin, although the line starts at vevsymmetric.
* [C117] Its do-while loop never ends if the minimiser keeps failing (ntry is counted but not used).
* [C118] `GSL_integration_mubl::init` folds the critical vacuum, the symmetric vacuum and the minimum in the plane independently. Two vacua on the same side can end up on different sides, so that the wall passes through the wrong region (`C118_ends_refuted`).
* [C118] The first fitting sign symmetry is used, not the nearest (`C118_nearest_refuted`).
* [C118] The phase is reduced to [-pi/2, pi/2] separately in both vacua, so that phases of 0.49 pi and 0.51 pi give a difference of -0.98 pi (`C118_jump`); of an imaginary mass the sign of the phase depends on the order of the eigenvalues (`C118_order_refuted`).
* [C118] `QuarkMasses` and `LeptonMasses` return eigenvalues in the order of Eigen's solver, whose documentation promises no order; the entries size-1 to size-4 are taken to be top and bottom.
* [C119] **`HiggsMassesSquared(v, Temp, diff)` calls `HiggsMassMatrix(v, Temp, diff)`**, which for diff <> 0 returns the *derivative* of the mass matrix. So for diff <> 0 the numbers returned as squared masses are eigenvalues of the derivative matrix, independent of the mass parameters, and the derivatives equal them (`C119_higgs_refuted`, `C119_higgs_twice`). For diff = -1 they do not depend on the fields (`C119_higgs_fields`), so that in the transition strength alpha of `CalculatePTStrength` the Higgs part of dV/dT cancels between the two vacua (`C119_potential_temperature`).
* [C119] `FirstDerivativeOfEigenvalues` sorts the derivatives of eigenvalues within 1e-6 GeV^2 of each other; for eigenvalues that differ, the derivatives may be attached to the wrong one (`C119_close_refuted`).
* [C119] `FirstDerivativeOfEigenvalues` sets squared masses below 1e-6 GeV^2 to 0, the mass routines with diff = 0 only those below 1e-10 (fermions): the electron is massless beside its derivative (`C119_light_fermions`).
* [C120] fbaseFour (ClassPotentialOrigin.cpp 566-661) returns 0 for one vanishing and three different non-zero masses: the branches for exactly one vanishing mass test only whether two of the others agree and do nothing otherwise, so that the branches written for three different masses (664-701) are unreachable. The correct value is always negative.
* [C120] For three vanishing masses fbaseFour returns ln(a/scale^2)/a^2; the difference quotient of fbaseTri, whose infrared divergence is treated by dropping the logarithm of zero, gives (ln(a/scale^2) - 1)/a^2, and the finite part of the divided difference has -3/2.
* [C121] CalculatePhysicalCouplings rotates quarks and leptons with the real part of the eigenvectors of a complex Hermitian matrix (lines 1054 and 1059). If the eigenvectors cannot be chosen real, or are just returned with a phase, the couplings and all derivatives built from them are wrong. For the neutral vacua of the shipped models the matrices are real.
* [C121] For a negative squared scalar mass both derivatives consist of NaN although V1Loop itself is defined (it takes absolute values).
* [C122] ExactSolutionLin (action_calculation.cpp:442-452): d2Vdl2 = 0 ends in the branch "Alpha must be 2 or 3" and the returned step ignores the friction term: position and speed are too large by the factor Alpha + 1 = 3 or 4. The same step is returned at 460-462.
* [C122] ExactSolutionLin and ExactSolutionFromMinimum (action_calculation.cpp:313-317, 491-496): the search widens rho_up only to 101 (100); if the field rolls more slowly than that the requested position is returned together with a rho at which the solution has not reached it, without any message.
* [C123] `RK5_step` takes `float rho, float h` (action_calculation.cpp 175-176). The caller keeps both in double, so every step has a relative error of up to 2^-24 in the step and in the friction term, while the tolerance asked for is error*0.0015.
* [C124] When `maxiter` is used up, `IntegrateBounce` reports Overshoot although the end of the path was not reached (725-726), so the search for the start moves the wrong way.
* [C124] `d2ldrho2(l0, 0, 0)` is dV/dl; the acceleration of the motion at rho = 0 is dV/dl/(Alpha+1) (153-160, 652).
* [C125] `BackwardsPropagation` calls `CalculateExactSolutionThreshold()` before `Initial_lmin = l0` (action_calculation.cpp 746-747, 767-768). The member has no initialiser (action_calculation.h 60): the first call reads an indeterminate value, later calls use the minimum of the previous path.
* [C125] The retry with a smaller `FractionOfThePathExact` (566-569) is never executed: the fraction starts at 1e-4 and the test returns for fractions up to 1e-4.
* [C125] The scan for the upper limit takes the gradient at `(L - lmin) * j / resolution` (833), without the `lmin +` of the line before, so the interval is cut too early for negative and too late for positive minima.
* [C126] NormalForceBernstein (action_calculation.cpp 140-151) projects with temp_dphi, which is not normalised, so the "normal" force has a component along the path and the knots drift along it.
* [C126] SinglePathDeformation sets MaximumRelativeError = MaximumForce / MaximumGradient (1254; the per-knot ratio is commented out above it), while PathDeformation and PathDeformationCheck use the ratio at each point: the flag PathDeformationConvergedWithout1D can be true although at a knot the force is as large as the gradient.
* [C126] SinglePathDeformation moves next_path by force / reductor before it is stored as best_path (1234, 1269), so MaximumRelativeError is the error of the path before the move.
* [C127] FindFlatDirections (minimum_tracer.cpp 776-946) takes a symmetry under exchange of two or three fields for a rotational one (V = x^4 + y^4); ConvertToNonFlatDirections then moves points to places with another potential.
* [C127] flat_1D_dirs and flat_3D_dirs are never used by ConvertToNonFlatDirections; the loop over k starts at j instead of j + 1.
* [C128] `LocateMinimum` (minimum_tracer.cpp 54) returns a point that is not stationary without notice when the steps run out; around a weak maximum (curvature between -1e-3 and 0) the shift `HessianDiagonalShift` makes it run away.
* [C129] `CalculateOptimalDiscreteSymmetry` (bounce_solution.cpp 74) never uses `CandidateTrueVacuum`: the compared norm is that of the false vacuum followed by false minus untransformed true vacuum, so that the first group element is always chosen.
* [C129] `WarpPath` (minimum_tracer.cpp 749) does not reach the new false vacuum when a component of the old vacua is equal.
* [C130] `almost_the_same` for vectors (minimum_tracer.cpp 1453) compares absolute values when `allow_for_sign_flip` is false and signed values when it is true.
* [C131] `CalcGstarPureRad` (bounce_solution.cpp 594) counts 3 polarisations for W and Z and all NHiggs real scalars including the would-be Goldstone bosons: g* is too large by 3 (109.75 in the standard model).
* [C131] `TunnelingRate` (bounce_solution.cpp 569) returns 1e100 for a negative action; the comment says that it kills the tunnelling rate, but it makes tunnelling certain.
* [C132] `SecondDerivativeOfEigenvaluesNonRepeated` (ClassPotentialOrigin.cpp 898): `const std::size_t EVThres = std::pow(10, -6)` is 0, so that repeated eigenvalues are never reported; `nSize - 1` underflows for an empty matrix.
* [C133] `CalculatePTStrength` divides by the energy density of 109.75 instead of 106.75 degrees of freedom (see C131): alpha is 2.7 per cent too small in the standard model.
* [C134] `TripleHiggsCouplings` of the R2HDM (and alike in the C2HDM and N2HDM) searches the names by "a component is large": for degenerate masses, where the diagonalisation may mix sectors, two names get the same row and another row is lost; with A and H of equal mass three rows have a CP-even part and `posN[2]` is written behind its end (undefined behaviour).
* [C134] `TripleHiggsCouplings` of CxSM and CPintheDark uses 0 for "not set yet": a scalar in row 0 (massless or with negative mass squared) is overwritten and ends as the last of the three names.
* [C134] `ClassPotentialN2HDM::TripleHiggsCouplings` keeps `MSM` in a member: for a point without a scalar between 124 and 126 GeV the names depend on the point calculated before.
* [C135] `spline.cpp` 470: a root must lie strictly before the end of its piece, so with the default `ignore_extrapolation = true` the last point is never returned. A caller that inverts the spline at its end value gets an empty vector.
* [C135] `spline.cpp` 469-481: a root up to 512 eps left of a knot is accepted for the piece on the right, so for a kinked spline an argument is returned although the value is never taken.
* [C135] `spline.cpp` 690-740: two roots of a parabola whose discriminant is below the rounding tolerance are merged into the vertex, which is no root; the result has one entry where there are two crossings.
* [C136] `ModelTestfunctions.cpp` 421-424: the loop over the quark masses runs over the calculated ones only. A model without quarks passes, a model with more than twelve ends in `std::out_of_range`. The lepton test handles both cases.
* [C136] `ModelTestfunctions.cpp` 349: the bound 1e-5 on squared masses is larger than the squared mass of the electron (2.6e-7), so its mass is not tested.
* [C136] `ModelTestfunctions.cpp` 557: `abs(abs(NLO) - tree)` accepts a negative squared mass at one loop; 468-470 accepts a minimum with other signs of the components.
* [C136] `ModelTestfunctions.cpp` 632: the threshold of `CheckVCounterSimplified` is 1 for a sum of ten relative differences (1e-5 for the tree-level potential), so a counterterm potential wrong by 20 percent everywhere passes.
* [C136] All tests of the form `sum > bound` pass for NaN.
* [C136] `Test.cpp` 81-102: the exit status is EXIT_SUCCESS whether or not the tests pass, and also if the line does not exist or is the header and nothing was tested.
* [C137] PotPlotter.cpp 505-607: the bounds of the grid are doubles that are read with get_value<int>, so `--low1=0.9` scans from 0; 412-417: -1 is the marker of a missing bound, so a grid that starts or ends at -1 GeV is refused; help text 658-684: "number of points" is the number of steps (one value more is written) and the stated default 0 of the bounds is -1.
* [C137] PotPlotter.cpp 92-110: a file that ends with a line end has one more, empty, line for the loop; asking for it calls initModel with an empty text instead of "Line not found".
* [C137] PotPlotter.cpp 200-208: npoints.at(i) throws std::out_of_range for more than six field directions, also if nothing is scanned; the message of the innermost loop cannot be reached.
* [C138] PlotEWBG_vw.cpp 269: the test is `vw_Stepsize == 0` while the message asks for a step larger than 0; with a negative step the loop of 154 never ends and CalcEta is called with negative velocities.
* [C138] VEVEVO.cpp 118 (and PlotEWBG_vw.cpp 154): the loop variable is a sum of doubles; the requested end is missed (0, 0.1, 0.2 for an end of 0.3) or, for a step below the resolution of the start, the loop does not end.
* [C138] PlotEWBG_vw.cpp 172, PlotEWBG_nL.cpp 209: the line for a point without a strong transition is `-1-1-1-1-1`, one column without separators and without the input line.
* [C139] CalculateEWBG.cpp 190-192: for points without a strong transition EWMinimum is written before vc/Tc, while header and the other branch have the ratio first; all vevs are in the wrong column (the ratio in the column of the last vev).
* [C139] CalculateEWBG.cpp 228-229: with a single line and a transition that succeeded with vc = 0 (C_PT is 0), eta is empty and eta.at(i) throws; the program ends with EXIT_FAILURE.
* [C139] NLOVEV.cpp 83-134: the loop ends after eof(), so a file that ends with a line end has one more, empty, line; if LastLine includes it, initModel is called with an empty text and a row is written.
* [C140] MinimaTracer.cpp 90-94 (likewise CalcTemps.cpp 99-103, CalcGW.cpp 102-106): unlike BSMPT.cpp there is no check linecounter != 1, and firstline = 1 is accepted, so the legend is given to initModel as a parameter point.
* [C141] MinimizeNLOPT.cpp 43-46, 102-105, 114-118: UpperBound is set to 1.5 * vevTreeMin without the modulus; for a vev below -300 GeV (e.g. a singlet) both bounds are the same negative number, the start at 0 is outside, and NLopt refuses to run: no minimum in MinimizeUsingNLOPT, an uncaught std::invalid_argument in MinimizePlaneUsingNLOPT.
* [C142] The third and fourth derivatives of the one-loop potential lose the contribution of states with squared masses below 1e-8 and 1e-6 (the loop functions fbaseTri and fbaseFour take them for massless). For a fermion with Yukawa coupling 1 at a field value of 1e-5 the fourth derivative is wrong by more than 0.1.
* [C143] `PrintPhasesDiagram` takes `sizeof` of a string literal for the number of markers, so that every eighth phase is plotted with the null character; a phase with a single temperature can be plotted at 0/0.
* [C149] `MinimumTracer::IsGlobMin` compares positions only. If the minimiser returns a local minimum that lies above the traced one, the traced minimum is reported as not global although its potential is lower; comparing the potentials would notice this.

**Utilities**
* [C44] `spline.cpp` 181 overwrites rhs[0], so the left boundary value is lost with not-a-knot on the right.
* [C45] `make_monotonic` leaves overshoot next to local extrema.
* [C55] The text plotter divides by zero for constant data or a single abscissa, overruns an array for more than ten curves and pads with 2^63 blanks for long titles.

## 7. Axioms (output of `Print Assumptions` for every property theorem)

* **No axioms** ("Closed under the global context") (279 theorems): C01_names_ignore_case, C01_last_value_wins, C01_undeclared_throws, C01_declare_neutral, C01_redeclaration_refuted, C02_throws_iff_unknown, C02_outcome_total, C02_prefix_applied, C02_help, C03_required_check_exact, C04_key_value_lossless, C04_blank_separator, C04_no_separator_accepted, C04_failure_exact, C04_command_line, C05_output_exact, C05_query_changes_nothing, C06_all_options_honoured_refuted, C06_options_honoured_partial, C06_unmentioned_levels_kept_partial, C06_disabled_silences, C07_raw_arguments_safe_refuted, C07_raw_arguments_safe_partial, C07_raw_arguments_effect, C08_roundtrip_case_insensitive, C08_names_distinct, C08_other_strings_rejected, C08_ambiguous_table_refused, C09_split_join, C09_split_pieces, C09_split_of_join, C09_starts_with, C09_ends_with, C10_addition, C10_subtraction, C10_scaling, C10_dot_product, C10_matrix_vector_square, C10_matrix_vector_refuted, C10_transpose, C10_transpose_involution, C10_transpose_empty, C10_flatten, C12_phase_is_sorted_table, C12_default_constructed_refuted, C13_range_refuted, C13_range_partial, C13_monotone_in_range_partial, C14_terminates_refuted, C14_terminates_partial, C15_pairs_exact, C16_status_meaning, C16_terminates_partial, C16_terminates_refuted, C17_stored_phases_well_formed, C17_earlier_phases_kept, C17_phase_recorded, C17_final_ids, C17_ids_after_patching_refuted, C18_terminates_refuted, C18_terminates_partial, C18_coverage_refuted, C18_coverage_partial, C18_failure_flag, C19_ranges_meet, C19_overlap_test_safe_refuted, C19_overlap_test_exact_partial, C19_overlap_value_partial, C20_stays_in_orbit, C20_potential_unchanged, C20_measure_never_smaller, C20_canonical_refuted, C20_canonical_form_partial, C20_canonical_form_invariant_partial, C21_history_is_chain, C21_terminates, C21_terminates_refuted, C21_cooling_refuted, C21_printed_history_unambiguous, C21_printed_history_format, C22_one_status_per_stage, C22_row_matches_legend, C23_rectangular, C24_requested_lines, C24_lines_exist, C24_one_row_per_line, C24_reserved_rows_suffice, C25_requested_fractions_partial, C25_requested_fractions_refuted, C26_used_velocity, C26_reported_velocity_partial, C26_reported_velocity_refuted, C27_sorted_without_duplicates, C27_no_second_entry, C27_one_new_entry, C28_success_is_a_solution, C28_success_iff_sign_change, C29_search, C29_status_partial, C29_success_without_temperature_refuted, C29_exact_midpoint_refuted, C36_cache_transparent, C36_negative_orders_rejected, C36_negative_sizes, C37_selection_round_trip, C37_codes_differ, C37_every_integer_decodes, C38_best_candidate_multithreaded_partial, C38_best_candidate_singlethreaded_partial, C38_threads_irrelevant_without_cmaes_partial, C38_nan_at_origin_returns_origin, C38_gsl_candidate_lowest, C38_multithreading_changes_minimum_refuted, C39_success_brackets_transition_partial, C39_search_terminates, C39_status_meaning, C39_success_without_transition_refuted, C40_single_worker_safe_partial, C40_enough_starting_points_safe_partial, C40_results_complete, C40_workers_terminate, C40_pop_from_empty_queue_refuted, C41_visits_progression_partial, C41_tracks_are_chains_partial, C41_exact_number_of_steps_partial, C41_terminates_towards_final_partial, C41_overshoot_refuted, C41_wrong_step_refuted, C46_binomial_partial, C46_refuted, C50_rank2, C50_rank3, C50_rank4, C53_orders, C54_refuted, C54_always_refuted, C54_ends_partial, C54_loop_partial, C54_hang_refuted, C55_inside_partial, C55_tight_partial, C55_padding_partial, C55_padding_refuted, C55_refuted, C56_documented_partial, C56_contradictory_rejected, C56_refuted, C59_acceptance_partial, C59_nan_ignored, C59_nan_accepted_refuted, C60_edge_counts, C60_region_status, C61_get_stored, C61_get_only_adds, C61_get_never_fails, C62_zero_between, C62_zero_terminates, C62_same_sign, C62_zero_on_first_side, C62_zero_accurate_partial, C62_zero_accurate_refuted, C63_discrete_symmetries_exact, C63_sign_symmetries_exact, C64_percolation_velocity_partial, C64_percolation_velocity_refuted, C65_strength_terminates_partial, C65_strength_terminates_refuted, C66_no_abort_partial, C66_no_abort_refuted, C67_scan_terminates, C67_no_room_refuted, C73_ranges_partial, C73_infinite_partial, C73_infinite_temperature_refuted, C73_refuted, C74_positional_partial, C74_named, C74_refuted, C77_json_file_partial, C77_comments_removable, C77_unreadable_file, C77_file_ignored, C77_json_file_refuted, C78_bool_value_partial, C78_transition_programs_partial, C78_bool_value_refuted, C79_value_under_its_name, C80_point_statuses, C81_gw_columns_partial, C81_gw_columns_refuted, C87_initial_temperatures, C87_equidistant, C88_refinement, C88_no_refinement, C89_towards_high_partial, C89_towards_low_partial, C89_gives_up_refuted, C90_documented_defaults, C90_given_values, C90_missing_required, C90_unknown_word_refuted, C92_statuses, C93_coverage_partial, C93_coverage_refuted, C93_global_minimum_partial, C93_defined_refuted, C93_exception_exact, C93_terminates_refuted, C93_terminates_partial, C94_coverage_partial, C94_closes_in_refuted, C94_defined_refuted, C94_terminates_refuted, C94_terminates_partial, C94_failed_steps_partial, C94_coverage_refuted, C95_success_covers_partial, C95_success_covers_refuted, C95_pairs, C95_auto_is_mode1, C95_auto_status, C95_unknown_mode, C95_mode0_without_patching, C101_set_All_refuted, C101_triple_refuted, C104_SM_partial, C104_CxSM_partial, C104_R2HDM_partial, C104_C2HDM_partial, C104_N2HDM_partial, C104_CPintheDark_partial, C104_short_line, C104_malformed_number, C104_malformed_index, C104_empty_line, C104_rejects_refuted, C115_config, C115_config_throws, C115_constructor, C115_legend, C115_setup_partial, C117_loop, C134_CPintheDark_positions, C134_CxSM_positions, C134_C2HDM_neutral, C134_legend, C136_labels, C137_line_partial, C137_line_refuted, C137_integer_partial, C138_end_refuted, C138_end_of_scan_refuted, C138_columns_partial, C138_columns_refuted, C139_BSMPT, C139_CalcCT, C139_NLOVEV, C139_EWBG_partial, C139_EWBG_weak_partial, C139_EWBG_refuted, C139_summary_partial, C139_summary_refuted, C139_lines, C139_file, C139_NLOVEV_lines_refuted, C140_table, C140_names, C140_points_partial, C140_points_refuted, C140_lines_good, C141_codes, C141_next_minima, C143_bar, C143_outside, C143_samples_partial, C143_samples_refuted, C143_markers_partial, C143_markers_refuted, C148_short

* **`ClassicalDedekindReals.sig_forall_dec`** (21 theorems): C52_vector_form_irrelevant_partial, C52_tree_order_partial, C52_value, C53_conversion, C53_shipped_models_partial, C53_shipped_models_refuted, C70_coupled_vevs_zeroed_partial, C70_standard_model_refuted, C103_wrong_size, C103_vacuum_coordinates_partial, C114_array, C116_threads_partial, C116_single_thread, C116_race, C116_threads_refuted, C116_no_threads, C117_loop_refuted, C134_output, C141_simplex, C148_there_and_back, C148_back_and_there

* **`ClassicalDedekindReals.sig_forall_dec`, `FunctionalExtensionality.functional_extensionality_dep`** (197 theorems): C11_hessian_symmetric, C11_exact_on_quadratics, C11_gradient_exact_to_degree_four, C11_hessian_exact_to_degree_three, C11_gradient_consistent, C42_coordinates_lie_in_plane, C42_every_point_of_plane_reached, C42_wrong_count_rejected, C42_plane_minimum, C42_coinciding_vacua_rejected, C43_interpolates, C43_twice_differentiable, C43_hermite_slopes, C43_refuses, C44_left_curvature_dropped, C44_left_slope_dropped, C44_boundary_conditions_refuted, C44_boundary_conditions_partial, C44_not_a_knot_partial, C44_hermite_boundary_conditions, C46_basis_nonnegative, C46_end_fixed, C46_partition_partial, C46_slopes_partial, C51_tree_value, C51_tree_gradient, C51_counterterm_gradient, C51_mass_matrix_is_hessian, C51_mass_matrix_field_derivative, C51_mass_matrix_temperature_derivative, C51_counterterm_nabla_and_hessian, C52_vector_form_refuted, C70_singlet_first_refuted, C75_refuted, C75_constant_partial, C75_bounds_partial, C75_increasing_partial, C82_result_partial, C82_flat_refuted, C83_minimum_is_mirrored, C83_stored_minimum_partial, C83_stored_minimum_refuted, C83_status_unaffected, C91_continues_outside, C91_linear, C91_derivative_orders, C98_SM_vacuum, C98_SM_masses, C98_CPintheDark_vacuum_partial, C98_CPintheDark_needs_the_mass_partial, C98_CPintheDark_free_mass_refuted, C99_N2HDM_no_singlet_vev_refuted, C100_SM_tree, C103_full_vector, C103_order_dropped_refuted, C107_SM_gauge, C107_CxSM_gauge, C107_CPintheDark_gauge, C107_two_doublets_gauge, C109_velocity_equations, C109_equations_determine, C109_rates, C109_source, C109_second_order_partial, C109_source_derivative_partial, C109_W_mass, C109_left_density, C110_networks_dissipate, C110_flags, C110_baryon_number, C110_lepton_number, C110_higgs_difference, C110_first_order, C110_bottom_network_partial, C110_tau_network_partial, C110_top_network_partial, C110_top_sphaleron_refuted, C110_dissipation_partial, C110_dissipation_refuted, C110_crosscheck_refuted, C110_tau_source_refuted, C110_left_density_partial, C110_left_density_refuted, C110_left_density_agree, C110_top_sphaleron_equilibrium, C111_thermal_partial, C111_thermal_deviation, C111_thermal_refuted, C112_grid, C112_nodes_partial, C112_nodes_mirrored, C112_nodes_refuted, C113_front_partial, C113_constant_slope, C114_second_norm_range, C115_setup_atomic_refuted, C116_points, C117_lowest, C118_choice, C118_idempotent, C118_potential, C118_nearest_refuted, C118_ends_refuted, C118_ends_partial, C118_cut, C118_near, C119_higgs_diff_partial, C123_order_partial, C123_equation, C123_polynomial, C123_linear, C125_interval_partial, C126_decomposition, C126_normal, C126_bernstein_refuted, C126_check, C127_complete, C127_found, C127_triple_refuted, C128_step, C129_start, C129_line, C129_back, C129_end_refuted, C130_line, C130_field, C130_steps_refuted, C130_value, C130_vector_partial, C130_flip_refuted, C130_reflexive, C131_degrees_refuted, C132_layout, C132_repeated_refuted, C132_never, C132_empty_refuted, C134_symmetric, C134_R2HDM_partial, C134_C2HDM_partial, C134_N2HDM_partial, C134_CxSM_partial, C134_CPintheDark_partial, C134_goldstone_refuted, C134_degenerate_refuted, C134_lightest_refuted, C134_stale_refuted, C136_scalar2, C136_scalar3, C136_scalar4, C136_gauge, C136_fermions, C136_yukawa_partial, C136_yukawa_refuted, C136_gauge_masses, C136_quarks_partial, C136_quarks_refuted, C136_leptons_partial, C136_electron_refuted, C136_vacuum_partial, C136_vacuum_refuted, C136_tadpoles_partial, C136_counterterms_partial, C136_nan_refuted, C136_simplified_partial, C136_counter_refuted, C136_counter_opposite, C136_masses_partial, C136_one_mass_partial, C136_tachyon_refuted, C136_report, C136_good_refuted, C136_program_partial, C136_line_refused, C136_nothing_refuted, C136_status_refuted, C137_grid_partial, C137_points, C137_ends, C137_count, C137_slice, C137_refused, C137_seven, C137_points_refuted, C137_bound_refuted, C137_decimal_refuted, C138_temperatures_partial, C138_rows, C138_velocities_partial, C138_step_refuted, C141_box_partial, C141_box_refuted, C141_search_refuted, C141_plane_refuted, C141_search_partial, C141_result, C141_plane_partial, C144_knots

* **`ClassicalDedekindReals.sig_forall_dec`, `ClassicalDedekindReals.sig_not_dec`, `FunctionalExtensionality.functional_extensionality_dep`** (155 theorems): C10_norm, C30_chapman_jouguet_between_sound_and_light, C30_equilibrium_estimate_physical, C45_monotone_interval_refuted, C45_still_interpolates, C47_blend, C47_blend_undefined, C48_constant_partial, C48_bounds_partial, C48_zero_radius, C48_other_dimension, C48_refuted, C71_electroweak_vev, C71_uncoupled_irrelevant, C71_short_vector_rejected, C72_other_cases, C72_refuted, C76_unit, C76_normal, C76_derivatives, C96_SM_tree, C96_SM_counterterms, C96_CxSM_tree, C96_CxSM_counterterms, C96_R2HDM_tree, C96_R2HDM_counterterms, C96_C2HDM_tree, C96_C2HDM_counterterms, C96_N2HDM_tree, C96_N2HDM_counterterms, C96_CPintheDark_tree, C96_CPintheDark_counterterms, C96_symmetric_tensors, C96_derivatives, C97_SM, C97_CxSM, C97_R2HDM, C97_C2HDM, C97_N2HDM, C97_CPintheDark, C98_R2HDM_vacuum, C98_CxSM_vacuum, C98_C2HDM_vacuum_partial, C98_C2HDM_negative_TanBeta_refuted, C98_N2HDM_vacuum_partial, C98_N2HDM_negative_TanBeta_refuted, C99_SM_renormalised, C99_C2HDM_renormalised, C99_R2HDM_renormalised_partial, C99_R2HDM_small_derivatives_refuted, C99_N2HDM_renormalised_partial, C99_CPintheDark_renormalised, C99_CxSM_renormalised_partial, C99_CxSM_mixing_refuted, C99_CxSM_small_derivatives_refuted, C100_C2HDM_tree_partial, C100_C2HDM_counterterm_partial, C100_C2HDM_tree_gradient_partial, C100_C2HDM_counterterm_gradient_partial, C100_CPintheDark_tree_partial, C100_CPintheDark_counterterm_partial, C100_CPintheDark_tree_gradient_partial, C100_CPintheDark_counterterm_gradient_partial, C100_SM_tree_formula_partial, C100_SM_counterterm_formula_partial, C100_C2HDM_other_fields_refuted, C100_CPintheDark_other_fields_refuted, C105_covariant_derivative, C107_SM_scalars_partial, C107_CxSM_scalars_partial, C107_CPintheDark_scalars_partial, C107_CxSM_scalars_refuted, C108_phase_agrees, C108_phase_small, C111_relaxation_first_order, C111_relaxation_mass_difference, C111_rate_partial, C111_distributions, C111_no_overflow_partial, C111_no_overflow_refuted, C111_source_refuted, C111_source_partial, C111_source_mass_difference, C111_source_value, C111_thresholds, C112_asymmetry_partial, C112_frozen, C112_asymmetry_refuted, C112_orientation, C112_exponent, C113_density_odd, C113_source_odd, C113_asymmetry_odd, C113_no_phases, C114_octant, C114_second_norm, C114_interpolated_partial, C114_K8_sign, C114_interpolated_refuted, C114_exit, C115_results, C115_complete_partial, C115_massless, C115_complete_refuted, C116_mismatch, C116_barrier, C116_static_wall, C117_line_partial, C117_highest_refuted, C117_symmetric_vev_refuted, C119_shape, C119_isolated, C119_sums, C119_trace, C119_close_refuted, C119_gauge, C119_gauge_temperature, C119_fermions, C119_higgs_parameters, C119_higgs_fields, C119_higgs_twice, C119_higgs_refuted, C119_light_fermions, C119_values, C126_deform_partial, C126_step, C126_reversal, C126_ratio_refuted, C126_best_refuted, C127_convert_partial, C127_length, C127_exchange_refuted, C127_one_refuted, C128_result_partial, C128_quadratic, C128_stationary_refuted, C129_choice_partial, C129_potential, C129_closest_refuted, C131_expansion, C132_derivatives_partial, C133_envelope, C133_anomaly_partial, C133_degrees_refuted, C133_latent, C133_velocity, C133_jouguet, C133_enthalpy, C135_quadratic_residual, C146_kink, C149_verdict_partial, C149_equivalent_partial, C149_short, C149_unique_partial, C149_lower_refuted

* **`ClassicalDedekindReals.sig_forall_dec`, `ClassicalDedekindReals.sig_not_dec`, `Classical_Prop.classic`, `FunctionalExtensionality.functional_extensionality_dep`** (192 theorems): C30_enthalpy_estimate_physical_partial, C30_enthalpy_estimate_refuted, C31_peak_is_maximum, C31_cubic_rise, C31_peak_frequency, C32_history_dependent_refuted, C32_independent_once_peaks_are_set_partial, C32_turbulence_history_dependent_refuted, C33_turbulence_exponent_refuted, C33_turbulence_cubic_partial, C33_peak_frequency, C34_efficiency_continuous, C34_regime_boundaries, C35_low_expansion_fermion_partial, C35_low_expansion_boson_partial, C35_low_expansion_at_zero_partial, C35_interpolated_below_threshold_partial, C35_high_expansion_partial, C35_high_expansion_refuted, C45_monotone_interval_partial, C45_monotone_data, C47_logistic, C49_control_flow_partial, C49_solver_partial, C49_shot_flags, C49_both_kinds, C49_refuted, C49_never_success, C57_cw_derivative, C57_full_term_derivative_partial, C57_temperature_derivative, C57_negative_mass_error, C57_negative_mass_refuted, C58_two_point_symmetric_partial, C58_two_point_value_partial, C58_two_point_symmetric_refuted, C58_three_point_symmetric_partial, C58_three_point_value_partial, C58_three_point_symmetric_refuted, C68_peak_amplitude_suppressed_by_lifetime, C68_turbulence_fraction_range, C69_boson_integrand, C69_fermion_integrand, C72_weight_partial, C75_step_exact, C84_separation, C84_detonation, C84_deflagration_partial, C84_turbulence_share, C84_fraction_refuted, C85_boson_high_temperature, C85_fermion_high_temperature, C86_values_match, C86_derivatives_refuted, C100_C2HDM_gradient_refuted, C102_field_derivative_partial, C102_field_derivative_error, C102_field_derivative_refuted, C102_temperature_derivative_error, C102_temperature_derivative_refuted, C102_temperature_derivative_partial, C102_parwani_field_error, C102_parwani_temperature_error, C102_schemes_agree, C105_SM_bosons, C105_R2HDM_bosons, C105_C2HDM_bosons, C105_N2HDM_bosons, C105_CPintheDark_bosons, C105_CxSM_bosons_partial, C105_CxSM_bosons_refuted, C106_mixing_matrix_unitary, C106_wolfenstein_parameters, C106_SM_lagrangian, C106_CxSM_lagrangian, C106_CPintheDark_lagrangian, C106_R2HDM_lagrangian, C106_N2HDM_lagrangian, C106_SM_masses, C106_CxSM_masses, C106_CPintheDark_masses, C106_R2HDM_masses_partial, C106_C2HDM_masses_partial, C106_N2HDM_masses_partial, C106_R2HDM_masses_refuted, C107_R2HDM_scalars_partial, C107_R2HDM_scalars_refuted, C107_C2HDM_scalars_partial, C107_C2HDM_scalars_refuted, C107_N2HDM_scalars_partial, C107_N2HDM_scalars_refuted, C108_fields, C108_phase, C108_symmetric_vev_ignored_refuted, C109_source_derivative_refuted, C109_mass_derivative, C111_rate_refuted, C111_yukawas, C113_front, C113_no_front, C113_front_refuted, C114_distribution, C114_momentum, C114_mass, C114_speed, C114_scaling, C114_scaling_averages, C118_phase, C118_order_partial, C118_order_refuted, C118_jump, C118_phase_inside, C118_entries, C118_short, C119_potential_temperature, C120_close_masses_identified, C120_symmetric_partial, C120_symmetric_refuted, C120_massive_values, C120_massless_values_partial, C120_one_massless_always_zero, C120_one_massless_refuted, C120_three_massless, C120_difference_quotient_partial, C120_difference_quotient_refuted, C121_needs_couplings, C121_tachyon, C121_first_derivative_partial, C121_second_derivative_partial, C121_first_derivative_refuted, C122_motion_exists, C122_motion_unique, C122_start_partial, C122_ends, C122_from_minimum_partial, C122_flat_refuted, C122_far_refuted, C123_float, C123_float_refuted, C124_integrate_partial, C124_step, C124_ends, C124_overshoot_refuted, C124_acceleration_refuted, C125_start_partial, C125_fraction, C125_stationary, C125_new_refuted, C125_threshold_refuted, C125_fraction_refuted, C125_interval_refuted, C126_gram, C131_rate_partial, C131_negative_refuted, C131_fraction, C131_formula, C131_order, C131_distance, C131_time_scale, C133_bag, C134_third_derivative, C135_cubic_partial, C135_zero, C135_sound, C135_complete_partial, C135_values_partial, C135_extrapolation, C135_last_refuted, C135_spurious_refuted, C135_close_refuted, C142_needs_couplings, C142_returns, C142_tachyon, C142_three_states, C142_four_states, C142_third_symmetric, C142_fourth_symmetric, C142_third_derivative_partial, C142_fourth_derivative_partial, C142_light_refuted, C144_interpolated, C144_direct, C145_ratio, C145_sources, C145_time, C145_bands, C146_quarks, C146_tau, C147_integral, C147_positive, C147_decreasing, C147_suppressed
