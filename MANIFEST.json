{
 "claims": [
  {
   "property": "C01",
   "status": "proved",
   "theorems": [
    "C01_names_ignore_case",
    "C01_last_value_wins",
    "C01_undeclared_throws",
    "C01_declare_neutral",
    "C01_redeclaration_refuted"
   ],
   "note": "holds for histories in which no name is declared both required and optional; C01_redeclaration_refuted shows that proviso is needed (optional value shadowed by a later required declaration). The key 'help' never stores a value."
  },
  {
   "property": "C02",
   "status": "proved",
   "theorems": [
    "C02_throws_iff_unknown",
    "C02_outcome_total",
    "C02_prefix_applied",
    "C02_help"
   ],
   "note": "also shows the logger is not reconfigured when an option is rejected"
  },
  {
   "property": "C03",
   "status": "proved",
   "theorems": [
    "C03_required_check_exact"
   ],
   "note": "a required argument named 'help' could never be satisfied, which the statement makes explicit"
  },
  {
   "property": "C04",
   "status": "proved",
   "theorems": [
    "C04_key_value_lossless",
    "C04_blank_separator",
    "C04_no_separator_accepted",
    "C04_failure_exact",
    "C04_command_line"
   ],
   "note": "includes the exact failure set: all-dash arguments escape as std::out_of_range"
  },
  {
   "property": "C05",
   "status": "proved",
   "theorems": [
    "C05_output_exact",
    "C05_query_changes_nothing"
   ],
   "note": "output text redirection not modelled"
  },
  {
   "property": "C06",
   "status": "partial",
   "theorems": [
    "C06_all_options_honoured_refuted",
    "C06_options_honoured_partial",
    "C06_unmentioned_levels_kept_partial",
    "C06_disabled_silences"
   ],
   "note": "refuted: --logginglevel::bouncedetailed=false is overridden by complete=true; the partial theorem shows it is the only option not honoured"
  },
  {
   "property": "C07",
   "status": "partial",
   "theorems": [
    "C07_raw_arguments_safe_refuted",
    "C07_raw_arguments_safe_partial",
    "C07_raw_arguments_effect"
   ],
   "note": "refuted: an unrecognised argument dereferences the end iterator (Logger.cpp 108); the partial theorem is an exact characterisation of the safe inputs; the effect of understood arguments is proved"
  },
  {
   "property": "C08",
   "status": "proved",
   "theorems": [
    "C08_roundtrip_case_insensitive",
    "C08_names_distinct",
    "C08_other_strings_rejected",
    "C08_ambiguous_table_refused"
   ],
   "note": "for every iteration order of the unordered_map"
  },
  {
   "property": "C09",
   "status": "proved",
   "theorems": [
    "C09_split_join",
    "C09_split_pieces",
    "C09_split_of_join",
    "C09_starts_with",
    "C09_ends_with"
   ],
   "note": ""
  },
  {
   "property": "C10",
   "status": "partial",
   "theorems": [
    "C10_addition",
    "C10_subtraction",
    "C10_scaling",
    "C10_dot_product",
    "C10_matrix_vector_square",
    "C10_matrix_vector_refuted",
    "C10_transpose",
    "C10_transpose_involution",
    "C10_transpose_empty",
    "C10_flatten",
    "C10_norm"
   ],
   "note": "refuted in part: a matrix times vector product works for square matrices only; C10_matrix_vector_refuted proves that every non-square matrix with at least one row makes it throw. All other parts are proved."
  },
  {
   "property": "C11",
   "status": "proved",
   "theorems": [
    "C11_hessian_symmetric",
    "C11_exact_on_quadratics",
    "C11_gradient_exact_to_degree_four",
    "C11_hessian_exact_to_degree_three",
    "C11_gradient_consistent"
   ],
   "note": "over the reals; also proves that the gradient tends to the derivative for every differentiable function"
  },
  {
   "property": "C12",
   "status": "proved",
   "theorems": [
    "C12_phase_is_sorted_table",
    "C12_default_constructed_refuted"
   ],
   "note": "for phases built by the Phase constructors used in the code; a default-constructed Phase filled with Add does not maintain its range (C12_default_constructed_refuted)"
  },
  {
   "property": "C13",
   "status": "partial",
   "theorems": [
    "C13_range_refuted",
    "C13_range_partial",
    "C13_monotone_in_range_partial"
   ],
   "note": "refuted: a failed step after the truncated last step goes back a full step, so minima before initialT can be recorded; proved: never beyond finalT, at most one step before initialT, and the full claim if the minimiser succeeds at finalT"
  },
  {
   "property": "C14",
   "status": "partial",
   "theorems": [
    "C14_terminates_refuted",
    "C14_terminates_partial"
   ],
   "note": "refuted: the loop alternates for ever if the minimiser fails exactly at finalT; proved to return whenever it succeeds there"
  },
  {
   "property": "C15",
   "status": "proved",
   "theorems": [
    "C15_pairs_exact"
   ],
   "note": ""
  },
  {
   "property": "C16",
   "status": "partial",
   "theorems": [
    "C16_status_meaning",
    "C16_terminates_partial",
    "C16_terminates_refuted"
   ],
   "note": "status meaning fully proved; termination refuted for phases touching at one temperature (zero step in the plotting loop) and proved for proper intervals"
  },
  {
   "property": "C17",
   "status": "partial",
   "theorems": [
    "C17_stored_phases_well_formed",
    "C17_earlier_phases_kept",
    "C17_phase_recorded",
    "C17_final_ids",
    "C17_ids_after_patching_refuted"
   ],
   "note": "registration invariants and final ids proved; refuted for the list left by setCoexRegion after patching a gap (patched phase keeps id 0)"
  },
  {
   "property": "C18",
   "status": "partial",
   "theorems": [
    "C18_terminates_refuted",
    "C18_terminates_partial",
    "C18_coverage_refuted",
    "C18_coverage_partial",
    "C18_failure_flag"
   ],
   "note": "refuted: endless recursion if a traced phase has a single minimum, and gaps where two-minimum phases are discarded; proved: termination when tracking stays in range and makes progress, coverage up to 1 GeV when phases have three minima"
  },
  {
   "property": "C19",
   "status": "partial",
   "theorems": [
    "C19_ranges_meet",
    "C19_overlap_test_safe_refuted",
    "C19_overlap_test_exact_partial",
    "C19_overlap_value_partial"
   ],
   "note": "refuted: undefined behaviour exactly when the new phase lies strictly inside the old one (exact characterisation proved); the value in all other cases is proved"
  },
  {
   "property": "C20",
   "status": "partial",
   "theorems": [
    "C20_stays_in_orbit",
    "C20_potential_unchanged",
    "C20_measure_never_smaller",
    "C20_canonical_refuted",
    "C20_canonical_form_partial",
    "C20_canonical_form_invariant_partial"
   ],
   "note": "orbit membership, invariance of the potential and monotone measure proved for every group; canonical representative refuted for a four-element group and proved for independent flips"
  },
  {
   "property": "C21",
   "status": "partial",
   "theorems": [
    "C21_history_is_chain",
    "C21_terminates",
    "C21_terminates_refuted",
    "C21_cooling_refuted",
    "C21_printed_history_unambiguous",
    "C21_printed_history_format"
   ],
   "note": "chain, termination and unambiguous printing proved; refuted: completion temperatures along the chain need not decrease, and duplicate phase ids (after gap patching) loop for ever"
  },
  {
   "property": "C22",
   "status": "proved",
   "theorems": [
    "C22_one_status_per_stage",
    "C22_row_matches_legend"
   ],
   "note": "Status vectors are modelled as separately pushed lists; numerics are oracles. Column counts are counts of tab characters in the model's output strings."
  },
  {
   "property": "C23",
   "status": "proved",
   "theorems": [
    "C23_rectangular"
   ],
   "note": "For input tables whose lines have no more columns than the header; the model prints the rows as strings. Formatting of doubles is an oracle without tab characters."
  },
  {
   "property": "C24",
   "status": "proved",
   "theorems": [
    "C24_requested_lines",
    "C24_lines_exist",
    "C24_one_row_per_line",
    "C24_reserved_rows_suffice"
   ],
   "note": "getline and the line counter are modelled on the file content; int overflow of the line counter is not modelled."
  },
  {
   "property": "C25",
   "status": "partial",
   "theorems": [
    "C25_requested_fractions_partial",
    "C25_requested_fractions_refuted"
   ],
   "note": "refuted: the percolation and completion searches are called without arguments, so the requested fractions are ignored; holds for the defaults 0.71 and 0.01."
  },
  {
   "property": "C26",
   "status": "partial",
   "theorems": [
    "C26_used_velocity",
    "C26_reported_velocity_partial",
    "C26_reported_velocity_refuted"
   ],
   "note": "refuted: the velocity is recorded before the strength is computed, the report is always 0.95; holds when 0.95 is requested. The velocity used is characterised in C26_used_velocity."
  },
  {
   "property": "C27",
   "status": "proved",
   "theorems": [
    "C27_sorted_without_duplicates",
    "C27_no_second_entry",
    "C27_one_new_entry"
   ],
   "note": "the bounce solver and the comparison of the two potentials are arbitrary; temperatures are exact rationals and the lower end of the region is non-negative"
  },
  {
   "property": "C28",
   "status": "proved",
   "theorems": [
    "C28_success_is_a_solution",
    "C28_success_iff_sign_change"
   ],
   "note": "one theorem covers both searches (threshold 1 and 140); completeness needs the highest temperature to be at most 1e5 times the lowest, because of the fixed number of 50 bisections"
  },
  {
   "property": "C29",
   "status": "partial",
   "theorems": [
    "C29_search",
    "C29_status_partial",
    "C29_success_without_temperature_refuted",
    "C29_exact_midpoint_refuted"
   ],
   "note": "refuted: C29_success_without_temperature_refuted has status success with temperature -1, C29_exact_midpoint_refuted a crossing that is not found. Proved: the search terminates, returns -1 or a genuine solution, and the status is decided by the first of the two searches. Theorem for percolation; completion has the same structure."
  },
  {
   "property": "C30",
   "status": "partial",
   "theorems": [
    "C30_chapman_jouguet_between_sound_and_light",
    "C30_equilibrium_estimate_physical",
    "C30_enthalpy_estimate_physical_partial",
    "C30_enthalpy_estimate_refuted"
   ],
   "note": "refuted for mode -2: the enthalpy-ratio estimate exceeds 1 for alpha=1e-6, psi=0.99; proved for mode -1 and the Chapman-Jouguet velocity for every alpha >= 0, and for mode -2 when 3 alpha >= 1 - psi"
  },
  {
   "property": "C31",
   "status": "proved",
   "theorems": [
    "C31_peak_is_maximum",
    "C31_cubic_rise",
    "C31_peak_frequency"
   ],
   "note": "real arithmetic"
  },
  {
   "property": "C32",
   "status": "partial",
   "theorems": [
    "C32_history_dependent_refuted",
    "C32_independent_once_peaks_are_set_partial",
    "C32_turbulence_history_dependent_refuted"
   ],
   "note": "refuted for fresh objects: the lazy initialisation sets only one of amplitude/frequency per call, the first evaluation is NaN; proved for objects whose peaks were set as TransitionTracer does"
  },
  {
   "property": "C33",
   "status": "partial",
   "theorems": [
    "C33_turbulence_exponent_refuted",
    "C33_turbulence_cubic_partial",
    "C33_peak_frequency"
   ],
   "note": "refuted: 11/3 is an integer division, the exponent is 3; the computed value is strictly larger than documented at every positive frequency"
  },
  {
   "property": "C34",
   "status": "proved",
   "theorems": [
    "C34_efficiency_continuous",
    "C34_regime_boundaries"
   ],
   "note": "for alpha >= 1e-20 with the code's sound speed constant, and for every sound speed below the Jouguet velocity"
  },
  {
   "property": "C35",
   "status": "partial",
   "theorems": [
    "C35_low_expansion_fermion_partial",
    "C35_low_expansion_boson_partial",
    "C35_low_expansion_at_zero_partial",
    "C35_interpolated_below_threshold_partial",
    "C35_high_expansion_partial",
    "C35_high_expansion_refuted"
   ],
   "note": "refuted for the large-argument expansion: the exponent (1-l)/2 on line 300 is an integer division, so the derivative reported above the thresholds is wrong (witness x=16 for both functions); proved: small-argument expansions for all x>0, all orders and coefficients, right derivatives at 0, interpolated functions below their thresholds, and the exact condition under which the large-argument derivative is right"
  },
  {
   "property": "C36",
   "status": "proved",
   "theorems": [
    "C36_cache_transparent",
    "C36_negative_orders_rejected",
    "C36_negative_sizes"
   ],
   "note": "for every cache size and order; also what happens for negative cache sizes"
  },
  {
   "property": "C37",
   "status": "proved",
   "theorems": [
    "C37_selection_round_trip",
    "C37_codes_differ",
    "C37_every_integer_decodes"
   ],
   "note": "codes decode to the same switches for every build configuration; injective; every int decodes to |w| mod 8"
  },
  {
   "property": "C38",
   "status": "partial",
   "theorems": [
    "C38_best_candidate_multithreaded_partial",
    "C38_best_candidate_singlethreaded_partial",
    "C38_threads_irrelevant_without_cmaes_partial",
    "C38_nan_at_origin_returns_origin",
    "C38_gsl_candidate_lowest",
    "C38_multithreading_changes_minimum_refuted"
   ],
   "note": "refuted: without multithreading the CMA-ES candidate is computed but never considered, so the returned minimum depends on the thread setting; also a NaN potential at the origin hides all candidates. Proved: with multithreading the best of all produced candidates is returned; without it the best except CMA-ES; no difference if CMA-ES is not used"
  },
  {
   "property": "C39",
   "status": "partial",
   "theorems": [
    "C39_success_brackets_transition_partial",
    "C39_search_terminates",
    "C39_status_meaning",
    "C39_success_without_transition_refuted"
   ],
   "note": "refuted: SUCCESS with v_c = 0 at T_c = TempStart when the VEV is gone at every midpoint. Proved: in all other SUCCESS cases a broken minimum above threshold, disappearance within 0.01 GeV, termination with explicit fuel"
  },
  {
   "property": "C40",
   "status": "partial",
   "theorems": [
    "C40_single_worker_safe_partial",
    "C40_enough_starting_points_safe_partial",
    "C40_results_complete",
    "C40_workers_terminate",
    "C40_pop_from_empty_queue_refuted"
   ],
   "note": "refuted: the loop condition is tested outside the lock, so two workers can pop the same last starting point (front() of an empty queue). Proved: safe for one worker and whenever max + (n-1) + failures <= number of starting points; complete results, bounded overshoot and termination for every schedule"
  },
  {
   "property": "C41",
   "status": "partial",
   "theorems": [
    "C41_visits_progression_partial",
    "C41_tracks_are_chains_partial",
    "C41_exact_number_of_steps_partial",
    "C41_terminates_towards_final_partial",
    "C41_overshoot_refuted",
    "C41_wrong_step_refuted"
   ],
   "note": "refuted: tolerance n/100 GeV overshoots the final temperature for small steps, and a zero or wrong-sign step never ends. Proved: arithmetic progression on every track, exact n steps if n <= 100|step|, termination towards the final temperature"
  },
  {
   "property": "C42",
   "status": "proved",
   "theorems": [
    "C42_coordinates_lie_in_plane",
    "C42_every_point_of_plane_reached",
    "C42_wrong_count_rejected",
    "C42_plane_minimum",
    "C42_coinciding_vacua_rejected"
   ],
   "note": "plane equation, surjectivity, wrong counts rejected; the whole plane minimisation returns a point of the plane with the lowest potential among the candidates"
  },
  {
   "property": "C43",
   "status": "proved",
   "theorems": [
    "C43_interpolates",
    "C43_twice_differentiable",
    "C43_hermite_slopes",
    "C43_refuses"
   ],
   "note": "All three spline types and all nine boundary combinations; band solver modelled and its pivots proved non-zero. Second derivatives for type cspline, except at an end knot with a prescribed slope, where the code deliberately extrapolates linearly."
  },
  {
   "property": "C44",
   "status": "partial",
   "theorems": [
    "C44_left_curvature_dropped",
    "C44_left_slope_dropped",
    "C44_boundary_conditions_refuted",
    "C44_boundary_conditions_partial",
    "C44_not_a_knot_partial",
    "C44_hermite_boundary_conditions"
   ],
   "note": "refuted: with a not-a-knot condition on the right, line 181 overwrites rhs[0], so the value prescribed on the left is discarded (type cspline). All other combinations, and the Hermite type, are proved."
  },
  {
   "property": "C45",
   "status": "partial",
   "theorems": [
    "C45_monotone_interval_refuted",
    "C45_monotone_interval_partial",
    "C45_monotone_data",
    "C45_still_interpolates"
   ],
   "note": "refuted for an interval next to a local extremum of the data (the filter only clamps slopes at points where both neighbours agree). Proved for intervals whose neighbours are monotone in the same direction, hence for monotone data sets."
  },
  {
   "property": "C46",
   "status": "partial",
   "theorems": [
    "C46_basis_nonnegative",
    "C46_end_fixed",
    "C46_binomial_partial",
    "C46_partition_partial",
    "C46_slopes_partial",
    "C46_refuted"
   ],
   "note": "refuted for large degrees: nChoosek(31,15) overflows int. Proved: non-negativity and fixed false-vacuum end for every degree, the coefficient is exact whenever no product overflows, all degrees up to 29 (10 and 20 are in use) form a partition of unity and have the slopes the code uses"
  },
  {
   "property": "C47",
   "status": "proved",
   "theorems": [
    "C47_logistic",
    "C47_blend",
    "C47_blend_undefined"
   ],
   "note": "range, monotonicity, symmetry and convexity; the only case without a number (threshold = position of the minimum = start distance) is characterised"
  },
  {
   "property": "C48",
   "status": "partial",
   "theorems": [
    "C48_constant_partial",
    "C48_bounds_partial",
    "C48_zero_radius",
    "C48_other_dimension",
    "C48_refuted"
   ],
   "note": "refuted: a constant slope is integrated to 8006001/8000000 (O(3)) or (2001/2000)^2 (O(4)) times the exact value, a zero radius never ends. Proved: that factor exactly, and two-sided bounds for every bounded integrand"
  },
  {
   "property": "C49",
   "status": "partial",
   "theorems": [
    "C49_control_flow_partial",
    "C49_solver_partial",
    "C49_shot_flags",
    "C49_both_kinds",
    "C49_refuted",
    "C49_never_success"
   ],
   "note": "refuted: if every trajectory falls short the solver still reports convergence by proximity and an action is assigned. Proved: control flow of CalculateAction for every outcome, meaning of convergence once a shot has overshot, and that the state 'success' is never reached"
  },
  {
   "property": "C50",
   "status": "proved",
   "theorems": [
    "C50_rank2",
    "C50_rank3",
    "C50_rank4"
   ],
   "note": "all dimensions, any entry type"
  },
  {
   "property": "C51",
   "status": "proved",
   "theorems": [
    "C51_tree_value",
    "C51_tree_gradient",
    "C51_counterterm_gradient",
    "C51_mass_matrix_is_hessian",
    "C51_mass_matrix_field_derivative",
    "C51_mass_matrix_temperature_derivative",
    "C51_counterterm_nabla_and_hessian"
   ],
   "note": "for the generic tensor contraction (models that switch on VTreeSimplified/VCounterSimplified use their own formula, not covered here); exact real arithmetic"
  },
  {
   "property": "C52",
   "status": "partial",
   "theorems": [
    "C52_vector_form_irrelevant_partial",
    "C52_tree_order_partial",
    "C52_value",
    "C52_vector_form_refuted"
   ],
   "note": "refuted: with an nVEV-sized vector the requested Order is dropped (ClassPotentialOrigin.cpp 2976), so the tree-level request returns the loop-corrected potential; the forms agree for every other order"
  },
  {
   "property": "C53",
   "status": "partial",
   "theorems": [
    "C53_conversion",
    "C53_shipped_models_partial",
    "C53_shipped_models_refuted",
    "C53_orders"
   ],
   "note": "refuted for the Standard Model, whose VEV table ends before the last field, so that MinimizeOrderVEV reads past its end; proved for all other shipped layouts and characterised in general"
  },
  {
   "property": "C54",
   "status": "partial",
   "theorems": [
    "C54_refuted",
    "C54_always_refuted",
    "C54_ends_partial",
    "C54_loop_partial",
    "C54_hang_refuted"
   ],
   "note": "refuted: for every path of at least two points every insertion between the ends reads vev_position one past its end (upper starts at phipath.size()); if that read is granted an arbitrary value, a point exactly at a stored position makes the search loop forever. Proved: insertions before and behind the path, and correct placement with increasing positions for all other points if the read is granted a value."
  },
  {
   "property": "C55",
   "status": "partial",
   "theorems": [
    "C55_inside_partial",
    "C55_tight_partial",
    "C55_padding_partial",
    "C55_padding_refuted",
    "C55_refuted"
   ],
   "note": "refuted: constant data, a single abscissa (division by zero cast to int), more than ten curves (array overrun), title longer than the plot or label longer than width-5 (2^63 blanks). Proved for one to ten curves of at least two points left to right with at least two different values: no access outside, ranges cover the data and are attained, only markers drawn. Rounding of the index computations is not modelled."
  },
  {
   "property": "C56",
   "status": "partial",
   "theorems": [
    "C56_documented_partial",
    "C56_contradictory_rejected",
    "C56_refuted"
   ],
   "note": "refuted: CalcTemps rejects the documented value keep_ewsr. Proved: all other documented values are accepted by both programs and contradictory ranges rejected."
  },
  {
   "property": "C57",
   "status": "partial",
   "theorems": [
    "C57_cw_derivative",
    "C57_full_term_derivative_partial",
    "C57_temperature_derivative",
    "C57_negative_mass_error",
    "C57_negative_mass_refuted"
   ],
   "note": "refuted for the full boson term with negative squared mass: boson/fermion pass |m^2| to CWTerm also for the derivative, so the sign of the zero-temperature part is wrong; proved: CWTerm itself for both signs, the full term for non-negative squared masses, the exact error for negative ones, the temperature derivative (thermal functions as parameters)"
  },
  {
   "property": "C58",
   "status": "partial",
   "theorems": [
    "C58_two_point_symmetric_partial",
    "C58_two_point_value_partial",
    "C58_two_point_symmetric_refuted",
    "C58_three_point_symmetric_partial",
    "C58_three_point_value_partial",
    "C58_three_point_symmetric_refuted"
   ],
   "note": "refuted inside the identification thresholds (fbase: |A-B| <= 1e-5; fbaseTri: 1e-8), where the result depends on the order of the arguments; proved outside them: all permutations, the value, and that the special cases are the limits of the general formula; fbaseFour is not modelled"
  },
  {
   "property": "C59",
   "status": "partial",
   "theorems": [
    "C59_acceptance_partial",
    "C59_nan_ignored",
    "C59_nan_accepted_refuted"
   ],
   "note": "refuted: NaN components are ignored and so accepted; the criterion holds for configurations without NaN"
  },
  {
   "property": "C60",
   "status": "proved",
   "theorems": [
    "C60_edge_counts",
    "C60_region_status"
   ],
   "note": ""
  },
  {
   "property": "C61",
   "status": "proved",
   "theorems": [
    "C61_get_stored",
    "C61_get_only_adds",
    "C61_get_never_fails"
   ],
   "note": ""
  },
  {
   "property": "C62",
   "status": "partial",
   "theorems": [
    "C62_zero_between",
    "C62_zero_terminates",
    "C62_same_sign",
    "C62_zero_on_first_side",
    "C62_zero_accurate_partial",
    "C62_zero_accurate_refuted"
   ],
   "note": "refuted for the accuracy: when a probe hits the zero exactly the search stops with the last accepted temperature (zero at 105 between 100 and 110 gives 100). Proved: bracketing, side, termination, and accuracy 1e-8 when no probe hits the zero exactly."
  },
  {
   "property": "C63",
   "status": "proved",
   "theorems": [
    "C63_discrete_symmetries_exact",
    "C63_sign_symmetries_exact"
   ],
   "note": ""
  },
  {
   "property": "C64",
   "status": "partial",
   "theorems": [
    "C64_percolation_velocity_partial",
    "C64_percolation_velocity_refuted"
   ],
   "note": "refuted: vwall is only set from the user's choice inside CalculatePTStrength, after the temperatures have been stored; holds for 0.95."
  },
  {
   "property": "C65",
   "status": "partial",
   "theorems": [
    "C65_strength_terminates_partial",
    "C65_strength_terminates_refuted"
   ],
   "note": "refuted: infinite recursion when the strength is zero or NaN; terminates with at most one recursion if the strength at the percolation temperature for velocity 0.95 is finite and non-zero."
  },
  {
   "property": "C66",
   "status": "partial",
   "theorems": [
    "C66_no_abort_partial",
    "C66_no_abort_refuted"
   ],
   "note": "refuted: with transition temperature 1, 2 or 4 a missing percolation temperature raises runtime_error, which ends main; never happens for the default 3 or without gravitational waves."
  },
  {
   "property": "C67",
   "status": "partial",
   "theorems": [
    "C67_scan_terminates",
    "C67_no_room_refuted"
   ],
   "note": "refuted for a region whose lower end is the critical temperature (C67_no_room_refuted: the scan never ends); proved in all other cases"
  },
  {
   "property": "C68",
   "status": "proved",
   "theorems": [
    "C68_peak_amplitude_suppressed_by_lifetime",
    "C68_turbulence_fraction_range"
   ],
   "note": "real arithmetic"
  },
  {
   "property": "C69",
   "status": "proved",
   "theorems": [
    "C69_boson_integrand",
    "C69_fermion_integrand"
   ],
   "note": "complex square root, exponential, logarithm modelled by their real and imaginary parts; numerical integration itself is not modelled"
  },
  {
   "property": "C70",
   "status": "partial",
   "theorems": [
    "C70_coupled_vevs_zeroed_partial",
    "C70_singlet_first_refuted",
    "C70_standard_model_refuted"
   ],
   "note": "refuted for layouts where an uncoupled coordinate precedes a coupled one and for the Standard Model's table; proved for tables with the coupled coordinates first"
  },
  {
   "property": "C71",
   "status": "proved",
   "theorems": [
    "C71_electroweak_vev",
    "C71_uncoupled_irrelevant",
    "C71_short_vector_rejected"
   ],
   "note": ""
  },
  {
   "property": "C72",
   "status": "partial",
   "theorems": [
    "C72_weight_partial",
    "C72_other_cases",
    "C72_refuted"
   ],
   "note": "refuted when the minimum lies further along the path than the threshold distance (a position is subtracted from a distance); proved when it does not"
  },
  {
   "property": "C73",
   "status": "partial",
   "theorems": [
    "C73_ranges_partial",
    "C73_infinite_partial",
    "C73_infinite_temperature_refuted",
    "C73_refuted"
   ],
   "note": "refuted: both accept not-a-number for the temperature, wall velocity and probabilities; CalcGW accepts a negative first line, an upper temperature 0 and a not-a-number turbulence efficiency. Proved for numbers in the stated cases."
  },
  {
   "property": "C74",
   "status": "partial",
   "theorems": [
    "C74_positional_partial",
    "C74_named",
    "C74_refuted"
   ],
   "note": "refuted: arguments after the fifth positional one are silently dropped. Proved: positional arguments configure the same as the named ones."
  },
  {
   "property": "C75",
   "status": "partial",
   "theorems": [
    "C75_step_exact",
    "C75_refuted",
    "C75_constant_partial",
    "C75_bounds_partial",
    "C75_increasing_partial"
   ],
   "note": "refuted: line 137 integrates from list_l.back() instead of list_x.back(), so lengths are wrong for every non-constant speed such as 1+x. Proved: the rule is exact on cubics, the table is exact for constant speed, bounded by the extreme speeds, strictly increasing."
  },
  {
   "property": "C76",
   "status": "proved",
   "theorems": [
    "C76_unit",
    "C76_normal",
    "C76_derivatives"
   ],
   "note": "dl and d2l over the reals, given that the spline derivatives, the length function and its inverse are what their names say (C44/C45 model the splines)."
  },
  {
   "property": "C77",
   "status": "partial",
   "theorems": [
    "C77_json_file_partial",
    "C77_comments_removable",
    "C77_unreadable_file",
    "C77_file_ignored",
    "C77_json_file_refuted"
   ],
   "note": "refuted: --json is honoured only when it is the only argument and written in lower case; otherwise it is stored as an ordinary option and the file is never opened. Proved: the sole-argument case. json syntax errors and non-string members are not modelled."
  },
  {
   "property": "C78",
   "status": "partial",
   "theorems": [
    "C78_bool_value_partial",
    "C78_transition_programs_partial",
    "C78_bool_value_refuted"
   ],
   "note": "refuted: CalcTemps and CalcGW compare with the exact text true, so --usegsl=True switches GSL off there but on in the programs that use get_value<bool>. Both readings are characterised exactly."
  },
  {
   "property": "C79",
   "status": "proved",
   "theorems": [
    "C79_value_under_its_name"
   ],
   "note": "Assumes printed numbers and names without tabs, at least one vev and counterterm name, and input lines with as many columns as the header line (shorter lines shift the last column)."
  },
  {
   "property": "C80",
   "status": "proved",
   "theorems": [
    "C80_point_statuses"
   ],
   "note": "The vacuum's statuses and the pair results are oracles; run_pairs is specified by C22, C24, C81."
  },
  {
   "property": "C81",
   "status": "partial",
   "theorems": [
    "C81_gw_columns_partial",
    "C81_gw_columns_refuted"
   ],
   "note": "refuted: for the percolation transition trans_temp is the recomputed temperature, not the reported T_perc. Partial theorem: everything else, with the recomputed temperature in that case."
  },
  {
   "property": "C82",
   "status": "partial",
   "theorems": [
    "C82_result_partial",
    "C82_flat_refuted"
   ],
   "note": "refuted: status 1 is unreachable and flat potentials return 0. Partial theorem: all other results characterised. The numerics (Hessian, eigenvalues, inverse) are oracles; the inverse may be missing."
  },
  {
   "property": "C83",
   "status": "partial",
   "theorems": [
    "C83_minimum_is_mirrored",
    "C83_stored_minimum_partial",
    "C83_stored_minimum_refuted",
    "C83_status_unaffected"
   ],
   "note": "refuted: sign of the stored point. Partial theorem: correct if the gradient vanishes; the minimum is shown to be the mirrored point and the status is shown to be independent of the sign."
  },
  {
   "property": "C84",
   "status": "partial",
   "theorems": [
    "C84_separation",
    "C84_detonation",
    "C84_deflagration_partial",
    "C84_turbulence_share",
    "C84_fraction_refuted"
   ],
   "note": "refuted for strong deflagrations (K_sw > 1 at alpha = 1e5, v = 0.9 cs); proved: separation, all detonations, deflagrations with alpha <= 1/2, share of turbulence. Missing: deflagrations with alpha between 1/2 and the (unknown) point where the fit exceeds 1, and hybrids."
  },
  {
   "property": "C85",
   "status": "proved",
   "theorems": [
    "C85_boson_high_temperature",
    "C85_fermion_high_temperature"
   ],
   "note": "exact identity over the reals, for every value of the zeta oracle; thermal spline for negative arguments not involved."
  },
  {
   "property": "C86",
   "status": "partial",
   "theorems": [
    "C86_values_match",
    "C86_derivatives_refuted"
   ],
   "note": "refuted for the derivatives; values proved to meet within 1e-6 with the exact zeta values and verified bounds for exp, ln, sqrt and pi."
  },
  {
   "property": "C87",
   "status": "proved",
   "theorems": [
    "C87_initial_temperatures",
    "C87_equidistant"
   ],
   "note": "temperatures as iterated subtraction, shown equal to Tc - k dT over the rationals."
  },
  {
   "property": "C88",
   "status": "proved",
   "theorems": [
    "C88_refinement",
    "C88_no_refinement"
   ],
   "note": "model of the inner double loop of GWSecondaryScan; rounding not modelled."
  },
  {
   "property": "C89",
   "status": "partial",
   "theorems": [
    "C89_towards_high_partial",
    "C89_towards_low_partial",
    "C89_gives_up_refuted"
   ],
   "note": "refuted: the loop bound shrinks while the counter grows, so the scan gives up half-way; partial theorems characterise every added temperature and every reason to stop including this one. Termination is C67."
  },
  {
   "property": "C90",
   "status": "partial",
   "theorems": [
    "C90_documented_defaults",
    "C90_given_values",
    "C90_missing_required",
    "C90_unknown_word_refuted"
   ],
   "note": "refuted for undocumented words: --checknlo, --checkewsr and --trans_temp silently fall back to the default (C90_unknown_word_refuted); defaults, given values and required options proved for all command lines; stoi/stod are oracles"
  },
  {
   "property": "C91",
   "status": "proved",
   "theorems": [
    "C91_continues_outside",
    "C91_linear",
    "C91_derivative_orders"
   ],
   "note": "exact arithmetic over the reals; evaluation at the data points themselves is C43"
  },
  {
   "property": "C92",
   "status": "proved",
   "theorems": [
    "C92_statuses"
   ],
   "note": "modelled with the minimiser, tracking, global-minimum check and phase comparison as arbitrary functions"
  },
  {
   "property": "C93",
   "status": "partial",
   "theorems": [
    "C93_coverage_partial",
    "C93_coverage_refuted",
    "C93_global_minimum_partial",
    "C93_defined_refuted",
    "C93_exception_exact",
    "C93_terminates_refuted",
    "C93_terminates_partial"
   ],
   "note": "refuted in general: after a failed tracking from the highest temperature with T_low = 0 success is reported with everything above the low phase untraced (C93_coverage_refuted); undefined behaviour when the intermediate phase from below lies strictly inside the one from above (C93_defined_refuted); endless loop (C93_terminates_refuted); the exception is characterised exactly (C93_exception_exact). Positive: coverage when every tracking gives a proper phase, termination when middle phases reach above their start, and which global minimum checks stand behind success (C93_global_minimum_partial)"
  },
  {
   "property": "C94",
   "status": "partial",
   "theorems": [
    "C94_coverage_partial",
    "C94_closes_in_refuted",
    "C94_defined_refuted",
    "C94_terminates_refuted",
    "C94_terminates_partial",
    "C94_failed_steps_partial",
    "C94_coverage_refuted"
   ],
   "note": "refuted: a gap of 2 GeV is not searched (C94_coverage_refuted), the lower bound moves down instead of up when a phase is found (C94_closes_in_refuted), uninitialised ends are read after a failed tracking (C94_defined_refuted), endless loop (C94_terminates_refuted). Positive: coverage up to 1 GeV, both bounds never rise, termination when regions reach below their start, steps of 10 GeV when tracking fails (C94_failed_steps_partial)"
  },
  {
   "property": "C95",
   "status": "partial",
   "theorems": [
    "C95_success_covers_partial",
    "C95_success_covers_refuted",
    "C95_pairs",
    "C95_auto_is_mode1",
    "C95_auto_status",
    "C95_unknown_mode",
    "C95_mode0_without_patching"
   ],
   "note": "refuted without assumption on the trackings at the two ends (C95_success_covers_refuted: mode 1, T_low = 0, tracking from above fails); proved for all modes with it (C95_success_covers_partial); pairs, auto mode and unknown modes proved"
  },
  {
   "property": "C96",
   "status": "proved",
   "theorems": [
    "C96_SM_tree",
    "C96_SM_counterterms",
    "C96_CxSM_tree",
    "C96_CxSM_counterterms",
    "C96_R2HDM_tree",
    "C96_R2HDM_counterterms",
    "C96_C2HDM_tree",
    "C96_C2HDM_counterterms",
    "C96_N2HDM_tree",
    "C96_N2HDM_counterterms",
    "C96_CPintheDark_tree",
    "C96_CPintheDark_counterterms",
    "C96_symmetric_tensors",
    "C96_derivatives"
   ],
   "note": "tables transcribed entry by entry; theorems per model for VTree and CounterTerm, symmetry of all tensors, first and second derivatives"
  },
  {
   "property": "C97",
   "status": "proved",
   "theorems": [
    "C97_SM",
    "C97_CxSM",
    "C97_R2HDM",
    "C97_C2HDM",
    "C97_N2HDM",
    "C97_CPintheDark"
   ],
   "note": "one theorem per model, tree potential and counterterm potential"
  },
  {
   "property": "C98",
   "status": "partial",
   "theorems": [
    "C98_SM_vacuum",
    "C98_SM_masses",
    "C98_R2HDM_vacuum",
    "C98_CxSM_vacuum",
    "C98_C2HDM_vacuum_partial",
    "C98_C2HDM_negative_TanBeta_refuted",
    "C98_N2HDM_vacuum_partial",
    "C98_N2HDM_negative_TanBeta_refuted",
    "C98_CPintheDark_vacuum_partial",
    "C98_CPintheDark_needs_the_mass_partial",
    "C98_CPintheDark_free_mass_refuted"
   ],
   "note": "refuted for negative TanBeta in the C2HDM and the N2HDM, where sin(beta) loses its sign (C98_C2HDM_negative_TanBeta_refuted, C98_N2HDM_negative_TanBeta_refuted), and for CPintheDark, whose mass parameter m11^2 is a free input (C98_CPintheDark_free_mass_refuted). Proved without restriction for SM (with mass spectrum), CxSM and R2HDM, for positive TanBeta in C2HDM and N2HDM, and for CPintheDark exactly when m11^2 = -L1 v0^2/2"
  },
  {
   "property": "C99",
   "status": "partial",
   "theorems": [
    "C99_SM_renormalised",
    "C99_C2HDM_renormalised",
    "C99_R2HDM_renormalised_partial",
    "C99_R2HDM_small_derivatives_refuted",
    "C99_N2HDM_renormalised_partial",
    "C99_N2HDM_no_singlet_vev_refuted",
    "C99_CPintheDark_renormalised",
    "C99_CxSM_renormalised_partial",
    "C99_CxSM_mixing_refuted",
    "C99_CxSM_small_derivatives_refuted"
   ],
   "note": "refuted for R2HDM and CxSM, which set derivatives up to 1e-3 and 1e-5 to zero (C99_R2HDM_small_derivatives_refuted, C99_CxSM_small_derivatives_refuted), for the CxSM with both singlet vevs, whose portal counterterm is one number for two mixings (C99_CxSM_mixing_refuted), and for the N2HDM without singlet vev, which reads an uninitialised array (C99_N2HDM_no_singlet_vev_refuted). Proved without restriction for SM, C2HDM and CPintheDark (dark parity assumed of the function, as it holds in the model), and otherwise under the named conditions. The derivatives of the one-loop potential are inputs; calculation of WeinbergFirstDerivative and WeinbergSecondDerivative is not part of this property"
  },
  {
   "property": "C100",
   "status": "partial",
   "theorems": [
    "C100_C2HDM_tree_partial",
    "C100_C2HDM_counterterm_partial",
    "C100_C2HDM_tree_gradient_partial",
    "C100_C2HDM_counterterm_gradient_partial",
    "C100_CPintheDark_tree_partial",
    "C100_CPintheDark_counterterm_partial",
    "C100_CPintheDark_tree_gradient_partial",
    "C100_CPintheDark_counterterm_gradient_partial",
    "C100_SM_tree",
    "C100_SM_tree_formula_partial",
    "C100_SM_counterterm_formula_partial",
    "C100_C2HDM_other_fields_refuted",
    "C100_CPintheDark_other_fields_refuted",
    "C100_C2HDM_gradient_refuted"
   ],
   "note": "refuted for full field vectors: VTree and CounterTerm take the hand-written branch for any vector, which reads only the vacuum components (C100_*_other_fields_refuted), and the gradient is then not the derivative of the value (C100_C2HDM_gradient_refuted). Proved on the vacuum fields for all parameters (_partial theorems), for SM, C2HDM and CPintheDark; the other models do not use the simplified branch."
  },
  {
   "property": "C101",
   "status": "partial",
   "theorems": [
    "C101_set_All_refuted",
    "C101_triple_refuted"
   ],
   "note": "refuted for set_All on an initialised object (C101_set_All_refuted) and for the cached triple couplings of the C2HDM after resetScale (C101_triple_refuted). Everything else is proved for all sequences of calls. Numbers are abstracted to the parameter point they were computed from."
  },
  {
   "property": "C102",
   "status": "partial",
   "theorems": [
    "C102_field_derivative_partial",
    "C102_field_derivative_error",
    "C102_field_derivative_refuted",
    "C102_temperature_derivative_error",
    "C102_temperature_derivative_refuted",
    "C102_temperature_derivative_partial",
    "C102_parwani_field_error",
    "C102_parwani_temperature_error",
    "C102_schemes_agree"
   ],
   "note": "refuted: V1Loop passes the field index diff to boson and fermion, which add the thermal part only for diff = 1 (C102_field_derivative_refuted), and the temperature derivative omits -T/(8 pi) sum sqrt(m) dm/dT of the thermal masses (C102_temperature_derivative_refuted); the exact errors are proved. Proved where right. Thermal functions are assumed to be differentiable with the reported derivative; the eigenvalue routines are arguments."
  },
  {
   "property": "C103",
   "status": "partial",
   "theorems": [
    "C103_full_vector",
    "C103_wrong_size",
    "C103_vacuum_coordinates_partial",
    "C103_order_dropped_refuted"
   ],
   "note": "refuted: for a vector of vacuum coordinates the recursive call drops Order, so Order = 0 returns the one-loop potential (C103_order_dropped_refuted). Proved for all other orders and for full vectors."
  },
  {
   "property": "C104",
   "status": "partial",
   "theorems": [
    "C104_SM_partial",
    "C104_CxSM_partial",
    "C104_R2HDM_partial",
    "C104_C2HDM_partial",
    "C104_N2HDM_partial",
    "C104_CPintheDark_partial",
    "C104_short_line",
    "C104_malformed_number",
    "C104_malformed_index",
    "C104_empty_line",
    "C104_rejects_refuted"
   ],
   "note": "refuted in its last sentence: a line that ends early is read as if its last number were repeated (C104_short_line), everything from a malformed number on is read as 0 (C104_malformed_number), a textual index column makes all parameters 0 (C104_malformed_index), an empty line reads an uninitialised double (C104_empty_line). Proved: the column-to-parameter map of all six models for lines with enough numbers."
  },
  {
   "property": "C105",
   "status": "partial",
   "theorems": [
    "C105_covariant_derivative",
    "C105_SM_bosons",
    "C105_R2HDM_bosons",
    "C105_C2HDM_bosons",
    "C105_N2HDM_bosons",
    "C105_CPintheDark_bosons",
    "C105_CxSM_bosons_partial",
    "C105_CxSM_bosons_refuted"
   ],
   "note": "refuted for the CxSM, whose input line carries its own vacuum expectation value that is never compared with C_vev0 (C105_CxSM_bosons_refuted; the masses scale with the ratio, C105_CxSM_bosons_partial). Proved for the other five models and, as a matrix identity for all fields, for all six. Not covered: rounding, and the numerical eigenvalue solver."
  },
  {
   "property": "C106",
   "status": "partial",
   "theorems": [
    "C106_mixing_matrix_unitary",
    "C106_wolfenstein_parameters",
    "C106_SM_lagrangian",
    "C106_CxSM_lagrangian",
    "C106_CPintheDark_lagrangian",
    "C106_R2HDM_lagrangian",
    "C106_N2HDM_lagrangian",
    "C106_SM_masses",
    "C106_CxSM_masses",
    "C106_CPintheDark_masses",
    "C106_R2HDM_masses_partial",
    "C106_C2HDM_masses_partial",
    "C106_N2HDM_masses_partial",
    "C106_R2HDM_masses_refuted"
   ],
   "note": "refuted for Yukawa types outside 1..4, which are accepted (C106_R2HDM_masses_refuted). Proved: the mixing matrix is unitary with the given parameters, all tables equal the Lagrangian for all fields, and the masses for types 1..4 in every model; for other types the wrong factor is proved (the _partial theorems). Not covered: rounding, the numerical eigenvalue solver."
  },
  {
   "property": "C107",
   "status": "partial",
   "theorems": [
    "C107_SM_scalars_partial",
    "C107_CxSM_scalars_partial",
    "C107_CPintheDark_scalars_partial",
    "C107_CxSM_scalars_refuted",
    "C107_R2HDM_scalars_partial",
    "C107_R2HDM_scalars_refuted",
    "C107_C2HDM_scalars_partial",
    "C107_C2HDM_scalars_refuted",
    "C107_N2HDM_scalars_partial",
    "C107_N2HDM_scalars_refuted",
    "C107_SM_gauge",
    "C107_CxSM_gauge",
    "C107_CPintheDark_gauge",
    "C107_two_doublets_gauge"
   ],
   "note": "refuted as stated: the formulas of R2HDM, C2HDM and N2HDM leave out u, d, s, c and the leptons, so that DebyeHiggs differs from the second derivative wherever the charm quark has a mass, and CalculateDebye sets entries up to 1e-5 to zero (witness: CxSM with d2 = 1e-5). Proved: with the exact missing terms added the formulas are the second derivatives for all four types; in SM, CxSM and CPintheDark entries above 1e-5 are exact; the gauge masses are the screening masses in all models (up to the same cut)."
  },
  {
   "property": "C108",
   "status": "partial",
   "theorems": [
    "C108_fields",
    "C108_phase",
    "C108_phase_agrees",
    "C108_phase_small",
    "C108_symmetric_vev_ignored_refuted"
   ],
   "note": "refuted for a nonzero symmetric vev (the profile ends in zero); limits, derivatives and agreement of both implementations are proved"
  },
  {
   "property": "C109",
   "status": "partial",
   "theorems": [
    "C109_velocity_equations",
    "C109_equations_determine",
    "C109_rates",
    "C109_source",
    "C109_second_order_partial",
    "C109_source_derivative_refuted",
    "C109_source_derivative_partial",
    "C109_mass_derivative",
    "C109_W_mass",
    "C109_left_density"
   ],
   "note": "refuted for the derivative of the source in the second-order form (missing terms proved exactly); the velocity form is proved completely. The second-order theorem takes coefficients as independent of position and leaves out K5 u', as the code does"
  },
  {
   "property": "C110",
   "status": "partial",
   "theorems": [
    "C110_networks_dissipate",
    "C110_flags",
    "C110_baryon_number",
    "C110_lepton_number",
    "C110_higgs_difference",
    "C110_first_order",
    "C110_bottom_network_partial",
    "C110_tau_network_partial",
    "C110_top_network_partial",
    "C110_top_sphaleron_refuted",
    "C110_dissipation_partial",
    "C110_dissipation_refuted",
    "C110_crosscheck_refuted",
    "C110_tau_source_refuted",
    "C110_left_density_partial",
    "C110_left_density_refuted",
    "C110_left_density_agree",
    "C110_top_sphaleron_equilibrium"
   ],
   "note": "refuted: bottom Yukawa affinity has the wrong sign of the Higgs densities, top_source lacks the strong sphaleron term of the right-handed top, the tau source depends on the bottom flag, and nL counts one light generation; conservation laws, flags and the exact networks are proved"
  },
  {
   "property": "C111",
   "status": "partial",
   "theorems": [
    "C111_relaxation_first_order",
    "C111_relaxation_mass_difference",
    "C111_rate_partial",
    "C111_rate_refuted",
    "C111_distributions",
    "C111_no_overflow_partial",
    "C111_no_overflow_refuted",
    "C111_source_refuted",
    "C111_source_partial",
    "C111_source_mass_difference",
    "C111_source_value",
    "C111_thresholds",
    "C111_thermal_partial",
    "C111_thermal_deviation",
    "C111_thermal_refuted",
    "C111_yukawas"
   ],
   "note": "refuted: the source term divides by k^4 instead of w^4, three colours for the tau, overflow at low temperature, thermal masses of bottom and tau; first-order agreement of the relaxation rate, the derivative terms, the distributions, the top's thermal masses and the Yukawa couplings are proved"
  },
  {
   "property": "C112",
   "status": "partial",
   "theorems": [
    "C112_asymmetry_partial",
    "C112_frozen",
    "C112_asymmetry_refuted",
    "C112_orientation",
    "C112_exponent",
    "C112_grid",
    "C112_nodes_partial",
    "C112_nodes_mirrored",
    "C112_nodes_refuted"
   ],
   "note": "refuted for a density that is frozen behind the wall (exact factor proved) and for decreasing grids (values at mirrored positions); proved with washout on both sides, for the exponent, the orientation and the grid"
  },
  {
   "property": "C113",
   "status": "partial",
   "theorems": [
    "C113_density_odd",
    "C113_source_odd",
    "C113_asymmetry_odd",
    "C113_no_phases",
    "C113_front",
    "C113_no_front",
    "C113_front_refuted",
    "C113_front_partial",
    "C113_constant_slope"
   ],
   "note": "refuted: the free equation of the networks has no solution that vanishes in front of the wall (sign of vw); oddness under CP and zero asymmetry without phases are proved for all Runge-Kutta methods and step controls"
  },
  {
   "property": "C114",
   "status": "partial",
   "theorems": [
    "C114_distribution",
    "C114_momentum",
    "C114_mass",
    "C114_speed",
    "C114_octant",
    "C114_scaling",
    "C114_scaling_averages",
    "C114_second_norm",
    "C114_second_norm_range",
    "C114_interpolated_partial",
    "C114_K8_sign",
    "C114_interpolated_refuted",
    "C114_exit",
    "C114_array"
   ],
   "note": "refuted for K8: K8fermion_normalized divides by the second normalisation where K_functions (and the comment at the call) use the first; the result has the opposite sign at every node (C114_K8_sign). All other tabulated functions agree at the nodes (C114_interpolated_partial); integrands, scaling, normalisation, exit and array proved. Integrals and splines are arbitrary functions."
  },
  {
   "property": "C115",
   "status": "partial",
   "theorems": [
    "C115_config",
    "C115_config_throws",
    "C115_constructor",
    "C115_legend",
    "C115_results",
    "C115_complete_partial",
    "C115_massless",
    "C115_complete_refuted",
    "C115_setup_atomic_refuted",
    "C115_setup_partial"
   ],
   "note": "refuted in two parts: with Massive: no the schemes with a bottom quark never give a result (flag 0 is neither 1 nor 2; C115_massless, C115_complete_refuted), and a failing setNumerics keeps the new velocity and temperature with the old wall (C115_setup_atomic_refuted). Reading, constructor, legend and order of results proved."
  },
  {
   "property": "C116",
   "status": "partial",
   "theorems": [
    "C116_points",
    "C116_mismatch",
    "C116_threads_partial",
    "C116_single_thread",
    "C116_race",
    "C116_threads_refuted",
    "C116_no_threads",
    "C116_barrier",
    "C116_static_wall"
   ],
   "note": "refuted for two or more threads: test and increment of the index are separate, so a thread can call at() behind the end and the program is terminated (C116_race, C116_threads_refuted); without threads (hardware_concurrency 0) the data stay zero. Proved: points, mismatch, completeness whenever all threads finish, one thread, barrier and static wall."
  },
  {
   "property": "C117",
   "status": "partial",
   "theorems": [
    "C117_line_partial",
    "C117_lowest",
    "C117_loop",
    "C117_loop_refuted",
    "C117_highest_refuted",
    "C117_symmetric_vev_refuted"
   ],
   "note": "refuted in three ways: of several maxima the lowest is taken (C117_lowest, C117_highest_refuted); a symmetric phase away from the origin is ignored when the potential is evaluated (C117_symmetric_vev_refuted); the loop has no bound on failures (C117_loop_refuted). Proved for a symmetric phase at the origin and minimisers that find the highest point (C117_line_partial)."
  },
  {
   "property": "C118",
   "status": "partial",
   "theorems": [
    "C118_choice",
    "C118_idempotent",
    "C118_potential",
    "C118_nearest_refuted",
    "C118_ends_refuted",
    "C118_ends_partial",
    "C118_phase",
    "C118_order_partial",
    "C118_order_refuted",
    "C118_jump",
    "C118_phase_inside",
    "C118_entries",
    "C118_short",
    "C118_cut",
    "C118_near"
   ],
   "note": "refuted in three points: the image is not the nearest, the two ends may be folded differently, and the phase of an imaginary mass depends on the order of the eigenvalues; C118_jump gives the error of pi in phase differences. The rest of the statement is proved"
  },
  {
   "property": "C119",
   "status": "partial",
   "theorems": [
    "C119_shape",
    "C119_isolated",
    "C119_sums",
    "C119_trace",
    "C119_close_refuted",
    "C119_gauge",
    "C119_gauge_temperature",
    "C119_fermions",
    "C119_higgs_parameters",
    "C119_higgs_fields",
    "C119_higgs_twice",
    "C119_higgs_refuted",
    "C119_higgs_diff_partial",
    "C119_potential_temperature",
    "C119_light_fermions",
    "C119_values"
   ],
   "note": "refuted for the Higgs bosons (C119_higgs_refuted: masses 12 instead of 11) and for nearly degenerate eigenvalues (C119_close_refuted); proved for isolated eigenvalues, for sums over degenerate spectra, and for gauge bosons and fermions; the matrix of derivatives used for the Higgs bosons is right (C119_higgs_diff_partial)"
  },
  {
   "property": "C120",
   "status": "partial",
   "theorems": [
    "C120_close_masses_identified",
    "C120_symmetric_partial",
    "C120_symmetric_refuted",
    "C120_massive_values",
    "C120_massless_values_partial",
    "C120_one_massless_always_zero",
    "C120_one_massless_refuted",
    "C120_three_massless",
    "C120_difference_quotient_partial",
    "C120_difference_quotient_refuted"
   ],
   "note": "refuted for one vanishing and three different masses (C120_one_massless_refuted; C120_one_massless_always_zero shows that the result is 0 for all of them although the limit is negative), for three vanishing masses (C120_difference_quotient_refuted) and, as to the order of the arguments, for close masses (C120_symmetric_refuted); all other patterns of masses proved"
  },
  {
   "property": "C121",
   "status": "partial",
   "theorems": [
    "C121_needs_couplings",
    "C121_tachyon",
    "C121_first_derivative_partial",
    "C121_second_derivative_partial",
    "C121_first_derivative_refuted"
   ],
   "note": "refuted as stated: QuarkRot and LeptonRot are the real parts of eigenvectors of a Hermitian matrix, so with complex eigenvectors (two quarks with a complex Yukawa matrix, any solver) the gradient is off by more than 1e-3 (C121_first_derivative_refuted). Proved for real fermion eigenvectors, squared masses that are 0 or above 1e-4, distinct ones more than 1e-5 apart, rotation entries that are 0 or at least 1e-10, and mass matrices with differentiable eigenvectors along the field: first derivative exact up to the 1e-10 cut, second derivative within (1+N^2) 1e-10. Degenerate masses are covered. The third and fourth derivatives are not modelled."
  },
  {
   "property": "C122",
   "status": "partial",
   "theorems": [
    "C122_motion_exists",
    "C122_motion_unique",
    "C122_start_partial",
    "C122_ends",
    "C122_from_minimum_partial",
    "C122_flat_refuted",
    "C122_far_refuted"
   ],
   "note": "refuted: where d2Vdl2 = 0 the function takes the branch for an invalid Alpha and returns a step without friction, too far and too fast by the factor Alpha + 1 (C122_flat_refuted, for every slope). When the search for rho ends at 101 the target is returned although the motion has not reached it (C122_far_refuted). Proved for all other parameters in a wide range: the closed forms solve the equation of motion, the motion exists and is unique, the returned rho is within 1e-10, the speed is exact (within 0.001 in rho for the numerical derivative of BesselJ), at most 12 nested calls (C122_start_partial, C122_ends, C122_from_minimum_partial). The Bessel functions are their full power series; the program cuts them off at a relative change of 1e-15."
  },
  {
   "property": "C123",
   "status": "partial",
   "theorems": [
    "C123_order_partial",
    "C123_equation",
    "C123_polynomial",
    "C123_linear",
    "C123_float",
    "C123_float_refuted"
   ],
   "note": "refuted: rho and the step are parameters of type float (24 binary digits) while rho is advanced by the step in double, so l is not at the position that belongs to the new rho (witness: uniform motion, where the step in doubles is exact).  The order conditions are proved for all trees; that they bound the local error by O(h^6) is Butcher's theorem and is not proved, exactness for polynomials and linear systems is."
  },
  {
   "property": "C124",
   "status": "partial",
   "theorems": [
    "C124_integrate_partial",
    "C124_step",
    "C124_ends",
    "C124_overshoot_refuted",
    "C124_acceleration_refuted"
   ],
   "note": "refuted: Overshoot is also returned when the iterations run out before the end of the path; the second derivative returned for rho = 0 omits the friction and is Alpha+1 times the true one.  Everything else is proved for all inputs; NaN and infinities are left out."
  },
  {
   "property": "C125",
   "status": "partial",
   "theorems": [
    "C125_start_partial",
    "C125_fraction",
    "C125_stationary",
    "C125_new_refuted",
    "C125_threshold_refuted",
    "C125_fraction_refuted",
    "C125_interval_partial",
    "C125_interval_refuted"
   ],
   "note": "refuted: on a new object Initial_lmin is read before it has a value (undefined behaviour); on a used object the threshold is the one of the minimum of the earlier path; the fraction of the path is never reduced; the scan for the upper limit evaluates the gradient at a position shifted by the minimum.  Proved: what is stored in each case, that a short Newton step ends near a stationary point, and the interval for a minimum at 0.  Failures inside the analytic solutions are left out."
  },
  {
   "property": "C126",
   "status": "partial",
   "theorems": [
    "C126_decomposition",
    "C126_normal",
    "C126_bernstein_refuted",
    "C126_gram",
    "C126_check",
    "C126_deform_partial",
    "C126_step",
    "C126_reversal",
    "C126_ratio_refuted",
    "C126_best_refuted"
   ],
   "note": "refuted: NormalForceBernstein uses a tangent that is not normalised, so its result has a component along the path (even one field gets a normal force); the convergence flag compares the largest force with the largest gradient of all knots, so at a knot the force can equal the whole gradient; and the best path is stored after it was moved by the force, so the recorded error belongs to another path, and on the path handed on the force can be above 5 per cent at every knot. Proved: decomposition of the field equations, perpendicularity for unit speed, the Gram matrix, PathDeformationCheck as an equivalence, the end of the path, what the flag does mean, bounds of step size and error. Missing: that the deformation converges; the solution of the linear system of the projection (Eigen inverse, Simpson's rule for the right-hand side) is an oracle."
  },
  {
   "property": "C127",
   "status": "partial",
   "theorems": [
    "C127_complete",
    "C127_found",
    "C127_convert_partial",
    "C127_length",
    "C127_exchange_refuted",
    "C127_one_refuted",
    "C127_triple_refuted"
   ],
   "note": "refuted: FindFlatDirections compares the potential at (2, 100) and (100, 2), which tests exchange and not rotation; for V = x^4 + y^4 the pair is listed and the conversion changes the potential. Fields listed in flat_1D_dirs are never used by the conversion, so points that differ only there stay different; and triples start at k = j, so a 'three-dimensional' direction (i, j, j) can be listed. Proved: completeness of the three lists, and all claims about the conversion under the hypothesis that each listed plane is a symmetry plane. Missing: rounding; the list NonFlatDirections is only printed and left out."
  },
  {
   "property": "C128",
   "status": "partial",
   "theorems": [
    "C128_result_partial",
    "C128_step",
    "C128_quadratic",
    "C128_stationary_refuted"
   ],
   "note": "refuted in part: around a maximum with curvature between -1e-3 and 0 the shift of the diagonal makes every step move away, and the point returned is not stationary; the caller gets no sign of it (C128_stationary_refuted). Proved: the result is the first point with a small gradient or the last of maxiter steps (C128_result_partial); convergence for quadratic functions of any dimension (C128_quadratic). Missing: convergence for functions that are not quadratic; rounding. Eigen's solver is a parameter that is assumed to solve."
  },
  {
   "property": "C129",
   "status": "partial",
   "theorems": [
    "C129_choice_partial",
    "C129_potential",
    "C129_closest_refuted",
    "C129_start",
    "C129_line",
    "C129_back",
    "C129_end_refuted"
   ],
   "note": "refuted in part: the distance that is compared does not contain the transformed vacuum, so that always the first symmetry (the identity, as FindDiscreteSymmetries lists it first) is chosen, even if another one brings the vacua closer (C129_closest_refuted); a component that is equal in T1 and F1 but not in T2 and F2 makes the carried path end outside of F2 (C129_end_refuted). Proved: which symmetry is chosen (C129_choice_partial), the potential of the image (C129_potential), start, lines and inverse of WarpPath (C129_start, C129_line, C129_back)."
  },
  {
   "property": "C130",
   "status": "partial",
   "theorems": [
    "C130_line",
    "C130_field",
    "C130_steps_refuted",
    "C130_value",
    "C130_vector_partial",
    "C130_flip_refuted",
    "C130_reflexive"
   ],
   "note": "refuted in part: allow_for_sign_flip has the opposite meaning (C130_flip_refuted); without steps the grid does not start at the low value and a negative number of steps gives no points (C130_steps_refuted). Proved: both grids (C130_line, C130_field), the comparison of values (C130_value, C130_reflexive) and what the comparison of vectors computes (C130_vector_partial)."
  },
  {
   "property": "C131",
   "status": "partial",
   "theorems": [
    "C131_expansion",
    "C131_rate_partial",
    "C131_negative_refuted",
    "C131_degrees_refuted",
    "C131_fraction",
    "C131_formula",
    "C131_order",
    "C131_distance",
    "C131_time_scale"
   ],
   "note": "refuted in part: CalcGstarPureRad counts the would-be Goldstone bosons among the scalars and again as polarisations of W and Z, three degrees of freedom too many in every model, 109.75 instead of 106.75 in the standard model (C131_degrees_refuted); where the spline of the action is negative the rate is 1e100, larger than for every action that is not negative, though the comment says that this kills the rate (C131_negative_refuted). Proved: Friedmann equation (C131_expansion), the formula of the rate where the action is not negative (C131_rate_partial), range and monotonicity of the fraction (C131_fraction, C131_order), the comoving distance (C131_distance), the time scale (C131_time_scale). Missing: the error of the quadrature and of the numerical derivative, which are exact here."
  },
  {
   "property": "C132",
   "status": "partial",
   "theorems": [
    "C132_layout",
    "C132_derivatives_partial",
    "C132_repeated_refuted",
    "C132_never",
    "C132_empty_refuted"
   ],
   "note": "refuted in part: the threshold for repeated eigenvalues is std::pow(10,-6) stored in a std::size_t, that is 0, so that nothing is ever reported (C132_repeated_refuted, C132_never); an empty matrix is read out of range (C132_empty_refuted). Proved: the layout (C132_layout) and the derivatives, by differentiating the eigenvalue equation (C132_derivatives_partial). Missing: that a differentiable eigenvector exists for a simple eigenvalue is a hypothesis; rounding."
  },
  {
   "property": "C133",
   "status": "partial",
   "theorems": [
    "C133_envelope",
    "C133_anomaly_partial",
    "C133_degrees_refuted",
    "C133_latent",
    "C133_bag",
    "C133_velocity",
    "C133_jouguet",
    "C133_enthalpy"
   ],
   "note": "refuted in one point: the energy density of the radiation is the one of the degrees of freedom of CalcGstarPureRad, three too many, so that alpha is too small by 427/439 in the standard model (C133_degrees_refuted). Everything else is proved: the temperature derivative at fixed fields is the one along the phase for any number of fields (envelope theorem), alpha is the difference of the trace anomalies, the latent heat at the critical temperature, the bag model, sign and velocity of mode -1, enthalpy ratio of mode -2. Exact real arithmetic; phases are assumed differentiable in the temperature."
  },
  {
   "property": "C134",
   "status": "partial",
   "theorems": [
    "C134_third_derivative",
    "C134_symmetric",
    "C134_R2HDM_partial",
    "C134_C2HDM_partial",
    "C134_N2HDM_partial",
    "C134_CxSM_partial",
    "C134_CPintheDark_partial",
    "C134_CPintheDark_positions",
    "C134_CxSM_positions",
    "C134_C2HDM_neutral",
    "C134_goldstone_refuted",
    "C134_degenerate_refuted",
    "C134_lightest_refuted",
    "C134_stale_refuted",
    "C134_output",
    "C134_legend"
   ],
   "note": "refuted for equal masses and for a point that follows another one: massless Goldstone bosons mixed by the diagonalisation give two names to one row of the R2HDM; A and H of equal mass let posN[2] be written behind the array; a massless scalar in the first row of the CxSM (and CP in the dark) is named last; in the N2HDM the member MSM keeps the mass of an earlier point. Proved: the couplings are third directional derivatives of the potential, their symmetry, the order of the rows for unmixed sectors in five models, the columns of the output. The one-loop part enters as a tensor."
  },
  {
   "property": "C135",
   "status": "partial",
   "theorems": [
    "C135_cubic_partial",
    "C135_quadratic_residual",
    "C135_zero",
    "C135_sound",
    "C135_complete_partial",
    "C135_values_partial",
    "C135_extrapolation",
    "C135_last_refuted",
    "C135_spurious_refuted",
    "C135_close_refuted"
   ],
   "note": "refuted: with the default ignore_extrapolation = true the argument of the last point is never returned; a root by up to the tolerance left of a knot is returned though the spline may not have the value anywhere (kink); two roots closer than the rounding tolerance become one number that is no root. Proved in exact arithmetic: for coefficients whose roots are equal or separated by more than the tolerance, solve_cubic gives all real roots in ascending order, each once (Cardano and trigonometric cases and the Newton steps included); solve returns exactly the crossings of the pieces, ascending, if they differ by at least 2^-43, hence every argument before the last point with the value; with extrapolation exactly the arguments outside are added. Rounding of the operations is not modelled, only the tolerances."
  },
  {
   "property": "C136",
   "status": "partial",
   "theorems": [
    "C136_scalar2",
    "C136_scalar3",
    "C136_scalar4",
    "C136_gauge",
    "C136_fermions",
    "C136_yukawa_partial",
    "C136_yukawa_refuted",
    "C136_labels",
    "C136_gauge_masses",
    "C136_quarks_partial",
    "C136_quarks_refuted",
    "C136_leptons_partial",
    "C136_electron_refuted",
    "C136_vacuum_partial",
    "C136_vacuum_refuted",
    "C136_tadpoles_partial",
    "C136_counterterms_partial",
    "C136_nan_refuted",
    "C136_simplified_partial",
    "C136_counter_refuted",
    "C136_counter_opposite",
    "C136_masses_partial",
    "C136_one_mass_partial",
    "C136_tachyon_refuted",
    "C136_report",
    "C136_good_refuted",
    "C136_program_partial",
    "C136_line_refused",
    "C136_nothing_refuted",
    "C136_status_refuted"
   ],
   "note": "refuted: a model without quarks passes the quark test and one with more than twelve throws; a massless electron passes; the vacuum and the one-loop masses are compared without their signs, so a tachyon passes; NaN passes tadpoles, counterterm conditions and simplified potentials; a simplified counterterm potential wrong by 20 percent at all points passes; ragged Yukawa tensors pass or throw; Test returns EXIT_SUCCESS for failing models, for line 1 and for lines after the end without any check; one point with most of these faults is reported with 23 of 23 tests passed. Proved: the tests of scalar, gauge and fermion tensors pass exactly for symmetric tensors of equal dimensions and never throw; the label count; bounds that follow from each passed test for finite numbers; the report is good exactly if all tests passed; the requested line is checked once."
  },
  {
   "property": "C137",
   "status": "partial",
   "theorems": [
    "C137_grid_partial",
    "C137_points",
    "C137_ends",
    "C137_count",
    "C137_slice",
    "C137_refused",
    "C137_line_partial",
    "C137_line_refuted",
    "C137_seven",
    "C137_points_refuted",
    "C137_bound_refuted",
    "C137_decimal_refuted",
    "C137_integer_partial"
   ],
   "note": "refuted in four respects: a direction gets one value more than the requested number of points (C137_points_refuted); a bound of -1 is taken for a missing one (C137_bound_refuted); decimal bounds are cut at the decimal point (C137_decimal_refuted); the line after the last line end is taken for a line and an empty text is given to initModel (C137_line_refuted). Proved: the table is the product grid with each combination once (C137_grid_partial, C137_points, C137_ends, C137_count), the slice (C137_slice), what is refused (C137_refused), the reading of lines and integers (C137_line_partial, C137_integer_partial). With seven or more directions the program ends with std::out_of_range and never reaches its own message (C137_seven)."
  },
  {
   "property": "C138",
   "status": "partial",
   "theorems": [
    "C138_temperatures_partial",
    "C138_rows",
    "C138_end_refuted",
    "C138_end_of_scan_refuted",
    "C138_velocities_partial",
    "C138_step_refuted",
    "C138_columns_partial",
    "C138_columns_refuted"
   ],
   "note": "refuted in four respects: with doubles the end of the interval is lost (0 to 0.3 in steps of 0.1, C138_end_refuted); a positive step below the resolution of the start is accepted and the scan never ends (C138_end_of_scan_refuted); PlotEWBG_vw accepts a negative step, never ends and computes at negative velocities (C138_step_refuted); the line without a transition has one column (C138_columns_refuted). Proved with exact arithmetic: the temperatures and velocities and the end of the scans (C138_temperatures_partial, C138_velocities_partial), contents of the rows and starting points (C138_rows), columns of the rows (C138_columns_partial)."
  },
  {
   "property": "C139",
   "status": "partial",
   "theorems": [
    "C139_BSMPT",
    "C139_CalcCT",
    "C139_NLOVEV",
    "C139_EWBG_partial",
    "C139_EWBG_weak_partial",
    "C139_EWBG_refuted",
    "C139_summary_partial",
    "C139_summary_refuted",
    "C139_lines",
    "C139_file",
    "C139_NLOVEV_lines_refuted"
   ],
   "note": "refuted in three respects: without a strong transition CalculateEWBG writes the vevs one column too early and the ratio in the column of the last vev (C139_EWBG_refuted; C139_EWBG_weak_partial says what is written); a transition found with a vanishing vev ends CalculateEWBG for a single line with std::out_of_range (C139_summary_refuted, with a run of the bisection); NLOVEV takes the end of a file that ends with a line end for one more line (C139_NLOVEV_lines_refuted). Proved: rows and headers of BSMPT, CalcCT and NLOVEV, of CalculateEWBG with a strong transition, the summary then, and the choice of lines (C139_BSMPT, C139_CalcCT, C139_NLOVEV, C139_EWBG_partial, C139_summary_partial, C139_lines, C139_file)."
  },
  {
   "property": "C140",
   "status": "partial",
   "theorems": [
    "C140_table",
    "C140_names",
    "C140_points_partial",
    "C140_points_refuted",
    "C140_lines_good"
   ],
   "note": "refuted for the last clause: a first line of 1 passes good() and the legend is traced as a parameter point (C140_points_refuted); for first lines from 2 on there is one file per parameter point (C140_points_partial). Proved in general: names, legend, number of rows, content of every column (C140_table), distinct names (C140_names), accepted line numbers (C140_lines_good)."
  },
  {
   "property": "C141",
   "status": "partial",
   "theorems": [
    "C141_box_partial",
    "C141_box_refuted",
    "C141_search_refuted",
    "C141_plane_refuted",
    "C141_search_partial",
    "C141_result",
    "C141_codes",
    "C141_plane_partial",
    "C141_simplex",
    "C141_next_minima"
   ],
   "note": "refuted for fields below -300 GeV at tree level: the upper bound is 1.5 v instead of 1.5 |v|, the box has no width and contains neither the minimum nor the starting point (C141_box_refuted), so the search always fails (C141_search_refuted) and the search on a plane throws (C141_plane_refuted). Proved for all other tree-level minima (C141_box_partial, C141_search_partial, C141_plane_partial); results, codes, simplex and FindNextLocalMinima in general."
  },
  {
   "property": "C142",
   "status": "partial",
   "theorems": [
    "C142_needs_couplings",
    "C142_returns",
    "C142_tachyon",
    "C142_three_states",
    "C142_four_states",
    "C142_third_symmetric",
    "C142_fourth_symmetric",
    "C142_third_derivative_partial",
    "C142_fourth_derivative_partial",
    "C142_light_refuted"
   ],
   "note": "refuted for states with a squared mass between 0 and 1e-8 (third) or 1e-6 (fourth): the loop functions take it for 0 and the contribution is lost, also that of fermions, whose small masses are not cut before (C142_light_refuted). Proved: error before the couplings are known, numbers for squared masses that are not negative, none for negative ones, full symmetry, and equality with the derivatives along every line on which the rotations keep the squared mass matrices diagonal and states have squared masses of at least 1e-5 or are massless throughout. Missing: lines on which states mix."
  },
  {
   "property": "C143",
   "status": "partial",
   "theorems": [
    "C143_bar",
    "C143_outside",
    "C143_samples_partial",
    "C143_samples_refuted",
    "C143_markers_partial",
    "C143_markers_refuted"
   ],
   "note": "refuted: every eighth phase is plotted with the null character (sizeof counts the end of the string), and a phase with a single temperature at an edge of a cell is plotted at 0/0 (C143_markers_refuted, C143_samples_refuted). Proved: the bar for all phases in the range, std::length_error for all others, the temperatures for all phases with different ends, markers of the others. Doubles are rational numbers."
  },
  {
   "property": "C144",
   "status": "proved",
   "theorems": [
    "C144_interpolated",
    "C144_direct",
    "C144_knots"
   ],
   "note": "the integrals of GSL are exact, doubles are real numbers; mu_BL and the spline of Boost are arbitrary functions."
  },
  {
   "property": "C145",
   "status": "proved",
   "theorems": [
    "C145_ratio",
    "C145_sources",
    "C145_time",
    "C145_bands"
   ],
   "note": "For all transitions, sources, bands and times. The integral of GSL is taken as exact; rounding is not modelled."
  },
  {
   "property": "C146",
   "status": "proved",
   "theorems": [
    "C146_quarks",
    "C146_tau",
    "C146_kink"
   ],
   "note": "For all walls, positions and mass functions. Eigenvalues and their derivatives are a query of the model that is assumed to answer correctly along the wall (C119 is about that query)."
  },
  {
   "property": "C147",
   "status": "proved",
   "theorems": [
    "C147_integral",
    "C147_positive",
    "C147_decreasing",
    "C147_suppressed"
   ],
   "note": "For all temperatures and masses. The adaptive integration is taken as exact; it takes no step if the start is not below the end."
  },
  {
   "property": "C148",
   "status": "proved",
   "theorems": [
    "C148_there_and_back",
    "C148_back_and_there",
    "C148_short"
   ],
   "note": "For all tables and vectors; the standard model, whose table does not contain the last field, is the refuted case of C53."
  },
  {
   "property": "C149",
   "status": "partial",
   "theorems": [
    "C149_verdict_partial",
    "C149_equivalent_partial",
    "C149_short",
    "C149_unique_partial",
    "C149_lower_refuted"
   ],
   "note": "refuted: IsGlobMin compares positions only and never the potential, so the true global minimum is reported as not global whenever the minimiser returns a higher local minimum; the position criterion and its consequences are proved, for any reduction functions."
  }
 ]
}