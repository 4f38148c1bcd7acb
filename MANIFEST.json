{
 "claims": [
  {
   "property": "C01",
   "status": "proved",
   "theorems": [
    "C01_ga_result_evaluated",
    "C01_ga_events_genuine",
    "C01_ga_next_events_genuine",
    "C01_ga_result_is_goal_value"
   ],
   "note": "For selections that only return copies of the individuals they were given (the private fields of Individual allow nothing else)."
  },
  {
   "property": "C02",
   "status": "proved",
   "theorems": [
    "C02_ga_reports_extremes"
   ],
   "note": ""
  },
  {
   "property": "C03",
   "status": "proved",
   "theorems": [
    "C03_ga_none_iff_no_survivor"
   ],
   "note": "\"In this run\" is read off the stop checker consultations, which see every completed generation."
  },
  {
   "property": "C04",
   "status": "proved",
   "theorems": [
    "C04_ga_individuals_carry_their_value"
   ],
   "note": ""
  },
  {
   "property": "C05",
   "status": "proved",
   "theorems": [
    "C05_ga_goal_calls",
    "C05_ga_next_goal_calls"
   ],
   "note": ""
  },
  {
   "property": "C06",
   "status": "proved",
   "theorems": [
    "C06_ga_find_min_protocol",
    "C06_ga_next_iterations_protocol",
    "C06_ga_finish_state"
   ],
   "note": ""
  },
  {
   "property": "C07",
   "status": "proved",
   "theorems": [
    "C07_ga_generation",
    "C07_ga_run_is_generations"
   ],
   "note": ""
  },
  {
   "property": "C08",
   "status": "proved",
   "theorems": [
    "C08_ga_find_min_fresh"
   ],
   "note": "The model of find_min resets the population first, as the code does; the theorem is by computation."
  },
  {
   "property": "C09",
   "status": "partial",
   "theorems": [
    "C09_ga_least_value_partial",
    "C09_ga_best_monotone_partial",
    "C09_kill_fitness_nan_keeps_best",
    "C09_ga_best_lost_refuted"
   ],
   "note": "REFUTED as stated by C09_ga_best_lost_refuted (LimitPopulation can kill the best individual). Proved for every selection that keeps a best finite individual, e.g. KillFitnessNaN."
  },
  {
   "property": "C10",
   "status": "partial",
   "theorems": [
    "C10_limit_population_partial",
    "C10_limit_exceeded_refuted"
   ],
   "note": "REFUTED as stated by C10_limit_exceeded_refuted (kill_worst can stop short when its candidates were already dead or the first individual is dead). Proved: exact result of LimitPopulation in the case where the property holds, and that it only kills, in every case."
  },
  {
   "property": "C11",
   "status": "partial",
   "theorems": [
    "C11_kill_worst_panics",
    "C11_kill_worst_only_kills",
    "C11_kill_worst_count_partial",
    "C11_kill_worst_exact_count_partial",
    "C11_kill_worst_count_bound_partial",
    "C11_kill_worst_order_partial",
    "C11_kill_worst_kills_a_worst_partial",
    "C11_kill_worst_one_partial",
    "C11_kill_worst_first_best_partial",
    "C11_kill_worst_filled_partial",
    "C11_kill_worst_order_refuted",
    "C11_kill_worst_count_refuted"
   ],
   "note": "REFUTED as stated by C11_kill_worst_order_refuted and C11_kill_worst_count_refuted. Proved for every population and count: only live individuals are marked, nothing else changes, panics iff the population is empty; count and order under the hypotheses stated in the _partial theorems."
  },
  {
   "property": "C12",
   "status": "proved",
   "theorems": [
    "C12_kill_fitness_nan",
    "C12_survivors_finite",
    "C12_results_finite"
   ],
   "note": ""
  },
  {
   "property": "C13",
   "status": "proved",
   "theorems": [
    "C13_pre_birth_interval",
    "C13_gene_in_meaning"
   ],
   "note": ""
  },
  {
   "property": "C14",
   "status": "proved",
   "theorems": [
    "C14_selection_interval"
   ],
   "note": ""
  },
  {
   "property": "C15",
   "status": "proved",
   "theorems": [
    "C15_new_panics",
    "C15_create_f64",
    "C15_create_f32"
   ],
   "note": ""
  },
  {
   "property": "C16",
   "status": "proved",
   "theorems": [
    "C16_random_pairing"
   ],
   "note": ""
  },
  {
   "property": "C17",
   "status": "proved",
   "theorems": [
    "C17_tournament"
   ],
   "note": ""
  },
  {
   "property": "C18",
   "status": "proved",
   "theorems": [
    "C18_cross_mean",
    "C18_cross_mean_shape",
    "C18_cross_mean_overflow"
   ],
   "note": ""
  },
  {
   "property": "C19",
   "status": "proved",
   "theorems": [
    "C19_geometric_mean"
   ],
   "note": ""
  },
  {
   "property": "C20",
   "status": "proved",
   "theorems": [
    "C20_cross_unsigned"
   ],
   "note": ""
  },
  {
   "property": "C21",
   "status": "proved",
   "theorems": [
    "C21_cross_signed"
   ],
   "note": ""
  },
  {
   "property": "C22",
   "status": "proved",
   "theorems": [
    "C22_cross_f64",
    "C22_cross_f32",
    "C22_cross_bitwise_f64",
    "C22_cross_bitwise_f32"
   ],
   "note": ""
  },
  {
   "property": "C23",
   "status": "proved",
   "theorems": [
    "C23_vec_cross",
    "C23_vec_cross_length",
    "C23_vec_cross_panics"
   ],
   "note": ""
  },
  {
   "property": "C24",
   "status": "proved",
   "theorems": [
    "C24_cross_exp_f64",
    "C24_cross_exp_f32",
    "C24_self_cross_f64",
    "C24_self_cross_f32",
    "C24_not_finite_f64",
    "C24_subnormal_lost"
   ],
   "note": ""
  },
  {
   "property": "C25",
   "status": "proved",
   "theorems": [
    "C25_bitwise_mutation_f64",
    "C25_bitwise_mutation_f32"
   ],
   "note": ""
  },
  {
   "property": "C26",
   "status": "proved",
   "theorems": [
    "C26_vec_mutation",
    "C26_vec_mutation_genes",
    "C26_never_mutates",
    "C26_always_mutates"
   ],
   "note": ""
  },
  {
   "property": "C27",
   "status": "proved",
   "theorems": [
    "C27_ga_stays_in_box"
   ],
   "note": ""
  },
  {
   "property": "C28",
   "status": "proved",
   "theorems": [
    "C28_components_fit_f64",
    "C28_components_fit_f32",
    "C28_run",
    "C28_continued",
    "C28_readme",
    "C28_extinct_limit"
   ],
   "note": ""
  },
  {
   "property": "C29",
   "status": "proved",
   "theorems": [
    "C29_pso_result_evaluated",
    "C29_pso_events_genuine",
    "C29_pso_next_events_genuine",
    "C29_pso_result_is_goal_value"
   ],
   "note": ""
  },
  {
   "property": "C30",
   "status": "proved",
   "theorems": [
    "C30_pso_least_value",
    "C30_pso_first_least"
   ],
   "note": ""
  },
  {
   "property": "C31",
   "status": "proved",
   "theorems": [
    "C31_pso_never_worse",
    "C31_pso_observations"
   ],
   "note": ""
  },
  {
   "property": "C32",
   "status": "proved",
   "theorems": [
    "C32_memories_of_moves",
    "C32_pso_memories"
   ],
   "note": ""
  },
  {
   "property": "C33",
   "status": "proved",
   "theorems": [
    "C33_pso_none_iff_empty"
   ],
   "note": ""
  },
  {
   "property": "C34",
   "status": "proved",
   "theorems": [
    "C34_pso_goal_calls",
    "C34_pso_next_goal_calls"
   ],
   "note": ""
  },
  {
   "property": "C35",
   "status": "proved",
   "theorems": [
    "C35_pso_find_min_protocol",
    "C35_pso_next_iterations_protocol",
    "C35_pso_finish_state"
   ],
   "note": ""
  },
  {
   "property": "C36",
   "status": "proved",
   "theorems": [
    "C36_pso_stays_in_box",
    "C36_pso_stays_in_set"
   ],
   "note": ""
  },
  {
   "property": "C37",
   "status": "proved",
   "theorems": [
    "C37_pso_pause_resume"
   ],
   "note": ""
  },
  {
   "property": "C38",
   "status": "proved",
   "theorems": [
    "C38_panic",
    "C38_cases",
    "C38_in_box",
    "C38_fixed",
    "C38_idempotent"
   ],
   "note": ""
  },
  {
   "property": "C39",
   "status": "proved",
   "theorems": [
    "C39_new",
    "C39_post_move",
    "C39_never",
    "C39_always"
   ],
   "note": ""
  },
  {
   "property": "C40",
   "status": "proved",
   "theorems": [
    "C40_panic",
    "C40_limited",
    "C40_idempotent",
    "C40_nan_limit"
   ],
   "note": "C40_nan_limit: a NaN velocity stays NaN for ever."
  },
  {
   "property": "C41",
   "status": "proved",
   "theorems": [
    "C41_within",
    "C41_length",
    "C41_scaled",
    "C41_exact",
    "C41_norm_exact",
    "C41_norm_accuracy",
    "C41_component_accuracy",
    "C41_limit_accuracy",
    "C41_float_bound",
    "C41_norm_overflow_limit",
    "C41_subnormal_limit"
   ],
   "note": "Outside the stated preconditions the code misbehaves: C41_norm_overflow_limit (the squares overflow, NaN velocity) and C41_subnormal_limit (a subnormal component grows)."
  },
  {
   "property": "C42",
   "status": "proved",
   "theorems": [
    "C42_classic_panics",
    "C42_canonical_panics",
    "C42_inertia_panics",
    "C42_negative_panics",
    "C42_classic",
    "C42_canonical",
    "C42_inertia",
    "C42_const_inertia",
    "C42_negative",
    "C42_classic_fixed",
    "C42_canonical_fixed",
    "C42_inertia_fixed",
    "C42_negative_fixed"
   ],
   "note": "Inertia: for an inertia object that returns a weight."
  },
  {
   "property": "C43",
   "status": "proved",
   "theorems": [
    "C43_panic",
    "C43_xi"
   ],
   "note": ""
  },
  {
   "property": "C44",
   "status": "proved",
   "theorems": [
    "C44_start",
    "C44_decreasing",
    "C44_exact",
    "C44_width_overflow_limit"
   ],
   "note": "C44_width_overflow_limit: when w_max - w_min overflows the weight is NaN."
  },
  {
   "property": "C45",
   "status": "proved",
   "theorems": [
    "C45_random_f64",
    "C45_random_f32",
    "C45_no_particles",
    "C45_unordered_panics",
    "C45_infinite_panics",
    "C45_zero_velocities"
   ],
   "note": ""
  },
  {
   "property": "C46",
   "status": "proved",
   "theorems": [
    "C46_standard_f64",
    "C46_standard_f32",
    "C46_continued",
    "C46_max_iterations",
    "C46_composite_any"
   ],
   "note": ""
  },
  {
   "property": "C47",
   "status": "proved",
   "theorems": [
    "C47_pso_dimension"
   ],
   "note": ""
  },
  {
   "property": "C48",
   "status": "proved",
   "theorems": [
    "C48_ga_find_min_iterations",
    "C48_ga_next_iterations_iterations",
    "C48_pso_find_min_iterations",
    "C48_pso_next_iterations_iterations",
    "C48_ga_find_min_ends",
    "C48_ga_next_iterations_ends",
    "C48_pso_find_min_ends",
    "C48_pso_next_iterations_ends"
   ],
   "note": "Termination is relative to components that return or panic."
  },
  {
   "property": "C49",
   "status": "proved",
   "theorems": [
    "C49_ga_threshold",
    "C49_pso_threshold"
   ],
   "note": ""
  },
  {
   "property": "C50",
   "status": "proved",
   "theorems": [
    "C50_composite_any",
    "C50_composite_all",
    "C50_any_is_or",
    "C50_all_is_and",
    "C50_new"
   ],
   "note": ""
  },
  {
   "property": "C51",
   "status": "proved",
   "theorems": [
    "C51_goal_not_change",
    "C51_ga_goal_not_change",
    "C51_pso_goal_not_change",
    "C51_ga_stop_checker_asked",
    "C51_pso_stop_checker_asked",
    "C51_reference_quiet",
    "C51_reference_unique",
    "C51_constant_goal_stops"
   ],
   "note": ""
  },
  {
   "property": "C52",
   "status": "partial",
   "theorems": [
    "C52_stop_checker_reuse_refuted",
    "C52_stop_checker_reuse_release_refuted",
    "C52_stop_checker_reuse_partial"
   ],
   "note": "REFUTED as stated by C52_stop_checker_reuse_refuted (debug build: panic) and C52_stop_checker_reuse_release_refuted (early stop): GoalNotChange keeps its state. Proved: GoalNotChange behaves like new when the first goal is far from the remembered one; the other checkers have no state."
  },
  {
   "property": "C53",
   "status": "proved",
   "theorems": [
    "C53_ga_statistics",
    "C53_pso_statistics",
    "C53_ga_undisturbed",
    "C53_pso_undisturbed"
   ],
   "note": ""
  },
  {
   "property": "C54",
   "status": "partial",
   "theorems": [
    "C54_ga_run_count_refuted",
    "C54_pso_run_count_refuted",
    "C54_ga_run_count_partial",
    "C54_pso_run_count_partial",
    "C54_ga_resumed_partial",
    "C54_pso_resumed_partial"
   ],
   "note": "REFUTED as stated by C54_ga_run_count_refuted and C54_pso_run_count_refuted: next_iterations adds a result (and so a run) without a row. Proved for every sequence of calls: results = find_min calls + next_iterations calls, rows = find_min calls."
  },
  {
   "property": "C55",
   "status": "partial",
   "theorems": [
    "C55_ga_fresh_refuted",
    "C55_pso_fresh_refuted",
    "C55_ga_statistics_partial",
    "C55_pso_statistics_partial",
    "C55_ga_printing_partial",
    "C55_pso_printing_partial"
   ],
   "note": "REFUTED as stated by C55_ga_fresh_refuted and C55_pso_fresh_refuted: StatisticsLogger panics. Proved: VerboseLogger, ResultOnlyLogger and TimeLogger (C65) never disturb a call, and StatisticsLogger does not once it has a row."
  },
  {
   "property": "C56",
   "status": "proved",
   "theorems": [
    "C56_unite_statistics",
    "C56_unite_statistics_laws",
    "C56_unite_counts",
    "C56_unite_counts_laws"
   ],
   "note": ""
  },
  {
   "property": "C57",
   "status": "proved",
   "theorems": [
    "C57_average_convergence",
    "C57_exact_data"
   ],
   "note": ""
  },
  {
   "property": "C58",
   "status": "partial",
   "theorems": [
    "C58_none_for_any_refuted",
    "C58_none_for_all_partial"
   ],
   "note": "REFUTED as stated by C58_none_for_any_refuted: the documented rule \"None if any run has no solution\" is not what the code does. Proved: None exactly when no run has a solution at that iteration (C58_none_for_all_partial)."
  },
  {
   "property": "C59",
   "status": "proved",
   "theorems": [
    "C59_average_defined",
    "C59_deviation_defined",
    "C59_deviation_not_negative",
    "C59_missing_results_ignored",
    "C59_exact_deviation"
   ],
   "note": ""
  },
  {
   "property": "C60",
   "status": "proved",
   "theorems": [
    "C60_average",
    "C60_deviation",
    "C60_exact_arithmetic"
   ],
   "note": ""
  },
  {
   "property": "C61",
   "status": "proved",
   "theorems": [
    "C61_success_rate"
   ],
   "note": ""
  },
  {
   "property": "C62",
   "status": "partial",
   "theorems": [
    "C62_goal",
    "C62_goal_not_finite",
    "C62_vec_nan_refuted",
    "C62_vec_dimension_refuted",
    "C62_vec_partial",
    "C62_vec_constructor"
   ],
   "note": "REFUTED as stated for the vector predicate by C62_vec_nan_refuted (a NaN coordinate counts as a success) and C62_vec_dimension_refuted (missing coordinates are not compared). Proved: the goal predicate in full, and the vector predicate for finite data of the right dimension."
  },
  {
   "property": "C63",
   "status": "proved",
   "theorems": [
    "C63_counts_per_run",
    "C63_average"
   ],
   "note": ""
  },
  {
   "property": "C64",
   "status": "proved",
   "theorems": [
    "C64_ga_undisturbed",
    "C64_pso_undisturbed",
    "C64_ga_calls",
    "C64_pso_calls",
    "C64_pso_next_calls"
   ],
   "note": ""
  },
  {
   "property": "C65",
   "status": "proved",
   "theorems": [
    "C65_ga_undisturbed",
    "C65_pso_undisturbed",
    "C65_ga_line",
    "C65_pso_line"
   ],
   "note": "For a writer that does not fail; the clock and the writer belong to the logger."
  },
  {
   "property": "C66",
   "status": "proved",
   "theorems": [
    "C66_ga_verbose",
    "C66_pso_verbose",
    "C66_ga_report",
    "C66_pso_report"
   ],
   "note": "Number formatting is a parameter."
  },
  {
   "property": "C67",
   "status": "proved",
   "theorems": [
    "C67_paraboloid_f64",
    "C67_paraboloid_f32",
    "C67_minimum_f64",
    "C67_minimum_f32",
    "C67_exact"
   ],
   "note": ""
  },
  {
   "property": "C68",
   "status": "proved",
   "theorems": [
    "C68_panics",
    "C68_rosenbrock_f64",
    "C68_rosenbrock_f32",
    "C68_minimum_f64",
    "C68_minimum_f32",
    "C68_exact"
   ],
   "note": ""
  },
  {
   "property": "C69",
   "status": "proved",
   "theorems": [
    "C69_rastrigin_f64",
    "C69_rastrigin_f32",
    "C69_minimum_f64",
    "C69_minimum_f32",
    "C69_exact",
    "C69_near_f64",
    "C69_near_f32"
   ],
   "note": ""
  },
  {
   "property": "C70",
   "status": "proved",
   "theorems": [
    "C70_sum",
    "C70_order",
    "C70_box",
    "C70_near_minimum",
    "C70_literal"
   ],
   "note": ""
  },
  {
   "property": "C71",
   "status": "proved",
   "theorems": [
    "C71_ga_invariants_after_any_history",
    "C71_pso_reach_invariants"
   ],
   "note": "For the GA under the selection condition of C01."
  },
  {
   "property": "C72",
   "status": "proved",
   "theorems": [
    "C72_compare_floats",
    "C72_total_preorder"
   ],
   "note": ""
  },
  {
   "property": "C73",
   "status": "proved",
   "theorems": [
    "C73_ga_pause_resume"
   ],
   "note": ""
  },
  {
   "property": "C74",
   "status": "proved",
   "theorems": [
    "C74_pso_find_min_structure",
    "C74_pso_next_iterations_structure"
   ],
   "note": ""
  },
  {
   "property": "C75",
   "status": "proved",
   "theorems": [
    "C75_find_min_never_panics",
    "C75_next_iterations_never_panics",
    "C75_find_min_keeps_shape",
    "C75_next_iterations_keeps_shape",
    "C75_find_min_seen_in_shape",
    "C75_next_iterations_seen_in_shape",
    "C75_ends",
    "C75_next_iterations_ends"
   ],
   "note": ""
  },
  {
   "property": "C76",
   "status": "proved",
   "theorems": [
    "C76_find_min_never_panics",
    "C76_next_iterations_never_panics",
    "C76_find_min_keeps_alive",
    "C76_next_iterations_keeps_alive",
    "C76_find_min_seen_alive",
    "C76_next_iterations_seen_alive",
    "C76_ends",
    "C76_next_iterations_ends"
   ],
   "note": ""
  },
  {
   "property": "C77",
   "status": "proved",
   "theorems": [
    "C77_ga_replayed",
    "C77_ga_replayed_prefix"
   ],
   "note": ""
  },
  {
   "property": "C78",
   "status": "proved",
   "theorems": [
    "C78_pso_replayed",
    "C78_pso_replayed_prefix"
   ],
   "note": ""
  },
  {
   "property": "C79",
   "status": "proved",
   "theorems": [
    "C79_pso_find_min_fresh"
   ],
   "note": ""
  },
  {
   "property": "C80",
   "status": "proved",
   "theorems": [
    "C80_ga_setters",
    "C80_pso_setters",
    "C80_ga_new",
    "C80_pso_new",
    "C80_tournament"
   ],
   "note": ""
  },
  {
   "property": "C81",
   "status": "proved",
   "theorems": [
    "C81_ga_logger_find",
    "C81_ga_logger_next",
    "C81_pso_logger_find",
    "C81_pso_logger_next"
   ],
   "note": ""
  },
  {
   "property": "C82",
   "status": "proved",
   "theorems": [
    "C82_int_mean",
    "C82_int_mean_count",
    "C82_int_mean_checked",
    "C82_int_mean_wraps",
    "C82_int_mean_limit"
   ],
   "note": "C82_int_mean_limit: in a release build the mean of the i8 parents 100 and 100 is -28."
  },
  {
   "property": "C83",
   "status": "proved",
   "theorems": [
    "C83_random_creator_new",
    "C83_random_creator_int",
    "C83_random_initializer_int",
    "C83_i64_max_limit",
    "C83_i64_low_limit"
   ],
   "note": "C83_i64_max_limit and C83_i64_low_limit: endpoints beyond 2^53 are rounded, which can panic or leave the interval."
  },
  {
   "property": "C84",
   "status": "proved",
   "theorems": [
    "C84_cross_mean",
    "C84_average_goal",
    "C84_average_convergence",
    "C84_average",
    "C84_three_parents_limit"
   ],
   "note": "C84_three_parents_limit: the mean of three parents 0.1 is greater than 0.1, so nothing exact holds."
  },
  {
   "property": "C85",
   "status": "proved",
   "theorems": [
    "C85_pso_find_settles",
    "C85_pso_next_settles",
    "C85_ga_find_settles",
    "C85_pso_some_bound",
    "C85_ga_some_bound",
    "C85_goal_not_change_alone",
    "C85_composite_any",
    "C85_empty_swarm_limit",
    "C85_limit_population_limit"
   ],
   "note": "C85_empty_swarm_limit: a swarm without particles never ends under GoalNotChange. C85_limit_population_limit: with LimitPopulation, which can lose the best individual, a run can go on for ever."
  },
  {
   "property": "C86",
   "status": "proved",
   "theorems": [
    "C86_paraboloid_f64",
    "C86_paraboloid_f32",
    "C86_rosenbrock_f64",
    "C86_rosenbrock_f32",
    "C86_rastrigin_f64",
    "C86_rastrigin_f32",
    "C86_schwefel_f64",
    "C86_schwefel_f32"
   ],
   "note": ""
  },
  {
   "property": "C87",
   "status": "proved",
   "theorems": [
    "C87_genetic_paraboloid",
    "C87_genetic_rastrigin",
    "C87_genetic_schwefel",
    "C87_test_genetic_rastrigin",
    "C87_test_genetic_schwefel",
    "C87_genetic_rosenbrock",
    "C87_genetic_schwefel_iterative",
    "C87_particleswarm_paraboloid",
    "C87_particleswarm_rastrigin",
    "C87_particleswarm_rosenbrock",
    "C87_particleswarm_schwefel",
    "C87_particleswarm_schwefel_iterative",
    "C87_test_genetic_paraboloid",
    "C87_test_particleswarm_paraboloid",
    "C87_test_genetic_rastrigin_passes",
    "C87_genetic_asserts",
    "C87_particleswarm_asserts",
    "C87_rastrigin_asserts",
    "C87_schwefel_asserts",
    "C87_literals"
   ],
   "note": "genetic-rosenbrock has only GoalNotChange to stop it, which need not happen (C85_limit_population_limit), so nothing is claimed about its end. The assertions of the tests on rastrigin and schwefel depend on the accuracy of libm and are not considered."
  },
  {
   "property": "C88",
   "status": "proved",
   "theorems": [
    "C88_failures_noticed",
    "C88_ga_report",
    "C88_pso_report",
    "C88_ga_verbose",
    "C88_pso_verbose"
   ],
   "note": ""
  },
  {
   "property": "C89",
   "status": "proved",
   "theorems": [
    "C89_genetic_schwefel",
    "C89_genetic_rosenbrock",
    "C89_particleswarm_schwefel",
    "C89_particleswarm_rosenbrock",
    "C89_particleswarm_full",
    "C89_schwefel_inertia",
    "C89_rastrigin_inertia",
    "C89_any_order",
    "C89_rounding_limit",
    "C89_too_many_processors_limit",
    "C89_test_single",
    "C89_test_two",
    "C89_asserts",
    "C89_rosenbrock_test",
    "C89_rosenbrock_test_limit"
   ],
   "note": "genetic-rosenbrock-statistics has only GoalNotChange and a threshold to stop its runs, which need not happen (C85_limit_population_limit), so its theorem is about the runs that end. C89_rounding_limit: the average of the goals can depend on the order. C89_too_many_processors_limit: no runs, so unwrap panics. The second test may panic in debug builds: the GoalNotChange object is used again (C52)."
  },
  {
   "property": "C90",
   "status": "proved",
   "theorems": [
    "C90_find",
    "C90_next",
    "C90_tournament",
    "C90_random_pairing"
   ],
   "note": ""
  },
  {
   "property": "C91",
   "status": "proved",
   "theorems": [
    "C91_ga_find",
    "C91_ga_next",
    "C91_pso_find",
    "C91_pso_next"
   ],
   "note": ""
  },
  {
   "property": "C92",
   "status": "proved",
   "theorems": [
    "C92_programs_honest",
    "C92_forgetful_copies",
    "C92_just_kills",
    "C92_observed",
    "C92_result",
    "C92_old_point_limit"
   ],
   "note": "References, borrowing and cloning are not modelled; a program is a tree of operations, its own computations are arbitrary.  C92_old_point_limit: with a selection that remembers, find_min may return a point of an earlier run."
  },
  {
   "property": "C93",
   "status": "proved",
   "theorems": [
    "C93_population_accessors",
    "C93_swarm_accessors",
    "C93_kill",
    "C93_ga_agents",
    "C93_pso_agents",
    "C93_ga_best_agent",
    "C93_pso_best_agent"
   ],
   "note": ""
  },
  {
   "property": "C94",
   "status": "proved",
   "theorems": [
    "C94_negative_velocity",
    "C94_genetic_can_find_f64",
    "C94_genetic_can_find_f32",
    "C94_random_creator_f64",
    "C94_random_creator_f32",
    "C94_random_creator_int",
    "C94_random_initializer_f64",
    "C94_random_initializer_f32",
    "C94_random_pairing",
    "C94_tournament",
    "C94_cross_bitwise_f64",
    "C94_cross_bitwise_f32",
    "C94_cross_exp_f64",
    "C94_cross_exp_f32",
    "C94_vec_cross",
    "C94_bitwise_mutation_f64",
    "C94_bitwise_mutation_f32",
    "C94_vec_mutation",
    "C94_teleport_f64",
    "C94_teleport_f32",
    "C94_classic_velocity",
    "C94_canonical_velocity",
    "C94_inertia_velocity",
    "C94_swarm_can_find_f64",
    "C94_swarm_can_find_f32"
   ],
   "note": ""
  },
  {
   "property": "C95",
   "status": "proved",
   "theorems": [
    "C95_ga_find_min",
    "C95_ga_next_iterations",
    "C95_pso_find_min",
    "C95_pso_next_iterations",
    "C95_random_pairing",
    "C95_tournament",
    "C95_limit_population",
    "C95_kill_fitness_nan",
    "C95_selection_interval",
    "C95_classic_velocity",
    "C95_canonical_velocity",
    "C95_inertia_velocity",
    "C95_negative_velocity",
    "C95_max_iterations",
    "C95_threshold",
    "C95_swarm_same_points",
    "C95_genetic_same_points",
    "C95_goal_not_change_limit"
   ],
   "note": "C95_goal_not_change_limit shows that GoalNotChange has to be excluded"
  },
  {
   "property": "C96",
   "status": "proved",
   "theorems": [
    "C96_plain_tests",
    "C96_random_tests"
   ],
   "note": "C96_example_one_sided: the assertions on average call counts bound them only from above"
  },
  {
   "property": "C97",
   "status": "proved",
   "theorems": [
    "C97_goal",
    "C97_vector",
    "C97_overflow_limit",
    "C97_equal_goals_limit"
   ],
   "note": ""
  },
  {
   "property": "C98",
   "status": "proved",
   "theorems": [
    "C98_next_iterations",
    "C98_find_min",
    "C98_classic",
    "C98_canonical",
    "C98_inertia",
    "C98_negative",
    "C98_max_velocity_dimensions",
    "C98_max_velocity_abs",
    "C98_move_to_boundary",
    "C98_lone_particle"
   ],
   "note": ""
  },
  {
   "property": "C99",
   "status": "proved",
   "theorems": [
    "C99_swarm_escapes_f64",
    "C99_swarm_escapes_f32"
   ],
   "note": ""
  },
  {
   "property": "C100",
   "status": "proved",
   "theorems": [
    "C100_find_min",
    "C100_next_iterations",
    "C100_vec_cross",
    "C100_vec_mutation",
    "C100_mean",
    "C100_bits_f64",
    "C100_bits_f32",
    "C100_exp_f64",
    "C100_exp_f32",
    "C100_bits_clone_f64",
    "C100_bits_clone_f32",
    "C100_unmutated",
    "C100_mean_hull",
    "C100_clones",
    "C100_overflow_limit"
   ],
   "note": "C100_overflow_limit shows why the doubled bounds have to be finite"
  },
  {
   "property": "C101",
   "status": "proved",
   "theorems": [
    "C101_genetic_programs",
    "C101_swarm_programs",
    "C101_genetic_iterative",
    "C101_swarm_iterative"
   ],
   "note": ""
  },
  {
   "property": "C102",
   "status": "proved",
   "theorems": [
    "C102_find_min",
    "C102_next_iterations",
    "C102_find_min_unlimited",
    "C102_next_iterations_unlimited",
    "C102_canonical",
    "C102_classic",
    "C102_inertia",
    "C102_negative",
    "C102_programs_limited",
    "C102_programs_iterative",
    "C102_programs_statistics",
    "C102_programs_unlimited"
   ],
   "note": ""
  },
  {
   "property": "C103",
   "status": "proved",
   "theorems": [
    "C103_genetic_paraboloid",
    "C103_genetic_rastrigin",
    "C103_genetic_rosenbrock",
    "C103_genetic_schwefel",
    "C103_genetic_schwefel_iterative",
    "C103_test_genetic_paraboloid",
    "C103_test_genetic_rastrigin",
    "C103_test_genetic_schwefel",
    "C103_genetic_schwefel_statistics",
    "C103_genetic_rosenbrock_statistics",
    "C103_test_genetic_stat_paraboloid",
    "C103_test_genetic_rosenbrock",
    "C103_particleswarm_paraboloid",
    "C103_particleswarm_rastrigin",
    "C103_particleswarm_rosenbrock",
    "C103_particleswarm_schwefel",
    "C103_particleswarm_schwefel_iterative",
    "C103_test_particleswarm_paraboloid",
    "C103_particleswarm_schwefel_statistics",
    "C103_particleswarm_rosenbrock_statistics",
    "C103_particleswarm_schwefel_statistics_full",
    "C103_particleswarm_statistics_inertia"
   ],
   "note": ""
  },
  {
   "property": "C104",
   "status": "proved",
   "theorems": [
    "C104_genetic_schwefel",
    "C104_genetic_rosenbrock",
    "C104_particleswarm_schwefel",
    "C104_particleswarm_rosenbrock",
    "C104_particleswarm_full",
    "C104_schwefel_inertia",
    "C104_rastrigin_inertia",
    "C104_stores",
    "C104_lists",
    "C104_solution_columns",
    "C104_convergence_columns",
    "C104_numerals"
   ],
   "note": ""
  },
  {
   "property": "C105",
   "status": "proved",
   "theorems": [
    "C105_paraboloid_f64",
    "C105_paraboloid_f32",
    "C105_rosenbrock_f64",
    "C105_rosenbrock_f32",
    "C105_rastrigin_f64",
    "C105_rastrigin_f32",
    "C105_schwefel_f64",
    "C105_schwefel_f32",
    "C105_schwefel_floor",
    "C105_genetic_paraboloid",
    "C105_genetic_rastrigin",
    "C105_genetic_schwefel",
    "C105_genetic_rosenbrock",
    "C105_particleswarm_paraboloid",
    "C105_particleswarm_rastrigin",
    "C105_particleswarm_schwefel",
    "C105_particleswarm_rosenbrock"
   ],
   "note": ""
  },
  {
   "property": "C106",
   "status": "proved",
   "theorems": [
    "C106_paraboloid",
    "C106_rosenbrock",
    "C106_rastrigin",
    "C106_schwefel",
    "C106_genetic_paraboloid",
    "C106_genetic_rastrigin",
    "C106_genetic_schwefel",
    "C106_genetic_rosenbrock",
    "C106_particleswarm_paraboloid",
    "C106_particleswarm_rastrigin",
    "C106_particleswarm_schwefel",
    "C106_particleswarm_rosenbrock",
    "C106_genetic_schwefel_count",
    "C106_genetic_rosenbrock_count",
    "C106_particleswarm_schwefel_count",
    "C106_particleswarm_rosenbrock_count",
    "C106_particleswarm_full_count",
    "C106_schwefel_inertia_count",
    "C106_rastrigin_inertia_count",
    "C106_early"
   ],
   "note": ""
  },
  {
   "property": "C107",
   "status": "proved",
   "theorems": [
    "C107_crowd",
    "C107_particleswarm_paraboloid",
    "C107_particleswarm_rastrigin",
    "C107_particleswarm_rosenbrock",
    "C107_particleswarm_schwefel",
    "C107_test_particleswarm_paraboloid",
    "C107_particleswarm_paraboloid_result",
    "C107_particleswarm_rastrigin_result",
    "C107_particleswarm_rosenbrock_result",
    "C107_particleswarm_schwefel_result",
    "C107_test_fails"
   ],
   "note": ""
  },
  {
   "property": "C108",
   "status": "proved",
   "theorems": [
    "C108_limit_population",
    "C108_next_iterations",
    "C108_find_min",
    "C108_result",
    "C108_genetic_paraboloid",
    "C108_genetic_rastrigin",
    "C108_genetic_rosenbrock",
    "C108_genetic_schwefel",
    "C108_test_genetic_paraboloid",
    "C108_test_genetic_rastrigin",
    "C108_test_genetic_schwefel",
    "C108_test_genetic_paraboloid_can_pass",
    "C108_test_genetic_rastrigin_can_pass"
   ],
   "note": ""
  },
  {
   "property": "C109",
   "status": "proved",
   "theorems": [
    "C109_find_min",
    "C109_next_iterations",
    "C109_genetic_paraboloid",
    "C109_genetic_rastrigin",
    "C109_genetic_rosenbrock",
    "C109_genetic_rosenbrock_returns",
    "C109_genetic_schwefel",
    "C109_test_genetic_paraboloid",
    "C109_test_genetic_rastrigin",
    "C109_test_genetic_schwefel",
    "C109_test_genetic_paraboloid_can_fail",
    "C109_test_genetic_rastrigin_can_fail",
    "C109_test_genetic_schwefel_can_fail"
   ],
   "note": ""
  },
  {
   "property": "C110",
   "status": "proved",
   "theorems": [
    "C110_ga_find_min_limit",
    "C110_ga_find_min_unreached",
    "C110_ga_find_min_short",
    "C110_ga_next_iterations_limit",
    "C110_ga_next_iterations_unreached",
    "C110_ga_next_iterations_short",
    "C110_pso_find_min_limit",
    "C110_pso_find_min_unreached",
    "C110_pso_find_min_short",
    "C110_pso_next_iterations_limit",
    "C110_pso_next_iterations_unreached",
    "C110_pso_next_iterations_short"
   ],
   "note": ""
  }
 ]
}