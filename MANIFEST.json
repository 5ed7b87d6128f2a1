{
 "claims": [
  {
   "property": "C01",
   "status": "proved",
   "theorems": [
    "C01_matching_decides_membership",
    "C01_batch_independent",
    "C01_dimension_error"
   ],
   "note": "All four encodings, any number of samples and dimensions."
  },
  {
   "property": "C02",
   "status": "partial",
   "theorems": [
    "C02_volume_ordered",
    "C02_volume_unordered",
    "C02_volume_center",
    "C02_volume_minpct_refuted"
   ],
   "note": "Proved for ordered, unordered and centre-spread; min-percentage reports another number (refuted)."
  },
  {
   "property": "C03",
   "status": "partial",
   "theorems": [
    "C03_clip_ordered_partial",
    "C03_clip_center_partial",
    "C03_clip_minpct_partial",
    "C03_clip_unordered_refuted",
    "C03_clip_center_refuted"
   ],
   "note": "Proved for ordered bounds. Centre-spread and min-percentage clip to [-1,1] whatever the bounds are; unordered bounds are never clipped (refuted), centre-spread intervals can stick out (refuted)."
  },
  {
   "property": "C04",
   "status": "partial",
   "theorems": [
    "C04_min_range_ordered_partial",
    "C04_min_range_center_partial",
    "C04_min_range_unordered_refuted",
    "C04_min_range_unordered_width_refuted",
    "C04_min_range_minpct_refuted"
   ],
   "note": "Proved for ordered and centre-spread; unordered and min-percentage lose samples or stay too narrow (refuted)."
  },
  {
   "property": "C05",
   "status": "proved",
   "theorems": [
    "C05_combined_constraint",
    "C05_combined_width",
    "C05_edge_can_cut_width"
   ],
   "note": "Ordered bounds, as the property says. The last theorem shows the edge exception is real."
  },
  {
   "property": "C06",
   "status": "partial",
   "theorems": [
    "C06_fresh_ordered_partial",
    "C06_fresh_random_center_partial",
    "C06_fresh_unordered_mean_partial",
    "C06_fresh_center_mean_partial",
    "C06_fresh_minpct_refuted",
    "C06_fresh_unordered_halfnorm_refuted"
   ],
   "note": "Proved for ordered bounds with mean and half-normal initialisation, and for mean initialisation with unordered and centre-spread conditions; fails for min-percentage and for unordered half-normal."
  },
  {
   "property": "C07",
   "status": "proved",
   "theorems": [
    "C07_estimated_bounds_tight"
   ],
   "note": "Exact minimum and maximum per feature."
  },
  {
   "property": "C08",
   "status": "partial",
   "theorems": [
    "C08_mutation_leaves_parent",
    "C08_offspring_well_formed",
    "C08_increase_keeps_samples_partial",
    "C08_halfnorm_keeps_center",
    "C08_increase_center_refuted",
    "C08_increase_minpct_refuted"
   ],
   "note": "Parent untouched and ordered offspring proper: all operators. Increasing operators keep samples for ordered bounds; refuted for centre-spread and min-percentage."
  },
  {
   "property": "C09",
   "status": "proved",
   "theorems": [
    "C09_crossover_exchanges_intervals",
    "C09_parents_unmodified",
    "C09_other_encodings_raise"
   ],
   "note": "Ordered bounds; other encodings raise TypeError."
  },
  {
   "property": "C10",
   "status": "proved",
   "theorems": [
    "C10_fit_reports_truth"
   ],
   "note": "Any regressor that predicts row by row; all encodings and data sets."
  },
  {
   "property": "C11",
   "status": "partial",
   "theorems": [
    "C11_same_data_partial",
    "C11_changed_match_set_partial",
    "C11_history_partial",
    "C11_refit_refuted"
   ],
   "note": "Same data, changed match sets and whole histories are covered; refitting on new targets with an unchanged match set keeps the old values (refuted)."
  },
  {
   "property": "C12",
   "status": "partial",
   "theorems": [
    "C12_rule_fitness_range_partial",
    "C12_rule_fitness_monotone",
    "C12_rule_fitness_best",
    "C12_range_min_percentage_refuted",
    "C12_flat_space_not_a_number"
   ],
   "note": "Over the reals; range proved for ordered, unordered and centre-spread rules; min-percentage rules can exceed 100 (refuted) because of their wrong volume."
  },
  {
   "property": "C13",
   "status": "proved",
   "theorems": [
    "C13_prediction_is_weighted_mean",
    "C13_unmatched_rules_silent",
    "C13_unmatched_rules_refuse",
    "C13_no_rules_predict_zero",
    "C13_prediction_between_rules",
    "C13_single_rule_decides"
   ],
   "note": "For every outcome of the filter; weights are experience*weight/error, 0 for the infinite error of a rule without matches. Rules that never matched a sample have no trained model: silent where they match nothing, NotFittedError otherwise."
  },
  {
   "property": "C14",
   "status": "proved",
   "theorems": [
    "C14_cache_agrees"
   ],
   "note": "Rules truthful about the training data, for all filters."
  },
  {
   "property": "C15",
   "status": "partial",
   "theorems": [
    "C15_order_irrelevant",
    "C15_nbest_order_irrelevant",
    "C15_nbest_ties_order_refuted",
    "C15_padding_irrelevant",
    "C15_weight_irrelevant"
   ],
   "note": "Order: proved without filter and for n-best without ties; two equally fit rules make n-best depend on the order (refuted). Padding and weight scaling proved."
  },
  {
   "property": "C16",
   "status": "partial",
   "theorems": [
    "C16_nbest_keeps_fittest_partial",
    "C16_zero_refuted"
   ],
   "note": "n >= 1 proved; n = 0 keeps everything (refuted)."
  },
  {
   "property": "C17",
   "status": "proved",
   "theorems": [
    "C17_fit_measures",
    "C17_length_mismatch_raises",
    "C17_predict_length_mismatch_raises"
   ],
   "note": "For every filter outcome; pool rules fitted on the data, whether or not they match a sample."
  },
  {
   "property": "C18",
   "status": "partial",
   "theorems": [
    "C18_solution_fitness_range",
    "C18_error_strict_partial",
    "C18_complexity_strict",
    "C18_error_strict_refuted",
    "C18_bic_strict",
    "C18_genome_length_irrelevant",
    "C18_genome_length_bic_refuted"
   ],
   "note": "Over the reals. Strictness in the error needs at least one unselected rule (Wu is constant otherwise, refuted). The genome-length theorems are what C22 needs."
  },
  {
   "property": "C19",
   "status": "proved",
   "theorems": [
    "C19_clone_independent",
    "C19_clone_with_genome_is_unmeasured"
   ],
   "note": "clone() equality and later independence over every sequence of heap operations; clone with a new genome has no measured values."
  },
  {
   "property": "C20",
   "status": "proved",
   "theorems": [
    "C20_padding_extends",
    "C20_padding_keeps_rules",
    "C20_shrunk_pool_is_an_error"
   ],
   "note": "padding appends, keeps the selected rules, and a pool shorter than the genome raises."
  },
  {
   "property": "C21",
   "status": "proved",
   "theorems": [
    "C21_genomes_fit_pool",
    "C21_fit_keeps_genomes_in_step"
   ],
   "note": "For every shipped optimizer (inductive catalogue 'shipped' in S_Optimizers) and every history of growing pools within one fit call: genome length = pool length for population and archive, the selected rules can be looked up, measured values are those of the genome; the only exceptions a run can end with are others than the length assertion."
  },
  {
   "property": "C22",
   "status": "partial",
   "theorems": [
    "C22_elitist_is_best",
    "C22_never_worse",
    "C22_no_archive_refuted",
    "C22_genome_length_refuted",
    "C22_random_mixing_refuted",
    "C22_fit_never_worse"
   ],
   "note": "Elitist best and never worse for every shipped optimizer; the three hypotheses (archive, size-free fitness, deterministic mixing) are each shown necessary by a _refuted witness. In the genome-length witness log x is replaced by x - 1 (the true PseudoBIC formula is refuted over the reals in C18_genome_length_bic_refuted)."
  },
  {
   "property": "C23",
   "status": "proved",
   "theorems": [
    "C23_elitists_survive_unchanged",
    "C23_best_never_falls",
    "C23_population_size",
    "C23_saga1_elitists_survive",
    "C23_saga2_elitists_survive",
    "C23_saga3_elitists_survive"
   ],
   "note": "One generation and a whole run of the modelled GA, over all heaps a program can build; hypotheses: deterministic mixing filter, no NaN fitness, and at least one elitist for the monotonicity claim."
  },
  {
   "property": "C24",
   "status": "partial",
   "theorems": [
    "C24_child_recombines_positionwise",
    "C24_uniform_takes_either",
    "C24_npoint_cuts_once_partial",
    "C24_npoint_alternates_refuted"
   ],
   "note": "Position-wise recombination holds for every crossover; the alternation of n-point crossover is refuted with n = 2 (only one cut takes effect), the single-cut behaviour is proved instead."
  },
  {
   "property": "C25",
   "status": "proved",
   "theorems": [
    "C25_flips_drawn_positions",
    "C25_every_genome_reachable"
   ],
   "note": "Exact effect of the draws and reachability of every genome for rates strictly between 0 and 1."
  },
  {
   "property": "C26",
   "status": "partial",
   "theorems": [
    "C26_selects_n_members",
    "C26_tournament_winner_is_fittest",
    "C26_linear_rank_prefers_fitter",
    "C26_roulette_proportional",
    "C26_roulette_negative_refuted",
    "C26_roulette_mixed_signs_refuted"
   ],
   "note": "All four selections return n members; tournament, linear rank and roulette are exact. Roulette is refuted for negative fitness (pseudo-BIC): weights inverted when all are negative, ValueError when signs are mixed."
  },
  {
   "property": "C27",
   "status": "partial",
   "theorems": [
    "C27_saga1_rates_in_range",
    "C27_saga1_direction",
    "C27_saga3_rates_in_unit_interval",
    "C27_saga2_crossover_rate_in_range",
    "C27_saga2_mutation_rate_in_range",
    "C27_saga2_bounds_in_range",
    "C27_saga2_bounds_refuted",
    "C27_saga2_nan_refuted",
    "C27_saga2_mutation_rate_refuted"
   ],
   "note": "saga1 and saga3 keep their rates in range over all runs; saga2 does not: bounds leave the range, become NaN, mutation rate below zero (three refutations with concrete runs)."
  },
  {
   "property": "C28",
   "status": "partial",
   "theorems": [
    "C28_newborns_survive",
    "C28_best_survives",
    "C28_generation",
    "C28_extinct_refuted",
    "C28_no_parents_refuted",
    "C28_capacity_refuted"
   ],
   "note": "Violated: a population of one dies out, and at capacity one ageing call can remove everybody. Proved: below capacity newborn members survive, two newborn members breed two more, a best member above the median does not age."
  },
  {
   "property": "C29",
   "status": "partial",
   "theorems": [
    "C29_binary_in_range",
    "C29_complete_in_range",
    "C29_binary_any_fitness",
    "C29_complete_any_fitness",
    "C29_binary_selectable",
    "C29_complete_selectable_first",
    "C29_binary_equally_fit_selects_nothing",
    "C29_complete_equally_fit_selects_nothing",
    "C29_binary_selectable_refuted",
    "C29_complete_selectable_refuted"
   ],
   "note": "Ranges, and selectability for pools whose rules are not all equally fit, are proved for both builders. Violated when all rules are equally fit: the normalised heuristic is 0/0 and no rule is selected."
  },
  {
   "property": "C30",
   "status": "proved",
   "theorems": [
    "C30_greedy",
    "C30_phase",
    "C30_scouts",
    "C30_iteration",
    "C30_run_never_worse"
   ],
   "note": "Full property for all three neighbour operators, over phases, scouts, iterations and scout-free runs. Fitness values are not NaN in the run theorems. Solution objects live in an explicit heap."
  },
  {
   "property": "C31",
   "status": "partial",
   "theorems": [
    "C31_swarm_binary",
    "C31_wolves_binary",
    "C31_wolves_follow",
    "C31_iteration",
    "C31_best_never_worse",
    "C31_mean_partial",
    "C31_mean_small_swarm",
    "C31_mean_refuted",
    "C31_attractor",
    "C31_binary_move"
   ],
   "note": "Lengths, ranges and personal bests are proved for all movements and both wolf updates. The mean clause is violated (threshold is half the genome length, not half the swarm): refuted by a witness, proved for swarms with as many particles as rules (even)."
  },
  {
   "property": "C32",
   "status": "partial",
   "theorems": [
    "C32_es_rules_accepted",
    "C32_rs_rules_accepted",
    "C32_infinite_error_refuted",
    "C32_ns_rules_accepted"
   ],
   "note": "For ES, RS and novelty search, with an error bound that is not infinite or a variance factor that is not 0. C32_infinite_error_refuted: MaxError(inf) accepts rules that match no sample."
  },
  {
   "property": "C33",
   "status": "partial",
   "theorems": [
    "C33_plus_keeps_best",
    "C33_comma_best_of_last",
    "C33_and_window",
    "C33_plus_other_selection_refuted"
   ],
   "note": "Stated over a witness of the generations that were bred. '+' beats the initial rule and everyone seen; ',' is the best child of the last productive generation; '&' is that or the fittest and oldest of a full window. Refuted for selections other than Fittest."
  },
  {
   "property": "C34",
   "status": "partial",
   "theorems": [
    "C34_fittest_returns_n_fittest",
    "C34_selection_from_candidates",
    "C34_nondominated_kept_partial",
    "C34_nondominated_refuted",
    "C34_roulette_skips_unmatched"
   ],
   "note": "Fittest: the n fittest, in order. All methods: only candidates, at most n. Roulette never takes an unmatched rule if another exists. Non-dominated: every non-dominated rule can be chosen, but so can a beaten one (refuted; the scan modifies the list it iterates over)."
  },
  {
   "property": "C35",
   "status": "partial",
   "theorems": [
    "C35_origins_are_samples",
    "C35_uniform_input_in_box",
    "C35_uniform_input_refuted",
    "C35_matching_distribution",
    "C35_matching_never_covered",
    "C35_matching_no_bias",
    "C35_squared_error_distribution",
    "C35_squared_error_needs_elitist"
   ],
   "note": "Matching and squared-error origins: the exact distribution handed to the generator, uncovered samples have the largest weight, fully covered ones are never drawn. UniformInput refuted (points that are not samples), but it stays inside every box containing the data. The squared-error origin raises AttributeError when the pool holds initial rules and there is no elitist yet."
  },
  {
   "property": "C36",
   "status": "partial",
   "theorems": [
    "C36_seen_rules_refuted",
    "C36_never_starves",
    "C36_minimal_criteria",
    "C36_progressive_criteria",
    "C36_pareto_front",
    "C36_pareto_exclusive_refuted",
    "C36_score_is_mean_of_nearest",
    "C36_score_range",
    "C36_local_score_refuted",
    "C36_nearest_other_refuted",
    "C36_most_novel_survive"
   ],
   "note": "A novelty calculation on a usable heap never fails and keeps at least one rule; minimal criteria drop only small rules below 25 matches and fewer than q% of n-1 plus one; progressive criteria keep at least half, upward closed in fitness; Pareto keeps all non-dominated and nothing beaten in both; exact score for first comparisons; range [0,1] ([0,2] with local competition). Refuted: exclusiveness of the Pareto front, [0,1] with local competition, and the nearest neighbour being another rule (a rule is its own neighbour). Assumes finite rule fitness. Scores of rules compared more than once (duplicates) are covered by the range only. A rule that was compared before is not compared with rules that entered the archive since (C36_seen_rules_refuted)."
  },
  {
   "property": "C37",
   "status": "partial",
   "theorems": [
    "C37_failure_is_contained",
    "C37_error_state_exactly",
    "C37_success_predicts_elitist",
    "C37_zero_iterations_refuted",
    "C37_no_rules_refuted",
    "C37_library_error_state",
    "C37_extinct_refuted"
   ],
   "note": "Components and logger are parameters with state; calls are recorded in the components' own state. Error state iff some call raised, for any previous state of the estimator; hypotheses: logger does not raise, composition starts without elitist and delivers one after a successful step. Refuted: n_iter=0 raises AttributeError out of fit; n_rules=0 gives the error state although nothing raised."
  },
  {
   "property": "C38",
   "status": "proved",
   "theorems": [
    "C38_pool_is_what_was_found",
    "C38_pool_bounded",
    "C38_library_modest"
   ],
   "note": "Pool after each call is the concatenation of all discovery results so far; bounded when the discovery respects n_rules (modest)."
  },
  {
   "property": "C39",
   "status": "partial",
   "theorems": [
    "C39_same_seed_same_result",
    "C39_seed_of_each_step",
    "C39_streams_distinct",
    "C39_initial_rules_share_seed_refuted",
    "C39_second_fit_differs_refuted",
    "C39_fewer_iterations_refuted",
    "C39_children",
    "C39_no_children"
   ],
   "note": "Proved without initial rules, and with them when step_ agrees; refuted with initial rules: shared seed of initial discovery and step 0, second fit of the same object differs, IndexError (error state) after lowering n_iter."
  },
  {
   "property": "C40",
   "status": "partial",
   "theorems": [
    "C40_disabled_never_stops",
    "C40_stops_when_not_above_delta_partial",
    "C40_stagnation_unnoticed_refuted",
    "C40_improving_run_stopped_refuted"
   ],
   "note": "Exact behaviour proved (comparison with 0 because previous_fitness_ is never updated); the documented comparison with the previous iteration is refuted in both directions."
  },
  {
   "property": "C41",
   "status": "partial",
   "theorems": [
    "C41_jobs_agree",
    "C41_same_rules",
    "C41_threads_partial",
    "C41_threads_refuted",
    "C41_never_stuck"
   ],
   "note": "Tasks as runs over the attributes of self they share; joblib's sequential, process (any batches) and thread backends with arbitrary schedules. Proved for one job and for processes, all mutations; for threads only mutations that do not write their step size (refuted for SigmaRange). Simplification: a mutation reads its step size once per call."
  },
  {
   "property": "C42",
   "status": "proved",
   "theorems": [
    "C42_cleanup_keeps_predictions",
    "C42_fit_with_cleanup",
    "C42_only_selected_rules_remain",
    "C42_cleanup_twice"
   ],
   "note": "Any estimator state, also the error state and half cleaned ones."
  },
  {
   "property": "C43",
   "status": "partial",
   "theorems": [
    "C43_round_trip_partial",
    "C43_rules_restored",
    "C43_loaded_mixing",
    "C43_saving_keeps_predictions",
    "C43_filter_refuted",
    "C43_experience_refuted",
    "C43_empty_refuted",
    "C43_default_refuted",
    "C43_saved_once_refuted"
   ],
   "note": "json.py dump/load modelled in M_Saved.v on top of the configuration model of C44. Proved: every selected rule comes back (condition, error, experience, fitted mark, coefficients); the loaded mixing model is determined exactly; with no filter and unbounded experience the loaded estimator answers every input as the saved one. Violated for filtered or bounded mixing models, for estimators that selected no rule (IndexError), for the default estimator (ImportError), and a loaded estimator cannot be saved. Linear models are abstract with the two laws linear_models; input_space_ is not modelled."
  },
  {
   "property": "C44",
   "status": "partial",
   "theorems": [
    "C44_terminates",
    "C44_values_restored_partial",
    "C44_restored_whole",
    "C44_component_lost_refuted",
    "C44_none_refuted",
    "C44_prefix_refuted",
    "C44_array_refuted"
   ],
   "note": "Loading terminates on every dictionary (rounds bounded by the number of keys). Of every orderly configuration that loads, all numbers, texts, nested Nones and classes of parametrised components come back in place (C44_values_restored_partial); C44_restored_whole gives exact conditions under which everything comes back but the logger and array contents (the configuration of tests/test_json.py is an instance). Violations with witnesses: parameterless components replaced by the parent's default, None at the top becomes text, name prefixes (saga1, sas) and arrays make loading fail or lose contents. The class table M_Classes is a selection of the library."
  },
  {
   "property": "C45",
   "status": "partial",
   "theorems": [
    "C45_key_names_path",
    "C45_named_parameter_set",
    "C45_representation_set",
    "C45_unknown_reported",
    "C45_exactly_the_named",
    "C45_outer_first",
    "C45_object_and_settings",
    "C45_nothing_else",
    "C45_skipped_segment_refuted",
    "C45_method_refuted",
    "C45_calls_independent_refuted",
    "C45_shared_defaults_refuted"
   ],
   "note": "Heap model of objects and attributes (M_Objects): the wrapper proved for all component trees and keyword sets whose keywords do not meet; object together with its settings; refuted parts: steps that do not exist are skipped silently, any attribute (also a method) is accepted, calls without an estimator share one, objects in default arguments are shared between estimators."
  },
  {
   "property": "C46",
   "status": "proved",
   "theorems": [
    "C46_flatten_in_order",
    "C46_flatten_pairs"
   ],
   "note": "flatten yields exactly the leaves (strings and non-iterables) in left-to-right depth-first order, as nested generators produce them; a zero-dimensional array inside is shown to raise"
  },
  {
   "property": "C47",
   "status": "proved",
   "theorems": [
    "C47_matched_share",
    "C47_diversity",
    "C47_stats_ordered",
    "C47_stats_exact",
    "C47_score",
    "C47_logger_called_each_step",
    "C47_default_logger_history"
   ],
   "note": "both metrics exactly; the order and the exact values of the logged summaries (finite values); R2 at most one; the history left by the default logger after a whole fit. Diversity is not relative: it reaches n*n/4, shown in an example. The two metrics are commented out in default.py, so nothing calls them"
  },
  {
   "property": "C48",
   "status": "proved",
   "theorems": [
    "C48_configuration_untouched",
    "C48_works_on_copies",
    "C48_missing_bounds_estimated",
    "C48_values_handed_on"
   ],
   "note": "Preparation of the components in fit (clone, bounds, representation, jobs, genome length) on the heap model, for all classes and component trees: old objects untouched even if an exception is raised; copies agree in every setting. Hypotheses: n_jobs is a plain value; for the copies also that the rule discovery carries no representation of its own. Constructor assertions are not modelled."
  },
  {
   "property": "C49",
   "status": "partial",
   "theorems": [
    "C49_stays_alone",
    "C49_swarms_refuted",
    "C49_one_left",
    "C49_ga_recovers",
    "C49_saga1_recovers",
    "C49_saga3_recovers",
    "C49_rs_recovers",
    "C49_sas_refuted",
    "C49_saga2_refuted"
   ],
   "note": "Violated for sas and saga2 (runs that raise IndexError after a step on an empty pool), and for aco, bees, swarm and wolves with warm start: the population stays at one member for the rest of the fit (C49_stays_alone, C49_swarms_refuted). Proved: any optimizer is left with one member; ga, saga1, saga3, rs are back at their size after the next step."
  },
  {
   "property": "C50",
   "status": "partial",
   "theorems": [
    "C50_crossover_keeps_everyone",
    "C50_mutation_keeps_everyone",
    "C50_saga3_parent_refuted"
   ],
   "note": "Crossover and mutation keep every existing solution; violated in saga3, whose crossover without recombination overwrites the parent's own rates."
  },
  {
   "property": "C51",
   "status": "partial",
   "theorems": [
    "C51_children_recombine_bounds",
    "C51_children_stay_boxes",
    "C51_every_mix_possible",
    "C51_no_crossover_keeps_parents",
    "C51_other_representations_raise",
    "C51_other_representations_refuted"
   ],
   "note": "Ordered bounds: proved. Other representations raise TypeError (refuted)."
  },
  {
   "property": "C52",
   "status": "partial",
   "theorems": [
    "C52_unfitted_stays_unfitted",
    "C52_refused_call_loses_model_refuted"
   ],
   "note": "Refuted for fitted estimators: elitist_ is overwritten before check_X_y."
  },
  {
   "property": "C53",
   "status": "partial",
   "theorems": [
    "C53_numbers_and_none_accepted",
    "C53_generator_always_refused",
    "C53_generator_refuted"
   ],
   "note": "Refuted: SeedSequence(Generator) raises TypeError."
  },
  {
   "property": "C54",
   "status": "proved",
   "theorems": [
    "C54_model_is_sound"
   ],
   "note": "Proved for whole fit calls over an abstract tape for every stream; the learner's fitness must be finite (novelty search needs that)."
  },
  {
   "property": "C55",
   "status": "partial",
   "theorems": [
    "C55_initial_rules_always_fail",
    "C55_initial_rules_hurt_refuted"
   ],
   "note": "Violated: universal theorem that a discovery whose origins ask the elitist (SquaredError) always ends in the error state after initial rules were found, and a concrete pair of runs."
  },
  {
   "property": "C56",
   "status": "partial",
   "theorems": [
    "C56_only_by_raising",
    "C56_quiet_loggers_same",
    "C56_members_record_alone",
    "C56_random_filter_refuted"
   ],
   "note": "proved for every logger against a fit without one, for whole histories of quiet loggers, and for combined loggers; the logger sees the pool, the population and the elitist as values, so aliasing is outside the model; the last part is refuted for NRandom"
  },
  {
   "property": "C57",
   "status": "partial",
   "theorems": [
    "C57_representation_everywhere_partial",
    "C57_defaults_refuted",
    "C57_novelty_search_refuted"
   ],
   "note": "Proved: after a successful preparation every component holds and uses the configured representation. Refuted: preparation succeeds for every representation (default mutation, novelty search)."
  },
  {
   "property": "C58",
   "status": "partial",
   "theorems": [
    "C58_lists_parameters",
    "C58_sets_exactly",
    "C58_sets_several",
    "C58_reads_back",
    "C58_unknown_refused",
    "C58_logging_on_copies",
    "C58_duplicate_names_refuted",
    "C58_underscore_refuted",
    "C58_refused_call_changes_refuted",
    "C58_nesting_unnoticed_refuted",
    "C58_shared_order_refuted"
   ],
   "note": "logging/combination.py modelled in M_Combined.v with the parts of sklearn.base it uses, on a heap of loggers and with keys as texts. Proved for proper names; refuted: warning about nesting, names that occur twice, names that end in an underscore, and that a refused call with several keys changes nothing. Loggers other than CombinedLogger have plain parameter values. Several keywords at once that name parameters of loggers without members: all of them are set and nothing else (C58_sets_several); one logger under two names: the last keyword given need not count (refuted)."
  },
  {
   "property": "C59",
   "status": "partial",
   "theorems": [
    "C59_each_sample_alone",
    "C59_repeatable",
    "C59_estimator_is_a_function",
    "C59_random_filter_refuted"
   ],
   "note": "Each call of the mixing model applies one function to every sample, whatever the filter; without a random filter the function is the same for all calls. For the whole estimator: any fit with components of the library, including one in the error state. Refuted for random filters."
  },
  {
   "property": "C60",
   "status": "partial",
   "theorems": [
    "C60_other_width_refused",
    "C60_trained_on_one_refuted",
    "C60_asked_about_one_refuted",
    "C60_error_state_refuted"
   ],
   "note": "Refused with ValueError when neither width is 1 and some rule is selected. Refuted: a single column is broadcast in matching, so unmatched samples get zeros; the error state accepts anything. Not modelled: the regressor's own check of the width, which makes matched samples of a wrong width fail."
  },
  {
   "property": "C61",
   "status": "partial",
   "theorems": [
    "C61_rules_inside",
    "C61_rules_wide",
    "C61_growing_rules_keep_width",
    "C61_numbers_limited_partial",
    "C61_unordered_outside_refuted",
    "C61_center_outside_refuted",
    "C61_width_lost_refuted"
   ],
   "note": "Proved for ordered bounds: all rules of every fit that ends without an error, with the three discoveries of the library and any composition, lie in the region (C61_rules_inside), have the minimum width when only MinRange is set (C61_rules_wide), and keep half the minimum width with both constraints when the strategy starts at samples and only grows, as ES1xLambda does by default (C61_growing_rules_keep_width). For CenterSpread and MinPercentage only the stored numbers are limited. Three parts of the property are refuted by whole fit calls."
  },
  {
   "property": "C62",
   "status": "partial",
   "theorems": [
    "C62_delay_below_iterations",
    "C62_wrong_delay_refused",
    "C62_neighbours_below_children",
    "C62_rates_start_at_limits",
    "C62_initial_size",
    "C62_weights_add_up",
    "C62_set_unchecked_refuted",
    "C62_none_refuted",
    "C62_stale_refuted",
    "C62_keyword_lost_refuted",
    "C62_sets_named",
    "C62_unknown_refused",
    "C62_not_component"
   ],
   "note": "Components that fit works with satisfy their constructors' assertions and have their computed attributes up to date, for all configurations of shipped components. Refuted: set_params does not check, None set afterwards is no default, computed attributes are stale before fit, and a wrapper keyword naming one is ignored."
  },
  {
   "property": "C63",
   "status": "partial",
   "theorems": [
    "C63_elitist_handed_on",
    "C63_new_rules_cover_missed",
    "C63_new_rules_cover_wrong",
    "C63_moved_away_refuted"
   ],
   "note": "Each discovery of a fit is given the best model of the composition before it. Every rule that an evolution strategy with a widening mutation or random search finds covers a sample the model misses (origins by matching) or predicts wrongly (origins by error). Refuted for a mutation that moves the condition."
  },
  {
   "property": "C64",
   "status": "partial",
   "theorems": [
    "C64_comparisons_exact",
    "C64_min_range_keeps_samples",
    "C64_increase_keeps_samples",
    "C64_fresh_rule_matches_origin",
    "C64_constrained_in_region",
    "C64_uniform_inside",
    "C64_min_range_width_partial",
    "C64_min_range_width_refuted",
    "C64_full_percentage_refuted"
   ],
   "note": "Proved in double precision (round to nearest, ties to even, subnormals, overflow) for the operations in the order numpy carries them out: matching and clipping of ordered and unordered bounds are exact; minimum width (ordered bounds, centre-spread) and growth keep matched samples; fresh rules match their origin; constrained rules lie in the region; uniform draws stay inside. Partial: the minimum width holds up to 2^-53 of the bounds; refuted by a rule around 1e10 with the default 1e-6. Refuted: MinPercentage up to 1. Drawn amounts are arbitrary non-negative numbers; UnorderedBound.min_range is left out (wrong indexing, C05)."
  },
  {
   "property": "C65",
   "status": "partial",
   "theorems": [
    "C65_close_to_weighted_mean",
    "C65_between_partial",
    "C65_weight_close",
    "C65_close_to_exact",
    "C65_single_rule_refuted",
    "C65_huge_targets_refuted"
   ],
   "note": "Error bound proved for sums added one after the other, as np.sum along the first axis does. Partial: between the rules' predictions up to the bound. Refuted: single rule (0.7 becomes the next double); huge targets (error overflows, weight 0, prediction 0). The predictions of the regressors are given."
  },
  {
   "property": "C66",
   "status": "partial",
   "theorems": [
    "C66_share_between_0_and_1",
    "C66_wider_not_smaller",
    "C66_rule_fitness_partial",
    "C66_solution_fitness_partial",
    "C66_wu_above_one_refuted",
    "C66_many_features_refuted",
    "C66_large_errors_refuted"
   ],
   "note": "np.exp is a parameter with a stated law. Proved: share in [0,1], volumes monotone, fitness in [0,100] when the space volume is finite and positive (Wu: share not 0). Refuted with witnesses: Wu's quotient above 1, overflow of the space volume with 1024 features, equal fitness for errors above 373."
  },
  {
   "property": "C67",
   "status": "partial",
   "theorems": [
    "C67_error_accurate",
    "C67_order_partial",
    "C67_order_refuted"
   ],
   "note": "The order of addition is an arbitrary tree over a permutation of the squares. Proved: relative error at most (2n+6)2^-53, two orders differ by at most (4n+12)2^-53 relatively. Refuted: exact independence of the order."
  },
  {
   "property": "C68",
   "status": "partial",
   "theorems": [
    "C68_drawn_has_weight",
    "C68_proportional_partial",
    "C68_counts_drawn",
    "C68_no_weights",
    "C68_every_weight_has_a_chance_refuted",
    "C68_large_weights_refuted",
    "C68_small_errors_refuted"
   ],
   "note": "Weights with rounding: with at most 2^20 non-negative doubles whose sum is positive and at most 2^900, added in any order, numpy accepts the computed probabilities (its Kahan sum is within 2^-26 of 1), the index drawn has a positive weight, and the set of random numbers that draw i is an interval whose length differs from the exact share by at most 24 (n + 1) 2^-53. All weights 0: no bias in origins and the selection of solutions, ValueError in the selection of rules (caught there) and for the onlooker bees (not caught). Refuted: every positive weight has a chance; sums that overflow; squared errors that underflow. numpy's Generator.choice is modelled from its documented algorithm (checks, cumsum, division by the last entry, searchsorted right)."
  },
  {
   "property": "C69",
   "status": "partial",
   "theorems": [
    "C69_saga1_rates_in_range",
    "C69_saga1_direction",
    "C69_saga2_mutation_rate_partial",
    "C69_saga2_crossover_rate_partial",
    "C69_mutation_rate_above_maximum_refuted",
    "C69_crossover_rate_below_minimum_refuted",
    "C69_mean_partial",
    "C69_equally_fit_refuted",
    "C69_pheromones_in_range",
    "C69_pheromone_direction"
   ],
   "note": "saga1's rates (clamped by min and max) stay in range for any number of generations and any diversity measure, and move in the documented direction. saga2's rates: proved up to a relative excess of 3 * 2^-53 for any mean; a rate above the maximum and one below the minimum are exhibited. Means: exact up to 2 n 2^-53 times the largest value; refuted exactly: three solutions of fitness 0.1 have a mean above 0.1, with the consequence for the rates of saga1 and saga2. Pheromones: in range, falling without deposits, not falling because of them. np.mean and sum are modelled as additions in any order (tree); sum() in Python 3.12 and later compensates rounding errors and is not modelled."
  },
  {
   "property": "C70",
   "status": "partial",
   "theorems": [
    "C70_share_range_partial",
    "C70_share_of_volume_partial",
    "C70_apart_partial",
    "C70_other_encodings_refuted",
    "C70_flat_rules_refuted",
    "C70_chance_unless_nested",
    "C70_nested_never_selected",
    "C70_more_overlap_less_likely",
    "C70_complete_marks",
    "C70_binary_marks",
    "C70_binary_iteration",
    "C70_complete_iteration"
   ],
   "note": "Ordered bounds of positive volume: share of overlap characterised by volumes and containment; probability 0 exactly for nested rules; monotone; marks entry by entry; one iteration. Partial because center-spread and flat rules violate it (witnesses). Roots and powers are parameters assumed increasing with 0 for 0."
  },
  {
   "property": "C71",
   "status": "partial",
   "theorems": [
    "C71_output_changes_nothing",
    "C71_quiet",
    "C71_lines",
    "C71_one_error_warning",
    "C71_raised_not_warned",
    "C71_warning_names_cause",
    "C71_empty_population",
    "C71_skipping_refuted",
    "C71_reported_fitness_zero",
    "C71_reported_fitness_refuted",
    "C71_first_number_refuted",
    "C71_rule_text_partial",
    "C71_rule_text_refuted",
    "C71_model_text_partial",
    "C71_clone"
   ],
   "note": "Proved for all components and parameters. Violated parts are stated as theorems of their own (reported fitness always 0, composition not skipped, stale step number, missing texts). Tracebacks, the format of numbers and the output of the logger are not part of the model; the order of the messages about bounds is that of get_params, given as a list."
  },
  {
   "property": "C72",
   "status": "partial",
   "theorems": [
    "C72_classical",
    "C72_quantum",
    "C72_no_overshoot",
    "C72_at_rest",
    "C72_inertia",
    "C72_last_inertia_refuted",
    "C72_global_best_refuted",
    "C72_quantum_number_refuted",
    "C72_wolves",
    "C72_range",
    "C72_range_zero"
   ],
   "note": "Every coordinate of the classical and the quantum movement and every bit of the wolves is given by a formula over named entries of the random tape. Refuted: a_min at the last iteration, the best position found so far as target, a position for every random number."
  },
  {
   "property": "C73",
   "status": "partial",
   "theorems": [
    "C73_random",
    "C73_random_any",
    "C73_roulette",
    "C73_roulette_any",
    "C73_separable",
    "C73_roulette_too_few",
    "C73_roulette_unmatched",
    "C73_always_predicts_refuted",
    "C73_random_mixed",
    "C73_roulette_mixed",
    "C73_random_all",
    "C73_random_none",
    "C73_capped_away"
   ],
   "note": "Both random filters in exact arithmetic over the tape: how many rules, which, and that every selection is possible. Roulette failures (too few rules of positive fitness, a rule that matched nothing) are proved as exceptions and exhibited as a refutation. Probabilities of the selections are not stated."
  },
  {
   "property": "C74",
   "status": "partial",
   "theorems": [
    "C74_sigmoid",
    "C74_bitwise",
    "C74_bitwise_any_coins",
    "C74_flips",
    "C74_flips_any",
    "C74_flips_refused",
    "C74_own_source",
    "C74_iteration",
    "C74_shares",
    "C74_prefers_fitter_refuted",
    "C74_iteration_succeeds_refuted"
   ],
   "note": "Updates of the bees evaluated over the random numbers they read; the iteration as a whole; two refuted expectations with witnesses."
  },
  {
   "property": "C75",
   "status": "partial",
   "theorems": [
    "C75_es_discovers",
    "C75_rs_discovers",
    "C75_ns_discovers",
    "C75_ns_refuted",
    "C75_zero_delay_refuted",
    "C75_roulette_refuted",
    "C75_composes",
    "C75_saga2_refuted",
    "C75_quantum_refuted",
    "C75_bees_refuted",
    "C75_fit_succeeds",
    "C75_infinite_error_refuted",
    "C75_defaults"
   ],
   "note": "Progress: with es_works / rs_works / ns_works, working_composer, mixing_works and working_logger no component raises and fit ends with a learned model that predicts any table of the same width; C75_defaults is the case SupRB() with all default components, for every data set, seed, local model and fitness. Covers ES1xLambda, RandomSearch and NoveltySearch for rules, every shipped composer except SAS (its population can die out, C37 and C49) and the binary quantum swarm, and the library's loggers. Settings accepted by the constructors that raise are refuted by witnesses: delay 0 with '&', roulette in the ES, novelty search on other representations, an infinite error bound (predict raises), SAGA2 with warm start after a step on an empty pool, the binary quantum swarm, bees whose fitnesses are all 0."
  },
  {
   "property": "C76",
   "status": "partial",
   "theorems": [
    "C76_one_generation",
    "C76_course",
    "C76_rules_found",
    "C76_no_iterations",
    "C76_lambda_children_refuted",
    "C76_attributes_removed_refuted",
    "C76_archive_in_fit",
    "C76_archive_step"
   ],
   "note": "One iteration of the loop is the relation 'generation' of S_Breed (parents, children in pairs, survivors by preference, archive additions, untouched rules); the course over any number of generations and the returned rules follow. Refuted: an odd lambda gives lambda - 1 children; distances_ and idx_ stay on returned rules (the code looks for 'distance_'). Order by preference is not stated for the biased novelty calculation, whose scores may be any number."
  },
  {
   "property": "C77",
   "status": "proved",
   "theorems": [
    "C77_es_decides",
    "C77_rs_decides",
    "C77_ns_decides",
    "C77_matching_suite",
    "C77_novelty_suite",
    "C77_examples",
    "C77_mixing_filters",
    "C77_mixing_experiences"
   ],
   "note": "The except branch of test_matching_functions is never entered: fit does not raise, it sets is_error_. Configurations of tests and examples are listed in M_Tested with their lines. The drawn fitnesses of test_RouletteWheel belong to one seed of numpy's generator and are not modelled."
  },
  {
   "property": "C78",
   "status": "partial",
   "theorems": [
    "C78_matched_only",
    "C78_same_rules",
    "C78_same_solutions",
    "C78_same_predictions",
    "C78_same_conditions",
    "C78_percentage_refuted"
   ],
   "note": "Local models enter as functions that are themselves indifferent to order (proved for the mean model). Both sides read the same random numbers. match_set_ and the stored predictions are compared in C78_matched_only only. C78_percentage_refuted: MinPercentage computes the volume from the raw numbers, so the same box gets another fitness."
  },
  {
   "property": "C79",
   "status": "partial",
   "theorems": [
    "C79_shift_rules",
    "C79_shift_predictions",
    "C79_shift_solutions",
    "C79_shift_refuted",
    "C79_scale_rules",
    "C79_scale_predictions",
    "C79_scale_refuted"
   ],
   "note": "Local models enter as functions with the property follows (proved for the mean model). C79_shift_refuted: unmatched samples are predicted 0, so the error of a solution changes. C79_scale_refuted: errors are floored at 1e-4, which does not scale. Scaling is proved for solutions without a filter, since fitness-based filters may choose other rules."
  },
  {
   "property": "C80",
   "status": "partial",
   "theorems": [
    "C80_parameters",
    "C80_every_attribute",
    "C80_order",
    "C80_all_scores",
    "C80_printed",
    "C80_default_refuted",
    "C80_same_name_refuted",
    "C80_classes_refuted",
    "C80_classes"
   ],
   "note": "Objects are finite trees: an object that contains itself, for which the code recurses without end, is outside the model. Values without __dict__ are opaque. C80_default_refuted, C80_same_name_refuted and C80_classes_refuted are weaknesses of examples/utils.py."
  },
  {
   "property": "C81",
   "status": "proved",
   "theorems": [
    "C81_matching",
    "C81_es",
    "C81_rs",
    "C81_ns",
    "C81_predictions",
    "C81_solutions",
    "C81_optimizers",
    "C81_fit_es",
    "C81_fit_rs",
    "C81_fit_ns",
    "C81_loggers",
    "C81_steps_needed"
   ],
   "note": "Relational theorem over two runs (evolution strategy, random search and novelty search) with the same random numbers. Equality of predictions is equality of the written rational numbers, so the local model is taken to write its results in lowest terms (as line_learner in L_UnitsEx does). The ant colony with the Complete builder is not covered; CenterSpread, MinPercentage and UnorderedBound conditions are not covered. The default ridge regression depends on the scale (not on the offsets) of the features, because of its penalty; the theorem then applies with a = 1."
  },
  {
   "property": "C82",
   "status": "proved",
   "theorems": [
    "C82_begins",
    "C82_model_shown",
    "C82_ended_early",
    "C82_blind",
    "C82_pseudo_bic",
    "C82_length_matters"
   ],
   "note": "Generic over rule discovery and solution composition. C82_length_matters uses ComplexityEmary(alpha=0), whose values are rational; it relies on the standard library's axioms of the real numbers (only for the link to sol_fitness). The course is read with clean=False; C42 covers the cleanup."
  },
  {
   "property": "C83",
   "status": "proved",
   "theorems": [
    "C83_es",
    "C83_rs",
    "C83_solutions",
    "C83_optimizers",
    "C83_ratios",
    "C83_optimize",
    "C83_fit_es",
    "C83_fit_rs",
    "C83_logger",
    "C83_roulette_matters",
    "C83_stopping_matters"
   ],
   "note": "C83_ratios covers roulette wheels, SAGA1, SAS and the bees for multiplication by a positive number; other scales exclude them. Not covered: SAGA2 (adds a small constant before dividing), ants, and novelty search; exact arithmetic (a scale that merges values by rounding does not keep the order)."
  },
  {
   "property": "C84",
   "status": "proved",
   "theorems": [
    "C84_rule",
    "C84_accept",
    "C84_bounds",
    "C84_predict",
    "C84_measure",
    "C84_score",
    "C84_origins",
    "C84_capped_matters",
    "C84_shrinkage_matters"
   ],
   "note": "Rules, acceptance, bounds, prediction, measures, score and the weights of the roulette wheel origins, for data with k copies of every sample; values compared as numbers. Whole runs of fit are not related: the draws of the tape are not tied to the number of samples. Two cases show why limited experience and regularised models are excluded."
  },
  {
   "property": "C85",
   "status": "proved",
   "theorems": [
    "C85_predict",
    "C85_measure",
    "C85_origins",
    "C85_discovery",
    "C85_optimizers",
    "C85_fit",
    "C85_logger",
    "C85_zero_matters",
    "C85_zero"
   ],
   "note": "Two estimators whose mixing models differ only in experience_weight (both nonzero): predictions, measurements, discoveries (ES, random search, novelty search), fit histories with early stopping and the default logger's metrics agree, for all ten solution optimizers (C85_optimizers; np.sqrt, np.cos and ** are taken to be functions of the value). Weight 0 silences every rule."
  },
  {
   "property": "C86",
   "status": "proved",
   "theorems": [
    "C86_stopped",
    "C86_length_matters",
    "C86_unused",
    "C86_more_patience"
   ],
   "note": "C86_stopped: a fit ended by early stopping equals the fit without early stopping and with that many iterations (fitness blind to max_genome_length_); C86_length_matters: false for ComplexityEmary; C86_unused: early stopping that did not strike only leaves its counter; C86_more_patience: more patience or a smaller delta never ends earlier and begins with the same pool and logs."
  },
  {
   "property": "C87",
   "status": "partial",
   "theorems": [
    "C87_afresh",
    "C87_forgets",
    "C87_histories",
    "C87_archive",
    "C87_archive_matters",
    "C87_reports",
    "C87_model",
    "C87_saga1_refuted",
    "C87_saga2_refuted",
    "C87_sas_refuted",
    "C87_warm_matters"
   ],
   "note": "Proved by running both histories in step on heaps with different older solutions; with an archive the archived solution is the only old one both runs use. C87_reports says the same of the elitist and population the estimator reads, C87_model of the model fit ends with (both without archive). Refuted for SAGA1, SAGA2 (with simple functions in place of root and cosine) and SAS with concrete histories; C87_warm_matters and C87_archive_matters show that warm start and archive make the difference."
  },
  {
   "property": "C88",
   "status": "partial",
   "theorems": [
    "C88_parts",
    "C88_rest",
    "C88_between",
    "C88_discovery",
    "C88_warm_refuted"
   ],
   "note": "C88_rest builds on C87_reports; the discovery is arbitrary, its own state counts among what must agree. C88_warm_refuted runs both continuations with warm start. That an archive matters is C87_archive_matters."
  },
  {
   "property": "C89",
   "status": "proved",
   "theorems": [
    "C89_step",
    "C89_histories",
    "C89_identity_matters"
   ],
   "note": "Heaps are matched by a one-to-one correspondence of addresses (same_picture); that the result of one step looks the same again is stated for results whose solutions exist on the heap, while C89_histories compares population, archive, elitist, generator and exception after any number of steps without that condition. C89_identity_matters shows why equal contents alone do not suffice."
  }
 ]
}