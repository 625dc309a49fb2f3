{
 "claims": [
  {
   "property": "C01",
   "status": "proved",
   "theorems": [
    "C01_completion",
    "C01_multi_object"
   ],
   "note": "single-object completion and multi-object truncation/splitting"
  },
  {
   "property": "C02",
   "status": "proved",
   "theorems": [
    "C02_cache_history",
    "C02_mixed_width_refuted"
   ],
   "note": "all clauses for every request history; 'same tokens => same program' only for requests of the same integer width, refuted across widths (key is tobytes())"
  },
  {
   "property": "C03",
   "status": "proved",
   "theorems": [
    "C03_stack_is_recursion",
    "C03_value_only_if_complete",
    "C03_all_subexpressions_succeed",
    "C03_extra_argument"
   ],
   "note": "equality with recursive evaluation for every expression, every operator semantics, and trailing tokens; a value is only returned for a complete expression; success implies success of all subexpressions"
  },
  {
   "property": "C04",
   "status": "proved",
   "theorems": [
    "C04_sampled_derivatives",
    "C04_own_argument",
    "C04_unconstrained_refuted"
   ],
   "note": "for every expression whose derivative operators have a variable as last argument, and for everything sampled under diff_right; the refutation shows the constraint is needed"
  },
  {
   "property": "C05",
   "status": "proved",
   "theorems": [
    "C05_features_of_next_node",
    "C05_features_at_once"
   ],
   "note": "one-step and whole-row routines, arities <= 2 (all operators of functions.py)"
  },
  {
   "property": "C06",
   "status": "proved",
   "theorems": [
    "C06_ancestor_mask",
    "C06_unary_effectors",
    "C06_binary_effector_refuted"
   ],
   "note": "exact characterisation: inside the first argument of an effector; equals 'descendant' for unary effectors; refuted for binary ones"
  },
  {
   "property": "C07",
   "status": "proved",
   "theorems": [
    "C07_max_length",
    "C07_min_length",
    "C07_root_not_terminal",
    "C07_tiny_maximum_refuted"
   ],
   "note": "for max >= 3 (the refutation shows max = 2 is not enforced)"
  },
  {
   "property": "C08",
   "status": "proved",
   "theorems": [
    "C08_length_never_stuck",
    "C08_default_constraints_never_stuck",
    "C08_no_unary_refuted",
    "C08_diff_and_min_length_refuted",
    "C08_no_inputs_and_parameter_refuted"
   ],
   "note": "length prior alone and every subset of the default priors never stuck; refuted for three accepted configurations"
  },
  {
   "property": "C09",
   "status": "proved",
   "theorems": [
    "C09_sampled_respects_relation",
    "C09_mask_exact",
    "C09_descendant_first_argument",
    "C09_binary_descendant_refuted"
   ],
   "note": "all six relations, descendant for unary effectors; for binary effectors exactly the first argument is protected (refutation)"
  },
  {
   "property": "C10",
   "status": "proved",
   "theorems": [
    "C10_repeat_cap",
    "C10_repeat_mask_exact",
    "C10_zero_cap_refuted"
   ],
   "note": "for caps >= 1 (cap 0 refuted: first token is not masked)"
  },
  {
   "property": "C11",
   "status": "proved",
   "theorems": [
    "C11_state_variable",
    "C11_without_length_refuted"
   ],
   "note": "together with the length prior (refuted without it)"
  },
  {
   "property": "C12",
   "status": "proved",
   "theorems": [
    "C12_checker_exact",
    "C12_trig_checker",
    "C12_descendant_checker",
    "C12_lchild_rchild_refuted",
    "C12_descendant_effectors_ignored_refuted",
    "C12_nested_effector_refuted",
    "C12_repeat_checker",
    "C12_length_checker",
    "C12_no_inputs_checker"
   ],
   "note": "child/sibling/uchild and counting checks exact; descendant check exact under the stated conditions, refuted outside; lchild/rchild raise"
  },
  {
   "property": "C13",
   "status": "proved",
   "theorems": [
    "C13_most_recent_kept",
    "C13_distinct_and_bounded",
    "C13_capacity_zero_refuted"
   ],
   "note": "for capacity >= 1 or unbounded; capacity 0 refuted (the queue then holds one item)"
  },
  {
   "property": "C14",
   "status": "proved",
   "theorems": [
    "C14_best_kept",
    "C14_maximum_is_best_ever",
    "C14_distinct_and_bounded",
    "C14_pop_removes_worst",
    "C14_minimum",
    "C14_iteration_in_order",
    "C14_remove_same_distinct_and_bounded",
    "C14_push_best_picks_first_maximum",
    "C14_rescored_item_refuted",
    "C14_remove_same_evicts_better_refuted"
   ],
   "note": "push/pop histories: distinct, bounded, no exception; top-k and maximum for one score per key (documented assumption) with exact CPython heapq sift operations; refuted for remove_same=True and for rescored items"
  },
  {
   "property": "C15",
   "status": "proved",
   "theorems": [
    "C15_signed_sum",
    "C15_symbols",
    "C15_terms_are_atomic",
    "C15_symbols_refuted"
   ],
   "note": "signed sum exact; recorded symbols under right_atomic; refutation otherwise"
  },
  {
   "property": "C16",
   "status": "proved",
   "theorems": [
    "C16_build_then_flatten",
    "C16_flatten_after_build",
    "C16_build_fails_iff_incomplete",
    "C16_reported_sizes"
   ],
   "note": "arities <= 2; exact characterisation of failure"
  },
  {
   "property": "C17",
   "status": "proved",
   "theorems": [
    "C17_alignment_and_range",
    "C17_printed_pairs",
    "C17_refit_unchecked_refuted"
   ],
   "note": "alignment always; range except for the re-fit after dropping the constant (refuted there)"
  },
  {
   "property": "C18",
   "status": "proved",
   "theorems": [
    "C18_best_program",
    "C18_never_gets_worse",
    "C18_reported",
    "C18_no_positive_reward_refuted",
    "C18_nan_forgets_best_refuted",
    "C18_invalid_positive_refuted",
    "C18_stability_refuted",
    "C18_history_kept",
    "C18_history_dropped",
    "C18_no_best_program_refuted"
   ],
   "note": "for every history with fair rewards (invalid <= 0, aggregated not NaN, at most 1e6); five refutations show what happens otherwise (crash without positive reward, NaN forgets the best, stability selection ...)"
  },
  {
   "property": "C19",
   "status": "proved",
   "theorems": [
    "C19_selects_the_elite",
    "C19_nothing_selected",
    "C19_total",
    "C19_share"
   ],
   "note": "complete characterisation incl. NaN, ties, None, totality; index of the quantile in exact arithmetic"
  },
  {
   "property": "C20",
   "status": "proved",
   "theorems": [
    "C20_context",
    "C20_no_axis_left",
    "C20_generated",
    "C20_depth_one_refuted"
   ],
   "note": "max_depth >= 2; for max_depth < 2 generation always raises IndexError (refuted)"
  },
  {
   "property": "C21",
   "status": "proved",
   "theorems": [
    "C21_evolved",
    "C21_shape",
    "C21_finishes",
    "C21_operand_becomes_axis",
    "C21_endless_refuted",
    "C21_field_x_refuted"
   ],
   "note": "variable names: no axis named like an operator, and a variable x is an axis (otherwise refuted by C21_field_x_refuted); termination needs two axes or the axis x in simple mode (C21_endless_refuted shows the endless loop otherwise)"
  },
  {
   "property": "C22",
   "status": "proved",
   "theorems": [
    "C22_population",
    "C22_elitist",
    "C22_best",
    "C22_nan_best_refuted",
    "C22_nan_crash_refuted",
    "C22_perfect_discarded_refuted"
   ],
   "note": "Proved for every draw history when no initial individual scores NaN; NaN acceptance, the randint(0) crash it enables, and the discarding of perfect initial fits are refuted parts."
  },
  {
   "property": "C23",
   "status": "proved",
   "theorems": [
    "C23_evaluate",
    "C23_lhs_removed",
    "C23_zero_removed",
    "C23_again"
   ],
   "note": "arrays abstract; regression itself is Train (C26)"
  },
  {
   "property": "C24",
   "status": "proved",
   "theorems": [
    "C24_names",
    "C24_newline_refuted",
    "C24_build",
    "C24_build_order",
    "C24_roundtrip",
    "C24_roundtrip_distinct_initials",
    "C24_default",
    "C24_multiletter_refuted",
    "C24_injective",
    "C24_parse_sound",
    "C24_parse_sound_default_refuted",
    "C24_legacy",
    "C24_legacy_underscore",
    "C24_legacy_field_refuted",
    "C24_valid_names"
   ],
   "note": "Round trip proved exactly when no other listed axis spells the same suffix; refuted without a list of axes for multi-letter axes, for names ending in a newline, and for legacy keys equal to a field name."
  },
  {
   "property": "C25",
   "status": "proved",
   "theorems": [
    "C25_order1",
    "C25_order2",
    "C25_order3_refuted",
    "C25_cube_refuted",
    "C25_order4",
    "C25_other_orders_refuted",
    "C25_linear",
    "C25_short",
    "C25_sga_axis",
    "C25_discover",
    "C25_wrap_refuted",
    "C25_wrap_inside",
    "C25_wrap_periodic"
   ],
   "note": "orders 1, 2 exact incl. boundary for all three copies (kd.utils, SGA incl. N-D axis, DISCOVER 1-4), order 4 interior, linearity, short inputs; refuted: order 3 has the wrong sign, other orders silently give zeros, DISCOVER 2-D routines wrap periodically"
  },
  {
   "property": "C26",
   "status": "proved",
   "theorems": [
    "C26_best_of_tried",
    "C26_total",
    "C26_nan_kept_refuted",
    "C26_lasso_refuted",
    "C26_counts",
    "C26_stridge",
    "C26_all_small_refuted",
    "C26_discover_raises_refuted",
    "C26_discover_single_refuted",
    "C26_tie_refuted"
   ],
   "note": "Search and STRidge proved for every data set and least-squares routine (as an optimality hypothesis); refuted parts: NaN criterion kept, Lasso branch, un-rescaled early return, ties, DISCOVER's array/[] comparison."
  },
  {
   "property": "C27",
   "status": "proved",
   "theorems": [
    "C27_consistent",
    "C27_errors",
    "C27_accepts_nd",
    "C27_accepts_legacy",
    "C27_nd_wins",
    "C27_missing_key_refuted"
   ],
   "note": "Constructor modelled for both modes; every constructed dataset is consistent, every failure is ValueError, and all consistent arguments are accepted. Refuted corner: a pde_data dictionary lacking 'x' is accepted with a NaN coordinate when the field has one row. dtype conversions are not modelled."
  },
  {
   "property": "C28",
   "status": "proved",
   "theorems": [
    "C28_datapoint",
    "C28_random",
    "C28_random_total",
    "C28_amount",
    "C28_uniform",
    "C28_uniform_too_many",
    "C28_uniform_repeats_refuted",
    "C28_mesh",
    "C28_range",
    "C28_range_end_refuted",
    "C28_spline_refuted",
    "C28_spline",
    "C28_nd_order_refuted",
    "C28_nd_dims_refuted"
   ],
   "note": "get_datapoint, random and uniform sampling, mesh and get_range proved for legacy datasets and N-D datasets with axes (x, t). Refuted: get_range excludes the upper bound (own boundaries lose the last row/column); spline sampling pairs values with transposed points; N-D datasets with another axis order, without x, or with three axes are misread."
  },
  {
   "property": "C29",
   "status": "proved",
   "theorems": [
    "C29_split",
    "C29_colloc",
    "C29_legacy",
    "C29_noise",
    "C29_nd",
    "C29_legacy_total",
    "C29_nd_total",
    "C29_ratio_twice_refuted",
    "C29_spline_count_refuted",
    "C29_seed_refuted",
    "C29_bounds_nd",
    "C29_bounds_legacy"
   ],
   "note": "Both sparse adapters (x-t grids and N-D grids): C29_split/C29_legacy/C29_nd prove the train and validation rows are the points and values of distinct grid cells, together exactly the sampled points (a sub-multiset when data_ratio shrinks them), with exact sizes; C29_colloc bounds the collocation points; C29_noise: noise changes only values; totality theorems. Refuted: data_ratio is applied twice with spline sampling; sample count ignored by spline sampling; random_state does not fix the split. Random draws are arguments constrained by without_replacement; rounding of int(total*ratio) in floating point is not modelled."
  },
  {
   "property": "C30",
   "status": "proved",
   "theorems": [
    "C30_legacy",
    "C30_nd",
    "C30_regular",
    "C30_uniform_steps",
    "C30_uneven_refused",
    "C30_ut_exact",
    "C30_regular_legacy",
    "C30_regular_total",
    "C30_params_cut_refuted",
    "C30_tiny_dt_refuted",
    "C30_declared_dimension",
    "C30_declared_dimension_legacy"
   ],
   "note": "C30_legacy, C30_nd: row k of the coordinate table and entry k of the flattened field belong to the same grid cell, in any number of dimensions and any axis order, and every cell occurs; C30_regular: the arrays for the grid search have the left-hand axis first and the derivative along it; exact on quadratics (C30_ut_exact). Refuted: cut_quantile does not cut parameter fields; uniformity of tiny time steps is not checked."
  },
  {
   "property": "C31",
   "status": "proved",
   "theorems": [
    "C31_get",
    "C31_set",
    "C31_get_after_set",
    "C31_set_succeeds",
    "C31_roundtrip",
    "C31_unknown",
    "C31_set_direct",
    "C31_empty",
    "C31_rejected_call_refuted",
    "C31_shared_refuted",
    "C31_trailing_underscore_refuted",
    "C31_new_objects",
    "C31_unstored_refuted",
    "C31_varargs",
    "C31_printed",
    "C31_settings"
   ],
   "note": "every nested dictionary of plain values on estimators forming a tree with clean names (success, values set, others unchanged, keys that succeed are exactly nested names); any values for direct parameters; round trip for any sharing; unknown names; refuted: rejected calls are not atomic, shared sub-estimators, names ending in '_', KD_Discover/KD_DLGA/KD_Discover_Regression raise on every call"
  },
  {
   "property": "C32",
   "status": "proved",
   "theorems": [
    "C32_status",
    "C32_status_error",
    "C32_temp_files",
    "C32_submits_once",
    "C32_submission",
    "C32_no_project",
    "C32_uploaded_file_refuted",
    "C32_status_table"
   ],
   "note": "status codes, temp files, what is submitted, for every failure point; refuted: an uploaded data file is never used by the runner"
  },
  {
   "property": "C33",
   "status": "proved",
   "theorems": [
    "C33_pareto_front",
    "C33_pareto_front_distinct",
    "C33_duplicates_refuted",
    "C33_nan_refuted"
   ],
   "note": "proved for tables without NaN; of equal points only the first is reported (refutes the exact claim)"
  },
  {
   "property": "C34",
   "status": "proved",
   "theorems": [
    "C34_recombination",
    "C34_no_terms"
   ],
   "note": "every non-empty list of complete terms"
  },
  {
   "property": "C35",
   "status": "proved",
   "theorems": [
    "C35_mutated_token_same_kind",
    "C35_mutated_token_differs",
    "C35_term_stays_an_expression",
    "C35_terminal_only_keeps_operators",
    "C35_mutation_breaks_diff_refuted",
    "C35_constant_crashes_refuted",
    "C35_crossover",
    "C35_short_terms"
   ],
   "note": "kinds, arity sequence and completeness preserved; refuted for the derivative constraint and for constants"
  },
  {
   "property": "C36",
   "status": "proved",
   "theorems": [
    "C36_arity_classes_partition",
    "C36_parent_numbering",
    "C36_names_roundtrip",
    "C36_unknown_name_raises",
    "C36_integer_keys",
    "C36_negative_index"
   ],
   "note": "library of arities <= 2 for the partition; the rest for any library"
  },
  {
   "property": "C37",
   "status": "proved",
   "theorems": [
    "C37_terms",
    "C37_no_regression",
    "C37_found",
    "C37_text"
   ],
   "note": "Extraction (any default names, terms, coefficients), its composition with evaluation of an evolved candidate, and the layout of the LaTeX text. Number formatting is a parameter; floats are rationals; the deepcopy of the elements and real_if_close are not modelled."
  },
  {
   "property": "C38",
   "status": "proved",
   "theorems": [
    "C38_random_modules",
    "C38_run_returns_well_formed_best",
    "C38_operators_keep_genomes_well_formed",
    "C38_crossover_exchanges_modules",
    "C38_delete_duplicates_exact",
    "C38_selection_keeps_the_best",
    "C38_best_score_never_gets_worse",
    "C38_answer_beats_every_scored_individual",
    "C38_history_is_non_increasing",
    "C38_initial_best_can_be_lost_refuted",
    "C38_random_genomes"
   ],
   "note": "Crossover exchanges modules, mutation and duplicate removal keep genomes well formed, selection keeps the best half, the best score never increases after the first generation. Refuted: the best individual of the initial population is lost (the initial scores are not used to order the population)."
  },
  {
   "property": "C39",
   "status": "proved",
   "theorems": [
    "C39_at_once_equals_stepwise",
    "C39_no_priors_refuted"
   ],
   "note": "exact for every prior list except the empty one (refuted)"
  },
  {
   "property": "C40",
   "status": "proved",
   "theorems": [
    "C40_counting",
    "C40_default_config_refuted"
   ],
   "note": "counts are right iff soft priors come last; default order raises IndexError"
  },
  {
   "property": "C41",
   "status": "proved",
   "theorems": [
    "C41_constraints_in_force",
    "C41_first_import",
    "C41_reuse_drops_all_refuted",
    "C41_sparse_training_unconstrained_refuted"
   ],
   "note": "every history of imports and trainings, both models"
  },
  {
   "property": "C42",
   "status": "proved",
   "theorems": [
    "C42_function_set_spec",
    "C42_history_independent",
    "C42_nd_config_history_independent",
    "C42_nd_config",
    "C42_function_set",
    "C42_function_set_other"
   ],
   "note": ""
  },
  {
   "property": "C43",
   "status": "proved",
   "theorems": [
    "C43_shallow_terms_pass",
    "C43_deep_terms_pass_refuted"
   ],
   "note": "a shallow term is never rejected; refuted: the depth is estimated as log2 of the size, deep towers pass"
  },
  {
   "property": "C44",
   "status": "proved",
   "theorems": [
    "C44_terms_mention_u",
    "C44_no_state_variable_refuted"
   ],
   "note": "each accepted term mentions u or has exactly the shape shown; refuted by mul(x1,x1)"
  },
  {
   "property": "C45",
   "status": "proved",
   "theorems": [
    "C45_numpy_report",
    "C45_numpy_only",
    "C45_torch_report",
    "C45_stale_entry_refuted",
    "C45_node_and_type_swapped_refuted"
   ],
   "note": "every mixed history; refutations show the stale entry and the swapped fields"
  },
  {
   "property": "C46",
   "status": "proved",
   "theorems": [
    "C46_dedup_sound",
    "C46_dedup_covers",
    "C46_unrelated_term_lost_refuted",
    "C46_different_values_merged_refuted"
   ],
   "note": "soundness always; coverage when lengths all equal or all different (linked by a chain of close values); refuted in general"
  },
  {
   "property": "C47",
   "status": "proved",
   "theorems": [
    "C47_aggregator_best",
    "C47_best_dropped_refuted",
    "C47_no_expression_refuted",
    "C47_offspring_threshold"
   ],
   "note": "monotone and attained; refuted: batch best dropped as near duplicate, IndexError with no expression"
  },
  {
   "property": "C48",
   "status": "proved",
   "theorems": [
    "C48_as_recorded",
    "C48_as_seen",
    "C48_previous_action",
    "C48_open_slots_shifted",
    "C48_open_slots_refuted"
   ],
   "note": "Agrees with what sampling records for training (C48_as_recorded); differs by one step from the open slots shown while sampling (C48_as_seen, C48_open_slots_refuted)."
  },
  {
   "property": "C49",
   "status": "proved",
   "theorems": [
    "C49_reward_bounds",
    "C49_more_terms_cost",
    "C49_usable_metrics",
    "C49_inv_nrmse_refuted",
    "C49_R2_refuted"
   ],
   "note": "bounds and monotonicity proved; inv_nrmse and R2 are accepted by name but unusable (refuted)"
  },
  {
   "property": "C50",
   "status": "proved",
   "theorems": [
    "C50_weighted_quantile",
    "C50_rounding_refuted"
   ],
   "note": "for q at most the total weight; refuted when rounding makes the total smaller than q"
  },
  {
   "property": "C51",
   "status": "proved",
   "theorems": [
    "C51_filter_same"
   ],
   "note": "complete"
  },
  {
   "property": "C52",
   "status": "proved",
   "theorems": [
    "C52_visualize_injective"
   ],
   "note": "names as produced by naming.py; variable names distinct"
  },
  {
   "property": "C53",
   "status": "proved",
   "theorems": [
    "C53_torch_is_recursion",
    "C53_torch_values_screened"
   ],
   "note": "tensors and token functions abstract"
  },
  {
   "property": "C54",
   "status": "proved",
   "theorems": [
    "C54_scored_once",
    "C54_initial_refuted",
    "C54_deletion_refuted"
   ],
   "note": "Holds when no term is deleted; refuted for initial individuals (recorded as objects) and for candidates that lose terms (name tested before, recorded after)."
  },
  {
   "property": "C55",
   "status": "proved",
   "theorems": [
    "C55_second_run_skips",
    "C55_second_run_refuted"
   ],
   "note": "any library left behind by earlier runs; the expectation 'as good as the first run' is refuted"
  },
  {
   "property": "C56",
   "status": "proved",
   "theorems": [
    "C56_no_collisions",
    "C56_keeps_free_names",
    "C56_total",
    "C56_reserved_refuted",
    "C56_renamed_bystander_refuted"
   ],
   "note": "Proved for names that are valid; refuted: a reserved name such as d is rejected although a prefix would make it usable, and a bystander field can be renamed because an earlier renaming took its name."
  },
  {
   "property": "C57",
   "status": "proved",
   "theorems": [
    "C57_grid",
    "C57_terminals",
    "C57_names",
    "C57_denominators",
    "C57_accepts",
    "C57_params_refuted",
    "C57_uniform_axis",
    "C57_primary"
   ],
   "note": "Proved without parameter fields; refuted for parameter fields, whose names are not checked (duplicates, derivative keys, left-hand-side derivative, wrong shape)."
  },
  {
   "property": "C58",
   "status": "proved",
   "theorems": [
    "C58_inferred",
    "C58_legacy",
    "C58_explicit_refuted"
   ],
   "note": "Refuted for N-D datasets: any explicit choice raises TypeError (duplicate keyword)."
  },
  {
   "property": "C59",
   "status": "proved",
   "theorems": [
    "C59_shift_no_zero",
    "C59_shift_bound",
    "C59_shift_id",
    "C59_no_zero",
    "C59_first_evaluation",
    "C59_drift",
    "C59_refuted"
   ],
   "note": "Proved: first evaluation of new terms, data without zeros, bounded drift in general; refuted: scoring x/u twice changes u, and then the value of u^2."
  },
  {
   "property": "C60",
   "status": "proved",
   "theorems": [
    "C60_derivative_x",
    "C60_derivative_t",
    "C60_derivative_const",
    "C60_axis",
    "C60_spacing_refuted"
   ],
   "note": "Refuted: the derivative is per index (unit spacing), so it is off by the factor of the grid spacing; proved exactly that factor for linear fields and the axis handling."
  },
  {
   "property": "C61",
   "status": "proved",
   "theorems": [
    "C61_source",
    "C61_success",
    "C61_result",
    "C61_unknown_model",
    "C61_end_to_end",
    "C61_dataset_field"
   ],
   "note": "for every failure combination; KeyboardInterrupt/SystemExit inside training not modelled"
  },
  {
   "property": "C62",
   "status": "proved",
   "theorems": [
    "C62_consistent",
    "C62_polling",
    "C62_shown",
    "C62_last_submitted",
    "C62_download_failure_refuted",
    "C62_error_shown_finished_refuted",
    "C62_forgets_refuted"
   ],
   "note": "all clauses for every click history; refuted extras: download failure drops a finished job, an errored run is announced as finished, local training forgets a running job"
  },
  {
   "property": "C63",
   "status": "proved",
   "theorems": [
    "C63_files",
    "C63_bad_shape",
    "C63_square_refuted",
    "C63_mat",
    "C63_mat_missing",
    "C63_npy",
    "C63_upload_npy",
    "C63_upload_npy_refuted",
    "C63_unknown",
    "C63_load_pde",
    "C63_unreadable_is_none_refuted",
    "C63_registered_npy",
    "C63_shipped_mats",
    "C63_shipped_all",
    "C63_npy_other"
   ],
   "note": "for different numbers of x and t points; refuted for square data stored with x along rows, and for .npy uploads stored with t along rows; unreadable registered .mat gives None"
  },
  {
   "property": "C64",
   "status": "proved",
   "theorems": [
    "C64_offered",
    "C64_none",
    "C64_discover_refuted"
   ],
   "note": "KD_SGA, KD_DLGA, KD_EqGPT exact; refuted for DISCOVER: registry keys differ from the ones looked up"
  },
  {
   "property": "C65",
   "status": "proved",
   "theorems": [
    "C65_build",
    "C65_keywords",
    "C65_from_dict",
    "C65_roundtrip",
    "C65_update",
    "C65_update_atomic_refuted",
    "C65_update_keywords_refuted",
    "C65_update_method_refuted",
    "C65_fields"
   ],
   "note": "for instances made by the constructor or from_dict; update refuted as atomic, as normalising, and for method names"
  },
  {
   "property": "C66",
   "status": "proved",
   "theorems": [
    "C66_parse",
    "C66_roundtrip",
    "C66_stable",
    "C66_blanks"
   ],
   "note": "ASCII strings"
  },
  {
   "property": "C67",
   "status": "proved",
   "theorems": [
    "C67_more_generations_than_individuals_refuted",
    "C67_odd_population_refuted",
    "C67_zero_generations_refuted",
    "C67_runs_complete"
   ],
   "note": "Proved for every runnable configuration (population even for DLGA, at least as many individuals as generations rounded to even). Refuted otherwise: cross_over loops over n_generations/2 pairs, an odd population of DLGA shrinks, zero generations leave no coefficients."
  },
  {
   "property": "C68",
   "status": "proved",
   "theorems": [
    "C68_mutation_is_local",
    "C68_separate_after_delete_duplicates",
    "C68_ties_share_one_object_refuted"
   ],
   "note": "Holds right after delete_duplicates; refuted after select when scores tie."
  },
  {
   "property": "C69",
   "status": "proved",
   "theorems": [
    "C69_kd_equation_reads_back",
    "C69_own_coefficients",
    "C69_dlga_equation_reads_back",
    "C69_equation_determines_the_terms"
   ],
   "note": ""
  },
  {
   "property": "C70",
   "status": "proved",
   "theorems": [
    "C70_latex_shows_the_equation",
    "C70_operator_names_are_ignored_refuted",
    "C70_operator_names_have_no_effect",
    "C70_second_order_left_side_refuted"
   ],
   "note": "Proved for operator lists that are a prefix of the standard list. Refuted: operator_names is ignored, u_tt on the left is not styled. The printed text is represented by its parts (sign, magnitude in 1e-4, base/power pairs)."
  },
  {
   "property": "C71",
   "status": "proved",
   "theorems": [
    "C71_gene_is_its_operator",
    "C71_columns_are_the_named_products",
    "C71_unknown_operator_shifts_names_refuted",
    "C71_genes_past_the_known_operators_fail"
   ],
   "note": "Proved when all names exist. Refuted: an unknown name is skipped in the columns but counted and printed."
  },
  {
   "property": "C72",
   "status": "proved",
   "theorems": [
    "C72_split_is_a_partition_of_the_pairs",
    "C72_sampled_fit_keeps_the_data_set",
    "C72_full_fit_shuffles_the_data_set",
    "C72_full_fit_keeps_the_data_set_refuted",
    "C72_second_fit_trains_on_wrong_pairs_refuted"
   ],
   "note": "Partition of pairs proved. Refuted: a full-grid fit shuffles dataset.usol in place, a second fit trains on wrong pairs."
  },
  {
   "property": "C73",
   "status": "proved",
   "theorems": [
    "C73_loaded_weights_are_of_this_run",
    "C73_chosen_weights_have_the_smallest_error_refuted"
   ],
   "note": "Loaded weights are of this run and have the smallest recorded error. Refuted: the recorded error is that of the weights one step before the saved ones."
  },
  {
   "property": "C74",
   "status": "proved",
   "theorems": [
    "C74_drawn",
    "C74_leibniz",
    "C74_names",
    "C74_power_refuted",
    "C74_subscript_refuted",
    "C74_subscripts"
   ],
   "note": "Proved: every evolved term is drawn; in Leibniz notation the text is read back by an independent reader with the term's meaning, provided names are plain and no product ending in a sum is raised to a power. Refuted without the proviso (power of (u+x)(u+x)) and for subscript notation (d(u*u) and u*u_x have one text)."
  },
  {
   "property": "C75",
   "status": "proved",
   "theorems": [
    "C75_builtin",
    "C75_label_of_left_side",
    "C75_labels_refuted",
    "C75_summary",
    "C75_summary_skipped_refuted",
    "C75_blank_left_side"
   ],
   "note": "Summary text proved; labels refuted: u_t and u are used whatever the target field and axis are, and the summary raises TypeError when the regression was skipped."
  },
  {
   "property": "C76",
   "status": "proved",
   "theorems": [
    "C76_capabilities_listed",
    "C76_latest_registration_wins",
    "C76_first_registered_ancestor",
    "C76_registration_order",
    "C76_lookup_repeatable",
    "C76_removal",
    "C76_lazy_resolved_once",
    "C76_nearest_ancestor_refuted",
    "C76_lookups_independent_refuted",
    "C76_failed_resolution_retried_refuted",
    "C76_unregister_lazy_refuted"
   ],
   "note": "Stronger expectations are refuted with witnesses: nearest ancestor wins (C76_nearest_ancestor_refuted), lookups are independent of each other (C76_lookups_independent_refuted: a subclass of KD_PySR has no adapter until KD_PySR itself was looked up), a failed lazy import is retried (C76_failed_resolution_retried_refuted), unregister removes a pending lazy entry (C76_unregister_lazy_refuted)."
  },
  {
   "property": "C77",
   "status": "proved",
   "theorems": [
    "C77_initial_settings",
    "C77_configuration_history",
    "C77_rcparams_restored",
    "C77_adapter_entered",
    "C77_backend_request_is_configure",
    "C77_adapter_not_entered",
    "C77_backend_one_call_only_refuted",
    "C77_configure_atomic_refuted",
    "C77_save_path"
   ],
   "note": "Refuted stronger expectations: a back end passed to one render call stays global (C77_backend_one_call_only_refuted); a raising configure() is not atomic (C77_configure_atomic_refuted)."
  },
  {
   "property": "C78",
   "status": "proved",
   "theorems": [
    "C78_dlga_adapter_iff_viz_first",
    "C78_other_adapters",
    "C78_imports_succeed",
    "C78_adapters_kept",
    "C78_kd_dot_viz_refuted",
    "C78_dlga_example_refuted",
    "C78_failed_import_repeats_refuted"
   ],
   "note": "Refuted expectations: with the import order of examples/dlga_example.py KD_DLGA never gets an adapter (C78_dlga_example_refuted); `import kd; kd.viz` / `from kd import viz` recurses without end unless kd.viz was imported already (C78_kd_dot_viz_refuted); a failing `import kd.viz.core` succeeds when repeated (C78_failed_import_repeats_refuted). Internal modules of kd.dataset, kd.model.discover, kd.model.sga are summarised."
  },
  {
   "property": "C79",
   "status": "proved",
   "theorems": [
    "C79_residuals",
    "C79_residual_coordinates",
    "C79_history_series",
    "C79_parity",
    "C79_parity_accepts",
    "C79_parity_flattens_first_refuted",
    "C79_field_comparison",
    "C79_coordinate_forms",
    "C79_time_slices",
    "C79_term_relationship"
   ],
   "note": "Values are exact rationals (no NaN, no integer wrap-around). Refuted stronger expectation: parity data do not flatten before subtracting, so an (n,1) column against an n-vector is rejected (C79_parity_flattens_first_refuted)."
  },
  {
   "property": "C80",
   "status": "proved",
   "theorems": [
    "C80_clamping",
    "C80_slice_values",
    "C80_slice_identity",
    "C80_empty_axis",
    "C80_metadata_kept_refuted"
   ],
   "note": "Refuted stronger expectation: metadata are dropped by slicing (C80_metadata_kept_refuted)."
  },
  {
   "property": "C81",
   "status": "proved",
   "theorems": [
    "C81_names",
    "C81_default_names",
    "C81_library_tokens",
    "C81_swapped_names_refuted"
   ],
   "note": "exact condition; refuted for swapped default names"
  },
  {
   "property": "C82",
   "status": "proved",
   "theorems": [
    "C82_value",
    "C82_exact",
    "C82_short",
    "C82_same_text",
    "C82_set_or_unset",
    "C82_nonzero_refuted",
    "C82_non_finite_refuted"
   ],
   "note": "finite floats as exact rationals with sign; refuted: non-finite, underflow to 0.0"
  },
  {
   "property": "C83",
   "status": "proved",
   "theorems": [
    "C83_rejected",
    "C83_returns",
    "C83_history",
    "C83_consistent",
    "C83_operators",
    "C83_failed_refit_refuted"
   ],
   "note": "every history; refuted: a fit failing after validation desynchronises program and width"
  },
  {
   "property": "C84",
   "status": "proved",
   "theorems": [
    "C84_rowwise",
    "C84_exists",
    "C84_concatenation",
    "C84_guards"
   ],
   "note": "operators elementwise and arbitrary; derivative and laplacian tokens excluded"
  },
  {
   "property": "C85",
   "status": "proved",
   "theorems": [
    "C85_other_numpy_estimators",
    "C85_after_fit",
    "C85_torch_estimator_refuted"
   ],
   "note": "refuted: torch estimators zero the predictions"
  },
  {
   "property": "C86",
   "status": "proved",
   "theorems": [
    "C86_reward",
    "C86_long_expressions"
   ],
   "note": "over rationals, for any monotone square root"
  },
  {
   "property": "C87",
   "status": "proved",
   "theorems": [
    "C87_user_values",
    "C87_defaults_kept",
    "C87_accepted",
    "C87_no_configuration",
    "C87_python310_refuted",
    "C87_path_values",
    "C87_path_refuted"
   ],
   "note": "aliasing not modelled; refuted for Python >= 3.10 (collections.Mapping)"
  },
  {
   "property": "C88",
   "status": "proved",
   "theorems": [
    "C88_succeeds_iff",
    "C88_success",
    "C88_rejected",
    "C88_history",
    "C88_parameters_kept",
    "C88_not_fitted",
    "C88_failed_training_refuted",
    "C88_cached_data_refuted"
   ],
   "note": "positive history theorems; C88_failed_training_refuted and C88_cached_data_refuted show the mixtures a failed call leaves."
  },
  {
   "property": "C89",
   "status": "proved",
   "theorems": [
    "C89_arguments",
    "C89_niterations_refuted"
   ],
   "note": "exact; C89_niterations_refuted: extra_model_kwargs override the attribute."
  },
  {
   "property": "C90",
   "status": "proved",
   "theorems": [
    "C90_order",
    "C90_total",
    "C90_recorded_text",
    "C90_lhs_matters_iff",
    "C90_lhs_shown_refuted"
   ],
   "note": "exact order; C90_lhs_shown_refuted: lhs is ignored when PySR has latex()."
  },
  {
   "property": "C91",
   "status": "proved",
   "theorems": [
    "C91_parity",
    "C91_parity_made",
    "C91_mean",
    "C91_residual",
    "C91_equation",
    "C91_equation_file_refuted",
    "C91_stale_equation_refuted",
    "C91_options_refuted",
    "C91_no_samples_refuted"
   ],
   "note": "exact; refutations for undrawable equations, one-sided options, empty data."
  },
  {
   "property": "C92",
   "status": "proved",
   "theorems": [
    "C92_math_mode",
    "C92_single_formula_refuted",
    "C92_width"
   ],
   "note": "ASCII white space for str.strip(); C92_single_formula_refuted shows texts that are left with inner dollar signs."
  },
  {
   "property": "C93",
   "status": "proved",
   "theorems": [
    "C93_every_request_shown",
    "C93_every_panel_requested",
    "C93_ordered",
    "C93_requests",
    "C93_panels",
    "C93_default_ends",
    "C93_distinct_panels_refuted",
    "C93_report_aligned_refuted"
   ],
   "note": "Proved for every grid and request list. _refuted theorems: panels can repeat; reported requests and shown times are not aligned."
  },
  {
   "property": "C94",
   "status": "proved",
   "theorems": [
    "C94_same_point",
    "C94_rejects",
    "C94_panels",
    "C94_compares_with_itself_refuted",
    "C94_edge_deletion_refuted",
    "C94_edge_deletion_keeps_points",
    "C94_metadata_refuted"
   ],
   "note": "Proved for every dimension and axis order. _refuted theorems: by default the plot compares the field with itself; edge deletion or metadata on another grid makes it raise."
  },
  {
   "property": "C95",
   "status": "proved",
   "theorems": [
    "C95_points",
    "C95_prediction_source",
    "C95_original_refuted",
    "C95_last_source_refuted"
   ],
   "note": "Proved with the prediction sources as arguments. _refuted theorems: compare='original' falls back silently on shape mismatch; last fallback drops generated terms."
  },
  {
   "property": "C96",
   "status": "proved",
   "theorems": [
    "C96_values",
    "C96_drawn_iff",
    "C96_discovered_equation_refuted",
    "C96_reported_data_refuted",
    "C96_heatmap",
    "C96_bins"
   ],
   "note": "Proved for every dimension. _refuted theorems: the discovered equation is not used; the reported residual data mix two fields."
  },
  {
   "property": "C97",
   "status": "proved",
   "theorems": [
    "C97_parity_pairs",
    "C97_no_result",
    "C97_plots_the_fitted_equation",
    "C97_summary",
    "C97_unknown_operator_refuted"
   ],
   "note": "C97_unknown_operator_refuted: a configured but unknown operator makes plot and fit use different columns."
  },
  {
   "property": "C98",
   "status": "proved",
   "theorems": [
    "C98_charts",
    "C98_nothing_to_draw",
    "C98_how_many",
    "C98_every_term_has_its_chart"
   ],
   "note": "Stable sort order among equal coefficients left open by by_size (any order by decreasing size, ties in list order per model)."
  },
  {
   "property": "C99",
   "status": "proved",
   "theorems": [
    "C99_requested_panels",
    "C99_outside_refused",
    "C99_default_panels",
    "C99_missing_data",
    "C99_grid_times_exact",
    "C99_title_refuted"
   ],
   "note": "C99_title_refuted: titles show the request."
  },
  {
   "property": "C100",
   "status": "proved",
   "theorems": [
    "C100_reported_file_is_this_plot",
    "C100_different_files",
    "C100_first_field_comparison",
    "C100_history",
    "C100_second_field_comparison_refuted"
   ],
   "note": "C100_second_field_comparison_refuted: os.rename only when the target is absent."
  },
  {
   "property": "C101",
   "status": "proved",
   "theorems": [
    "C101_objective",
    "C101_optional_series",
    "C101_summary",
    "C101_legend_refuted",
    "C101_legend_right",
    "C101_major_changes",
    "C101_single_generation_refuted"
   ],
   "note": "C101_legend_refuted and C101_single_generation_refuted record real defects."
  },
  {
   "property": "C102",
   "status": "proved",
   "theorems": [
    "C102_shows_individual",
    "C102_nothing_fitted",
    "C102_after_a_generation",
    "C102_negative_index_refuted"
   ],
   "note": "C102_negative_index_refuted: mixed individuals for negative indices."
  },
  {
   "property": "C103",
   "status": "proved",
   "theorems": [
    "C103_arguments",
    "C103_one_line",
    "C103_dlga_spatial_coords_refuted"
   ],
   "note": "C103_dlga_spatial_coords_refuted: spatial_coords is not read by the DLGA adapter."
  },
  {
   "property": "C104",
   "status": "proved",
   "theorems": [
    "C104_accepts",
    "C104_refusals"
   ],
   "note": "construct is __init__'s checks; values by kind."
  },
  {
   "property": "C105",
   "status": "proved",
   "theorems": [
    "C105_candidates",
    "C105_mask_step",
    "C105_run",
    "C105_nan_word_gone",
    "C105_nan_word_gone_later",
    "C105_drawable",
    "C105_square_roots_never_drawn_refuted"
   ],
   "note": "draws are arbitrary sequences allowed by the filter; softmax and sampling are arguments."
  },
  {
   "property": "C106",
   "status": "proved",
   "theorems": [
    "C106_reported_text",
    "C106_reward_is_of_reported_equation",
    "C106_run",
    "C106_quotient_dropped_refuted",
    "C106_dangling_operator_refuted"
   ],
   "note": "with two refuted readings (quotients dropped, dangling operator)."
  },
  {
   "property": "C107",
   "status": "proved",
   "theorems": [
    "C107_top_ten",
    "C107_result",
    "C107_run",
    "C107_list_never_grows_refuted",
    "C107_nan_first_refuted"
   ],
   "note": "torch.topk is any descending permutation; NaN handled by the refuted theorem."
  },
  {
   "property": "C108",
   "status": "proved",
   "theorems": [
    "C108_case_score",
    "C108_reward",
    "C108_mean",
    "C108_best_coefficients",
    "C108_cut_off",
    "C108_failed_case_left_out_refuted",
    "C108_nan_reported_best_refuted",
    "C108_equal_to_ut_refuted"
   ],
   "note": "numpy's least squares is an argument; arithmetic on rationals with infinities and NaN."
  },
  {
   "property": "C109",
   "status": "proved",
   "theorems": [
    "C109_cases",
    "C109_no_case",
    "C109_temporary_directory",
    "C109_best_check_point",
    "C109_rows_disjoint",
    "C109_nan_error_refuted",
    "C109_case_name",
    "C109_grid",
    "C109_coordinates_refuted",
    "C109_evaluation_rows",
    "C109_training_rows_refuted"
   ],
   "note": "Networks, training and files are arguments; events record the file system. Two properties are refuted with witnesses."
  },
  {
   "property": "C110",
   "status": "proved",
   "theorems": [
    "C110_every_word_has_a_branch",
    "C110_terms_mean_what_they_say",
    "C110_other_branches",
    "C110_branches_covered",
    "C110_fifth_order_word_refuted",
    "C110_sint_refuted",
    "C110_uyyt_refuted",
    "C110_sqrt_refuted",
    "C110_bilaplace_3d_refuted",
    "C110_unused_branch_refuted"
   ],
   "note": "Fields are any commutative differential algebra (commuting derivations); refutations use polynomials. env(u) is not modelled (not in the vocabulary)."
  },
  {
   "property": "C111",
   "status": "proved",
   "theorems": [
    "C111_reward_evolution",
    "C111_best_never_falls",
    "C111_no_history",
    "C111_density_requested",
    "C111_density_default",
    "C111_density_labels_refuted",
    "C111_max_curves_refuted",
    "C111_negative_epochs_refuted",
    "C111_best_program"
   ],
   "note": "Drawing not modelled; rewards are extended reals with NaN excluded where needed; the mean is an argument."
  },
  {
   "property": "C112",
   "status": "proved",
   "theorems": [
    "C112_same_term_1d",
    "C112_same_term_3d",
    "C112_fields_1d",
    "C112_coefficients",
    "C112_fields_3d",
    "C112_nd_errors",
    "C112_diff2_refuted",
    "C112_div_refuted",
    "C112_2d_edges_refuted",
    "C112_2d_coordinate_refuted",
    "C112_descending_refuted",
    "C112_operators_refuted",
    "C112_leaves_refuted",
    "C112_grid_points",
    "C112_plotted_quotient",
    "C112_plotted_laplacian"
   ],
   "note": "Rationals; one snapshot at a time; the sine etc. are arguments. The Laplacians are modelled on the plot side only; disagreements are refuted theorems."
  },
  {
   "property": "C113",
   "status": "proved",
   "theorems": [
    "C113_every_point_in_a_bin",
    "C113_bins_disjoint",
    "C113_bin_rows",
    "C113_center",
    "C113_shared_rows_refuted"
   ],
   "note": "Rationals; griddata interpolation not modelled."
  },
  {
   "property": "C114",
   "status": "proved",
   "theorems": [
    "C114_one_reading",
    "C114_text_means_term",
    "C114_neg_inv_refuted",
    "C114_missing_child"
   ],
   "note": "SymPy's own parser is replaced by a grammar of the calls, sums, quotients and negations that occur; names outside SymPy's local dictionary are not modelled (SymPy splits them)."
  },
  {
   "property": "C115",
   "status": "proved",
   "theorems": [
    "C115_equation",
    "C115_notation",
    "C115_invalid",
    "C115_constant_refuted"
   ],
   "note": "SymPy's printing and the expansion of derivatives are an argument."
  },
  {
   "property": "C116",
   "status": "proved",
   "theorems": [
    "C116_most_wins",
    "C116_candidates",
    "C116_answers",
    "C116_best_not_tested_refuted"
   ],
   "note": "Which of several equal minima np.argsort puts first is left open (any choice satisfies the theorem). Invalid programs (evaluate None) are not modelled."
  },
  {
   "property": "C117",
   "status": "proved",
   "theorems": [
    "C117_pretrain",
    "C117_loaded",
    "C117_observations",
    "C117_best_network_used_refuted"
   ],
   "note": "Networks and optimisers are arguments; losses are rationals, infinities or NaN."
  },
  {
   "property": "C118",
   "status": "proved",
   "theorems": [
    "C118_extra_terms",
    "C118_residual",
    "C118_constant_term_fails",
    "C118_zero_loss",
    "C118_extra_gradient_refuted",
    "C118_objective",
    "C118_objective_local",
    "C118_nan_collocation",
    "C118_nan_local",
    "C118_all_equations_refuted",
    "C118_all_epochs",
    "C118_last_round",
    "C118_last_round_fails",
    "C118_no_equation",
    "C118_best_checkpoint_refuted"
   ],
   "note": "Term values are arguments, exact rationals."
  },
  {
   "property": "C119",
   "status": "proved",
   "theorems": [
    "C119_rounds",
    "C119_no_worse",
    "C119_succeeds",
    "C119_best_reported_refuted"
   ],
   "note": "The searches, scores and refinements are arguments."
  },
  {
   "property": "C120",
   "status": "proved",
   "theorems": [
    "C120_quantile",
    "C120_quantile_fails",
    "C120_extremes",
    "C120_cut",
    "C120_boundary_removed",
    "C120_constant_coordinate_refuted",
    "C120_parameters",
    "C120_varying_parameter_refuted"
   ],
   "note": "Exact rationals; rounding of numpy's quantile is not modelled."
  },
  {
   "property": "C121",
   "status": "proved",
   "theorems": [
    "C121_history",
    "C121_settings",
    "C121_arrays",
    "C121_built_in_data_ignored",
    "C121_scaled",
    "C121_scaled_injective"
   ],
   "note": ""
  },
  {
   "property": "C122",
   "status": "proved",
   "theorems": [
    "C122_modules",
    "C122_training",
    "C122_eqgpt",
    "C122_local_training_refuted",
    "C122_case_filter",
    "C122_parameters",
    "C122_cut_off"
   ],
   "note": "Training, loading and rendering are arguments. ModuleNotFoundError is OtherError."
  },
  {
   "property": "C123",
   "status": "proved",
   "theorems": [
    "C123_refused_values",
    "C123_nan_sample",
    "C123_same_parameters",
    "C123_whole_numbers",
    "C123_fractional_sample_refuted",
    "C123_button",
    "C123_empty_field_refuted"
   ],
   "note": "The JSON of the parameters is read back as written."
  },
  {
   "property": "C124",
   "status": "proved",
   "theorems": [
    "C124_hidden_fields",
    "C124_search_epochs_refuted",
    "C124_groups",
    "C124_presets",
    "C124_switch",
    "C124_preset_operators",
    "C124_model_listed",
    "C124_default_model"
   ],
   "note": "Gradio fires a change event when the value changes."
  },
  {
   "property": "C125",
   "status": "proved",
   "theorems": [
    "C125_output",
    "C125_session",
    "C125_untrained",
    "C125_directory_restored_refuted"
   ],
   "note": "Figures are opaque."
  },
  {
   "property": "C126",
   "status": "proved",
   "theorems": [
    "C126_episode",
    "C126_permitted",
    "C126_runs",
    "C126_example"
   ],
   "note": "The recurrent cell, soft priors and random draws are arguments; one row of the batch. C126_permitted connects to C07-C12."
  },
  {
   "property": "C127",
   "status": "proved",
   "theorems": [
    "C127_training_logits",
    "C127_first_token",
    "C127_stateless",
    "C127_memoryless",
    "C127_refuted"
   ],
   "note": "Exact logits of training and of sampling proved; general agreement refuted (C127_refuted)."
  },
  {
   "property": "C128",
   "status": "proved",
   "theorems": [
    "C128_neglogp",
    "C128_causal",
    "C128_loss",
    "C128_default_ignores_rewards",
    "C128_spr_loss",
    "C128_credit",
    "C128_default_refuted",
    "C128_forbidden_padding",
    "C128_scored_example",
    "C128_powers"
   ],
   "note": "softmax and log_softmax are arguments; arithmetic over rationals with inf and NaN. Gradients themselves are not modelled, only the loss as a function of the log probabilities. Default settings refuted."
  },
  {
   "property": "C129",
   "status": "proved",
   "theorems": [
    "C129_encodable",
    "C129_faithful",
    "C129_sampler_runs",
    "C129_example"
   ],
   "note": "One-hot encoding; the embedding branch fails (C130)."
  },
  {
   "property": "C130",
   "status": "proved",
   "theorems": [
    "C130_settings",
    "C130_max_length",
    "C130_first_length_prior",
    "C130_documented_refuted"
   ],
   "note": "Exact characterization; the documented alternatives are refuted."
  },
  {
   "property": "C131",
   "status": "proved",
   "theorems": [
    "C131_causal",
    "C131_as_sampled",
    "C131_loss"
   ],
   "note": "Layers are arguments that see exactly the unmasked positions (weight of a masked position is exactly 0)."
  },
  {
   "property": "C132",
   "status": "proved",
   "theorems": [
    "C132_sentences",
    "C132_unreachable_refuted"
   ],
   "note": "Uses C105/C106 for what a run stores; reachability refuted."
  },
  {
   "property": "C133",
   "status": "proved",
   "theorems": [
    "C133_every_order",
    "C133_same_equation",
    "C133_counts",
    "C133_all_used",
    "C133_one_end",
    "C133_every_factor_order",
    "C133_end_inside_refuted",
    "C133_name_ignored",
    "C133_left_out_refuted"
   ],
   "note": "random.sample is an argument drawing different positions."
  },
  {
   "property": "C134",
   "status": "proved",
   "theorems": [
    "C134_balanced",
    "C134_used_equally",
    "C134_balanced_untouched",
    "C134_one_coordinate",
    "C134_one_direction_refuted",
    "C134_parameter_name_refuted"
   ],
   "note": "Entries of x are arrays; at most nine coordinates."
  },
  {
   "property": "C135",
   "status": "proved",
   "theorems": [
    "C135_columns_on_inner_points",
    "C135_uncut",
    "C135_both_ends",
    "C135_regular_noise_refuted",
    "C135_regular_rows"
   ],
   "note": "Rounding of the floating point bounds is arbitrary except in the both-ends theorem, which is exact."
  },
  {
   "property": "C136",
   "status": "proved",
   "theorems": [
    "C136_scored_with_fitted_constants",
    "C136_other_programs_untouched",
    "C136_default_constants_refuted",
    "C136_printed_without_value_refuted",
    "C136_optimizer_named",
    "C136_unset_constants",
    "C136_prediction"
   ],
   "note": "The value of a whole program with its constants is an argument; the default mode uses the modelled executor."
  },
  {
   "property": "C137",
   "status": "proved",
   "theorems": [
    "C137_training_pairs",
    "C137_training_checked",
    "C137_training_rows",
    "C137_error",
    "C137_autograd",
    "C137_other_fields",
    "C137_high_order",
    "C137_accepted",
    "C137_refused",
    "C137_names",
    "C137_zero_terminal",
    "C137_options_off",
    "C137_witness",
    "C137_origin_refuted"
   ],
   "note": "Networks are arguments with their derivatives (differentiable: epsilon-delta over Q); standard deviations are an argument. The refuted part is C137_origin_refuted."
  },
  {
   "property": "C138",
   "status": "proved",
   "theorems": [
    "C138_refined_grid",
    "C138_refused",
    "C138_scale_refuted",
    "C138_scale_witness"
   ],
   "note": "C138_scale_refuted gives the general inequality, C138_scale_witness an exact instance."
  },
  {
   "property": "C139",
   "status": "proved",
   "theorems": [
    "C139_kept",
    "C139_refused",
    "C139_config_refuted",
    "C139_witness"
   ],
   "note": "int(0.1 n), int(0.9 n) are taken exactly."
  },
  {
   "property": "C140",
   "status": "proved",
   "theorems": [
    "C140_exact",
    "C140_fresh",
    "C140_history",
    "C140_overwritten_refuted",
    "C140_overwritten_example_refuted",
    "C140_fourth_refuted",
    "C140_errors",
    "C140_whole_numbers_refuted"
   ],
   "note": "Arrays live in a heap so that aliasing is visible. Division by a zero spacing is not modelled."
  },
  {
   "property": "C141",
   "status": "proved",
   "theorems": [
    "C141_names",
    "C141_load",
    "C141_kdv_refuted",
    "C141_again_refuted",
    "C141_short_refuted",
    "C141_uneven_refuted"
   ],
   "note": "File contents are an argument; the three chafee-infante files count as one."
  },
  {
   "property": "C142",
   "status": "proved",
   "theorems": [
    "C142_same_as_items",
    "C142_set",
    "C142_order",
    "C142_del",
    "C142_shadowed_refuted"
   ],
   "note": "Names of dict in Python 3.11."
  },
  {
   "property": "C143",
   "status": "proved",
   "theorems": [
    "C143_once",
    "C143_repeated_refuted",
    "C143_parent_refuted",
    "C143_errors"
   ],
   "note": "Level names in capitals; the standard library's level and propagation rules are part of the model."
  },
  {
   "property": "C144",
   "status": "proved",
   "theorems": [
    "C144_trigonometric",
    "C144_accepted",
    "C144_layout",
    "C144_parameters",
    "C144_library",
    "C144_derivatives",
    "C144_param_diff_refuted",
    "C144_distinct"
   ],
   "note": "Operators are the registered table, transcribed; str(float32) is an argument printing numerals. decision_tree_threshold_set and torch_add (unused) are left out. The claim that parameter names cannot disturb constraints is refuted (C144_param_diff_refuted, for every such request)."
  },
  {
   "property": "C145",
   "status": "proved",
   "theorems": [
    "C145_collected",
    "C145_switched",
    "C145_sub_refuted"
   ],
   "note": "Functions are names. The 'subgrid' branch is not modelled."
  },
  {
   "property": "C146",
   "status": "proved",
   "theorems": [
    "C146_total",
    "C146_accuracy",
    "C146_variation",
    "C146_exact"
   ],
   "note": "np.linalg.lstsq, np.std and the random draws are arguments of the model with the stated property (least squares, a deviation); exact rationals, nan/inf as None"
  },
  {
   "property": "C147",
   "status": "proved",
   "theorems": [
    "C147_picture",
    "C147_readable",
    "C147_program",
    "C147_foreign_refuted"
   ],
   "note": "graphviz is modelled as the lists of nodes and edges handed to it, with its colon rule; str(token) is an argument"
  },
  {
   "property": "C148",
   "status": "proved",
   "theorems": [
    "C148_rewards",
    "C148_own",
    "C148_interleaved_refuted",
    "C148_alone"
   ],
   "note": "the score of an expression under a task is an argument; samples are part of the history (np.random/torch generators are global and reseeded at import); best-program bookkeeping is Searcher.v's; stability selection off"
  },
  {
   "property": "C149",
   "status": "proved",
   "theorems": [
    "C149_names",
    "C149_label",
    "C149_legacy",
    "C149_nd",
    "C149_errors",
    "C149_truth_by_name_only",
    "C149_plot",
    "C149_registry",
    "C149_prepared",
    "C149_prepared_refuted",
    "C149_path",
    "C149_epochs_refuted",
    "C149_slices",
    "C149_rhs_slice",
    "C149_aligned",
    "C149_aligned_refuted",
    "C149_files",
    "C149_files"
   ],
   "note": "names are ASCII; explicit target_field/lhs_axis are C58; the heat maps of plot_figures are only modelled as file names"
  },
  {
   "property": "C150",
   "status": "proved",
   "theorems": [
    "C150_inverse",
    "C150_trig",
    "C150_left",
    "C150_left_strict",
    "C150_right",
    "C150_const",
    "C150_listed_twice_refuted",
    "C150_descendants"
   ],
   "note": "library with distinct names, derivatives of arity 2; sampling as in C21"
  },
  {
   "property": "C151",
   "status": "proved",
   "theorems": [
    "C151_expression",
    "C151_text",
    "C151_refused",
    "C151_overwritten_refuted",
    "C151_number_after_end_refuted",
    "C151_unfinished_refuted",
    "C151_printed_regression"
   ],
   "note": "float parsing of a word is a parameter; set_constants in the order of const positions"
  },
  {
   "property": "C152",
   "status": "proved",
   "theorems": [
    "C152_score",
    "C152_residual",
    "C152_recovers",
    "C152_run",
    "C152_dependent_terms_refuted",
    "C152_sign_refuted",
    "C152_scale_refuted"
   ],
   "note": "svd is a parameter (any vector of the right length; recovery for unit kernel vectors); floats are rationals; v_0 = -1e-8 excluded"
  },
  {
   "property": "C153",
   "status": "proved",
   "theorems": [
    "C153_make",
    "C153_made",
    "C153_refused",
    "C153_rows",
    "C153_width",
    "C153_new_odd",
    "C153_rational_start",
    "C153_value",
    "C153_activation"
   ],
   "note": "Batch_Norm=True, the optimiser and the distribution of the random weights are not modelled"
  },
  {
   "property": "C154",
   "status": "proved",
   "theorems": [
    "C154_rows",
    "C154_names",
    "C154_refused",
    "C154_import",
    "C154_shared_refuted",
    "C154_star_refuted",
    "C154_importable"
   ],
   "note": "np.load is a parameter giving a table of rows"
  },
  {
   "property": "C155",
   "status": "proved",
   "theorems": [
    "C155_position",
    "C155_too_long",
    "C155_repeat",
    "C155_repeat_first",
    "C155_lengths",
    "C155_repeat_refuted"
   ],
   "note": "rows are the tokens since the start; the controller's own bookkeeping for several objects is not modelled"
  },
  {
   "property": "C156",
   "status": "proved",
   "theorems": [
    "C156_residual_map",
    "C156_steps",
    "C156_comparison_2d",
    "C156_comparison",
    "C156_same_plane",
    "C156_options_refuted",
    "C156_titles",
    "C156_refused",
    "C156_notes"
   ],
   "note": "NdFigures.v on the data contracts of VizData.v; cells, coordinates, colour range and title time are kept of a picture; exact rationals. C156_residual_map, C156_steps, C156_comparison_2d, C156_comparison, C156_same_plane, C156_titles, C156_refused, C156_options_refuted."
  },
  {
   "property": "C157",
   "status": "proved",
   "theorems": [
    "C157_points",
    "C157_same_points",
    "C157_fails",
    "C157_warning",
    "C157_converse_refuted"
   ],
   "note": "LegacyDlga.v; metadata columns flattened; attributes other than metadata are present; exact rationals."
  },
  {
   "property": "C158",
   "status": "proved",
   "theorems": [
    "C158_chart",
    "C158_warning",
    "C158_labels",
    "C158_default_label_refuted",
    "C158_default_labels"
   ],
   "note": "LegacyDlga.v; colour arrays of length 3 or 4 that matplotlib could read as one RGB colour are not treated separately."
  },
  {
   "property": "C159",
   "status": "proved",
   "theorems": [
    "C159_curves",
    "C159_improvement",
    "C159_refused",
    "C159_negative_refuted"
   ],
   "note": "LegacyDlga.v; an improvement numpy prints as inf or nan is None."
  },
  {
   "property": "C160",
   "status": "proved",
   "theorems": [
    "C160_report",
    "C160_options",
    "C160_refused",
    "C160_given_refuted"
   ],
   "note": "LegacyDlga.v on the data contracts of VizData.v; the coordinates option (colours) is left out."
  },
  {
   "property": "C161",
   "status": "proved",
   "theorems": [
    "C161_csv",
    "C161_mat",
    "C161_numpy",
    "C161_other_files",
    "C161_by_name",
    "C161_arguments"
   ],
   "note": "Decoding of text, SciPy's and NumPy's readers and the value of a cell are arguments; paths in pathlib's normal form."
  },
  {
   "property": "C162",
   "status": "proved",
   "theorems": [
    "C162_restored",
    "C162_standard",
    "C162_min_max"
   ],
   "note": "Values are rationals and the standard deviation is an argument constrained to be the square root of the variance; columns with spread 0 (NaN or infinity in NumPy) are excluded."
  },
  {
   "property": "C163",
   "status": "proved",
   "theorems": [
    "C163_split",
    "C163_no_validation"
   ],
   "note": "Products of sizes and ratios are exact rationals, not floats."
  },
  {
   "property": "C164",
   "status": "proved",
   "theorems": [
    "C164_completions",
    "C164_other_axes",
    "C164_one_axis",
    "C164_only_adds",
    "C164_cut",
    "C164_parts",
    "C164_second_derivative_refuted"
   ],
   "note": "Tokens are library indices, none is both an axis and a state variable; evaluation and closeness of values are arguments."
  },
  {
   "property": "C165",
   "status": "proved",
   "theorems": [
    "C165_fields",
    "C165_fields_refused",
    "C165_residual_figure",
    "C165_single_prediction",
    "C165_parity",
    "C165_legacy_axes_exchanged",
    "C165_legacy_time_lost",
    "C165_adapter_axes",
    "C165_colour_range",
    "C165_shared_colours",
    "C165_adapter_otherwise",
    "C165_adapter_residual"
   ],
   "note": "Exact rationals; scipy's griddata is an argument (any partial function of the points and values); drawing is a list of marks."
  }
 ]
}