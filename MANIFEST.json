{
 "claims": [
  {
   "property": "C01",
   "status": "proved",
   "theorems": [
    "C01_list_refines_live_sequence",
    "C01_chains_agree_with_alive_flags",
    "C01_push_appends",
    "C01_no_panic"
   ],
   "note": ""
  },
  {
   "property": "C02",
   "status": "proved",
   "theorems": [
    "C02_del_exact"
   ],
   "note": ""
  },
  {
   "property": "C03",
   "status": "proved",
   "theorems": [
    "C03_any_mix_of_advancing_calls",
    "C03_one_call_any_form",
    "C03_iteration_with_deletions",
    "C03_returned_element_is_live",
    "C03_plain_iteration"
   ],
   "note": ""
  },
  {
   "property": "C04",
   "status": "proved",
   "theorems": [
    "C04_any_mix_of_advancing_calls",
    "C04_one_call_any_form",
    "C04_double_iteration_all_pairs",
    "C04_pairs_are_the_unordered_pairs"
   ],
   "note": ""
  },
  {
   "property": "C05",
   "status": "proved",
   "theorems": [
    "C05_coalescing_double_iteration",
    "C05_returned_pair_is_live"
   ],
   "note": ""
  },
  {
   "property": "C06",
   "status": "proved",
   "theorems": [
    "C06_deletion_tolerated_iff",
    "C06_calm_iteration_complete",
    "C06_deleting_last_of_row_ends",
    "C06_deleting_first_cursor_self_pair"
   ],
   "note": "First stated as 'deleting any other element never skips a surviving pair', which is false; the claim is now the exact condition (iff), with the two ways to fail proved as C06_deleting_last_of_row_ends and C06_deleting_first_cursor_self_pair."
  },
  {
   "property": "C07",
   "status": "proved",
   "theorems": [
    "C07_connect_all_restores"
   ],
   "note": ""
  },
  {
   "property": "C08",
   "status": "proved",
   "theorems": [
    "C08_merging_agents_conserve_size",
    "C08_merging_agents_any_history",
    "C08_merge_loses_size_counterexample",
    "C08_failed_merge_grows_counterexample",
    "C08_merge_refused",
    "C08_merge_conserves_total",
    "C08_any_merge_history_conserves_total"
   ],
   "note": "The limits stated in the claim are sharp; cases beyond them are proved by C08_merge_loses_size_counterexample, C08_failed_merge_grows_counterexample."
  },
  {
   "property": "C09",
   "status": "proved",
   "theorems": [
    "C09_positions_zeroed",
    "C09_clear_live_only"
   ],
   "note": ""
  },
  {
   "property": "C10",
   "status": "proved",
   "theorems": [
    "C10_distance_rejects_exactly_different_dimensions",
    "C10_distance_is_euclidean",
    "C10_norm_is_euclidean",
    "C10_distance_is_a_metric",
    "C10_f64_distance_symmetric",
    "C10_f64_distance_to_self",
    "C10_f64_distance_nonnegative",
    "C10_f64_distance_accuracy"
   ],
   "note": "Metric laws on exact reals; in binary64 symmetry, exact zero and a relative error bound."
  },
  {
   "property": "C11",
   "status": "proved",
   "theorems": [
    "C11_add_sub_coordinatewise",
    "C11_scalar_mul_coordinatewise",
    "C11_inplace_operand_cut",
    "C11_inplace_rejects_other_dimension_counterexample",
    "C11_extend_and_clear",
    "C11_inner_product",
    "C11_inner_product_is_dot",
    "C11_bench_add"
   ],
   "note": "The limits stated in the claim are sharp; cases beyond them are proved by C11_inplace_rejects_other_dimension_counterexample."
  },
  {
   "property": "C12",
   "status": "proved",
   "theorems": [
    "C12_faithful_number_text_exists",
    "C12_round_trip",
    "C12_distinct_text",
    "C12_reading",
    "C12_bad_text_counterexample",
    "C12_space_after_comma_counterexample",
    "C12_pair_reading"
   ],
   "note": "Relative to the hypothesis `faithful` on the printing/parsing of numbers (std's f64 code is not modelled); an instance is proved. The limits stated in the claim are sharp; cases beyond them are proved by C12_bad_text_counterexample, C12_space_after_comma_counterexample."
  },
  {
   "property": "C13",
   "status": "proved",
   "theorems": [
    "C13_taxi_debug_exact_or_panic",
    "C13_taxi_exact",
    "C13_distance_correctly_rounded",
    "C13_norm_correctly_rounded",
    "C13_distance_debug_panics_iff",
    "C13_release_formulas",
    "C13_rejects_other_dimension",
    "C13_distance_overflow_counterexample",
    "C13_taxi_overflow_counterexample"
   ],
   "note": "The limits stated in the claim are sharp; cases beyond them are proved by C13_distance_overflow_counterexample, C13_taxi_overflow_counterexample."
  },
  {
   "property": "C14",
   "status": "proved",
   "theorems": [
    "C14_constant_clock",
    "C14_constant_clock_diff",
    "C14_constant_clock_stays_ended",
    "C14_f64_times_never_decrease"
   ],
   "note": ""
  },
  {
   "property": "C15",
   "status": "proved",
   "theorems": [
    "C15_exponential_clock_closed_form",
    "C15_exponential_clock_chain",
    "C15_f64_exponential_clock",
    "C15_plain_and_diff_agree",
    "C15_exponential_clock_stays_ended",
    "C15_set_inc_steps_below_minimum_counterexample"
   ],
   "note": "The limits stated in the claim are sharp; cases beyond them are proved by C15_set_inc_steps_below_minimum_counterexample."
  },
  {
   "property": "C16",
   "status": "proved",
   "theorems": [
    "C16_constant_renew",
    "C16_exponential_renew",
    "C16_constructors_are_fresh"
   ],
   "note": ""
  },
  {
   "property": "C17",
   "status": "proved",
   "theorems": [
    "C17_constant_clock_count",
    "C17_exponential_clock_ends",
    "C17_f64_constant_clock_ends",
    "C17_f64_exponential_clock_ends",
    "C17_f64_constant_clock_ends_iff",
    "C17_f64_clock_never_ends_counterexample"
   ],
   "note": "The limits stated in the claim are sharp; cases beyond them are proved by C17_f64_clock_never_ends_counterexample."
  },
  {
   "property": "C18",
   "status": "proved",
   "theorems": [
    "C18_constant_new_validates",
    "C18_set_tmax_validates",
    "C18_exponential_set_tmax_validates",
    "C18_new_exact",
    "C18_convert_exact",
    "C18_exponential_new_validates",
    "C18_set_inc_validates",
    "C18_set_inc_exact",
    "C18_f64_new_positive",
    "C18_nan_accepted_counterexample",
    "C18_length_two_never_increases_counterexample",
    "C18_zero_step_accepted_counterexample",
    "C18_small_tmax_becomes_infinite_counterexample"
   ],
   "note": "The limits stated in the claim are sharp; cases beyond them are proved by C18_nan_accepted_counterexample, C18_length_two_never_increases_counterexample, C18_zero_step_accepted_counterexample, C18_small_tmax_becomes_infinite_counterexample."
  },
  {
   "property": "C19",
   "status": "proved",
   "theorems": [
    "C19_ok_is_accepted_by_inclusion",
    "C19_circular_ends_inside",
    "C19_cubic_ends_inside",
    "C19_cylindrical_ends_inside",
    "C19_f64_cubic_ends_inside",
    "C19_f64_circular_ends_inside",
    "C19_f64_cylindrical_ends_inside",
    "C19_f64_overflow_gives_nan_and_ok_counterexample",
    "C19_f64_nan_displacement_is_ok_counterexample",
    "C19_f64_huge_cube_gives_nan_counterexample"
   ],
   "note": "The limits stated in the claim are sharp; cases beyond them are proved by C19_f64_overflow_gives_nan_and_ok_counterexample, C19_f64_nan_displacement_is_ok_counterexample, C19_f64_huge_cube_gives_nan_counterexample."
  },
  {
   "property": "C20",
   "status": "proved",
   "theorems": [
    "C20_interior_moves_exact"
   ],
   "note": ""
  },
  {
   "property": "C21",
   "status": "proved",
   "theorems": [
    "C21_circular_reflection"
   ],
   "note": ""
  },
  {
   "property": "C22",
   "status": "proved",
   "theorems": [
    "C22_cubic_walls",
    "C22_f64_cubic_walls"
   ],
   "note": ""
  },
  {
   "property": "C23",
   "status": "proved",
   "theorems": [
    "C23_cylinder_walls"
   ],
   "note": ""
  },
  {
   "property": "C24",
   "status": "proved",
   "theorems": [
    "C24_circular_random_inside",
    "C24_circular_random_to_inside",
    "C24_cubic_random_inside",
    "C24_cubic_random_to_inside",
    "C24_cylindrical_random_inside",
    "C24_cylindrical_random_to_twice_as_long",
    "C24_cylindrical_random_to_inside_iff",
    "C24_f64_circular_random_inside",
    "C24_f64_circular_random_to_inside",
    "C24_f64_cubic_random_inside",
    "C24_f64_cubic_random_to_inside",
    "C24_f64_cylindrical_random_inside",
    "C24_f64_cylindrical_random_to_twice_as_long",
    "C24_f64_cylindrical_random_to_outside_counterexample",
    "C24_zero_radius_cylinder_never_returns_counterexample"
   ],
   "note": "The limits stated in the claim are sharp; cases beyond them are proved by C24_f64_cylindrical_random_to_outside_counterexample, C24_zero_radius_cylinder_never_returns_counterexample."
  },
  {
   "property": "C25",
   "status": "proved",
   "theorems": [
    "C25_circular_out_is_outside",
    "C25_cubic_out_is_outside",
    "C25_cylindrical_out_is_outside",
    "C25_f64_circular_out_is_outside",
    "C25_f64_cubic_out_is_outside",
    "C25_f64_cylindrical_out_is_outside",
    "C25_cylinder_without_axis",
    "C25_cylinder_without_axis_out_is_inside_counterexample",
    "C25_f64_tiny_or_infinite_ball_out_is_inside_counterexample",
    "C25_out_to_vec_agrees"
   ],
   "note": "The limits stated in the claim are sharp; cases beyond them are proved by C25_cylinder_without_axis_out_is_inside_counterexample, C25_f64_tiny_or_infinite_ball_out_is_inside_counterexample."
  },
  {
   "property": "C26",
   "status": "proved",
   "theorems": [
    "C26_inclusion_reports_dimension",
    "C26_check_bc_dimensions",
    "C26_check_bc_dimension_errors_counterexample"
   ],
   "note": "The limits stated in the claim are sharp; cases beyond them are proved by C26_check_bc_dimension_errors_counterexample."
  },
  {
   "property": "C27",
   "status": "proved",
   "theorems": [
    "C27_too_large_step_loses_the_position",
    "C27_failed_step_moves_position_counterexample"
   ],
   "note": "The limits stated in the claim are sharp; cases beyond them are proved by C27_failed_step_moves_position_counterexample."
  },
  {
   "property": "C28",
   "status": "proved",
   "theorems": [
    "C28_inclusion_exact",
    "C28_f64_cubic_inclusion",
    "C28_f64_circular_inclusion",
    "C28_f64_circular_inside_is_finite",
    "C28_f64_nan_is_inside_counterexample",
    "C28_f64_norm_overflow_counterexample"
   ],
   "note": "The limits stated in the claim are sharp; cases beyond them are proved by C28_f64_nan_is_inside_counterexample, C28_f64_norm_overflow_counterexample."
  },
  {
   "property": "C29",
   "status": "proved",
   "theorems": [
    "C29_default_interaction",
    "C29_system_type",
    "C29_boundary_condition",
    "C29_target_type",
    "C29_agent_type",
    "C29_move_type",
    "C29_init_type",
    "C29_interact_type",
    "C29_interact_number",
    "C29_time_type_constant",
    "C29_time_type_exponential",
    "C29_time_type_counterexample",
    "C29_distinct_system_types",
    "C29_distinct_boundary_conditions",
    "C29_distinct_target_and_agent_types",
    "C29_distinct_move_types",
    "C29_distinct_init_types",
    "C29_distinct_interact_types",
    "C29_reading_words",
    "C29_reading_system_type",
    "C29_reading_boundary_condition",
    "C29_reading_target_type",
    "C29_reading_agent_type",
    "C29_reading_move_type",
    "C29_reading_init_type",
    "C29_reading_interact_type",
    "C29_reading_time_type",
    "C29_blank_text_counterexample"
   ],
   "note": "Relative to the hypothesis `faithful` on the printing/parsing of numbers; usize text is modelled in full. The limits stated in the claim are sharp; cases beyond them are proved by C29_time_type_counterexample, C29_blank_text_counterexample."
  },
  {
   "property": "C30",
   "status": "proved",
   "theorems": [
    "C30_find_rejects_exactly_other_dimensions",
    "C30_find_iff_closer_than_size",
    "C30_f64_find"
   ],
   "note": ""
  },
  {
   "property": "C31",
   "status": "proved",
   "theorems": [
    "C31_renew_is_rejection_sampling",
    "C31_new_is_rejection_sampling",
    "C31_unfit_recipe_refused",
    "C31_f64_renewed_inside_off_target",
    "C31_f64_new_inside_off_target",
    "C31_wrong_target_never_succeeds",
    "C31_cylinder_agents",
    "C31_f64_cylinder_agent_outside_counterexample"
   ],
   "note": "The limits stated in the claim are sharp; cases beyond them are proved by C31_f64_cylinder_agent_outside_counterexample."
  },
  {
   "property": "C32",
   "status": "proved",
   "theorems": [
    "C32_exponential_force",
    "C32_lennard_jones_force",
    "C32_constructors_set_coefficients",
    "C32_uniform_and_renew_set_coefficients"
   ],
   "note": "Exact reals (derivatives of the modelled potential)."
  },
  {
   "property": "C33",
   "status": "proved",
   "theorems": [
    "C33_unit_vector_and_reaction",
    "C33_to_vec_agrees",
    "C33_f64_reaction_exact",
    "C33_f64_coincident_nan_counterexample",
    "C33_pair_pass"
   ],
   "note": "The limits stated in the claim are sharp; cases beyond them are proved by C33_f64_coincident_nan_counterexample."
  },
  {
   "property": "C34",
   "status": "proved",
   "theorems": [
    "C34_random_move",
    "C34_random_move_to_vec",
    "C34_random_move_to_vec_reals",
    "C34_errors_change_nothing"
   ],
   "note": ""
  },
  {
   "property": "C35",
   "status": "proved",
   "theorems": [
    "C35_add_size",
    "C35_merge_is_add_size",
    "C35_growth_law_iff_unit_coefficient",
    "C35_own_coefficient_lost_counterexample",
    "C35_renewal_resets",
    "C35_growth_additive"
   ],
   "note": "The limits stated in the claim are sharp; cases beyond them are proved by C35_own_coefficient_lost_counterexample."
  },
  {
   "property": "C36",
   "status": "proved",
   "theorems": [
    "C36_counts_add_up",
    "C36_order_of_samples",
    "C36_f64_order_of_samples",
    "C36_exact_order_of_samples",
    "C36_process_counts",
    "C36_columns_are_independent",
    "C36_first_row_sets_columns",
    "C36_nan_sample_is_counted_counterexample"
   ],
   "note": "The limits stated in the claim are sharp; cases beyond them are proved by C36_nan_sample_is_counted_counterexample."
  },
  {
   "property": "C37",
   "status": "proved",
   "theorems": [
    "C37_exact_bins",
    "C37_every_value_has_a_bin",
    "C37_accepted_sizes",
    "C37_number_of_bins_converted",
    "C37_f64_never_out_of_bounds",
    "C37_maximum_panics_counterexample",
    "C37_f64_maximum_panics_counterexample",
    "C37_f64_wrong_bin_counterexample",
    "C37_f64_zero_bin_size_panics_counterexample",
    "C37_f64_factor_one_panics_counterexample",
    "C37_f64_factor_half_panics_counterexample"
   ],
   "note": "The f64 part assumes log2 monotone (libm is a parameter). The limits stated in the claim are sharp; cases beyond them are proved by C37_maximum_panics_counterexample, C37_f64_maximum_panics_counterexample, C37_f64_wrong_bin_counterexample, C37_f64_zero_bin_size_panics_counterexample, C37_f64_factor_one_panics_counterexample, C37_f64_factor_half_panics_counterexample."
  },
  {
   "property": "C38",
   "status": "proved",
   "theorems": [
    "C38_exported_rows",
    "C38_normalised",
    "C38_columns_exported",
    "C38_columns_never_fail",
    "C38_process_exported",
    "C38_nonpositive_process_lost_counterexample",
    "C38_last_bin_lost_counterexample",
    "C38_small_density_lost_counterexample",
    "C38_f64_narrow_bin_panics_counterexample",
    "C38_draw_and_clear_never_fail",
    "C38_vector_draw_and_clear_never_fail",
    "C38_process_draw_and_clear_never_fail",
    "C38_never_fails",
    "C38_process_never_fails"
   ],
   "note": "The limits stated in the claim are sharp; cases beyond them are proved by C38_nonpositive_process_lost_counterexample, C38_last_bin_lost_counterexample, C38_small_density_lost_counterexample, C38_f64_narrow_bin_panics_counterexample."
  },
  {
   "property": "C39",
   "status": "proved",
   "theorems": [
    "C39_moments",
    "C39_process_moments",
    "C39_f64_equal_samples_counterexample",
    "C39_f64_no_sample_counterexample",
    "C39_f64_empty_file_counterexample",
    "C39_titles_do_not_match_counterexample",
    "C39_one_column_matches"
   ],
   "note": "The limits stated in the claim are sharp; cases beyond them are proved by C39_f64_equal_samples_counterexample, C39_f64_no_sample_counterexample, C39_f64_empty_file_counterexample, C39_titles_do_not_match_counterexample."
  },
  {
   "property": "C40",
   "status": "proved",
   "theorems": [
    "C40_clear_is_fresh",
    "C40_vector_clear_is_fresh",
    "C40_process_clear_keeps_points_counterexample",
    "C40_process_mean_after_clear_counterexample"
   ],
   "note": "The limits stated in the claim are sharp; cases beyond them are proved by C40_process_clear_keeps_points_counterexample, C40_process_mean_after_clear_counterexample."
  },
  {
   "property": "C41",
   "status": "proved",
   "theorems": [
    "C41_groups",
    "C41_order_of_files",
    "C41_equal_parameters_merge",
    "C41_grid_parameters_separated",
    "C41_merged_exactly",
    "C41_f64_merged_are_close",
    "C41_close_parameters_merge_counterexample",
    "C41_negative_merges_with_positive_counterexample",
    "C41_large_parameters_merge_counterexample",
    "C41_f64_decimal_collision_counterexample",
    "C41_run_never_fails",
    "C41_vector_run_never_fails",
    "C41_process_run_never_fails",
    "C41_f64_run_never_fails"
   ],
   "note": "The limits stated in the claim are sharp; cases beyond them are proved by C41_close_parameters_merge_counterexample, C41_negative_merges_with_positive_counterexample, C41_large_parameters_merge_counterexample, C41_f64_decimal_collision_counterexample."
  },
  {
   "property": "C42",
   "status": "proved",
   "theorems": [
    "C42_configuration_reads_back",
    "C42_cylinder_counterexample",
    "C42_mixed_boundary_counterexample",
    "C42_colon_in_directory_counterexample"
   ],
   "note": "Relative to `faithful` number text. The limits stated in the claim are sharp; cases beyond them are proved by C42_cylinder_counterexample, C42_mixed_boundary_counterexample, C42_colon_in_directory_counterexample."
  },
  {
   "property": "C43",
   "status": "proved",
   "theorems": [
    "C43_one_structure",
    "C43_run",
    "C43_blocks_unique",
    "C43_modes_do_not_clash",
    "C43_wrong_number",
    "C43_analysis",
    "C43_too_few_counterexample",
    "C43_fixed_variant_counterexample",
    "C43_vector_analysis_counterexample",
    "C43_systems_from_words",
    "C43_agents_from_words",
    "C43_analysis_words",
    "C43_vector_analysis_words"
   ],
   "note": "The limits stated in the claim are sharp; cases beyond them are proved by C43_too_few_counterexample, C43_fixed_variant_counterexample, C43_vector_analysis_counterexample."
  },
  {
   "property": "C44",
   "status": "proved",
   "theorems": [
    "C44_directory_is_new",
    "C44_directory_is_found",
    "C44_file_name",
    "C44_overwritten_counterexample",
    "C44_histogram_name"
   ],
   "note": "Relative to `faithful` number text. The limits stated in the claim are sharp; cases beyond them are proved by C44_overwritten_counterexample."
  },
  {
   "property": "C45",
   "status": "proved",
   "theorems": [
    "C45_accepted_input",
    "C45_unknown_names_rejected",
    "C45_fields_exist",
    "C45_cylinder_and_merging_counterexample",
    "C45_boundary_target_counterexample",
    "C45_accepted_exactly",
    "C45_last_comma_ignored"
   ],
   "note": "The limits stated in the claim are sharp; cases beyond them are proved by C45_cylinder_and_merging_counterexample, C45_boundary_target_counterexample."
  },
  {
   "property": "C46",
   "status": "proved",
   "theorems": [
    "C46_equivalence",
    "C46_kinds",
    "C46_every_error_has_one_kind",
    "C46_codes_counterexample",
    "C46_texts_differ"
   ],
   "note": "The limits stated in the claim are sharp; cases beyond them are proved by C46_codes_counterexample."
  },
  {
   "property": "C47",
   "status": "proved",
   "theorems": [
    "C47_merging_step",
    "C47_merging_run",
    "C47_merging_run_geometry",
    "C47_merging_simulation",
    "C47_reported_time",
    "C47_nobody_never_ends",
    "C47_independent_simulation",
    "C47_independent_step",
    "C47_clocked_simulation",
    "C47_clock_reports_start_of_step",
    "C47_mfpt_exp_outcomes",
    "C47_mfpt_exp_in_a_ball_never_fails",
    "C47_moves_are_limited",
    "C47_mfpt_exp_time_counts_skipped_step",
    "C47_limit_is_the_smaller_length",
    "C47_f64_limit_is_the_smaller_length"
   ],
   "note": "Models tests/merge_fpt.rs, tests/n_ptl_rts_iterator.rs, tests/large_n_simulation.rs, examples/mfpt_exp.rs over arbitrary random streams; geometry on exact reals, bookkeeping for any number type."
  },
  {
   "property": "C48",
   "status": "proved",
   "theorems": [
    "C48_vector_routines",
    "C48_placing",
    "C48_independent_pass",
    "C48_merging_pass",
    "C48_repelling_step",
    "C48_independent_run",
    "C48_merging_run",
    "C48_same_samples_same_merging_simulation",
    "C48_same_samples_same_independent_simulation",
    "C48_same_samples_same_clocked_simulation",
    "C48_same_samples_same_mfpt_exp"
   ],
   "note": ""
  },
  {
   "property": "C49",
   "status": "proved",
   "theorems": [
    "C49_exact_mirror_image",
    "C49_interior_and_accepted"
   ],
   "note": "Exact reals."
  },
  {
   "property": "C50",
   "status": "proved",
   "theorems": [
    "C50_first_order_exact_reals",
    "C50_first_order_position",
    "C50_first_order_close_to_exact",
    "C50_f64_numbers_inside",
    "C50_first_order_from_centre_counterexample"
   ],
   "note": "Exact reals; the f64 exception is proved. The limits stated in the claim are sharp; cases beyond them are proved by C50_first_order_from_centre_counterexample."
  },
  {
   "property": "C51",
   "status": "proved",
   "theorems": [
    "C51_random_positions_are_rejection_sampling"
   ],
   "note": "Exact reals; 'uniform' is stated pathwise (affine image of the first accepted block), no probability theory."
  },
  {
   "property": "C52",
   "status": "proved",
   "theorems": [
    "C52_matching_vector",
    "C52_search",
    "C52_same_as_list_of_one",
    "C52_minimum_f64",
    "C52_minimum",
    "C52_no_searcher_counterexample",
    "C52_reused_vector",
    "C52_default_vector_counterexample"
   ],
   "note": "The limits stated in the claim are sharp; cases beyond them are proved by C52_no_searcher_counterexample, C52_default_vector_counterexample."
  },
  {
   "property": "C53",
   "status": "proved",
   "theorems": [
    "C53_mean",
    "C53_mean_value",
    "C53_samples_determined",
    "C53_no_samples_counterexample"
   ],
   "note": "The limits stated in the claim are sharp; cases beyond them are proved by C53_no_samples_counterexample."
  },
  {
   "property": "C54",
   "status": "proved",
   "theorems": [
    "C54_command_line",
    "C54_run_file",
    "C54_dimension_mismatch_panics",
    "C54_run_again",
    "C54_run_leaves_data_file",
    "C54_time_data_read",
    "C54_vector_data_read",
    "C54_process_data_read",
    "C54_groups",
    "C54_cut_file",
    "C54_other_files_skipped",
    "C54_note_in_directory_panics_counterexample"
   ],
   "note": "The limits stated in the claim are sharp; cases beyond them are proved by C54_note_in_directory_panics_counterexample."
  },
  {
   "property": "C55",
   "status": "proved",
   "theorems": [
    "C55_bins_by_number",
    "C55_f64_bins_by_number",
    "C55_too_few_bins_counterexample",
    "C55_command_line",
    "C55_f64_ample_analysis_succeeds",
    "C55_result_files",
    "C55_names_identify",
    "C55_analysis_succeeds",
    "C55_f64_analysis_succeeds",
    "C55_ensemble_column_is_mean_counterexample"
   ],
   "note": "The limits stated in the claim are sharp; cases beyond them are proved by C55_too_few_bins_counterexample, C55_ensemble_column_is_mean_counterexample."
  },
  {
   "property": "C56",
   "status": "proved",
   "theorems": [
    "C56_f64_seed_of_any_hash",
    "C56_exact_seeds",
    "C56_f64_seeds_increase",
    "C56_same_seed_same_data",
    "C56_large_system_counterexample",
    "C56_negative_strength_counterexample",
    "C56_seed_overflow_counterexample",
    "C56_seed_value",
    "C56_race_seed_value",
    "C56_race_seeds_increase"
   ],
   "note": "The limits stated in the claim are sharp; cases beyond them are proved by C56_large_system_counterexample, C56_negative_strength_counterexample, C56_seed_overflow_counterexample."
  },
  {
   "property": "C57",
   "status": "proved",
   "theorems": [
    "C57_f64_vector_analysis_succeeds",
    "C57_f64_process_analysis_succeeds",
    "C57_vector_groups",
    "C57_vector_files",
    "C57_wrong_width_fails",
    "C57_vector_titles_counterexample",
    "C57_process_groups",
    "C57_process_files",
    "C57_process_ensemble_column_counterexample"
   ],
   "note": "The limits stated in the claim are sharp; cases beyond them are proved by C57_vector_titles_counterexample, C57_process_ensemble_column_counterexample."
  },
  {
   "property": "C58",
   "status": "proved",
   "theorems": [
    "C58_same_file_iff",
    "C58_directory_after_calls",
    "C58_analysis_after_calls",
    "C58_repeated_run_repairs",
    "C58_other_target_replaces_counterexample"
   ],
   "note": "The limits stated in the claim are sharp; cases beyond them are proved by C58_other_target_replaces_counterexample."
  },
  {
   "property": "C59",
   "status": "proved",
   "theorems": [
    "C59_mean_and_deviation",
    "C59_vector_columns",
    "C59_process",
    "C59_density",
    "C59_log_density",
    "C59_clock_times",
    "C59_tick_count",
    "C59_ensemble_mean",
    "C59_deviation_nan_counterexample"
   ],
   "note": "The limits stated in the claim are sharp; cases beyond them are proved by C59_deviation_nan_counterexample."
  },
  {
   "property": "C60",
   "status": "proved",
   "theorems": [
    "C60_systems",
    "C60_same_as_new",
    "C60_agents",
    "C60_new_agents",
    "C60_agents_same_as_new",
    "C60_target",
    "C60_nan_size_counterexample",
    "C60_kind_not_checked_counterexample",
    "C60_default_interaction",
    "C60_default_interaction_force"
   ],
   "note": "The limits stated in the claim are sharp; cases beyond them are proved by C60_nan_size_counterexample, C60_kind_not_checked_counterexample."
  },
  {
   "property": "C61",
   "status": "proved",
   "theorems": [
    "C61_move_rounded_once",
    "C61_cube_exact",
    "C61_ball_close",
    "C61_cylinder_close",
    "C61_tiny_step_refused_counterexample"
   ],
   "note": "The limits stated in the claim are sharp; cases beyond them are proved by C61_tiny_step_refused_counterexample."
  },
  {
   "property": "C62",
   "status": "proved",
   "theorems": [
    "C62_f64_vector_exports_succeed",
    "C62_f64_process_exports_succeed",
    "C62_time_counts",
    "C62_vector_counts",
    "C62_process_counts",
    "C62_exact_away_from_edges",
    "C62_time_rows",
    "C62_vector_rows",
    "C62_process_rows"
   ],
   "note": ""
  },
  {
   "property": "C63",
   "status": "proved",
   "theorems": [
    "C63_printed_exactly_when_the_number_is_wrong",
    "C63_message",
    "C63_following_the_message",
    "C63_analysis_names",
    "C63_vector_analysis_counterexample",
    "C63_short_form_counterexample",
    "C63_new",
    "C63_clear",
    "C63_cleared_can_be_written",
    "C63_cleared_target_counterexample",
    "C63_simulation_parameters"
   ],
   "note": "The limits stated in the claim are sharp; cases beyond them are proved by C63_vector_analysis_counterexample, C63_short_form_counterexample, C63_cleared_target_counterexample."
  },
  {
   "property": "C64",
   "status": "proved",
   "theorems": [
    "C64_read",
    "C64_assign",
    "C64_ranges",
    "C64_build",
    "C64_clock_with_differences",
    "C64_agent_classes"
   ],
   "note": ""
  },
  {
   "property": "C65",
   "status": "proved",
   "theorems": [
    "C65_default_is_set_up",
    "C65_default_is_empty",
    "C65_default_counts",
    "C65_default_vector_never_fails",
    "C65_f64_default_is_set_up",
    "C65_f64_default_never_fails",
    "C65_f64_fine_default_is_set_up",
    "C65_f64_fine_defaults_never_fail"
   ],
   "note": ""
  },
  {
   "property": "C66",
   "status": "proved",
   "theorems": [
    "C66_analysis_command",
    "C66_command_line",
    "C66_f64_run_file",
    "C66_exact_value",
    "C66_f64_value",
    "C66_f64_refused",
    "C66_exact_refused",
    "C66_nothing_written",
    "C66_time_limit_ignored_counterexample",
    "C66_step_not_recorded_counterexample",
    "C66_analysis_cannot_read_counterexample"
   ],
   "note": "The limits stated in the claim are sharp; cases beyond them are proved by C66_time_limit_ignored_counterexample, C66_step_not_recorded_counterexample, C66_analysis_cannot_read_counterexample."
  },
  {
   "property": "C67",
   "status": "proved",
   "theorems": [
    "C67_command_line",
    "C67_run_file",
    "C67_value_determined",
    "C67_nothing_written",
    "C67_run_again",
    "C67_groups",
    "C67_result_files",
    "C67_analysis_command",
    "C67_analysis_succeeds",
    "C67_first_step_is_zero_counterexample",
    "C67_no_searchers_counterexample",
    "C67_start_ignored_counterexample",
    "C67_f64_idx_set_not_averaged_counterexample"
   ],
   "note": "The limits stated in the claim are sharp; cases beyond them are proved by C67_first_step_is_zero_counterexample, C67_no_searchers_counterexample, C67_start_ignored_counterexample, C67_f64_idx_set_not_averaged_counterexample."
  },
  {
   "property": "C68",
   "status": "proved",
   "theorems": [
    "C68_lines",
    "C68_file",
    "C68_directory",
    "C68_run_files",
    "C68_last_line",
    "C68_appended",
    "C68_cut_number_counterexample"
   ],
   "note": "The limits stated in the claim are sharp; cases beyond them are proved by C68_cut_number_counterexample."
  },
  {
   "property": "C69",
   "status": "proved",
   "theorems": [
    "C69_configuration",
    "C69_titles",
    "C69_data",
    "C69_data_cut",
    "C69_public_data_cut",
    "C69_text_refused",
    "C69_columns",
    "C69_summary_line",
    "C69_summary_titles",
    "C69_distribution",
    "C69_shifted_counterexample",
    "C69_joined_counterexample"
   ],
   "note": "The limits stated in the claim are sharp; cases beyond them are proved by C69_shifted_counterexample, C69_joined_counterexample."
  },
  {
   "property": "C70",
   "status": "proved",
   "theorems": [
    "C70_program_exists",
    "C70_run",
    "C70_values_survive",
    "C70_file_names",
    "C70_analysis",
    "C70_wrong_number",
    "C70_no_confusion",
    "C70_unreadable_word",
    "C70_refused",
    "C70_calls_exist",
    "C70_building",
    "C70_example",
    "C70_clocks_accept",
    "C70_places_accept",
    "C70_agents_accept",
    "C70_directory"
   ],
   "note": ""
  },
  {
   "property": "C71",
   "status": "proved",
   "theorems": [
    "C71_lennard_jones_force",
    "C71_lennard_jones_potential",
    "C71_exponential_potential",
    "C71_exponential_force",
    "C71_random_step",
    "C71_pair",
    "C71_free_walk",
    "C71_walk_deterministic",
    "C71_brownian_walk",
    "C71_inner_product"
   ],
   "note": ""
  },
  {
   "property": "C72",
   "status": "proved",
   "theorems": [
    "C72_first_order_close",
    "C72_first_order_image_exact",
    "C72_exact_reflection_close",
    "C72_inside_unaltered",
    "C72_numbers_inside",
    "C72_tangential_nan_counterexample"
   ],
   "note": "The limits stated in the claim are sharp; cases beyond them are proved by C72_tangential_nan_counterexample."
  },
  {
   "property": "C73",
   "status": "proved",
   "theorems": [
    "C73_used_agents_are_as_good_as_new",
    "C73_reused_agents_mean",
    "C73_mean_with_coefficient_one",
    "C73_coefficient_ignored_counterexample",
    "C73_mfpt_exp_samples_independent"
   ],
   "note": "The limits stated in the claim are sharp; cases beyond them are proved by C73_coefficient_ignored_counterexample."
  },
  {
   "property": "C74",
   "status": "proved",
   "theorems": [
    "C74_radial_close_to_exact",
    "C74_straight_outward",
    "C74_exact_accepts",
    "C74_radial_accepts",
    "C74_grazing_step_counterexample",
    "C74_f64_radial_close_to_mirror"
   ],
   "note": "The limits stated in the claim are sharp; cases beyond them are proved by C74_grazing_step_counterexample."
  },
  {
   "property": "C75",
   "status": "proved",
   "theorems": [
    "C75_vector_files",
    "C75_disc_files",
    "C75_disc_files_same",
    "C75_disc_files_differ_counterexample",
    "C75_points_read_back",
    "C75_bin_bounds",
    "C75_binned_data",
    "C75_outliers"
   ],
   "note": "The limits stated in the claim are sharp; cases beyond them are proved by C75_disc_files_differ_counterexample."
  },
  {
   "property": "C76",
   "status": "proved",
   "theorems": [
    "C76_debug_exact_or_panic",
    "C76_release_wraps",
    "C76_in_place_forms",
    "C76_laws",
    "C76_wrapped_translation_counterexample"
   ],
   "note": "The limits stated in the claim are sharp; cases beyond them are proved by C76_wrapped_translation_counterexample."
  },
  {
   "property": "C77",
   "status": "proved",
   "theorems": [
    "C77_index",
    "C77_slices",
    "C77_order_is_lexicographic",
    "C77_f64_order",
    "C77_nan_not_equal_counterexample"
   ],
   "note": "The limits stated in the claim are sharp; cases beyond them are proved by C77_nan_not_equal_counterexample."
  },
  {
   "property": "C78",
   "status": "proved",
   "theorems": [
    "C78_check_never_fails",
    "C78_reflection_test_passes",
    "C78_error_test_writes_nothing",
    "C78_realization_rows",
    "C78_f64_tests_pass"
   ],
   "note": ""
  },
  {
   "property": "C79",
   "status": "proved",
   "theorems": [
    "C79_boundary_step",
    "C79_merging_step",
    "C79_searching_step",
    "C79_merging_run",
    "C79_searching_run",
    "C79_merging_simulation",
    "C79_independent_simulation",
    "C79_clocked_simulation",
    "C79_lost_searcher_counterexample"
   ],
   "note": "The limits stated in the claim are sharp; cases beyond them are proved by C79_lost_searcher_counterexample."
  },
  {
   "property": "C80",
   "status": "proved",
   "theorems": [
    "C80_move_is_limited",
    "C80_step",
    "C80_run",
    "C80_sample",
    "C80_coincident_agents_counterexample"
   ],
   "note": "The limits stated in the claim are sharp; cases beyond them are proved by C80_coincident_agents_counterexample."
  },
  {
   "property": "C81",
   "status": "proved",
   "theorems": [
    "C81_new_sizes",
    "C81_new_sizes_vector",
    "C81_new_sizes_process",
    "C81_new_number",
    "C81_new_number_refused",
    "C81_f64_new_number_refused",
    "C81_clear_then_new_bins",
    "C81_process_keeps_points_counterexample",
    "C81_times_go_on",
    "C81_processes_go_on",
    "C81_vectors_mix_counterexample",
    "C81_mean_of_twos_counterexample",
    "C81_not_allocated_counterexample"
   ],
   "note": "The limits stated in the claim are sharp; cases beyond them are proved by C81_process_keeps_points_counterexample, C81_vectors_mix_counterexample, C81_mean_of_twos_counterexample, C81_not_allocated_counterexample."
  }
 ]
}