{
 "claims": [
  {
   "property": "C01",
   "status": "proved",
   "theorems": [
    "C01_every_stage_once"
   ],
   "note": ""
  },
  {
   "property": "C02",
   "status": "proved",
   "theorems": [
    "C02_built_schedule_runnable"
   ],
   "note": ""
  },
  {
   "property": "C03",
   "status": "proved",
   "theorems": [
    "C03_order_of_adding_irrelevant"
   ],
   "note": "also shows that the content left in the caller's set is the same"
  },
  {
   "property": "C04",
   "status": "proved",
   "theorems": [
    "C04_no_race_in_a_group"
   ],
   "note": ""
  },
  {
   "property": "C05",
   "status": "proved",
   "theorems": [
    "C05_build_fails_only_when_it_must"
   ],
   "note": ""
  },
  {
   "property": "C06",
   "status": "proved",
   "theorems": [
    "C06_resolution_terminates",
    "C06_only_documented_exceptions"
   ],
   "note": ""
  },
  {
   "property": "C07",
   "status": "proved",
   "theorems": [
    "C07_mutating_stage_before_ready_readers",
    "C07_readers_after_mutation_refuted"
   ],
   "note": "the documentation's unconditional claim is refuted by a witness"
  },
  {
   "property": "C08",
   "status": "proved",
   "theorems": [
    "C08_markers_are_ordinary_inputs",
    "C08_marker_must_be_supplied",
    "C08_markers_honoured_refuted",
    "C08_marker_class_index_error"
   ],
   "note": "the documented marker semantics is refuted by witnesses"
  },
  {
   "property": "C09",
   "status": "proved",
   "theorems": [
    "C09_add_stage",
    "C09_builder_holds_accepted_stages_once"
   ],
   "note": ""
  },
  {
   "property": "C10",
   "status": "proved",
   "theorems": [
    "C10_stage_without_outputs_never_builds"
   ],
   "note": ""
  },
  {
   "property": "C11",
   "status": "proved",
   "theorems": [
    "C11_build_grows_the_given_set",
    "C11_second_build_same_set_refuted"
   ],
   "note": "the second-build failure is a witness"
  },
  {
   "property": "C12",
   "status": "proved",
   "theorems": [
    "C12_missing_inputs_report"
   ],
   "note": ""
  },
  {
   "property": "C13",
   "status": "proved",
   "theorems": [
    "C13_constructor_accepts_exactly_runnable"
   ],
   "note": ""
  },
  {
   "property": "C14",
   "status": "proved",
   "theorems": [
    "C14_built_pipeline_never_misses_argument"
   ],
   "note": ""
  },
  {
   "property": "C15",
   "status": "proved",
   "theorems": [
    "C15_run_all_is_composition",
    "C15_run_all_forgets_history"
   ],
   "note": ""
  },
  {
   "property": "C16",
   "status": "proved",
   "theorems": [
    "C16_runs_only_after_prerequisites",
    "C16_refusal_has_no_effect"
   ],
   "note": ""
  },
  {
   "property": "C17",
   "status": "proved",
   "theorems": [
    "C17_prerequisites_of_this_run_refuted"
   ],
   "note": ""
  },
  {
   "property": "C18",
   "status": "proved",
   "theorems": [
    "C18_run_stage_inputs_and_outputs",
    "C18_missing_field"
   ],
   "note": ""
  },
  {
   "property": "C19",
   "status": "proved",
   "theorems": [
    "C19_rerunning_undoes_nothing",
    "C19_rollback_refuted"
   ],
   "note": ""
  },
  {
   "property": "C20",
   "status": "proved",
   "theorems": [
    "C20_rerun_is_idempotent"
   ],
   "note": ""
  },
  {
   "property": "C21",
   "status": "proved",
   "theorems": [
    "C21_failed_stage_changes_no_value"
   ],
   "note": ""
  },
  {
   "property": "C22",
   "status": "proved",
   "theorems": [
    "C22_run_until_stops_before_the_group",
    "C22_named_stage_never_runs"
   ],
   "note": ""
  },
  {
   "property": "C23",
   "status": "proved",
   "theorems": [
    "C23_creating_iterator_does_nothing",
    "C23_items_are_the_stages_in_order",
    "C23_failure_ends_the_iterator"
   ],
   "note": ""
  },
  {
   "property": "C24",
   "status": "proved",
   "theorems": [
    "C24_returned_dictionary_is_live",
    "C24_frozen_after_next_run"
   ],
   "note": ""
  },
  {
   "property": "C25",
   "status": "proved",
   "theorems": [
    "C25_group_order_irrelevant",
    "C25_order_dependence_refuted"
   ],
   "note": ""
  },
  {
   "property": "C26",
   "status": "proved",
   "theorems": [
    "C26_model_unavailable_until_a_build_completes",
    "C26_model_cached_for_ever",
    "C26_first_build_reports_its_run",
    "C26_build_reports_its_run_refuted"
   ],
   "note": ""
  },
  {
   "property": "C27",
   "status": "proved",
   "theorems": [
    "C27_types_respected_if_names_have_one_type",
    "C27_types_respected_refuted"
   ],
   "note": ""
  },
  {
   "property": "C28",
   "status": "proved",
   "theorems": [
    "C28_given_value_or_default"
   ],
   "note": ""
  },
  {
   "property": "C29",
   "status": "proved",
   "theorems": [
    "C29_unknown_options_are_errors",
    "C29_known_options_are_accepted"
   ],
   "note": ""
  },
  {
   "property": "C30",
   "status": "proved",
   "theorems": [
    "C30_two_spellings_refused"
   ],
   "note": ""
  },
  {
   "property": "C31",
   "status": "proved",
   "theorems": [
    "C31_order_irrelevant",
    "C31_sections_independent"
   ],
   "note": ""
  },
  {
   "property": "C32",
   "status": "proved",
   "theorems": [
    "C32_who_is_excluded",
    "C32_filter_runs",
    "C32_squares_are_distances"
   ],
   "note": ""
  },
  {
   "property": "C33",
   "status": "proved",
   "theorems": [
    "C33_separated_cover",
    "C33_filtering_again_excludes_nothing"
   ],
   "note": ""
  },
  {
   "property": "C34",
   "status": "proved",
   "theorems": [
    "C34_flags",
    "C34_no_visa_for_Ftr"
   ],
   "note": ""
  },
  {
   "property": "C35",
   "status": "proved",
   "theorems": [
    "C35_selection_aligned",
    "C35_distinct_labels_own_column",
    "C35_duplicate_labels_refuted"
   ],
   "note": ""
  },
  {
   "property": "C36",
   "status": "proved",
   "theorems": [
    "C36_exactly_the_empty_are_removed",
    "C36_stage_output_aligned",
    "C36_documented_criterion_refuted"
   ],
   "note": ""
  },
  {
   "property": "C37",
   "status": "proved",
   "theorems": [
    "C37_best_performance_and_algorithm",
    "C37_best_algorithm_refuted"
   ],
   "note": ""
  },
  {
   "property": "C38",
   "status": "proved",
   "theorems": [
    "C38_absolute_test",
    "C38_relative_test",
    "C38_counts",
    "C38_best_is_good",
    "C38_best_is_good_refuted_for_zero",
    "C38_relative_test_refuted_for_negative"
   ],
   "note": ""
  },
  {
   "property": "C39",
   "status": "proved",
   "theorems": [
    "C39_bounding_clips",
    "C39_bounding_monotone_idempotent"
   ],
   "note": ""
  },
  {
   "property": "C40",
   "status": "proved",
   "theorems": [
    "C40_one_mask_for_everything",
    "C40_which_instances"
   ],
   "note": ""
  },
  {
   "property": "C41",
   "status": "proved",
   "theorems": [
    "C41_file_selection",
    "C41_index_selects_its_instance",
    "C41_last_index_ignored_refuted",
    "C41_when_it_fails"
   ],
   "note": ""
  },
  {
   "property": "C42",
   "status": "proved",
   "theorems": [
    "C42_one_feature_per_cluster",
    "C42_every_choice_reachable",
    "C42_empty_cluster_fails"
   ],
   "note": ""
  },
  {
   "property": "C43",
   "status": "proved",
   "theorems": [
    "C43_what_is_selected",
    "C43_strongest_feature_kept",
    "C43_as_many_as_pass",
    "C43_documented_rule_refuted",
    "C43_insignificant_correlations_are_ignored"
   ],
   "note": ""
  },
  {
   "property": "C44",
   "status": "proved",
   "theorems": [
    "C44_best_restart",
    "C44_objective",
    "C44_quality_of_the_returned_projection_refuted"
   ],
   "note": ""
  },
  {
   "property": "C45",
   "status": "proved",
   "theorems": [
    "C45_vertices_enumerate_corners",
    "C45_coordinates_are_extremes"
   ],
   "note": ""
  },
  {
   "property": "C46",
   "status": "proved",
   "theorems": [
    "C46_removed_iff_contradicts",
    "C46_boundary_of_kept_corners",
    "C46_extremes_when_features_straddle_zero",
    "C46_positive_features_ignore_correlation",
    "C46_opposite_extremes_removed_refuted"
   ],
   "note": ""
  },
  {
   "property": "C47",
   "status": "proved",
   "theorems": [
    "C47_boundary_points_are_projected_corners",
    "C47_correlated_boundary_inside_plain",
    "C47_fallback_to_plain",
    "C47_exactly_these_points",
    "C47_when_it_succeeds"
   ],
   "note": ""
  },
  {
   "property": "C48",
   "status": "proved",
   "theorems": [
    "C48_selection_is_the_best_candidate",
    "C48_right_prediction_is_followed",
    "C48_zero_means_none_refuted"
   ],
   "note": ""
  },
  {
   "property": "C49",
   "status": "proved",
   "theorems": [
    "C49_fallback_selection"
   ],
   "note": ""
  },
  {
   "property": "C50",
   "status": "proved",
   "theorems": [
    "C50_completion_order_is_irrelevant"
   ],
   "note": ""
  },
  {
   "property": "C51",
   "status": "proved",
   "theorems": [
    "C51_clustering",
    "C51_partition_is_determined"
   ],
   "note": ""
  },
  {
   "property": "C52",
   "status": "proved",
   "theorems": [
    "C52_best_footprints_are_shifted"
   ],
   "note": ""
  },
  {
   "property": "C53",
   "status": "proved",
   "theorems": [
    "C53_statistics",
    "C53_no_polygon"
   ],
   "note": ""
  },
  {
   "property": "C54",
   "status": "proved",
   "theorems": [
    "C54_scale_by_column",
    "C54_scale_over_all",
    "C54_range_and_order"
   ],
   "note": ""
  },
  {
   "property": "C55",
   "status": "proved",
   "theorems": [
    "C55_members",
    "C55_when_nothing_is_lost",
    "C55_nothing_is_lost_refuted",
    "C55_archive_is_left_out_refuted"
   ],
   "note": ""
  },
  {
   "property": "C56",
   "status": "proved",
   "theorems": [
    "C56_stages_run_as_early_as_possible"
   ],
   "note": ""
  },
  {
   "property": "C57",
   "status": "proved",
   "theorems": [
    "C57_options_file_outcomes",
    "C57_never_raises_refuted"
   ],
   "note": ""
  },
  {
   "property": "C58",
   "status": "proved",
   "theorems": [
    "C58_loading_is_stable"
   ],
   "note": ""
  },
  {
   "property": "C59",
   "status": "proved",
   "theorems": [
    "C59_missing_value_wipes_feature",
    "C59_untouched_without_options",
    "C59_missing_value_wipes_performance"
   ],
   "note": ""
  },
  {
   "property": "C60",
   "status": "proved",
   "theorems": [
    "C60_feature_transform_input",
    "C60_performance_transform_input"
   ],
   "note": ""
  },
  {
   "property": "C61",
   "status": "proved",
   "theorems": [
    "C61_input_after_the_run",
    "C61_no_zero_no_change",
    "C61_running_twice_refuted"
   ],
   "note": ""
  },
  {
   "property": "C62",
   "status": "proved",
   "theorems": [
    "C62_fitness_is_the_largest_error",
    "C62_fittest_is_the_worst"
   ],
   "note": ""
  },
  {
   "property": "C63",
   "status": "proved",
   "theorems": [
    "C63_scored_and_returned_features",
    "C63_scored_is_returned_refuted"
   ],
   "note": ""
  },
  {
   "property": "C64",
   "status": "proved",
   "theorems": [
    "C64_columns_labels_and_indices_agree",
    "C64_which_outcome",
    "C64_too_few_features"
   ],
   "note": ""
  },
  {
   "property": "C65",
   "status": "proved",
   "theorems": [
    "C65_clustering_needs_the_silhouettes",
    "C65_when_the_silhouettes_crash",
    "C65_four_features_survive_only_with_best_k"
   ],
   "note": ""
  },
  {
   "property": "C66",
   "status": "proved",
   "theorems": [
    "C66_density_with_clustering_always_fails"
   ],
   "note": ""
  },
  {
   "property": "C67",
   "status": "proved",
   "theorems": [
    "C67_single_common_instance_fails",
    "C67_correlation_of_common_instances"
   ],
   "note": ""
  },
  {
   "property": "C68",
   "status": "proved",
   "theorems": [
    "C68_accepted_spellings"
   ],
   "note": ""
  },
  {
   "property": "C69",
   "status": "proved",
   "theorems": [
    "C69_prelim_gets_the_loaded_options"
   ],
   "note": ""
  },
  {
   "property": "C70",
   "status": "proved",
   "theorems": [
    "C70_shape_of_the_result",
    "C70_loading_for_every_algorithm_refuted"
   ],
   "note": ""
  },
  {
   "property": "C71",
   "status": "proved",
   "theorems": [
    "C71_best_projection_for_its_loadings",
    "C71_loadings",
    "C71_fails_iff_dependent",
    "C71_globally_optimal_refuted"
   ],
   "note": ""
  },
  {
   "property": "C72",
   "status": "proved",
   "theorems": [
    "C72_r2_says_nothing",
    "C72_when_r2_is_present",
    "C72_missing_performance_hides_the_error"
   ],
   "note": ""
  },
  {
   "property": "C73",
   "status": "proved",
   "theorems": [
    "C73_precalculated_solution_always_fails",
    "C73_when_it_succeeds",
    "C73_which_error",
    "C73_more_restarts_never_worse"
   ],
   "note": ""
  },
  {
   "property": "C74",
   "status": "proved",
   "theorems": [
    "C74_determined_up_to_rotation",
    "C74_distances_unchanged"
   ],
   "note": ""
  },
  {
   "property": "C75",
   "status": "proved",
   "theorems": [
    "C75_plain_boundary_encloses_instances",
    "C75_correlated_boundary_encloses_instances_refuted"
   ],
   "note": ""
  },
  {
   "property": "C76",
   "status": "proved",
   "theorems": [
    "C76_mu_and_sigma_are_0_and_1",
    "C76_original_scale_is_reported_refuted"
   ],
   "note": ""
  },
  {
   "property": "C77",
   "status": "proved",
   "theorems": [
    "C77_unit_weights",
    "C77_weights_are_deviations",
    "C77_constant_performance_fails"
   ],
   "note": ""
  },
  {
   "property": "C78",
   "status": "proved",
   "theorems": [
    "C78_scores_of_the_final_models",
    "C78_confusion_matrix_is_cross_validated",
    "C78_accuracy_is_cross_validated_refuted"
   ],
   "note": ""
  },
  {
   "property": "C79",
   "status": "proved",
   "theorems": [
    "C79_summary_swaps_accuracy_and_precision",
    "C79_summary_lists_accuracy_refuted"
   ],
   "note": ""
  },
  {
   "property": "C80",
   "status": "proved",
   "theorems": [
    "C80_selector_row_is_off_by_one",
    "C80_selector_average_refuted"
   ],
   "note": ""
  },
  {
   "property": "C81",
   "status": "proved",
   "theorems": [
    "C81_performance_is_overwritten"
   ],
   "note": ""
  },
  {
   "property": "C82",
   "status": "proved",
   "theorems": [
    "C82_needs_two_algorithms",
    "C82_when_it_completes"
   ],
   "note": ""
  },
  {
   "property": "C83",
   "status": "proved",
   "theorems": [
    "C83_given_parameters",
    "C83_each_model_has_its_own_training",
    "C83_generated_parameters_range",
    "C83_generated_parameters_are_log_uniform"
   ],
   "note": ""
  },
  {
   "property": "C84",
   "status": "proved",
   "theorems": [
    "C84_cluster_size",
    "C84_textbook_dbscan_refuted"
   ],
   "note": ""
  },
  {
   "property": "C85",
   "status": "proved",
   "theorems": [
    "C85_three_points_needed",
    "C85_otherwise_a_polygon",
    "C85_building_terminates"
   ],
   "note": ""
  },
  {
   "property": "C86",
   "status": "proved",
   "theorems": [
    "C86_tightening_gives_no_polygon",
    "C86_footprints_are_never_reduced",
    "C86_contradiction_raises",
    "C86_best_footprints_are_disjoint_refuted"
   ],
   "note": ""
  },
  {
   "property": "C87",
   "status": "proved",
   "theorems": [
    "C87_impure_triangles_are_removed",
    "C87_purity",
    "C87_purity_refuted"
   ],
   "note": ""
  },
  {
   "property": "C88",
   "status": "proved",
   "theorems": [
    "C88_instance_order_is_irrelevant"
   ],
   "note": ""
  },
  {
   "property": "C89",
   "status": "proved",
   "theorems": [
    "C89_result",
    "C89_when_it_succeeds",
    "C89_summary_row",
    "C89_all_cores_refuted"
   ],
   "note": ""
  },
  {
   "property": "C90",
   "status": "proved",
   "theorems": [
    "C90_unselected_instances_go_to_the_first"
   ],
   "note": ""
  },
  {
   "property": "C91",
   "status": "proved",
   "theorems": [
    "C91_union_of_the_clusters",
    "C91_fit"
   ],
   "note": ""
  },
  {
   "property": "C92",
   "status": "proved",
   "theorems": [
    "C92_algorithm_rows",
    "C92_oracle_and_selector_rows",
    "C92_selector_precision_and_recall"
   ],
   "note": ""
  },
  {
   "property": "C93",
   "status": "proved",
   "theorems": [
    "C93_arrays",
    "C93_summaries",
    "C93_footprints",
    "C93_saving_again",
    "C93_footprints_of_equal_names_refuted"
   ],
   "note": ""
  },
  {
   "property": "C94",
   "status": "proved",
   "theorems": [
    "C94_no_directory",
    "C94_when_it_returns",
    "C94_failure_leaves_a_prefix"
   ],
   "note": ""
  },
  {
   "property": "C95",
   "status": "proved",
   "theorems": [
    "C95_vertices_of_a_polygon",
    "C95_vertices_of_several_polygons",
    "C95_points_are_numbered",
    "C95_polygon_can_be_recovered_refuted",
    "C95_each_vertex_once_refuted"
   ],
   "note": ""
  },
  {
   "property": "C96",
   "status": "proved",
   "theorems": [
    "C96_web_files",
    "C96_when_it_returns",
    "C96_no_directory"
   ],
   "note": ""
  },
  {
   "property": "C97",
   "status": "proved",
   "theorems": [
    "C97_saving_needs_all_features",
    "C97_saving_for_the_web_needs_all_features",
    "C97_selected_features_can_be_saved_refuted"
   ],
   "note": ""
  },
  {
   "property": "C98",
   "status": "proved",
   "theorems": [
    "C98_existing_objects_never_change",
    "C98_only_outputs_change",
    "C98_through_any_history",
    "C98_what_the_stage_sees",
    "C98_raw_zeros_become_epsilon",
    "C98_pythia_leaves_the_raw_performances"
   ],
   "note": ""
  },
  {
   "property": "C99",
   "status": "proved",
   "theorems": [
    "C99_groups",
    "C99_best_algorithm_plot",
    "C99_predicted_algorithm_plot",
    "C99_footprints_of_the_next_algorithm",
    "C99_plots_name_the_algorithm_refuted"
   ],
   "note": ""
  },
  {
   "property": "C100",
   "status": "proved",
   "theorems": [
    "C100_different_files"
   ],
   "note": ""
  },
  {
   "property": "C101",
   "status": "proved",
   "theorems": [
    "C101_features",
    "C101_individual_performance",
    "C101_individual_scale_is_normalised_refuted",
    "C101_global_performance",
    "C101_missing_performance",
    "C101_global_scale_is_normalised_refuted"
   ],
   "note": ""
  },
  {
   "property": "C102",
   "status": "proved",
   "theorems": [
    "C102_default_schedule",
    "C102_both_orders_occur"
   ],
   "note": ""
  },
  {
   "property": "C103",
   "status": "proved",
   "theorems": [
    "C103_which_selections_build",
    "C103_order_is_kept",
    "C103_model_needs_every_stage"
   ],
   "note": ""
  },
  {
   "property": "C104",
   "status": "proved",
   "theorems": [
    "C104_what_the_caller_gives",
    "C104_where_values_come_from"
   ],
   "note": ""
  },
  {
   "property": "C105",
   "status": "proved",
   "theorems": [
    "C105_build_returns_or_a_stage_raises"
   ],
   "note": ""
  },
  {
   "property": "C106",
   "status": "proved",
   "theorems": [
    "C106_additional_inputs_never_arrive"
   ],
   "note": ""
  },
  {
   "property": "C107",
   "status": "proved",
   "theorems": [
    "C107_saving_needs_all_instances",
    "C107_saving_for_the_web_needs_all_instances",
    "C107_labels_of_all_instances",
    "C107_selected_instances_can_be_saved_refuted"
   ],
   "note": ""
  },
  {
   "property": "C108",
   "status": "proved",
   "theorems": [
    "C108_features_and_algorithms",
    "C108_instance_labels",
    "C108_sources",
    "C108_nothing_else_matters",
    "C108_shape_of_the_labels",
    "C108_raises_only_for_one_row",
    "C108_labels_of_one_instance_refuted",
    "C108_labels_are_required_refuted"
   ],
   "note": ""
  },
  {
   "property": "C109",
   "status": "proved",
   "theorems": [
    "C109_metadata_file_outcomes",
    "C109_from_files",
    "C109_from_directory"
   ],
   "note": ""
  },
  {
   "property": "C110",
   "status": "proved",
   "theorems": [
    "C110_absolute_performance",
    "C110_relative_performance",
    "C110_normalised_performance_is_absolute",
    "C110_relative_performance_is_normalised_refuted"
   ],
   "note": ""
  },
  {
   "property": "C111",
   "status": "proved",
   "theorems": [
    "C111_features",
    "C111_constant_feature",
    "C111_performances",
    "C111_no_algorithm_dominates"
   ],
   "note": ""
  },
  {
   "property": "C112",
   "status": "proved",
   "theorems": [
    "C112_no_infinite_performance",
    "C112_rows_and_columns",
    "C112_good_in_terms_of_the_metadata",
    "C112_data_without_normalisation",
    "C112_raw_performances",
    "C112_raw_performances_kept_refuted"
   ],
   "note": ""
  },
  {
   "property": "C113",
   "status": "proved",
   "theorems": [
    "C113_value_and_range",
    "C113_when_undefined",
    "C113_missing_value",
    "C113_scale_free",
    "C113_after_purifying"
   ],
   "note": ""
  },
  {
   "property": "C114",
   "status": "proved",
   "theorems": [
    "C114_saving_again_repairs",
    "C114_one_file_is_damaged",
    "C114_web",
    "C114_directory_shows_the_last_model_refuted"
   ],
   "note": ""
  },
  {
   "property": "C115",
   "status": "proved",
   "theorems": [
    "C115_instances_lie_within_the_boundary",
    "C115_footprints_in_terms_of_the_metadata",
    "C115_best_footprint_of_its_algorithm_refuted",
    "C115_footprints_from_predictions"
   ],
   "note": ""
  },
  {
   "property": "C116",
   "status": "proved",
   "theorems": [
    "C116_what_each_plot_shows",
    "C116_footprint_with_its_holes_refuted",
    "C116_where_instances_appear",
    "C116_if_it_returns",
    "C116_every_instance_appears_refuted"
   ],
   "note": ""
  },
  {
   "property": "C117",
   "status": "proved",
   "theorems": [
    "C117_options_in_code_and_in_a_file_agree",
    "C117_what_default_accepts",
    "C117_default_without_arguments_refuted"
   ],
   "note": ""
  },
  {
   "property": "C118",
   "status": "proved",
   "theorems": [
    "C118_where_the_inputs_come_from",
    "C118_single_stages_never_see_the_metadata",
    "C118_run_until_arguments_ignored",
    "C118_overriding_inputs_refuted"
   ],
   "note": ""
  },
  {
   "property": "C119",
   "status": "proved",
   "theorems": [
    "C119_csv_files_of_a_built_model",
    "C119_result_files_of_a_built_model",
    "C119_footprint_table_of_a_built_model",
    "C119_web_files_of_a_built_model",
    "C119_plots_of_a_built_model",
    "C119_every_built_model_can_be_saved_refuted"
   ],
   "note": ""
  },
  {
   "property": "C120",
   "status": "proved",
   "theorems": [
    "C120_prelim_names",
    "C120_sifted_names",
    "C120_pilot_names",
    "C120_cloister_names",
    "C120_pythia_names",
    "C120_trace_names"
   ],
   "note": ""
  },
  {
   "property": "C121",
   "status": "proved",
   "theorems": [
    "C121_radius",
    "C121_position_and_scale",
    "C121_rows_on_an_upright_line",
    "C121_orientation_is_irrelevant_refuted",
    "C121_few_points_make_no_footprint"
   ],
   "note": ""
  },
  {
   "property": "C122",
   "status": "proved",
   "theorems": [
    "C122_goodness_threshold",
    "C122_beta_threshold",
    "C122_min_distance_refuted",
    "C122_rho_threshold",
    "C122_rho_threshold_refuted",
    "C122_correlation_threshold",
    "C122_correlation_threshold_refuted",
    "C122_purity"
   ],
   "note": ""
  },
  {
   "property": "C123",
   "status": "proved",
   "theorems": [
    "C123_own_labels_only",
    "C123_position_is_irrelevant_for_given_parameters",
    "C123_adding_an_algorithm",
    "C123_order_of_algorithms_is_irrelevant_refuted",
    "C123_own_data_only_refuted"
   ],
   "note": ""
  },
  {
   "property": "C124",
   "status": "proved",
   "theorems": [
    "C124_reported_correlations",
    "C124_reported_scores_and_clusters",
    "C124_clusters_are_of_more_features_than_returned",
    "C124_score_of_the_reported_clusters_refuted"
   ],
   "note": ""
  },
  {
   "property": "C125",
   "status": "proved",
   "theorems": [
    "C125_preprocessing",
    "C125_prelim",
    "C125_sifted",
    "C125_selection_by_density_refuted"
   ],
   "note": ""
  },
  {
   "property": "C126",
   "status": "proved",
   "theorems": [
    "C126_any_order",
    "C126_same_methods_same_files",
    "C126_when_none_raises",
    "C126_if_one_raises",
    "C126_archive",
    "C126_no_directory",
    "C126_save_to_mat_returns",
    "C126_returning_means_saved_refuted"
   ],
   "note": ""
  },
  {
   "property": "C127",
   "status": "proved",
   "theorems": [
    "C127_unit_of_relative_performance",
    "C127_unit_is_irrelevant_refuted",
    "C127_unit_of_absolute_performance",
    "C127_order_of_absolute_performance",
    "C127_order_of_relative_performance_refuted",
    "C127_negated_absolute_performance",
    "C127_reciprocal_of_relative_performance",
    "C127_negated_relative_performance_refuted"
   ],
   "note": ""
  },
  {
   "property": "C128",
   "status": "proved",
   "theorems": [
    "C128_order_of_algorithms",
    "C128_best_algorithm",
    "C128_best_algorithm_refuted",
    "C128_added_algorithm",
    "C128_added_algorithm_and_difficulty_refuted",
    "C128_added_algorithm_and_best_refuted"
   ],
   "note": ""
  },
  {
   "property": "C129",
   "status": "proved",
   "theorems": [
    "C129_order_of_columns",
    "C129_zero_points",
    "C129_unit",
    "C129_constant_feature",
    "C129_constant_feature_refuted",
    "C129_performances_not_compared"
   ],
   "note": ""
  },
  {
   "property": "C130",
   "status": "proved",
   "theorems": [
    "C130_bounding_on_another_scale",
    "C130_statistics_on_another_scale",
    "C130_bounding_twice",
    "C130_two_instances",
    "C130_mostly_one_value",
    "C130_zero_point",
    "C130_zero_point_and_the_fitted_parameters",
    "C130_zero_point_of_the_performances",
    "C130_unit_refuted"
   ],
   "note": ""
  },
  {
   "property": "C131",
   "status": "proved",
   "theorems": [
    "C131_more_instances",
    "C131_order_of_instances",
    "C131_order_of_features",
    "C131_unit",
    "C131_zero_point",
    "C131_zero_point_and_correlations_refuted"
   ],
   "note": ""
  },
  {
   "property": "C132",
   "status": "proved",
   "theorems": [
    "C132_decomposition_is_irrelevant",
    "C132_order_is_irrelevant",
    "C132_unit",
    "C132_every_instance_twice",
    "C132_without_a_gap_refuted",
    "C132_unit_of_the_performances_refuted"
   ],
   "note": ""
  },
  {
   "property": "C133",
   "status": "proved",
   "theorems": [
    "C133_order_of_algorithms",
    "C133_more_algorithms",
    "C133_units_and_zero_points",
    "C133_direction_of_a_feature_refuted",
    "C133_order_of_features_refuted"
   ],
   "note": ""
  },
  {
   "property": "C134",
   "status": "proved",
   "theorems": [
    "C134_order_of_algorithms",
    "C134_only_labels_and_predictions",
    "C134_ties_refuted",
    "C134_nothing_predicted_refuted"
   ],
   "note": ""
  },
  {
   "property": "C135",
   "status": "proved",
   "theorems": [
    "C135_own_instances_only",
    "C135_order_of_algorithms",
    "C135_measured_best_refuted"
   ],
   "note": ""
  },
  {
   "property": "C136",
   "status": "proved",
   "theorems": [
    "C136_position_of_the_map",
    "C136_stretched_polygons"
   ],
   "note": ""
  },
  {
   "property": "C137",
   "status": "proved",
   "theorems": [
    "C137_selecting_twice",
    "C137_every_instance_has_a_performance",
    "C137_every_instance_has_a_feature_refuted",
    "C137_removing_twice",
    "C137_no_feature_removed",
    "C137_set_of_names"
   ],
   "note": ""
  },
  {
   "property": "C138",
   "status": "proved",
   "theorems": [
    "C138_plugin_is_scheduled",
    "C138_results_do_not_change",
    "C138_default_schedule",
    "C138_same_model",
    "C138_reads_final_values",
    "C138_when_it_runs",
    "C138_reads_final_values_refuted"
   ],
   "note": ""
  },
  {
   "property": "C139",
   "status": "proved",
   "theorems": [
    "C139_order_of_columns",
    "C139_columns_not_requested",
    "C139_order_of_columns_of_one_name_refuted",
    "C139_more_columns",
    "C139_more_columns_keep_features_refuted"
   ],
   "note": ""
  },
  {
   "property": "C140",
   "status": "proved",
   "theorems": [
    "C140_when_there_is_a_boundary",
    "C140_both_or_neither",
    "C140_flat_correlated_boundary",
    "C140_one_feature",
    "C140_always_a_boundary_refuted",
    "C140_saving_needs_a_boundary"
   ],
   "note": ""
  },
  {
   "property": "C141",
   "status": "proved",
   "theorems": [
    "C141_projection_matrix",
    "C141_svm_table"
   ],
   "note": ""
  },
  {
   "property": "C142",
   "status": "proved",
   "theorems": [
    "C142_from_files_to_files",
    "C142_options_without_effect",
    "C142_options_reach_the_stages"
   ],
   "note": ""
  },
  {
   "property": "C143",
   "status": "proved",
   "theorems": [
    "C143_what_the_options_act_on",
    "C143_errors",
    "C143_beta_threshold",
    "C143_number_of_processes",
    "C143_idle_options"
   ],
   "note": ""
  }
 ]
}