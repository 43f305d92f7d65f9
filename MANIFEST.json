{
 "claims": [
  {
   "property": "C01",
   "status": "proved",
   "theorems": [
    "division_is_guarded",
    "recall_is_ratio_in_unit_interval",
    "precision_is_ratio_in_unit_interval",
    "zero_denominator_gives_zero",
    "f1_is_harmonic_mean",
    "f1_between_min_and_max",
    "f1_in_unit_interval",
    "f1_zero_exactly",
    "f1_one_exactly",
    "f1_monotone_and_symmetric",
    "reported_scores_in_unit_interval"
   ],
   "note": "exact rational arithmetic"
  },
  {
   "property": "C02",
   "status": "proved",
   "theorems": [
    "best_score_is_defined",
    "best_score_is_maximum",
    "best_score_in_range",
    "best_score_at_listed_threshold_refuted",
    "dataset_scores_depend_on_threshold_rows"
   ],
   "note": ""
  },
  {
   "property": "C03",
   "status": "proved",
   "theorems": [
    "threshold_rows_are_scores_of_summed_counts",
    "sample_order_is_irrelevant",
    "sample_rows_follow_samples",
    "dataset_scores_depend_on_threshold_rows"
   ],
   "note": ""
  },
  {
   "property": "C04",
   "status": "proved",
   "theorems": [
    "metrics_independent_of_parallelism",
    "metrics_pair_samples_with_their_counts",
    "parallel_ordered_equals_sequential",
    "parallel_unordered_is_permutation",
    "unordered_keeps_order_refuted",
    "parallel_rejects_bad_sizes"
   ],
   "note": ""
  },
  {
   "property": "C05",
   "status": "proved",
   "theorems": [
    "image_rows_and_ois",
    "ois_at_least_ods_refuted"
   ],
   "note": ""
  },
  {
   "property": "C06",
   "status": "proved",
   "theorems": [
    "ap_level_value",
    "ap_is_sum_over_levels",
    "ap_range",
    "ap_one_is_unreachable",
    "ap_of_perfect_detector",
    "ap_monotone"
   ],
   "note": ""
  },
  {
   "property": "C07",
   "status": "proved",
   "theorems": [
    "auc_is_mean_height_of_curve",
    "curve_is_a_function",
    "auc_range",
    "auc_of_constant_recall_is_zero",
    "auc_monotone_in_precision",
    "auc_of_perfect_detector_is_one_refuted"
   ],
   "note": ""
  },
  {
   "property": "C08",
   "status": "proved",
   "theorems": [
    "int_thresholds",
    "invalid_int_thresholds",
    "other_threshold_specs",
    "no_thresholds_is_an_error"
   ],
   "note": ""
  },
  {
   "property": "C09",
   "status": "proved",
   "theorems": [
    "numbers_read_back",
    "six_decimals_read_back_exactly",
    "read_back_keeps_order",
    "threshold_file",
    "sample_file",
    "sample_file_any_name_refuted",
    "overall_file",
    "save_results_writes",
    "category_directories_distinct"
   ],
   "note": ""
  },
  {
   "property": "C10",
   "status": "proved",
   "theorems": [
    "threshold_file_loads",
    "plotted_points",
    "saved_results_cannot_be_plotted",
    "saved_results_plot_refuted",
    "eight_columns_accepted"
   ],
   "note": "the claim as worded is refuted; what the loader does accept is proved"
  },
  {
   "property": "C11",
   "status": "proved",
   "theorems": [
    "single_gt_counts",
    "multi_label_counts",
    "counts_are_consistent",
    "nms_prediction",
    "single_gt_rejects",
    "gt_scaled_to_255_refuted"
   ],
   "note": ""
  },
  {
   "property": "C12",
   "status": "proved",
   "theorems": [
    "bsds_evaluation_counts",
    "multiple_gts_counts",
    "annotator_counts_are_consistent",
    "annotator_order",
    "no_annotators"
   ],
   "note": ""
  },
  {
   "property": "C13",
   "status": "proved",
   "theorems": [
    "higher_threshold_predicts_less",
    "nonpositive_threshold_keeps_all",
    "sum_p_nonincreasing",
    "sum_p_nonincreasing_with_thinning_refuted"
   ],
   "note": "without thinning; with thinning refuted"
  },
  {
   "property": "C14",
   "status": "proved",
   "theorems": [
    "absent_class_skipped",
    "skip_only_matters_for_absent_classes",
    "empty_gt_gives_false_positives"
   ],
   "note": ""
  },
  {
   "property": "C15",
   "status": "proved",
   "theorems": [
    "kill_internal_exact",
    "kill_internal_consequences",
    "kill_internal_only_lowers_sum_p",
    "kill_internal_needs_segmentation",
    "kill_internal_uint8",
    "kill_internal_uint8_refuted"
   ],
   "note": ""
  },
  {
   "property": "C16",
   "status": "proved",
   "theorems": [
    "ignore_border",
    "ignore_border_shape",
    "ignore_border_zero_width",
    "ignore_border_idempotent",
    "ignore_border_erases_small_images",
    "negative_border_erases"
   ],
   "note": ""
  },
  {
   "property": "C17",
   "status": "proved",
   "theorems": [
    "correspondence_exists",
    "correspondence_is_a_matching",
    "small_maps_are_matched_maximum",
    "matched_at_most_edge_pixels",
    "small_maps_are_matched_maximally",
    "identical_small_maps_match_completely",
    "identical_maps_match_completely_refuted"
   ],
   "note": ""
  },
  {
   "property": "C18",
   "status": "proved",
   "theorems": [
    "graph_construction_succeeds",
    "correspondence_solves_assignment_problem"
   ],
   "note": ""
  },
  {
   "property": "C19",
   "status": "proved",
   "theorems": [
    "kofn_returns_k_subset",
    "kofn_rejects_impossible_requests"
   ],
   "note": ""
  },
  {
   "property": "C20",
   "status": "proved",
   "theorems": [
    "correspondence_rejects",
    "empty_arrays_abort",
    "nothing_within_tolerance",
    "reported_cost",
    "cost_counts_all_outliers_refuted"
   ],
   "note": ""
  },
  {
   "property": "C21",
   "status": "proved",
   "theorems": [
    "bwmorph_thin_subset_and_shape",
    "binary_thin_subset_and_shape"
   ],
   "note": ""
  },
  {
   "property": "C22",
   "status": "proved",
   "theorems": [
    "bwmorph_thin_terminates_or_rejects",
    "bwmorph_thin_with_limit",
    "bwmorph_thin_reaches_fixed_point",
    "bwmorph_thin_idempotent",
    "binary_thin_terminates",
    "binary_thin_fuel_irrelevant",
    "bwmorph_thin_fuel_irrelevant",
    "binary_thin_result",
    "bwmorph_thin_completes_binary_thin",
    "thin_implementations_agree_refuted",
    "binary_thin_idempotent_refuted",
    "binary_thin_returns_input_unconverted",
    "binary_thin_returns_bool_mask_refuted"
   ],
   "note": "bwmorph_thin: full. binary_thin stops early: agreement and idempotence are refuted with witnesses."
  },
  {
   "property": "C23",
   "status": "proved",
   "theorems": [
    "literal_tables_match_recipe",
    "bwmorph_tables_are_guo_hall",
    "thin_tables_are_guo_hall",
    "subiterations_are_guo_hall_passes",
    "subiterations_agree"
   ],
   "note": ""
  },
  {
   "property": "C24",
   "status": "proved",
   "theorems": [
    "bwmorph_thin_keeps_topology",
    "binary_thin_keeps_topology",
    "bwmorph_thin_keeps_end_points",
    "binary_thin_keeps_end_points"
   ],
   "note": ""
  },
  {
   "property": "C25",
   "status": "proved",
   "theorems": [
    "png_decode_encode",
    "png_round_trip",
    "png_encoding_injective",
    "png_encoder_limit",
    "png_bit_position",
    "png_decoder_silently_truncates"
   ],
   "note": ""
  },
  {
   "property": "C26",
   "status": "proved",
   "theorems": [
    "tif_decode_encode",
    "tif_round_trip",
    "default_encoding_bits",
    "default_encoding_injective",
    "tif_loses_channels_above_32",
    "tif_round_trip_unbounded_refuted"
   ],
   "note": ""
  },
  {
   "property": "C27",
   "status": "proved",
   "theorems": [
    "mask_conversion",
    "mask_conversion_shape",
    "mask_conversion_order_irrelevant",
    "mask_conversion_wraps",
    "shipped_tables_are_numberings",
    "shipped_conversion_loses_no_label",
    "edge_conversion",
    "edge_conversion_rejects",
    "onehot_commutes_with_conversion",
    "mask2onehot_spec",
    "mask2onehot_rejects_small_images",
    "mask2onehot_total_refuted",
    "multilabel2binary_spec",
    "shipped_tables_keep_order",
    "cityscapes_evaluated_labels"
   ],
   "note": ""
  },
  {
   "property": "C28",
   "status": "proved",
   "theorems": [
    "boundary_pixels",
    "boundary_is_distance_band",
    "boundary_shape",
    "boundary_monotone_in_radius",
    "boundary_radius_zero",
    "boundary_contains_contour",
    "boundary_is_near_both_sides",
    "boundary_is_local",
    "boundary_of_complement",
    "boundary_of_constant_mask",
    "internal_pixels",
    "internal_is_boundary_on_mask",
    "internal_edges_inside_mask_refuted"
   ],
   "note": "the distance transform is taken to be exact (DESIGN.md)"
  },
  {
   "property": "C29",
   "status": "proved",
   "theorems": [
    "semantic_edges",
    "semantic_edges_independent",
    "semantic_edges_bad_ignore",
    "parallel_semantic_edges",
    "parallel_edges_refuse_thinning"
   ],
   "note": ""
  },
  {
   "property": "C30",
   "status": "proved",
   "theorems": [
    "instance_edges",
    "instance_edges_extend_semantic",
    "parallel_instance_edges",
    "parallel_instance_edges_refuted",
    "parallel_instance_edges_crash_refuted",
    "long_instance_ids_refuted"
   ],
   "note": ""
  },
  {
   "property": "C31",
   "status": "proved",
   "theorems": [
    "instance_id_value",
    "instance_id_reversible",
    "instance_id_reversible_refuted",
    "instance_ids_collide_from_1000",
    "convert_inst_seg_spec",
    "convert_inst_seg_separates"
   ],
   "note": ""
  },
  {
   "property": "C32",
   "status": "proved",
   "theorems": [
    "cityscapes_semantic_pixels",
    "cityscapes_instance_pixels",
    "otf_semantic_edges",
    "otf_instance_edges",
    "stored_png_equals_on_the_fly",
    "stored_thin_equals_on_the_fly_refuted"
   ],
   "note": "equal without thinning; with thinning refuted"
  },
  {
   "property": "C33",
   "status": "proved",
   "theorems": [
    "fast_nms_exact",
    "fast_nms_input",
    "uint8_output_ties",
    "nms_result",
    "nms_only_lowers",
    "nms_keeps_the_maximum",
    "nms_interior_unattenuated",
    "nms_rejects_shape_mismatch",
    "nms_single_line_terminates",
    "fast_nms_result",
    "fast_nms_range",
    "fast_nms_small_images",
    "fast_nms_rejects_other_dtypes",
    "uint8_output"
   ],
   "note": "for arbitrary cos/sin/arctan functions; exact arithmetic"
  },
  {
   "property": "C34",
   "status": "proved",
   "theorems": [
    "triangle_weights",
    "conv_tri_is_triangle_smoothing",
    "mirror_total_and_unique",
    "smoothing_keeps_range",
    "smoothing_keeps_constants",
    "downsampling",
    "smoothing_degenerate"
   ],
   "note": ""
  },
  {
   "property": "C35",
   "status": "proved",
   "theorems": [
    "params_accepted",
    "params_of_mode",
    "rejected_call_effect",
    "rejected_call_changes_nothing_refuted",
    "rejected_calls_keep_mode",
    "params_readable_after_acceptance",
    "named_modes_are_consistent",
    "custom_modes_are_consistent_refuted",
    "sbd_uses_requested_tolerance_refuted",
    "cityscapes_uses_requested_tolerance",
    "sample_names_set"
   ],
   "note": ""
  },
  {
   "property": "C36",
   "status": "proved",
   "theorems": [
    "categories_evaluated",
    "valid_categories_succeed",
    "invalid_category_stops",
    "bad_categories_rejected",
    "unready_evaluator_rejected",
    "printed_tables",
    "saved_averages",
    "summary_ignores_category_order",
    "mean_in_range"
   ],
   "note": ""
  },
  {
   "property": "C37",
   "status": "proved",
   "theorems": [
    "cli_categories_parsed",
    "cli_default_categories",
    "cli_thresholds_parsed",
    "decimal_thresholds_read",
    "float_literals",
    "other_texts_are_not_floats",
    "threshold_list_literals",
    "scripts_evaluate_what_was_asked",
    "scripts_accept_valid_arguments",
    "out_of_range_category_rejected",
    "sbd_script_parameters",
    "city_raw_script_parameters",
    "city_thin_script_parameters",
    "bsds_script_parameters",
    "reanno_script_always_fails",
    "sbd_script_respects_max_dist_refuted"
   ],
   "note": ""
  },
  {
   "property": "C38",
   "status": "proved",
   "theorems": [
    "stored_evaluation_counts",
    "sbd_evaluation_counts",
    "on_the_fly_evaluation_counts",
    "scaled_is_rounding",
    "resize_resamples",
    "resampling_is_unique",
    "stored_evaluation_at_full_scale",
    "cityscapes_mask_is_the_class",
    "sbd_mask_is_the_class_refuted",
    "stored_evaluation_equals_on_the_fly",
    "nearest_samples_the_input",
    "resize_keeps_values",
    "resize_identity"
   ],
   "note": ""
  },
  {
   "property": "C39",
   "status": "proved",
   "theorems": [
    "track_progress_results",
    "track_progress_bar",
    "parallel_ordered_equals_sequential",
    "parallel_bar_equals_sequential",
    "skip_first_only_affects_bar"
   ],
   "note": ""
  },
  {
   "property": "C40",
   "status": "proved",
   "theorems": [
    "scandir_lists_the_files",
    "scandir_lists_each_file_once",
    "suffix_is_of_the_file_name",
    "hidden_directories_skipped_refuted"
   ],
   "note": "directory links forming cycles are not modelled"
  },
  {
   "property": "C41",
   "status": "proved",
   "theorems": [
    "timer_error_iff_not_running",
    "elapsed_time",
    "check_interval",
    "checks_do_not_overlap",
    "times_nonnegative_any_clock_refuted",
    "check_time_intervals",
    "check_time_history"
   ],
   "note": ""
  },
  {
   "property": "C42",
   "status": "proved",
   "theorems": [
    "handlers_added_once",
    "later_calls_ignored",
    "second_log_file_ignored",
    "called_logger_has_handler",
    "requested_logger_emits_refuted",
    "emitted_once_refuted",
    "emitted_at_most_once"
   ],
   "note": ""
  },
  {
   "property": "C43",
   "status": "proved",
   "theorems": [
    "split_file_round_trip",
    "split_file_any_name_refuted",
    "split_names_are_the_stems",
    "other_polygon_files_keep_their_name",
    "split_file_line_ends"
   ],
   "note": ""
  },
  {
   "property": "C44",
   "status": "proved",
   "theorems": [
    "nms_results_collide",
    "nms_results_paths",
    "nms_results_distinct_refuted",
    "nms_results_last_wins",
    "nms_all_results_distinct",
    "nms_all_results_effect",
    "nms_all_results_idempotent"
   ],
   "note": "the claim as worded is refuted for nms_results and proved for nms_all_results"
  },
  {
   "property": "C45",
   "status": "proved",
   "theorems": [
    "iso_curve_has_constant_f1",
    "iso_mirror_has_constant_f1",
    "iso_curves_are_complete"
   ],
   "note": ""
  },
  {
   "property": "C46",
   "status": "proved",
   "theorems": [
    "correspondence_solves_assignment_problem",
    "solver_returns_minimum_cost_matching",
    "solver_terminates",
    "solver_rejects_bad_endpoints",
    "solver_needs_a_nonzero_cost_refuted",
    "correspondence_has_minimum_cost",
    "nodes_are_the_matchable_pixels"
   ],
   "note": "doubles of the solver are modelled by exact rationals here; C57 covers binary64"
  },
  {
   "property": "C47",
   "status": "proved",
   "theorems": [
    "i32_draws_in_range",
    "i32_draws_every_value",
    "stream_values_valid",
    "stream_replays",
    "reset_restores_the_initial_state",
    "seeds_agree_modulo_2_48",
    "clock_seeding",
    "result_independent_of_clock_refuted"
   ],
   "note": ""
  },
  {
   "property": "C48",
   "status": "proved",
   "theorems": [
    "mask2edge_transform",
    "instance_mask2edge_transform",
    "mask2edge_transform_train_ids",
    "instance_mask2edge_transform_train_ids",
    "mask2edge_transform_rejects"
   ],
   "note": ""
  },
  {
   "property": "C49",
   "status": "proved",
   "theorems": [
    "samples_and_their_files",
    "prediction_files_are_distinct",
    "absolute_names_ignore_the_category",
    "missing_ground_truth_is_reported",
    "missing_prediction_means_no_result",
    "first_missing_prediction",
    "only_the_listed_files_matter",
    "one_row_per_sample",
    "bsds_samples_and_their_files",
    "no_split_dir_can_merge_samples_refuted",
    "bsds_mat_files_are_found",
    "only_mat_files_are_found"
   ],
   "note": ""
  },
  {
   "property": "C50",
   "status": "proved",
   "theorems": [
    "thin_needs_radius_one",
    "only_png_and_tif",
    "raw_conversion",
    "sealed_raw_conversion",
    "thin_conversion",
    "half_raw_is_full_raw_at_half_scale_refuted"
   ],
   "note": ""
  },
  {
   "property": "C51",
   "status": "proved",
   "theorems": [
    "cityscapes_conversion_run",
    "conversion_refused",
    "prepared_evaluation_equals_on_the_fly",
    "edge_file_name",
    "instance_file_name",
    "train_id_file_name",
    "written_files_are_read",
    "edge_file_name_any_root_refuted"
   ],
   "note": ""
  },
  {
   "property": "C52",
   "status": "proved",
   "theorems": [
    "sbd_semantic_pixels",
    "sbd_instance_pixels",
    "semantic_edges_keep_off_the_border",
    "instance_edges_keep_off_the_border_refuted",
    "edges_are_near_the_interior",
    "instance_edges_contain_semantic_edges",
    "small_images_are_rejected",
    "routine_writes",
    "sbd_conversion_run",
    "sbd_conversion_stops",
    "sbd_evaluator_reads_converted_files",
    "sbd_list_round_trip",
    "sbd_lists_agree",
    "sbd_lists_always_agree_refuted"
   ],
   "note": ""
  },
  {
   "property": "C53",
   "status": "proved",
   "theorems": [
    "sparse_to_dense",
    "sparse_single_entries",
    "instance_sensitive_maps",
    "reanno_instance_sensitive_maps",
    "unlisted_category_is_refused",
    "reanno_files",
    "reanno_run",
    "thinned_names_are_not_listed"
   ],
   "note": ""
  },
  {
   "property": "C54",
   "status": "proved",
   "theorems": [
    "stored_category_evaluation",
    "label_category_evaluation"
   ],
   "note": ""
  },
  {
   "property": "C55",
   "status": "proved",
   "theorems": [
    "r50_reads_the_curve",
    "r50_is_nan",
    "r50_between_recalls",
    "r50_of_a_row",
    "fixed_prints",
    "plot_shows",
    "plot_succeeds",
    "different_table_sizes_fail"
   ],
   "note": ""
  },
  {
   "property": "C56",
   "status": "proved",
   "theorems": [
    "rounded_scores",
    "rounding_is_harmless",
    "rounding_can_lose_a_level"
   ],
   "note": "binary64 rounding to nearest-even via Flocq; the AUC is not covered"
  },
  {
   "property": "C57",
   "status": "proved",
   "theorems": [
    "solver64_returns_a_matching",
    "solver64_is_nearly_optimal",
    "correspondence64_is_a_matching",
    "correspondence64_is_nearly_optimal"
   ],
   "note": "binary64 rounding to nearest-even via Flocq, without overflow; distances and weights of the graph exact; beyond N^2 C = 2^41 termination and near-optimality are not shown"
  },
  {
   "property": "C58",
   "status": "proved",
   "theorems": [
    "rounded_correspondence",
    "rounded_correspondence_is_nearly_optimal",
    "rounding_is_harmless",
    "decimal_tolerances_are_exact",
    "nominal_tolerance_is_inclusive_refuted",
    "default_settings_are_harmless"
   ],
   "note": "all of correspond_pixels in binary64 (exponents unbounded above); int is unbounded; near-optimality under the size bound of C57"
  },
  {
   "property": "C59",
   "status": "proved",
   "theorems": [
    "thresholds_in_doubles",
    "thresholding_is_exact",
    "default_thresholds_are_exact",
    "threshold_ties_refuted"
   ],
   "note": "binary64 rounding to nearest-even via Flocq; numpy's linspace as arange*step+start with the last value replaced"
  },
  {
   "property": "C60",
   "status": "proved",
   "theorems": [
    "double_single_gt_counts",
    "double_bsds_counts",
    "double_stored_counts",
    "double_on_the_fly_counts",
    "double_bsds_benchmark",
    "double_stored_benchmark"
   ],
   "note": "binary64 via Flocq, exponents unbounded above; without non-maximum suppression; integer numbers of thresholds; termination only with few edge pixels (C57)"
  },
  {
   "property": "C61",
   "status": "proved",
   "theorems": [
    "bsds_run",
    "bsds_missing_file",
    "bsds_failure_writes_nothing",
    "bsds_no_samples",
    "bsds_upper_case_extension_stops_the_run",
    "bsds_missing_directory",
    "bsds_no_names_rejected",
    "bsds_unreadable_file_no_result"
   ],
   "note": "any number of processes (C63); exact arithmetic (C60 for doubles); log file, printing and results.txt not modelled; output directory given, creating it succeeds"
  },
  {
   "property": "C62",
   "status": "proved",
   "theorems": [
    "stored_evaluation",
    "label_evaluation",
    "sbd_run",
    "cityscapes_raw_run",
    "cityscapes_thin_run",
    "missing_ground_truth_stops",
    "missing_directory_stops",
    "missing_directory_found",
    "missing_names_stop",
    "evaluation_touches_only_result_files",
    "scripts_touch_only_result_files",
    "sbd_pred_suffix_has_no_effect",
    "bad_categories_stop"
   ],
   "note": "any number of processes (C63); exact arithmetic; PrettyTable is a parameter; log file and printing not modelled; output directory given, creating it succeeds"
  },
  {
   "property": "C63",
   "status": "proved",
   "theorems": [
    "completion_order_is_irrelevant",
    "samples_as_if_alone",
    "same_values_without_randomness",
    "parallel_categories_are_independent",
    "stored_category_evaluation",
    "label_category_evaluation",
    "bsds_run",
    "sbd_run",
    "cityscapes_raw_run",
    "cityscapes_thin_run"
   ],
   "note": "workers start by fork (each copies the generator of the parent); a worker killed from outside is not modelled; the last six theorems are those of C54, C61 and C62, which hold for any number of processes"
  },
  {
   "property": "C64",
   "status": "proved",
   "theorems": [
    "any_interleaving",
    "as_one_process",
    "no_deadlock",
    "parallel_cityscapes_conversion",
    "conversion_can_be_repeated",
    "parallel_sbd_conversion",
    "job_alone",
    "parallel_conversion_refused",
    "missing_label_stops_conversion",
    "sbd_failures",
    "sbd_list_missing",
    "parallel_sbd_reanno",
    "reanno_failures",
    "bad_polygons_stop_conversion"
   ],
   "note": "file names in a listing are distinct; a save is modelled as emptying and then completing the file; json2labelImg is a parameter; the split lists of Cityscapes (C44) are not in this model"
  },
  {
   "property": "C65",
   "status": "proved",
   "theorems": [
    "compared_with",
    "compare_one",
    "comparison_run",
    "no_misses",
    "missing_file_stops_comparison",
    "instance_comparison_refused",
    "tif_files_all_miss"
   ],
   "note": "images of different shapes are compared by numpy in its own ways (parameter mixed, not used by images of the same shape); one process (C39 for the order of results); finding: with TIFF files every training file is a miss"
  },
  {
   "property": "C66",
   "status": "proved",
   "theorems": [
    "binary_file_decoding",
    "binary_file_wrong_size",
    "binary_file_like_tif",
    "binary_file_round_trip",
    "binary_file_injective"
   ],
   "note": "little-endian machine; the function is not called by the evaluation, and the converter cannot write such files (C50)"
  },
  {
   "property": "C67",
   "status": "proved",
   "theorems": [
    "colour_bits",
    "colour_rows",
    "colours_distinct",
    "colours_normalized"
   ],
   "note": "normalized entries are exact quotients instead of float32"
  },
  {
   "property": "C68",
   "status": "proved",
   "theorems": [
    "directories_made_together",
    "directory_blocked_by_file",
    "directories_do_not_matter",
    "cityscapes_conversion_with_directories",
    "cityscapes_conversion_makes_directories"
   ],
   "note": "paths are texts without '.', '..', links or tilde; mkdir is one step; makedirs as in Lib/os.py; no permissions or full disks"
  },
  {
   "property": "C69",
   "status": "proved",
   "theorems": [
    "matcher_integers_fit",
    "usual_sizes_are_moderate",
    "large_outlier_cost_overflows",
    "result_cost_lower_bound",
    "cityscapes_result_cost_overflows"
   ],
   "note": "the listed values are those of the exact model (distances by their squares); the fields of the solver are long and double, not covered here"
  },
  {
   "property": "C70",
   "status": "proved",
   "theorems": [
    "array_matcher_is_the_matcher",
    "array_matcher_safe",
    "usual_sizes_safe",
    "large_arrays_alias",
    "array_matcher64_is_the_matcher64",
    "usual_correspondence64_safe"
   ],
   "note": "the solver inside is the one of C71, on its own arrays"
  },
  {
   "property": "C71",
   "status": "proved",
   "theorems": [
    "solver_stays_in_its_memory",
    "solver_in_memory_terminates",
    "memory_solver_is_the_solver",
    "memory_solver_rejects_bad_endpoints",
    "parse_groups_the_arcs",
    "solver_memory_needs_a_feasible_graph_refuted",
    "solver64_stays_in_its_memory",
    "solver64_in_memory_terminates",
    "memory_solver64_is_the_solver64"
   ],
   "note": "with exact prices and with doubles (no upper bound on their exponent, as in C57)"
  },
  {
   "property": "C72",
   "status": "proved",
   "theorems": [
    "tracked_iteration",
    "tracked_history",
    "declared_number_is_only_shown",
    "bad_argument_surfaces_at_first_request",
    "tracked_loop_is_track_progress",
    "failing_iterable",
    "break_at_last_task_completes_bar_refuted"
   ],
   "note": "the text of the bar is C73; a generator that is never dropped or resumed concurrently"
  },
  {
   "property": "C73",
   "status": "proved",
   "theorems": [
    "marks_in_bar",
    "marks_grow",
    "bar_full_exactly_at_the_end",
    "marks_are_proportional",
    "line_fits_terminal",
    "line_shape",
    "bar_as_wide_as_allowed",
    "line_fits_with_wrong_number_refuted"
   ],
   "note": "the text of rate, elapsed time and ETA is arbitrary"
  },
  {
   "property": "C74",
   "status": "proved",
   "theorems": [
    "new_name_is_heard_once",
    "repeated_messages_each_once",
    "debug_is_not_written",
    "uninitialised_logger",
    "handlers_respect_levels",
    "named_message_is_heard_refuted"
   ],
   "note": "loggers are configured by get_logger only; formatting is not modelled"
  },
  {
   "property": "C75",
   "status": "proved",
   "theorems": [
    "links_at_every_moment",
    "no_destination_is_lost",
    "one_link_wins",
    "single_call",
    "overwriting_is_atomic_refuted",
    "overwriting_never_fails_refuted",
    "checked_files"
   ],
   "note": "directories on the way are no links; system calls fail only because of what is there"
  },
  {
   "property": "C76",
   "status": "proved",
   "theorems": [
    "generic_evaluation_always_raises",
    "generic_evaluation_attribute_error",
    "generic_evaluation_wants_8_bits",
    "generic_evaluation_returns_refuted",
    "arrays_are_evaluated_as_usual"
   ],
   "note": "the contents of the .mat file are a list of maps"
  },
  {
   "property": "C77",
   "status": "proved",
   "theorems": [
    "nms64_total",
    "nms64_keeps_maximum",
    "nms64_interpolation",
    "nms64_shapes"
   ],
   "note": "no infinities and no NaN; cos and sin are arbitrary functions"
  }
 ]
}