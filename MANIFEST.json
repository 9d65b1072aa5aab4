{
 "claims": [
  {
   "property": "C01",
   "status": "proved",
   "theorems": [
    "C01_reachable_heaps_wf",
    "C01_names_total",
    "C01_getitem_path",
    "C01_get_default",
    "C01_other_keys"
   ],
   "note": ""
  },
  {
   "property": "C02",
   "status": "proved",
   "theorems": [
    "C02_getitem_tuple"
   ],
   "note": ""
  },
  {
   "property": "C03",
   "status": "proved",
   "theorems": [
    "C03_setitem_frame",
    "C03_setitem_empty_path",
    "C03_set_then_get",
    "C03_set_then_get_unconditional_refuted",
    "C03_setitem_errors"
   ],
   "note": ""
  },
  {
   "property": "C04",
   "status": "proved",
   "theorems": [
    "C04_setitem_tuple",
    "C04_delitem_tuple",
    "C04_setitem_unpacks"
   ],
   "note": ""
  },
  {
   "property": "C05",
   "status": "proved",
   "theorems": [
    "C05_delitem_frame",
    "C05_delitem_empty_path",
    "C05_del_then_get",
    "C05_delitem_errors"
   ],
   "note": ""
  },
  {
   "property": "C06",
   "status": "proved",
   "theorems": [
    "C06_copy_isolated",
    "C06_update_union",
    "C06_update_not_mapping",
    "C06_or_fresh_union",
    "C06_contains_direct",
    "C06_contains_iff_readable",
    "C06_keys_distinct",
    "C06_constructor",
    "C06_clear",
    "C06_pop",
    "C06_setdefault",
    "C06_popitem",
    "C06_slash_key_unreachable_refuted"
   ],
   "note": ""
  },
  {
   "property": "C07",
   "status": "proved",
   "theorems": [
    "C07_constructor_copies",
    "C07_copy_method",
    "C07_setitem_copies",
    "C07_update_copies",
    "C07_or_copies",
    "C07_nocopy_shares",
    "C07_slice_view_shares",
    "C07_getitem_aliases",
    "C07_to_dict",
    "C07_getitem_tuple"
   ],
   "note": ""
  },
  {
   "property": "C08",
   "status": "proved",
   "theorems": [
    "C08_subset_rows",
    "C08_subset_error",
    "C08_selection",
    "C08_slices",
    "C08_positions",
    "C08_concat_rows",
    "C08_concat_missing",
    "C08_subcol"
   ],
   "note": ""
  },
  {
   "property": "C09",
   "status": "proved",
   "theorems": [
    "C09_history",
    "C09_reads_agree",
    "C09_outcomes",
    "C09_getattr",
    "C09_getattr_class_names"
   ],
   "note": ""
  },
  {
   "property": "C10",
   "status": "proved",
   "theorems": [
    "C10_dump_load_roundtrip",
    "C10_dump_to_load_from_root",
    "C10_files_stay_well_formed",
    "C10_load_link_cycle_refuted",
    "C10_dump_to_load_from_key",
    "C10_dump_to_load_from_existing"
   ],
   "note": ""
  },
  {
   "property": "C11",
   "status": "proved",
   "theorems": [
    "C11_unsupported_rejected",
    "C11_scan_exact",
    "C11_type_error_reason",
    "C11_atomic_dump_refuted"
   ],
   "note": ""
  },
  {
   "property": "C12",
   "status": "proved",
   "theorems": [
    "C12_bad_flag",
    "C12_x_never_overwrites",
    "C12_x_refuses_existing",
    "C12_nothing_removed",
    "C12_only_named_change",
    "C12_ac_existing",
    "C12_group_existing"
   ],
   "note": ""
  },
  {
   "property": "C13",
   "status": "proved",
   "theorems": [
    "C13_overwrite",
    "C13_bad_shape",
    "C13_exact",
    "C13_conversion",
    "C13_item_assignment",
    "C13_value_read_back_refuted"
   ],
   "note": ""
  },
  {
   "property": "C14",
   "status": "proved",
   "theorems": [
    "C14_new_key",
    "C14_no_parent_created",
    "C14_missing_is_key_error",
    "C14_rootlike_key",
    "C14_existing_target",
    "C14_x_never_overwrites",
    "C14_nothing_removed",
    "C14_other_files_untouched",
    "C14_file_flags",
    "C14_truncate_before_scan_refuted"
   ],
   "note": ""
  },
  {
   "property": "C15",
   "status": "proved",
   "theorems": [
    "C15_object_roundtrip",
    "C15_missing_field",
    "C15_missing_data",
    "C15_wrong_kind"
   ],
   "note": ""
  },
  {
   "property": "C16",
   "status": "proved",
   "theorems": [
    "C16_attr_assign",
    "C16_attr_assign_when",
    "C16_attr_create",
    "C16_attr_create_empty",
    "C16_attr_history",
    "C16_attr_keys",
    "C16_dataset_create_new",
    "C16_dataset_create_empty_keeps",
    "C16_dataset_create_empty",
    "C16_dataset_keys",
    "C16_attr_dump",
    "C16_attr_dump_stops",
    "C16_attr_load",
    "C16_ds_load",
    "C16_attr_dump_load"
   ],
   "note": ""
  },
  {
   "property": "C17",
   "status": "proved",
   "theorems": [
    "C17_listing",
    "C17_all_members_last_marked",
    "C17_end_marker_refuted",
    "C17_max_depth_zero_refuted"
   ],
   "note": ""
  },
  {
   "property": "C18",
   "status": "proved",
   "theorems": [
    "C18_links_extend",
    "C18_link_flags",
    "C18_soft_link",
    "C18_external_link"
   ],
   "note": ""
  },
  {
   "property": "C19",
   "status": "proved",
   "theorems": [
    "C19_load_selected"
   ],
   "note": ""
  },
  {
   "property": "C20",
   "status": "proved",
   "theorems": [
    "C20_sessions",
    "C20_skip_like_load",
    "C20_marker_value",
    "C20_skip_scalar_type_refuted",
    "C20_skip_np_int32_refuted",
    "C20_load_bytes",
    "C20_load_all",
    "C20_records",
    "C20_skip_all_refuted"
   ],
   "note": ""
  },
  {
   "property": "C21",
   "status": "proved",
   "theorems": [
    "C21_accepts",
    "C21_mismatch",
    "C21_truncated",
    "C21_skip_mismatch",
    "C21_skip_truncated",
    "C21_length_unchecked_refuted",
    "C21_short_load_refuted"
   ],
   "note": ""
  },
  {
   "property": "C22",
   "status": "proved",
   "theorems": [
    "C22_round_trip",
    "C22_loaded_shape",
    "C22_sheet_names",
    "C22_as_datatables_refuted",
    "C22_dump_errors",
    "C22_clash_refuted"
   ],
   "note": ""
  },
  {
   "property": "C23",
   "status": "proved",
   "theorems": [
    "C23_get",
    "C23_deepest_unique",
    "C23_path_exists",
    "C23_string_level_refuted",
    "C23_missing_node",
    "C23_other_levels"
   ],
   "note": ""
  },
  {
   "property": "C24",
   "status": "proved",
   "theorems": [
    "C24_bisearch",
    "C24_bisearch_any_array",
    "C24_empty_rejected",
    "C24_orders"
   ],
   "note": ""
  },
  {
   "property": "C25",
   "status": "proved",
   "theorems": [
    "C25_weights_float",
    "C25_nearest",
    "C25_weights"
   ],
   "note": ""
  },
  {
   "property": "C26",
   "status": "proved",
   "theorems": [
    "C26_nodes_float",
    "C26_bounded_float_refuted",
    "C26_reproduces_nodes",
    "C26_affine_exact",
    "C26_between_neighbours",
    "C26_bounded_everywhere",
    "C26_monotone",
    "C26_regions",
    "C26_fixed_out_of_bounds",
    "C26_bilinear_exact",
    "C26_derivative"
   ],
   "note": ""
  },
  {
   "property": "C27",
   "status": "proved",
   "theorems": [
    "C27_check",
    "C27_increasing_accepted",
    "C27_sorted_required_refuted"
   ],
   "note": ""
  },
  {
   "property": "C28",
   "status": "proved",
   "theorems": [
    "C28_float_edge_refuted",
    "C28_bisearch_bins",
    "C28_index_unique",
    "C28_numpy_order",
    "C28_equal_space_bins",
    "C28_construction",
    "C28_locate",
    "C28_edges",
    "C28_locate_in_range",
    "C28_locate_bound",
    "C28_locate_nearest",
    "C28_centers",
    "C28_huge_sample_refuted",
    "C28_infinity_refuted",
    "C28_rounded_monotone",
    "C28_rounded_lower_bound"
   ],
   "note": ""
  },
  {
   "property": "C29",
   "status": "proved",
   "theorems": [
    "C29_history",
    "C29_total",
    "C29_rejected_call"
   ],
   "note": ""
  },
  {
   "property": "C30",
   "status": "proved",
   "theorems": [
    "C30_combine",
    "C30_centers_widths",
    "C30_stride_zero",
    "C30_insert_sub_bins",
    "C30_insert_keeps_order",
    "C30_p_range",
    "C30_sub_bin_spec"
   ],
   "note": ""
  },
  {
   "property": "C31",
   "status": "proved",
   "theorems": [
    "C31_windows",
    "C31_edges",
    "C31_accepts",
    "C31_sub_h_refuted"
   ],
   "note": ""
  },
  {
   "property": "C32",
   "status": "proved",
   "theorems": [
    "C32_ranges",
    "C32_slices",
    "C32_offsets"
   ],
   "note": ""
  },
  {
   "property": "C33",
   "status": "proved",
   "theorems": [
    "C33_bool_idx_bool",
    "C33_bool_to_idx",
    "C33_idx_bool_idx",
    "C33_idx_to_bool",
    "C33_put",
    "C33_put_short_mask_refuted",
    "C33_zip",
    "C33_on_arrays",
    "C33_on_dict"
   ],
   "note": ""
  },
  {
   "property": "C34",
   "status": "proved",
   "theorems": [
    "C34_normalize",
    "C34_norm",
    "C34_safe_log",
    "C34_safe_div",
    "C34_safe_div_negative_refuted",
    "C34_bound_array",
    "C34_bound",
    "C34_safe_divisor",
    "C34_bound_finite",
    "C34_bound_idempotent",
    "C34_bound_monotone"
   ],
   "note": ""
  },
  {
   "property": "C35",
   "status": "proved",
   "theorems": [
    "C35_range",
    "C35_range_finite",
    "C35_range_split"
   ],
   "note": ""
  },
  {
   "property": "C36",
   "status": "proved",
   "theorems": [
    "C36_shift_in",
    "C36_shift_in_float",
    "C36_shift_to",
    "C36_shift_to_shape",
    "C36_test_bound",
    "C36_shift_in_then_test",
    "C36_shift_in_idempotent",
    "C36_shift_in_far_refuted"
   ],
   "note": ""
  },
  {
   "property": "C37",
   "status": "proved",
   "theorems": [
    "C37_grid1d",
    "C37_accepts_sorted",
    "C37_locate",
    "C37_extent",
    "C37_centers",
    "C37_gridmd",
    "C37_gridmd_refused",
    "C37_applied",
    "C37_applied_xy",
    "C37_gridmd_extent",
    "C37_gridmd_centers"
   ],
   "note": ""
  },
  {
   "property": "C38",
   "status": "proved",
   "theorems": [
    "C38_table",
    "C38_cells",
    "C38_one_cell"
   ],
   "note": ""
  },
  {
   "property": "C39",
   "status": "proved",
   "theorems": [
    "C39_query",
    "C39_batch",
    "C39_duplicates_refuted"
   ],
   "note": ""
  },
  {
   "property": "C40",
   "status": "proved",
   "theorems": [
    "C40_min_image",
    "C40_metric",
    "C40_bound",
    "C40_query"
   ],
   "note": ""
  },
  {
   "property": "C41",
   "status": "proved",
   "theorems": [
    "C41_nearest",
    "C41_periodic",
    "C41_volumes"
   ],
   "note": ""
  },
  {
   "property": "C42",
   "status": "proved",
   "theorems": [
    "C42_total",
    "C42_new",
    "C42_cells",
    "C42_nonneg",
    "C42_shift",
    "C42_order",
    "C42_shape"
   ],
   "note": ""
  },
  {
   "property": "C43",
   "status": "proved",
   "theorems": [
    "C43_grid_values",
    "C43_bounds",
    "C43_constant",
    "C43_periodic",
    "C43_adjoint",
    "C43_affine"
   ],
   "note": ""
  },
  {
   "property": "C44",
   "status": "proved",
   "theorems": [
    "C44_construct",
    "C44_type",
    "C44_fractions",
    "C44_grid_points",
    "C44_names"
   ],
   "note": ""
  },
  {
   "property": "C45",
   "status": "proved",
   "theorems": [
    "C45_join",
    "C45_errors"
   ],
   "note": ""
  },
  {
   "property": "C46",
   "status": "proved",
   "theorems": [
    "C46_fft_inverse",
    "C46_overdensity",
    "C46_run_ok",
    "C46_tensor",
    "C46_hessian",
    "C46_eigenvalues",
    "C46_poisson",
    "C46_scale",
    "C46_unsmoothed",
    "C46_wave",
    "C46_shape",
    "C46_shape_is_cloud",
    "C46_shape_product",
    "C46_plane_wave"
   ],
   "note": ""
  },
  {
   "property": "C47",
   "status": "proved",
   "theorems": [
    "C47_gaussian",
    "C47_tophat",
    "C47_run_ok",
    "C47_smoothing",
    "C47_linear",
    "C47_fourier",
    "C47_windows",
    "C47_volumes",
    "C47_plane_wave",
    "C47_window_volumes"
   ],
   "note": ""
  },
  {
   "property": "C48",
   "status": "proved",
   "theorems": [
    "C48_masked_quantile",
    "C48_masked_median",
    "C48_masked_errorbar",
    "C48_masked_count",
    "C48_sum_value",
    "C48_mean_value",
    "C48_std_value",
    "C48_masked_sum",
    "C48_masked_mean",
    "C48_masked_std",
    "C48_masked_nan_refuted",
    "C48_rows_sum",
    "C48_rows_mean",
    "C48_rows_std",
    "C48_rows_quantile",
    "C48_rows_median",
    "C48_rows_count",
    "C48_rows_count_refuted",
    "C48_shape",
    "C48_shape_refused",
    "C48_sum_special",
    "C48_sum_mask_as_weights"
   ],
   "note": ""
  },
  {
   "property": "C49",
   "status": "proved",
   "theorems": [
    "C49_bounded",
    "C49_monotone",
    "C49_total",
    "C49_out_of_range",
    "C49_out_of_range_weighted_refuted",
    "C49_order_statistics",
    "C49_median",
    "C49_uniform_weights_refuted",
    "C49_errorbar",
    "C49_errorbar_two_probs",
    "C49_errorbar_rows",
    "C49_levels",
    "C49_unknown_levels",
    "C49_weighted_at_sample",
    "C49_weighted_between",
    "C49_weighted_median",
    "C49_ties_refuted"
   ],
   "note": ""
  },
  {
   "property": "C50",
   "status": "proved",
   "theorems": [
    "C50_empty",
    "C50_empty_mean_any",
    "C50_empty_sum",
    "C50_empty_std",
    "C50_empty_std_refuted",
    "C50_empty_errorbar",
    "C50_empty_errorbar_sd",
    "C50_no_rows_refuted"
   ],
   "note": ""
  },
  {
   "property": "C51",
   "status": "proved",
   "theorems": [
    "C51_resample",
    "C51_resample_full",
    "C51_every_outcome",
    "C51_sizes_mismatch",
    "C51_calls",
    "C51_result",
    "C51_total",
    "C51_none",
    "C51_generator_refuted",
    "C51_generator_sizes_refuted",
    "C51_unequal_refuted"
   ],
   "note": ""
  },
  {
   "property": "C52",
   "status": "proved",
   "theorems": [
    "C52_init",
    "C52_round_trip",
    "C52_round_trip_table",
    "C52_moments",
    "C52_constant_column",
    "C52_order"
   ],
   "note": ""
  },
  {
   "property": "C53",
   "status": "proved",
   "theorems": [
    "C53_init",
    "C53_order_irrelevant",
    "C53_rank",
    "C53_domain",
    "C53_increasing",
    "C53_inverse",
    "C53_with_norm"
   ],
   "note": ""
  },
  {
   "property": "C54",
   "status": "proved",
   "theorems": [
    "C54_names",
    "C54_cubic",
    "C54_square",
    "C54_group_laws",
    "C54_action",
    "C54_isometry",
    "C54_call_shape",
    "C54_call_rows",
    "C54_combined",
    "C54_combined_order",
    "C54_getitem",
    "C54_len_refuted"
   ],
   "note": ""
  },
  {
   "property": "C55",
   "status": "proved",
   "theorems": [
    "C55_budget",
    "C55_monotone",
    "C55_scale_factor",
    "C55_units",
    "C55_constants",
    "C55_h_free",
    "C55_hubble_literal",
    "C55_friedmann",
    "C55_mass_radius",
    "C55_kpc_refuted"
   ],
   "note": ""
  },
  {
   "property": "C56",
   "status": "proved",
   "theorems": [
    "C56_growth",
    "C56_window",
    "C56_setup",
    "C56_transfer",
    "C56_eh98",
    "C56_sigma_8",
    "C56_spectra",
    "C56_growth_scaling",
    "C56_amplitude_free",
    "C56_sigma_8_scaling",
    "C56_at_mass",
    "C56_traces_refuted",
    "C56_eh99_refused",
    "C56_growth_published",
    "C56_eh98_published",
    "C56_eh99_published",
    "C56_shape"
   ],
   "note": ""
  },
  {
   "property": "C57",
   "status": "proved",
   "theorems": [
    "C57_value",
    "C57_latest_unique",
    "C57_once",
    "C57_at_most_once",
    "C57_self_request_refuted",
    "C57_failure",
    "C57_multi",
    "C57_multi_failure_refuted",
    "C57_predefined"
   ],
   "note": ""
  },
  {
   "property": "C58",
   "status": "proved",
   "theorems": [
    "C58_lookup",
    "C58_index",
    "C58_agree",
    "C58_stale_name_refuted",
    "C58_subscripts",
    "C58_new",
    "C58_set_values",
    "C58_set_values_length",
    "C58_integer_parameter_refuted",
    "C58_interrupted_update",
    "C58_update_prefix",
    "C58_assignment",
    "C58_repr"
   ],
   "note": ""
  },
  {
   "property": "C59",
   "status": "proved",
   "theorems": [
    "C59_update",
    "C59_history",
    "C59_draw",
    "C59_marker_style_refuted",
    "C59_frame_last",
    "C59_frame_replay",
    "C59_frame_bad",
    "C59_errorfill",
    "C59_errorfill_shapes",
    "C59_errorfill_default_refuted",
    "C59_leg_loc_refuted",
    "C59_colour",
    "C59_rc_methods",
    "C59_rc_global",
    "C59_rc_sheets",
    "C59_rc_sheet_refuted",
    "C59_rc_shared_refuted",
    "C59_frame_pair",
    "C59_tick_params",
    "C59_get",
    "C59_colour_tuple",
    "C59_leg_names",
    "C59_wrap_text",
    "C59_setitem"
   ],
   "note": ""
  },
  {
   "property": "C60",
   "status": "proved",
   "theorems": [
    "C60_grid",
    "C60_borders",
    "C60_subplots",
    "C60_room",
    "C60_scalar_extent_refuted",
    "C60_figsize",
    "C60_refused",
    "C60_figsize_refused",
    "C60_layout",
    "C60_broadcast_order",
    "C60_broadcast",
    "C60_transpose",
    "C60_transpose_row",
    "C60_accepted"
   ],
   "note": ""
  },
  {
   "property": "C61",
   "status": "proved",
   "theorems": [
    "C61_value",
    "C61_fields",
    "C61_linear",
    "C61_negative_refuted",
    "C61_minus_zero_refuted",
    "C61_every_angle"
   ],
   "note": ""
  },
  {
   "property": "C62",
   "status": "proved",
   "theorems": [
    "C62_gaussian",
    "C62_tophat",
    "C62_bounds",
    "C62_ball_volume",
    "C62_ball_closed_form",
    "C62_ball_scaling",
    "C62_tophat_volume",
    "C62_create",
    "C62_create_errors",
    "C62_create_refused"
   ],
   "note": ""
  },
  {
   "property": "C63",
   "status": "proved",
   "theorems": [
    "C63_counts",
    "C63_density",
    "C63_integral",
    "C63_inside",
    "C63_outside",
    "C63_last_edge_refuted",
    "C63_fit_errors",
    "C63_single_location",
    "C63_extra_coordinates",
    "C63_by_histogram"
   ],
   "note": ""
  },
  {
   "property": "C64",
   "status": "proved",
   "theorems": [
    "C64_fraction",
    "C64_range",
    "C64_small_weights_refuted"
   ],
   "note": ""
  },
  {
   "property": "C65",
   "status": "proved",
   "theorems": [
    "C65_sorted_flat",
    "C65_sorted_axis",
    "C65_argsort_axis",
    "C65_argsort_flat_refuted",
    "C65_index_array_refuted",
    "C65_flat_index_array",
    "C65_filled",
    "C65_zeros_ones",
    "C65_len_flatten"
   ],
   "note": ""
  },
  {
   "property": "C66",
   "status": "proved",
   "theorems": [
    "C66_unit_vectors",
    "C66_rt_to_cart",
    "C66_rt_axes",
    "C66_rt_axis_refuted",
    "C66_integer_positions_refuted"
   ],
   "note": ""
  },
  {
   "property": "C67",
   "status": "proved",
   "theorems": [
    "C67_combine_dicts",
    "C67_as_array"
   ],
   "note": ""
  },
  {
   "property": "C68",
   "status": "proved",
   "theorems": [
    "C68_values",
    "C68_zero_sigma",
    "C68_lg_sign",
    "C68_distribution"
   ],
   "note": ""
  },
  {
   "property": "C69",
   "status": "proved",
   "theorems": [
    "C69_query",
    "C69_radius",
    "C69_local",
    "C69_local_kernel",
    "C69_kernel_no_effect_refuted",
    "C69_gaussian_no_effect_refuted",
    "C69_weight_scale",
    "C69_zero_radius_refuted",
    "C69_neighbour_counts",
    "C69_knn",
    "C69_knn_plain",
    "C69_knn_kernel_no_effect_refuted",
    "C69_default_radius"
   ],
   "note": ""
  },
  {
   "property": "C70",
   "status": "proved",
   "theorems": [
    "C70_knn_mean",
    "C70_mean_bounds",
    "C70_knn_each",
    "C70_local_each",
    "C70_specs",
    "C70_tuple_refuted",
    "C70_generator_refuted",
    "C70_names",
    "C70_spec_errors",
    "C70_knn_values"
   ],
   "note": ""
  },
  {
   "property": "C71",
   "status": "proved",
   "theorems": [
    "C71_density",
    "C71_total",
    "C71_max_dropped_refuted",
    "C71_lg"
   ],
   "note": ""
  },
  {
   "property": "C72",
   "status": "proved",
   "theorems": [
    "C72_fit",
    "C72_mass",
    "C72_on",
    "C72_on_complete",
    "C72_edge_refuted",
    "C72_meshgrid",
    "C72_mesh",
    "C72_min_sample_refuted",
    "C72_level",
    "C72_level_mono",
    "C72_shown",
    "C72_contour",
    "C72_contour_order_refuted",
    "C72_contour_cmap_refuted",
    "C72_knn",
    "C72_axis",
    "C72_axis_given",
    "C72_fit_lengths"
   ],
   "note": ""
  },
  {
   "property": "C73",
   "status": "proved",
   "theorems": [
    "C73_secondary",
    "C73_lgzp1",
    "C73_identical_refuted",
    "C73_identical_repaired",
    "C73_interp",
    "C73_interp_descending",
    "C73_interp_refused",
    "C73_band",
    "C73_band_mismatch_refuted"
   ],
   "note": ""
  },
  {
   "property": "C74",
   "status": "proved",
   "theorems": [
    "C74_radius_velocity",
    "C74_virial",
    "C74_mean_comoving",
    "C74_nfw",
    "C74_inverse",
    "C74_empty_table",
    "C74_keywords",
    "C74_history_free",
    "C74_custom_mutates_refuted",
    "C74_inverse_error"
   ],
   "note": ""
  },
  {
   "property": "C75",
   "status": "proved",
   "theorems": [
    "C75_constants",
    "C75_units",
    "C75_cosmological_units",
    "C75_construction",
    "C75_conf_file",
    "C75_conf_file_errors",
    "C75_background",
    "C75_distances",
    "C75_redshifts",
    "C75_times",
    "C75_integrals",
    "C75_h_free",
    "C75_halo",
    "C75_from_astropy",
    "C75_omega_l0_refuted",
    "C75_written_parameter"
   ],
   "note": ""
  },
  {
   "property": "C76",
   "status": "proved",
   "theorems": [
    "C76_construction",
    "C76_sharing",
    "C76_reproducible",
    "C76_uniform",
    "C76_sphere",
    "C76_sphere_covers",
    "C76_circle",
    "C76_jit",
    "C76_batches",
    "C76_sphere_batches_refuted"
   ],
   "note": ""
  },
  {
   "property": "C77",
   "status": "proved",
   "theorems": [
    "C77_dict_repr",
    "C77_list_repr",
    "C77_data_repr",
    "C77_only_attribute_errors",
    "C77_library_refuted",
    "C77_log",
    "C77_log_defaults"
   ],
   "note": ""
  },
  {
   "property": "C78",
   "status": "proved",
   "theorems": [
    "C78_file_roundtrip",
    "C78_missing_group",
    "C78_refused",
    "C78_keywords",
    "C78_keywords_errors",
    "C78_text_to_group",
    "C78_text_to_file",
    "C78_delete",
    "C78_delete_missing",
    "C78_delete_self",
    "C78_replace",
    "C78_select",
    "C78_dataset_attributes"
   ],
   "note": ""
  },
  {
   "property": "C79",
   "status": "proved",
   "theorems": [
    "C79_dump_load",
    "C79_join",
    "C79_join_sizes",
    "C79_join_refused",
    "C79_pipeline",
    "C79_load_errors",
    "C79_load_scalars",
    "C79_load_not_float",
    "C79_zeros",
    "C79_layout",
    "C79_interpolator",
    "C79_classifier"
   ],
   "note": ""
  },
  {
   "property": "C80",
   "status": "proved",
   "theorems": [
    "C80_values",
    "C80_row_order",
    "C80_refused",
    "C80_read_once",
    "C80_info",
    "C80_sigma_interpolator",
    "C80_sigma_8",
    "C80_reversed_range"
   ],
   "note": ""
  },
  {
   "property": "C81",
   "status": "proved",
   "theorems": [
    "C81_vectors",
    "C81_col_stacked",
    "C81_refused",
    "C81_row_stacked",
    "C81_row_stacked_mixed",
    "C81_lists"
   ],
   "note": ""
  },
  {
   "property": "C82",
   "status": "proved",
   "theorems": [
    "C82_wrap",
    "C82_rewrap",
    "C82_index",
    "C82_views",
    "C82_slice_bounds",
    "C82_last_draw",
    "C82_colorbar",
    "C82_nested_axes_refuted",
    "C82_subfigures",
    "C82_subfigures_scalar",
    "C82_color_seq",
    "C82_level",
    "C82_from_cmap",
    "C82_integer_levels_refuted",
    "C82_predefined",
    "C82_figure_kw",
    "C82_gridspec_kw"
   ],
   "note": ""
  },
  {
   "property": "C83",
   "status": "proved",
   "theorems": [
    "C83_index",
    "C83_grid_points",
    "C83_nearest_refuted",
    "C83_query",
    "C83_query_refuted",
    "C83_weights",
    "C83_deposits",
    "C83_total"
   ],
   "note": ""
  },
  {
   "property": "C84",
   "status": "proved",
   "theorems": [
    "C84_constructor",
    "C84_step",
    "C84_any_sample",
    "C84_huge_refuted",
    "C84_monotone",
    "C84_lower_bound",
    "C84_edges_separate",
    "C84_within_one",
    "C84_above",
    "C84_edges",
    "C84_nearest",
    "C84_upper_refuted",
    "C84_below_refuted",
    "C84_infinite_range"
   ],
   "note": ""
  },
  {
   "property": "C85",
   "status": "proved",
   "theorems": [
    "C85_roundtrip",
    "C85_objects_equal",
    "C85_reading",
    "C85_writing",
    "C85_order_refuted",
    "C85_slash_refuted",
    "C85_stale_column_refuted"
   ],
   "note": ""
  },
  {
   "property": "C86",
   "status": "proved",
   "theorems": [
    "C86_items",
    "C86_dangling",
    "C86_dump",
    "C86_no_scan_refuted",
    "C86_open",
    "C86_with_block",
    "C86_close"
   ],
   "note": ""
  },
  {
   "property": "C87",
   "status": "proved",
   "theorems": [
    "C87_columns",
    "C87_refused",
    "C87_local_refused",
    "C87_knn_values",
    "C87_knn_pointwise",
    "C87_knn_line",
    "C87_local_values",
    "C87_local_pointwise",
    "C87_default_single",
    "C87_default_radius_refuted"
   ],
   "note": ""
  },
  {
   "property": "C88",
   "status": "proved",
   "theorems": [
    "C88_bisearch",
    "C88_nearest",
    "C88_interp",
    "C88_interp_2d",
    "C88_interp_refuted",
    "C88_linear",
    "C88_linear_refuted",
    "C88_histogram",
    "C88_density",
    "C88_lookup",
    "C88_kd_mesh",
    "C88_kd_mesh_refuted",
    "C88_modes"
   ],
   "note": ""
  },
  {
   "property": "C89",
   "status": "proved",
   "theorems": [
    "C89_any_order",
    "C89_reordering",
    "C89_numpy",
    "C89_integers",
    "C89_nonneg",
    "C89_sum",
    "C89_count",
    "C89_mean",
    "C89_weighted_mean",
    "C89_std",
    "C89_order_refuted",
    "C89_constant_refuted"
   ],
   "note": ""
  },
  {
   "property": "C90",
   "status": "proved",
   "theorems": [
    "C90_fit",
    "C90_forward",
    "C90_round_trip",
    "C90_order",
    "C90_constant",
    "C90_constant_refuted",
    "C90_collapse_refuted"
   ],
   "note": ""
  },
  {
   "property": "C91",
   "status": "proved",
   "theorems": [
    "C91_range",
    "C91_increases",
    "C91_ends",
    "C91_any_order",
    "C91_accuracy",
    "C91_median",
    "C91_levels",
    "C91_errorbar",
    "C91_shares",
    "C91_weighted_range",
    "C91_weighted_accuracy",
    "C91_weighted_increases",
    "C91_weighted_median",
    "C91_median_refuted",
    "C91_order_statistic_refuted",
    "C91_weighted_range_refuted",
    "C91_weighted_errorbar_refuted"
   ],
   "note": ""
  },
  {
   "property": "C92",
   "status": "proved",
   "theorems": [
    "C92_accepts",
    "C92_accepts_finite",
    "C92_accepts_refuted",
    "C92_centers",
    "C92_centers_single",
    "C92_centers_refuted",
    "C92_locate",
    "C92_locate_center",
    "C92_locate_center_refuted",
    "C92_slice",
    "C92_slice_down",
    "C92_slice_refuted",
    "C92_range",
    "C92_range_refuted",
    "C92_data_axis",
    "C92_data_axis_down",
    "C92_data_range",
    "C92_data_refuted"
   ],
   "note": ""
  },
  {
   "property": "C93",
   "status": "proved",
   "theorems": [
    "C93_angle_accuracy",
    "C93_angle_monotone",
    "C93_angle_whole",
    "C93_angle_range",
    "C93_angle_range_refuted",
    "C93_seconds_distinct",
    "C93_fields",
    "C93_shift_to",
    "C93_shift_to_stays",
    "C93_shift_to_again_refuted"
   ],
   "note": ""
  },
  {
   "property": "C94",
   "status": "proved",
   "theorems": [
    "C94_bound",
    "C94_safe_div",
    "C94_norm",
    "C94_norm_dominates",
    "C94_normalize",
    "C94_normalize_length",
    "C94_normalize_range",
    "C94_normalize_axis",
    "C94_large_vector_refuted",
    "C94_safe_div_refuted"
   ],
   "note": ""
  },
  {
   "property": "C95",
   "status": "proved",
   "theorems": [
    "C95_operations",
    "C95_operation_count",
    "C95_stopped_file",
    "C95_retry",
    "C95_many_attempts",
    "C95_again",
    "C95_complete_x",
    "C95_x_refused",
    "C95_recovered",
    "C95_dump_to_nested",
    "C95_dump_to_retry",
    "C95_attributes",
    "C95_attributes_complete"
   ],
   "note": ""
  },
  {
   "property": "C96",
   "status": "proved",
   "theorems": [
    "C96_value",
    "C96_range",
    "C96_nonneg",
    "C96_grid",
    "C96_density",
    "C96_constant_refuted",
    "C96_product_refuted"
   ],
   "note": ""
  },
  {
   "property": "C97",
   "status": "proved",
   "theorems": [
    "C97_cast",
    "C97_accepted",
    "C97_type",
    "C97_zero_threshold",
    "C97_threshold",
    "C97_lookup",
    "C97_points",
    "C97_fractions",
    "C97_order_refuted",
    "C97_positive_refuted",
    "C97_small_box_refuted"
   ],
   "note": ""
  },
  {
   "property": "C98",
   "status": "proved",
   "theorems": [
    "C98_tophat",
    "C98_gauss",
    "C98_sum",
    "C98_mean",
    "C98_no_weight",
    "C98_far_refuted",
    "C98_narrow_refuted",
    "C98_fraction",
    "C98_fraction_mono",
    "C98_fraction_ends",
    "C98_fraction_far_refuted"
   ],
   "note": ""
  },
  {
   "property": "C99",
   "status": "proved",
   "theorems": [
    "C99_explicit",
    "C99_refused",
    "C99_history",
    "C99_split",
    "C99_value",
    "C99_grows",
    "C99_saturated_refuted",
    "C99_order_refuted"
   ],
   "note": ""
  },
  {
   "property": "C100",
   "status": "proved",
   "theorems": [
    "C100_pi",
    "C100_volume",
    "C100_ball",
    "C100_ball_mono",
    "C100_fit",
    "C100_local",
    "C100_radius",
    "C100_knn",
    "C100_far_refuted",
    "C100_coincident_refuted",
    "C100_gauss_refuted"
   ],
   "note": ""
  },
  {
   "property": "C101",
   "status": "proved",
   "theorems": [
    "C101_probability",
    "C101_level",
    "C101_level_mono",
    "C101_ends",
    "C101_shown",
    "C101_plane",
    "C101_coincident_refuted"
   ],
   "note": ""
  },
  {
   "property": "C102",
   "status": "proved",
   "theorems": [
    "C102_literals",
    "C102_today",
    "C102_fractions",
    "C102_accuracy",
    "C102_baryons",
    "C102_densities",
    "C102_monotone",
    "C102_monotone_scale",
    "C102_monotone_mass",
    "C102_scale",
    "C102_redshift",
    "C102_radius",
    "C102_power_exists"
   ],
   "note": ""
  }
 ]
}