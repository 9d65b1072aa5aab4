# What Print Assumptions lists

Generated by tools/assumptions.py. All of them are axioms of the Coq standard library:

* **A** `ClassicalDedekindReals.sig_forall_dec`
* **B** `ClassicalDedekindReals.sig_not_dec`
* **C** `Classical_Prop.classic`
* **D** `FunctionalExtensionality.functional_extensionality_dep`

543 of 882 theorems are closed under the global context (no axiom at all); the others:

| theorem | axioms |
|---|---|
| C100_ball | A B C D |
| C100_ball_mono | A B C D |
| C100_coincident_refuted | A B C D |
| C100_far_refuted | A B C D |
| C100_fit | A B C D |
| C100_gauss_refuted | A B C D |
| C100_knn | A B C D |
| C100_local | A B C D |
| C100_pi | A B C D |
| C100_radius | A B C D |
| C100_volume | A B D |
| C101_coincident_refuted | A B C D |
| C101_ends | A B C D |
| C101_level | A B C D |
| C101_level_mono | A B C D |
| C101_plane | A B C D |
| C101_probability | A B C D |
| C101_shown | A B C D |
| C102_accuracy | A B C D |
| C102_baryons | A B C D |
| C102_densities | A B C D |
| C102_fractions | A B C D |
| C102_literals | A B C D |
| C102_monotone | A B C D |
| C102_monotone_mass | A B C D |
| C102_monotone_scale | A B C D |
| C102_power_exists | A B C D |
| C102_radius | A B C D |
| C102_redshift | A B C D |
| C102_scale | A B C D |
| C102_today | A B C D |
| C25_weights_float | A B C D |
| C26_bounded_float_refuted | A B C D |
| C26_nodes_float | A B C D |
| C28_float_edge_refuted | A B C D |
| C34_norm | A B D |
| C34_normalize | A B D |
| C34_safe_div | A D |
| C34_safe_div_negative_refuted | A D |
| C34_safe_log | A B C D |
| C36_shift_in_float | A B C D |
| C40_bound | A B D |
| C40_metric | A B D |
| C40_min_image | A B D |
| C40_query | A B D |
| C46_eigenvalues | A B D |
| C46_fft_inverse | A B D |
| C46_hessian | A B D |
| C46_overdensity | A D |
| C46_plane_wave | A B D |
| C46_poisson | A B D |
| C46_run_ok | A B D |
| C46_scale | A B D |
| C46_shape | A B C D |
| C46_shape_is_cloud | A B C D |
| C46_shape_product | A B D |
| C46_tensor | A B D |
| C46_unsmoothed | A B D |
| C47_fourier | A B D |
| C47_gaussian | A B C D |
| C47_linear | A B D |
| C47_plane_wave | A B D |
| C47_run_ok | A B D |
| C47_smoothing | A B D |
| C47_tophat | A B C D |
| C47_volumes | A B C D |
| C47_window_volumes | A B C D |
| C47_windows | A B C D |
| C48_masked_std | A B D |
| C48_rows_std | A B D |
| C48_shape | A B D |
| C48_shape_refused | A B D |
| C48_std_value | A B D |
| C50_empty_errorbar_sd | A B D |
| C50_empty_std | A B D |
| C52_constant_column | A B D |
| C52_init | A B D |
| C52_moments | A B D |
| C52_order | A B D |
| C52_round_trip | A B D |
| C52_round_trip_table | A B D |
| C54_action | A D |
| C54_call_rows | A |
| C54_call_shape | A |
| C54_group_laws | A D |
| C54_isometry | A D |
| C55_budget | A B D |
| C55_constants | A D |
| C55_friedmann | A B D |
| C55_h_free | A D |
| C55_hubble_literal | A D |
| C55_kpc_refuted | A D |
| C55_mass_radius | A B C D |
| C55_monotone | A B D |
| C55_scale_factor | A D |
| C55_units | A D |
| C56_amplitude_free | A B C D |
| C56_at_mass | A B C D |
| C56_eh98 | A B C D |
| C56_eh98_published | A B C D |
| C56_eh99_published | A B C D |
| C56_eh99_refused | A D |
| C56_growth | A B C D |
| C56_growth_published | A B C D |
| C56_growth_scaling | A B C D |
| C56_setup | A D |
| C56_shape | A B C D |
| C56_sigma_8 | A B C D |
| C56_sigma_8_scaling | A B C D |
| C56_spectra | A B C D |
| C56_traces_refuted | A B C D |
| C56_transfer | A B C D |
| C56_window | A B C D |
| C62_ball_closed_form | A B D |
| C62_ball_scaling | A B D |
| C62_ball_volume | A B C D |
| C62_bounds | A B C D |
| C62_create | A |
| C62_create_errors | A |
| C62_create_refused | A |
| C62_gaussian | A B C D |
| C62_tophat | A B D |
| C62_tophat_volume | A B C D |
| C64_fraction | A B D |
| C64_small_weights_refuted | A B D |
| C66_integer_positions_refuted | A B D |
| C66_rt_axes | A B D |
| C66_rt_axis_refuted | A B D |
| C66_rt_to_cart | A B D |
| C66_unit_vectors | A B D |
| C68_lg_sign | A B C D |
| C68_values | A B C D |
| C68_zero_sigma | A B C D |
| C69_default_radius | A B D |
| C69_gaussian_no_effect_refuted | A B D |
| C69_kernel_no_effect_refuted | A B D |
| C69_knn | A B D |
| C69_knn_kernel_no_effect_refuted | A B D |
| C69_knn_plain | A B D |
| C69_local | A B D |
| C69_local_kernel | A B D |
| C69_neighbour_counts | A D |
| C69_query | A D |
| C69_radius | A D |
| C69_weight_scale | A B D |
| C69_zero_radius_refuted | A B D |
| C70_generator_refuted | A B D |
| C70_knn_each | A B D |
| C70_knn_mean | A B D |
| C70_knn_values | A B D |
| C70_local_each | A B D |
| C70_tuple_refuted | A B D |
| C71_lg | A B C D |
| C72_knn | A B D |
| C73_interp | A D |
| C73_interp_descending | A D |
| C73_interp_refused | A D |
| C73_lgzp1 | A B C D |
| C74_inverse | A B C D |
| C74_inverse_error | A B C D |
| C74_mean_comoving | A B C D |
| C74_nfw | A B C D |
| C74_radius_velocity | A B C D |
| C74_virial | A B C D |
| C75_background | A B D |
| C75_conf_file | A D |
| C75_conf_file_errors | A D |
| C75_constants | A B C D |
| C75_construction | A D |
| C75_cosmological_units | A D |
| C75_distances | A B C D |
| C75_from_astropy | A B D |
| C75_h_free | A B D |
| C75_halo | A B C D |
| C75_integrals | A B C D |
| C75_omega_l0_refuted | A B D |
| C75_redshifts | A B C D |
| C75_times | A B C D |
| C75_units | A B D |
| C75_written_parameter | A B C D |
| C76_batches | A D |
| C76_circle | A B D |
| C76_construction | A B C D |
| C76_jit | A B C D |
| C76_reproducible | A B C D |
| C76_sharing | A B C D |
| C76_sphere | A B C D |
| C76_sphere_batches_refuted | A B C D |
| C76_sphere_covers | A B C D |
| C76_uniform | A B C D |
| C80_info | A D |
| C80_read_once | A D |
| C80_refused | A D |
| C80_reversed_range | A B C D |
| C80_row_order | A D |
| C80_sigma_8 | A B C D |
| C80_sigma_interpolator | A B C D |
| C80_values | A D |
| C83_deposits | A B C D |
| C83_grid_points | A B C D |
| C83_index | A B C D |
| C83_nearest_refuted | A B C D |
| C83_query | A B C D |
| C83_query_refuted | A B C D |
| C83_total | A B C D |
| C83_weights | A B C D |
| C84_above | A B C D |
| C84_any_sample | A B C D |
| C84_below_refuted | A B C D |
| C84_edges | A B C D |
| C84_edges_separate | A B C D |
| C84_huge_refuted | A B C D |
| C84_infinite_range | A B C D |
| C84_lower_bound | A B C D |
| C84_monotone | A B C D |
| C84_nearest | A B C D |
| C84_step | A B C D |
| C84_upper_refuted | A B C D |
| C84_within_one | A B C D |
| C87_columns | A B D |
| C87_default_radius_refuted | A B D |
| C87_default_single | A B D |
| C87_knn_line | A B D |
| C87_knn_pointwise | A B D |
| C87_knn_values | A B D |
| C87_local_pointwise | A B D |
| C87_local_refused | A B D |
| C87_local_values | A B D |
| C87_refused | A B D |
| C89_any_order | A B C D |
| C89_constant_refuted | A B C D |
| C89_count | A B C D |
| C89_integers | A B C D |
| C89_mean | A B C D |
| C89_nonneg | A B C D |
| C89_numpy | A B C D |
| C89_order_refuted | A B C D |
| C89_reordering | A B C D |
| C89_std | A B C D |
| C89_sum | A B C D |
| C89_weighted_mean | A B C D |
| C90_collapse_refuted | A B C D |
| C90_constant | A B C D |
| C90_constant_refuted | A B C D |
| C90_fit | A B C D |
| C90_forward | A B C D |
| C90_order | A B C D |
| C90_round_trip | A B C D |
| C91_accuracy | A B C D |
| C91_any_order | A B C D |
| C91_ends | A B C D |
| C91_errorbar | A B C D |
| C91_increases | A B C D |
| C91_levels | A B C D |
| C91_median | A B C D |
| C91_median_refuted | A B C D |
| C91_order_statistic_refuted | A B C D |
| C91_range | A B C D |
| C91_shares | A B C D |
| C91_weighted_accuracy | A B C D |
| C91_weighted_errorbar_refuted | A B C D |
| C91_weighted_increases | A B C D |
| C91_weighted_median | A B C D |
| C91_weighted_range | A B C D |
| C91_weighted_range_refuted | A B C D |
| C92_accepts | A B C D |
| C92_accepts_finite | A B C D |
| C92_accepts_refuted | A B C D |
| C92_centers | A B C D |
| C92_centers_refuted | A B C D |
| C92_data_axis | A B C D |
| C92_data_axis_down | A B C D |
| C92_data_range | A B C D |
| C92_data_refuted | A B C D |
| C92_locate | A B C D |
| C92_locate_center | A B C D |
| C92_locate_center_refuted | A B C D |
| C92_range | A B C D |
| C92_range_refuted | A B C D |
| C92_slice | A B C D |
| C92_slice_down | A B C D |
| C92_slice_refuted | A B C D |
| C93_angle_accuracy | A B C D |
| C93_angle_monotone | A B C D |
| C93_angle_range | A B C D |
| C93_angle_range_refuted | A B C D |
| C93_angle_whole | A B C D |
| C93_fields | A B C D |
| C93_seconds_distinct | A B C D |
| C93_shift_to | A B C D |
| C93_shift_to_again_refuted | A B C D |
| C93_shift_to_stays | A B C D |
| C94_bound | A B C D |
| C94_large_vector_refuted | A B C D |
| C94_norm | A B C D |
| C94_norm_dominates | A B C D |
| C94_normalize | A B C D |
| C94_normalize_axis | A B C D |
| C94_normalize_length | A B C D |
| C94_normalize_range | A B C D |
| C94_safe_div | A B C D |
| C94_safe_div_refuted | A B C D |
| C96_constant_refuted | A B C D |
| C96_density | A B C D |
| C96_grid | A B C D |
| C96_nonneg | A B C D |
| C96_product_refuted | A B C D |
| C96_range | A B C D |
| C96_value | A B C D |
| C97_accepted | A B C D |
| C97_cast | A B C D |
| C97_fractions | A B C D |
| C97_lookup | A B C D |
| C97_order_refuted | A B C D |
| C97_points | A B C D |
| C97_positive_refuted | A B C D |
| C97_small_box_refuted | A B C D |
| C97_threshold | A B C D |
| C97_type | A B C D |
| C97_zero_threshold | A B C D |
| C98_far_refuted | A B C D |
| C98_fraction | A B C D |
| C98_fraction_ends | A B C D |
| C98_fraction_far_refuted | A B C D |
| C98_fraction_mono | A B C D |
| C98_gauss | A B C D |
| C98_mean | A B C D |
| C98_narrow_refuted | A B C D |
| C98_no_weight | A B C D |
| C98_sum | A B C D |
| C98_tophat | A B C D |
| C99_explicit | A B C D |
| C99_grows | A B C D |
| C99_history | A B C D |
| C99_order_refuted | A B C D |
| C99_refused | A B C D |
| C99_saturated_refuted | A B C D |
| C99_split | A B C D |
| C99_value | A B C D |

Closed: C01_get_default, C01_getitem_path, C01_names_total, C01_other_keys, C01_reachable_heaps_wf, C02_getitem_tuple, C03_set_then_get, C03_set_then_get_unconditional_refuted, C03_setitem_empty_path, C03_setitem_errors, C03_setitem_frame, C04_delitem_tuple, C04_setitem_tuple, C04_setitem_unpacks, C05_del_then_get, C05_delitem_empty_path, C05_delitem_errors, C05_delitem_frame, C06_clear, C06_constructor, C06_contains_direct, C06_contains_iff_readable, C06_copy_isolated, C06_keys_distinct, C06_or_fresh_union, C06_pop, C06_popitem, C06_setdefault, C06_slash_key_unreachable_refuted, C06_update_not_mapping, C06_update_union, C07_constructor_copies, C07_copy_method, C07_getitem_aliases, C07_getitem_tuple, C07_nocopy_shares, C07_or_copies, C07_setitem_copies, C07_slice_view_shares, C07_to_dict, C07_update_copies, C08_concat_missing, C08_concat_rows, C08_positions, C08_selection, C08_slices, C08_subcol, C08_subset_error, C08_subset_rows, C09_getattr, C09_getattr_class_names, C09_history, C09_outcomes, C09_reads_agree, C10_dump_load_roundtrip, C10_dump_to_load_from_existing, C10_dump_to_load_from_key, C10_dump_to_load_from_root, C10_files_stay_well_formed, C10_load_link_cycle_refuted, C11_atomic_dump_refuted, C11_scan_exact, C11_type_error_reason, C11_unsupported_rejected, C12_ac_existing, C12_bad_flag, C12_group_existing, C12_nothing_removed, C12_only_named_change, C12_x_never_overwrites, C12_x_refuses_existing, C13_bad_shape, C13_conversion, C13_exact, C13_item_assignment, C13_overwrite, C13_value_read_back_refuted, C14_existing_target, C14_file_flags, C14_missing_is_key_error, C14_new_key, C14_no_parent_created, C14_nothing_removed, C14_other_files_untouched, C14_rootlike_key, C14_truncate_before_scan_refuted, C14_x_never_overwrites, C15_missing_data, C15_missing_field, C15_object_roundtrip, C15_wrong_kind, C16_attr_assign, C16_attr_assign_when, C16_attr_create, C16_attr_create_empty, C16_attr_dump, C16_attr_dump_load, C16_attr_dump_stops, C16_attr_history, C16_attr_keys, C16_attr_load, C16_dataset_create_empty, C16_dataset_create_empty_keeps, C16_dataset_create_new, C16_dataset_keys, C16_ds_load, C17_all_members_last_marked, C17_end_marker_refuted, C17_listing, C17_max_depth_zero_refuted, C18_external_link, C18_link_flags, C18_links_extend, C18_soft_link, C19_load_selected, C20_load_all, C20_load_bytes, C20_marker_value, C20_records, C20_sessions, C20_skip_all_refuted, C20_skip_like_load, C20_skip_np_int32_refuted, C20_skip_scalar_type_refuted, C21_accepts, C21_length_unchecked_refuted, C21_mismatch, C21_short_load_refuted, C21_skip_mismatch, C21_skip_truncated, C21_truncated, C22_as_datatables_refuted, C22_clash_refuted, C22_dump_errors, C22_loaded_shape, C22_round_trip, C22_sheet_names, C23_deepest_unique, C23_get, C23_missing_node, C23_other_levels, C23_path_exists, C23_string_level_refuted, C24_bisearch, C24_bisearch_any_array, C24_empty_rejected, C24_orders, C25_nearest, C25_weights, C26_affine_exact, C26_between_neighbours, C26_bilinear_exact, C26_bounded_everywhere, C26_derivative, C26_fixed_out_of_bounds, C26_monotone, C26_regions, C26_reproduces_nodes, C27_check, C27_increasing_accepted, C27_sorted_required_refuted, C28_bisearch_bins, C28_centers, C28_construction, C28_edges, C28_equal_space_bins, C28_huge_sample_refuted, C28_index_unique, C28_infinity_refuted, C28_locate, C28_locate_bound, C28_locate_in_range, C28_locate_nearest, C28_numpy_order, C28_rounded_lower_bound, C28_rounded_monotone, C29_history, C29_rejected_call, C29_total, C30_centers_widths, C30_combine, C30_insert_keeps_order, C30_insert_sub_bins, C30_p_range, C30_stride_zero, C30_sub_bin_spec, C31_accepts, C31_edges, C31_sub_h_refuted, C31_windows, C32_offsets, C32_ranges, C32_slices, C33_bool_idx_bool, C33_bool_to_idx, C33_idx_bool_idx, C33_idx_to_bool, C33_on_arrays, C33_on_dict, C33_put, C33_put_short_mask_refuted, C33_zip, C34_bound, C34_bound_array, C34_bound_finite, C34_bound_idempotent, C34_bound_monotone, C34_safe_divisor, C35_range, C35_range_finite, C35_range_split, C36_shift_in, C36_shift_in_far_refuted, C36_shift_in_idempotent, C36_shift_in_then_test, C36_shift_to, C36_shift_to_shape, C36_test_bound, C37_accepts_sorted, C37_applied, C37_applied_xy, C37_centers, C37_extent, C37_grid1d, C37_gridmd, C37_gridmd_centers, C37_gridmd_extent, C37_gridmd_refused, C37_locate, C38_cells, C38_one_cell, C38_table, C39_batch, C39_duplicates_refuted, C39_query, C41_nearest, C41_periodic, C41_volumes, C42_cells, C42_new, C42_nonneg, C42_order, C42_shape, C42_shift, C42_total, C43_adjoint, C43_affine, C43_bounds, C43_constant, C43_grid_values, C43_periodic, C44_construct, C44_fractions, C44_grid_points, C44_names, C44_type, C45_errors, C45_join, C46_wave, C48_masked_count, C48_masked_errorbar, C48_masked_mean, C48_masked_median, C48_masked_nan_refuted, C48_masked_quantile, C48_masked_sum, C48_mean_value, C48_rows_count, C48_rows_count_refuted, C48_rows_mean, C48_rows_median, C48_rows_quantile, C48_rows_sum, C48_sum_mask_as_weights, C48_sum_special, C48_sum_value, C49_bounded, C49_errorbar, C49_errorbar_rows, C49_errorbar_two_probs, C49_levels, C49_median, C49_monotone, C49_order_statistics, C49_out_of_range, C49_out_of_range_weighted_refuted, C49_ties_refuted, C49_total, C49_uniform_weights_refuted, C49_unknown_levels, C49_weighted_at_sample, C49_weighted_between, C49_weighted_median, C50_empty, C50_empty_errorbar, C50_empty_mean_any, C50_empty_std_refuted, C50_empty_sum, C50_no_rows_refuted, C51_calls, C51_every_outcome, C51_generator_refuted, C51_generator_sizes_refuted, C51_none, C51_resample, C51_resample_full, C51_result, C51_sizes_mismatch, C51_total, C51_unequal_refuted, C53_domain, C53_increasing, C53_init, C53_inverse, C53_order_irrelevant, C53_rank, C53_with_norm, C54_combined, C54_combined_order, C54_cubic, C54_getitem, C54_len_refuted, C54_names, C54_square, C57_at_most_once, C57_failure, C57_latest_unique, C57_multi, C57_multi_failure_refuted, C57_once, C57_predefined, C57_self_request_refuted, C57_value, C58_agree, C58_assignment, C58_index, C58_integer_parameter_refuted, C58_interrupted_update, C58_lookup, C58_new, C58_repr, C58_set_values, C58_set_values_length, C58_stale_name_refuted, C58_subscripts, C58_update_prefix, C59_colour, C59_colour_tuple, C59_draw, C59_errorfill, C59_errorfill_default_refuted, C59_errorfill_shapes, C59_frame_bad, C59_frame_last, C59_frame_pair, C59_frame_replay, C59_get, C59_history, C59_leg_loc_refuted, C59_leg_names, C59_marker_style_refuted, C59_rc_global, C59_rc_methods, C59_rc_shared_refuted, C59_rc_sheet_refuted, C59_rc_sheets, C59_setitem, C59_tick_params, C59_update, C59_wrap_text, C60_accepted, C60_borders, C60_broadcast, C60_broadcast_order, C60_figsize, C60_figsize_refused, C60_grid, C60_layout, C60_refused, C60_room, C60_scalar_extent_refuted, C60_subplots, C60_transpose, C60_transpose_row, C61_every_angle, C61_fields, C61_linear, C61_minus_zero_refuted, C61_negative_refuted, C61_value, C63_by_histogram, C63_counts, C63_density, C63_extra_coordinates, C63_fit_errors, C63_inside, C63_integral, C63_last_edge_refuted, C63_outside, C63_single_location, C64_range, C65_argsort_axis, C65_argsort_flat_refuted, C65_filled, C65_flat_index_array, C65_index_array_refuted, C65_len_flatten, C65_sorted_axis, C65_sorted_flat, C65_zeros_ones, C67_as_array, C67_combine_dicts, C68_distribution, C70_mean_bounds, C70_names, C70_spec_errors, C70_specs, C71_density, C71_max_dropped_refuted, C71_total, C72_axis, C72_axis_given, C72_contour, C72_contour_cmap_refuted, C72_contour_order_refuted, C72_edge_refuted, C72_fit, C72_fit_lengths, C72_level, C72_level_mono, C72_mass, C72_mesh, C72_meshgrid, C72_min_sample_refuted, C72_on, C72_on_complete, C72_shown, C73_band, C73_band_mismatch_refuted, C73_identical_refuted, C73_identical_repaired, C73_secondary, C74_custom_mutates_refuted, C74_empty_table, C74_history_free, C74_keywords, C77_data_repr, C77_dict_repr, C77_library_refuted, C77_list_repr, C77_log, C77_log_defaults, C77_only_attribute_errors, C78_dataset_attributes, C78_delete, C78_delete_missing, C78_delete_self, C78_file_roundtrip, C78_keywords, C78_keywords_errors, C78_missing_group, C78_refused, C78_replace, C78_select, C78_text_to_file, C78_text_to_group, C79_classifier, C79_dump_load, C79_interpolator, C79_join, C79_join_refused, C79_join_sizes, C79_layout, C79_load_errors, C79_load_not_float, C79_load_scalars, C79_pipeline, C79_zeros, C81_col_stacked, C81_lists, C81_refused, C81_row_stacked, C81_row_stacked_mixed, C81_vectors, C82_color_seq, C82_colorbar, C82_figure_kw, C82_from_cmap, C82_gridspec_kw, C82_index, C82_integer_levels_refuted, C82_last_draw, C82_level, C82_nested_axes_refuted, C82_predefined, C82_rewrap, C82_slice_bounds, C82_subfigures, C82_subfigures_scalar, C82_views, C82_wrap, C84_constructor, C85_objects_equal, C85_order_refuted, C85_reading, C85_roundtrip, C85_slash_refuted, C85_stale_column_refuted, C85_writing, C86_close, C86_dangling, C86_dump, C86_items, C86_no_scan_refuted, C86_open, C86_with_block, C88_bisearch, C88_density, C88_histogram, C88_interp, C88_interp_2d, C88_interp_refuted, C88_kd_mesh, C88_kd_mesh_refuted, C88_linear, C88_linear_refuted, C88_lookup, C88_modes, C88_nearest, C92_centers_single, C95_again, C95_attributes, C95_attributes_complete, C95_complete_x, C95_dump_to_nested, C95_dump_to_retry, C95_many_attempts, C95_operation_count, C95_operations, C95_recovered, C95_retry, C95_stopped_file, C95_x_refused.
