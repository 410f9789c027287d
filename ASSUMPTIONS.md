# Axioms used by each theorem

Output of `Print Assumptions` for every theorem of `Prop_*.v`, grouped by result.  All axioms are the standard library's.

## Closed under the global context (no axioms)

C59_add, C59_add_always, C59_min, C59_max, C59_terminates, C59_linearizable, C98_one_at_a_time, C98_ends, C98_add, C99_bounds_partial, C99_as_cpu, C99_negative_width_refuted, C19_single_exact, C19_uv_exact, C19_all_rows, C19_always_defined, C19_inline_same, C20_rising_convention_partial, C20_falling_convention_refuted, C21_two_ranges, C21_chain, C21_one_subgrid, C21_unresolved_step_refuted, C22_exactly_one_plane, C23_bounds_exact, C23_negative_width_refuted, C62_count_check, C19_api_single, C19_api_uv, C103_single_partial, C103_uv_partial, C103_refused, C103_refused_uv, C103_lengths_refuted, C75_values, C55_in_bounds_partial, C75_position, C55_negative_w_refuted, C55_geometry_refuted, C75_nonsquare_refuted, C107_values, C107_cpu_partial, C107_rounding, C107_ties_refuted, C81_accepts, C81_codes, C81_type_code, C81_readonly_refuted, C81_type_refuted, C81_rank_refuted, C77_least, C77_bounds, C77_overflow_refuted, C56_entry_partial, C56_out_of_table, C56_large_refuted, C76_accuracy, C76_accuracy_refuted, C76_support_refuted, C61_vector_add, C61_vector_add_rejects, C61_status, C61_overlap_refuted, C61_example_partial, C61_example_rejects, C61_example_overrun_refuted, C61_example_negative_refuted, C61_example_closed, C72_vector_add_refuted, C67_uniform, C67_briggs, C67_flagger, C67_degrid, C67_vector_add, C67_example, C67_clamp_refuted, C67_worst_case_refuted, C37_power_of_two, C52_flags, C52_never_cleared, C52_independent, C53_refuted, C53_in_bounds_partial, C53_settings_refuted, C73_window_partial, C73_refuted, C33_sum_diff, C33_scale_inv_shape_unchecked_refuted, C33_sum_diff_rows_unchecked_refuted, C97_cut_out_partial, C97_add_partial, C97_add_race_refuted, C97_types, C97_shift_partial, C34_start, C34_every_cycle, C34_result, C35_partial, C35_rejects, C35_output_shape_refuted, C90_peak, C90_safe, C90_ends, C90_bounds_refuted, C90_lockstep_refuted, C90_levels_refuted, C90_tie_refuted, C91_cycles, C91_consistent, C91_ends, C91_safe, C91_model_refuted, C91_threshold_refuted, C60_filter, C60_constant, C60_unrecognised, C01_create_layout, C01_create_failures, C02_refcount_release, C03_slice_elements, C04_slice_overrun_refuted, C04_slice_rejects_partial, C05_alias_read_only_refuted, C05_alias_partial, C06_copy_equal_independent, C07_strided_copy_refuted, C08_copy_contents, C08_clear_portion, C08_noop_after_error, C09_set_value, C09_set_value_error, C10_sticky_refuted, C10_sticky_partial, C10_first_error_partial, C11_checks_exact, C11_same_shape_exact, C11_attributes, C11_null_handle, C12_view, C12_view_empty_on_error, C13_data_model, C14_is_matching_spec, C14_is_matching_equivalence, C36_partial, C36_psf_size_refuted, C111_cpu_refuted, C111_robust_refuted, C111_written, C111_last_tile_refuted, C111_first_tile_refuted, C111_empty_tile_refuted, C111_race_refuted, C41_smallest, C42_smallest, C42_small, C108_offsets_partial, C108_cpu_partial, C108_safe, C108_race_refuted, C47_table, C47_symmetric, C47_cached, C47_error, C47_odd_refuted, C47_empty_refuted, C70_power, C70_create_partial, C70_overflow_refuted, C70_uninitialised_refuted, C58_coefficients, C57_shapes_refuted, C104_layout, C29_cut_out, C29_add, C29_pixel_in_range, C29_pixel_distinct, C30_adjoint, C30_cut_after_add, C30_cut_after_add_empty, C30_outside_unchanged, C31_shift, C100_sum_partial, C100_cpu_partial, C100_safe, C100_lockstep_refuted, C100_overflow_refuted, C100_errors_refuted, C100_lengths_refuted, C17_rows_exactly_once, C17_never_twice, C17_schedule_independent, C17_mutual_exclusion, C18_bounded, C18_no_deadlock, C18_total_tasks, C18_completes, C50_count, C50_kept, C50_nearest_pixel, C50_bucket_sort, C50_tiled_indexing, C50_any_order, C50_tiles_exist, C51_v_range, C51_u_range_partial, C51_u_range_refuted, C51_outside_grid_refuted, C66_complex_refuted, C66_indexing_coordinates_refuted, C66_single_precision_refuted, C66_real_partial, C109_tiles, C109_count, C109_offsets_partial, C109_tiles_exist, C109_outside_grid_refuted, C110_bucket_sort, C110_tiled_indexing, C15_timer_reading, C15_reading_nonneg, C15_reads_invisible, C15_idempotent, C15_restart_discards_time, C16_tree, C16_balanced_returns, C16_surplus_pops, C16_root_total, C114_sum_partial, C114_cpu, C114_rejects, C114_wrap_refuted, C114_wrap_exists_refuted, C114_empty_refuted, C27_height, C27_default_target, C27_boundary, C27_no_crossing, C28_completes_partial, C28_divides, C28_division_refuted, C28_odd_refuted, C24_degrid_in_bounds_partial, C24_grid_in_bounds_partial, C24_support_ignored_refuted, C24_falling_coordinate_refuted, C25_adjoint, C25_degrid_formula, C25_grid_formula, C25_kernel_position, C26_nearest_row_partial, C26_upper_plane_refuted, C106_degrid, C54_uniform, C54_briggs, C54_documented_range, C54_negative_refuted, C54_edge_refuted, C54_shapes_refuted, C94_uniform_partial, C95_briggs_partial, C95_zeroed_partial, C95_crash_refuted, C117_no_update_lost, C117_bounded, C117_no_deadlock, C117_grid, C117_rows, C117_unlocked_refuted, C117_large_refuted, C117_degrid, C119_exclusion, C119_serial, C119_no_deadlock, C119_counter, C119_no_openmp_refuted, C119_relock_refuted

## `ClassicalDedekindReals.sig_forall_dec`, `ClassicalDedekindReals.sig_not_dec`, `FunctionalExtensionality.functional_extensionality_dep`

C72_dft, C72_dft_v01, C72_rotate_uvw_refuted, C72_rotate_vis_refuted, C48_v00_partial, C48_v01_partial, C48_linear, C48_additive, C48_frequency, C48_overflow_refuted, C92_v00_partial, C92_v01_partial, C92_grid_refuted, C105_pattern_partial, C105_scalar_partial, C105_cpu_partial, C105_outside_refuted, C105_beyond_refuted, C105_refused, C113_degrid, C113_real_partial, C113_grid, C113_adjoint, C113_correct, C113_correct_adjoint, C113_zero_refuted, C113_single_refuted, C113_complex_refuted, C113_size_refuted, C102_w_stack_partial, C102_w_stack_zero, C102_pswf_partial, C102_pswf_outside, C102_types, C85_apply, C85_spread, C85_correction, C85_odd_refuted, C85_overflow_refuted, C86_gridding, C86_degridding, C87_gridding, C87_degridding, C87_adjoint, C87_output_refuted, C86_support_refuted, C86_overflow_refuted, C87_other_sizes_refuted, C82_create, C82_planes, C82_needed, C82_spacing, C82_edge_refuted, C82_width_refuted, C84_ready, C67_dft_v00, C67_dft_v01, C67_rotate_uvw, C67_rotate_vis, C67_harp, C67_dipole, C67_station, C37_one_dimension, C37_batch, C37_two_dimensions, C37_batch_two_dimensions, C37_rejects, C38_one_dimension, C38_two_dimensions, C40_square, C40_partial, C40_rows_partial, C40_sign_refuted, C43_even_partial, C43_odd_refuted, C43_odd_kernel_refuted, C112_same_partial, C112_cpu, C112_edge_refuted, C112_unit_refuted, C112_output_refuted, C112_refused, C74_scale, C32_w_stack_invertible, C32_w_stack_phase, C32_pswf, C63_predict, C63_image, C63_adjoint, C64_channels_outside_selection_refuted, C64_rows_partial, C65_list, C96_idft_partial, C96_clean, C115_sky, C115_odd_refuted, C78_weight, C78_accuracy_refuted, C49_uvw_length, C49_uvw_same, C49_uvw_roundtrip_partial, C49_uvw_roundtrip_refuted, C49_vis_rotation, C49_vis_amplitude, C49_vis_same, C49_vis_roundtrip, C71_uvw_frame_partial, C71_uvw_frame_refuted, C93_uvw_partial, C93_vis_partial, C93_wrap_refuted, C79_functions, C79_axis, C79_axis_refuted, C58_pattern, C58_api, C58_sizes_refuted, C57_beam, C57_linear, C57_order, C57_unit, C57_api, C57_types_refuted, C80_dipole, C80_pattern, C80_scalar, C80_api, C104_beam, C104_cpu, C104_refused, C104_null_refuted, C44_prepare_facet, C44_extract_from_facet, C44_extract_from_subgrid_partial, C44_finish_facet, C44_extract_negative_refuted, C44_empty_facet_refuted, C45_extract_2d_partial, C45_extract_2d_negative_refuted, C46_adjoint_partial, C46_negative_refuted, C68_finish_inplace, C68_finish_is_crop, C68_finish_2d, C68_round_trip_partial, C68_round_trip_2d_partial, C68_sign_refuted, C68_sign_2d_refuted, C68_strides_refuted, C69_degrid_driver, C69_adjoint_partial, C69_adjoint_odd, C69_odd_refuted, C116_adjoint_partial, C116_degrid_order, C116_grid_order, C116_prediction, C116_predicted_unique, C118_sky, C118_odd_partial, C118_cpu, C118_shift_refuted

## `ClassicalDedekindReals.sig_forall_dec`, `ClassicalDedekindReals.sig_not_dec`, `Classical_Prop.classic`, `FunctionalExtensionality.functional_extensionality_dep`

C89_table, C89_correction, C84_tables, C84_correction, C115_beam, C115_shift_refuted, C88_nodes, C88_integral, C80_axis

## `ClassicalDedekindReals.sig_forall_dec`

C101_set_value_1d_partial, C101_set_value_2d_partial, C101_set_value_3d_partial, C101_set_value_refused, C101_scale_partial, C101_scale_large_refuted, C102_phase_partial, C33_residual, C33_residual_mismatch, C45_add_2d_negative_refuted

## `ClassicalDedekindReals.sig_forall_dec`, `FunctionalExtensionality.functional_extensionality_dep`

C101_scale_read_only_refuted, C102_norm_partial, C102_norm_large_refuted, C81_create, C81_oom_refuted, C81_exec, C83_range, C83_python, C83_order_refuted, C39_phase, C39_phase_twice, C39_norm, C39_norm_large_refuted, C33_scale_inv, C33_accum_scale, C33_rms, C65_nonzero, C65_count, C65_rank_injective, C65_not_square_refuted, C96_accumulate_partial, C96_accumulate_real_partial, C96_real_scaled_refuted, C96_scale_inv_partial, C96_types, C96_shapes_refuted, C78_polynomial, C78_recursion, C44_create, C44_add_to_facet, C44_add_to_subgrid, C45_add_2d_partial, C25_adjoint_hermitian, C106_grid, C106_refused, C54_uniform_inverse, C95_fresh_refuted
