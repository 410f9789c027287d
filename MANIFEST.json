{
 "claims": [
  {
   "property": "C01",
   "status": "proved",
   "theorems": [
    "C01_create_layout",
    "C01_create_failures"
   ],
   "note": "Positive sizes, at least one dimension (rank 0 is reported non-contiguous by the code)."
  },
  {
   "property": "C02",
   "status": "proved",
   "theorems": [
    "C02_refcount_release"
   ],
   "note": ""
  },
  {
   "property": "C03",
   "status": "proved",
   "theorems": [
    "C03_slice_elements"
   ],
   "note": ""
  },
  {
   "property": "C04",
   "status": "partial",
   "theorems": [
    "C04_slice_overrun_refuted",
    "C04_slice_rejects_partial"
   ],
   "note": "Refuted as stated: offset+size > source size is accepted and addresses memory outside the block. Partial: what is rejected."
  },
  {
   "property": "C05",
   "status": "partial",
   "theorems": [
    "C05_alias_read_only_refuted",
    "C05_alias_partial"
   ],
   "note": "Refuted: sdp_mem_create_alias drops the read-only flag. Partial: aliases name the same elements and never free them."
  },
  {
   "property": "C06",
   "status": "proved",
   "theorems": [
    "C06_copy_equal_independent"
   ],
   "note": ""
  },
  {
   "property": "C07",
   "status": "partial",
   "theorems": [
    "C07_strided_copy_refuted"
   ],
   "note": "Refuted: the copy keeps the source strides but allocates only num_elements*size bytes. The contiguous case is C06."
  },
  {
   "property": "C08",
   "status": "proved",
   "theorems": [
    "C08_copy_contents",
    "C08_clear_portion",
    "C08_noop_after_error"
   ],
   "note": ""
  },
  {
   "property": "C09",
   "status": "proved",
   "theorems": [
    "C09_set_value",
    "C09_set_value_error"
   ],
   "note": ""
  },
  {
   "property": "C10",
   "status": "partial",
   "theorems": [
    "C10_sticky_refuted",
    "C10_sticky_partial",
    "C10_first_error_partial"
   ],
   "note": "Refuted for sdp_mem_check_same_shape (does not test the status on entry); proved for chains of all other checks."
  },
  {
   "property": "C11",
   "status": "proved",
   "theorems": [
    "C11_checks_exact",
    "C11_same_shape_exact",
    "C11_attributes",
    "C11_null_handle"
   ],
   "note": ""
  },
  {
   "property": "C12",
   "status": "proved",
   "theorems": [
    "C12_view",
    "C12_view_empty_on_error"
   ],
   "note": ""
  },
  {
   "property": "C13",
   "status": "proved",
   "theorems": [
    "C13_data_model"
   ],
   "note": ""
  },
  {
   "property": "C14",
   "status": "proved",
   "theorems": [
    "C14_is_matching_spec",
    "C14_is_matching_equivalence"
   ],
   "note": ""
  },
  {
   "property": "C15",
   "status": "proved",
   "theorems": [
    "C15_timer_reading",
    "C15_reading_nonneg",
    "C15_reads_invisible",
    "C15_idempotent",
    "C15_restart_discards_time"
   ],
   "note": ""
  },
  {
   "property": "C16",
   "status": "proved",
   "theorems": [
    "C16_tree",
    "C16_balanced_returns",
    "C16_surplus_pops",
    "C16_root_total"
   ],
   "note": ""
  },
  {
   "property": "C17",
   "status": "proved",
   "theorems": [
    "C17_rows_exactly_once",
    "C17_never_twice",
    "C17_schedule_independent",
    "C17_mutual_exclusion"
   ],
   "note": ""
  },
  {
   "property": "C18",
   "status": "proved",
   "theorems": [
    "C18_bounded",
    "C18_no_deadlock",
    "C18_total_tasks",
    "C18_completes"
   ],
   "note": ""
  },
  {
   "property": "C19",
   "status": "proved",
   "theorems": [
    "C19_single_exact",
    "C19_uv_exact",
    "C19_all_rows",
    "C19_always_defined",
    "C19_inline_same",
    "C19_api_single",
    "C19_api_uv"
   ],
   "note": ""
  },
  {
   "property": "C20",
   "status": "partial",
   "theorems": [
    "C20_rising_convention_partial",
    "C20_falling_convention_refuted"
   ],
   "note": "Refuted for falling coordinates (concrete row); proved for rising and constant ones."
  },
  {
   "property": "C21",
   "status": "proved",
   "theorems": [
    "C21_two_ranges",
    "C21_chain",
    "C21_one_subgrid",
    "C21_unresolved_step_refuted"
   ],
   "note": "Proved under the stated condition that the coordinate step is zero or resolved; C21_unresolved_step_refuted shows the condition is needed."
  },
  {
   "property": "C22",
   "status": "proved",
   "theorems": [
    "C22_exactly_one_plane"
   ],
   "note": ""
  },
  {
   "property": "C23",
   "status": "partial",
   "theorems": [
    "C23_bounds_exact",
    "C23_negative_width_refuted"
   ],
   "note": "Proved for non-negative channel width; refuted for negative width."
  },
  {
   "property": "C24",
   "status": "partial",
   "theorems": [
    "C24_degrid_in_bounds_partial",
    "C24_grid_in_bounds_partial",
    "C24_support_ignored_refuted",
    "C24_falling_coordinate_refuted"
   ],
   "note": "Refuted: the bounds check ignores the kernel support, and tests the wrong side for coordinates that fall with frequency. Partial: in bounds when every accepted visibility leaves room for the kernel."
  },
  {
   "property": "C25",
   "status": "proved",
   "theorems": [
    "C25_adjoint",
    "C25_adjoint_hermitian",
    "C25_degrid_formula",
    "C25_grid_formula",
    "C25_kernel_position"
   ],
   "note": ""
  },
  {
   "property": "C26",
   "status": "partial",
   "theorems": [
    "C26_nearest_row_partial",
    "C26_upper_plane_refuted"
   ],
   "note": "Refuted within half an oversampling step of the upper plane (row 0 is used instead of the last row). Partial: nearest row elsewhere."
  },
  {
   "property": "C27",
   "status": "proved",
   "theorems": [
    "C27_height",
    "C27_default_target",
    "C27_boundary",
    "C27_no_crossing"
   ],
   "note": ""
  },
  {
   "property": "C28",
   "status": "partial",
   "theorems": [
    "C28_completes_partial",
    "C28_divides",
    "C28_division_refuted",
    "C28_odd_refuted"
   ],
   "note": "Refuted: division by zero when every number within the field of view divides the size (C28_divides gives exactly that case), and an out-of-bounds write for an odd size with the full field of view. Partial: completes otherwise, with the exact image."
  },
  {
   "property": "C29",
   "status": "proved",
   "theorems": [
    "C29_cut_out",
    "C29_add",
    "C29_pixel_in_range",
    "C29_pixel_distinct"
   ],
   "note": ""
  },
  {
   "property": "C30",
   "status": "proved",
   "theorems": [
    "C30_adjoint",
    "C30_cut_after_add",
    "C30_cut_after_add_empty",
    "C30_outside_unchanged"
   ],
   "note": ""
  },
  {
   "property": "C31",
   "status": "proved",
   "theorems": [
    "C31_shift"
   ],
   "note": ""
  },
  {
   "property": "C32",
   "status": "proved",
   "theorems": [
    "C32_w_stack_invertible",
    "C32_w_stack_phase",
    "C32_pswf"
   ],
   "note": ""
  },
  {
   "property": "C33",
   "status": "partial",
   "theorems": [
    "C33_scale_inv",
    "C33_accum_scale",
    "C33_residual",
    "C33_residual_mismatch",
    "C33_rms",
    "C33_sum_diff",
    "C33_scale_inv_shape_unchecked_refuted",
    "C33_sum_diff_rows_unchecked_refuted"
   ],
   "note": "Formulas proved for equal shapes; refuted: input shapes of scale_inv_array and the row range of sum_diff are not checked."
  },
  {
   "property": "C34",
   "status": "proved",
   "theorems": [
    "C34_start",
    "C34_every_cycle",
    "C34_result"
   ],
   "note": ""
  },
  {
   "property": "C35",
   "status": "partial",
   "theorems": [
    "C35_partial",
    "C35_rejects",
    "C35_output_shape_refuted"
   ],
   "note": "Proved for outputs shaped like the dirty image; refuted: only dimension 0 of the outputs is checked, so a 2x1 residual is accepted and written outside."
  },
  {
   "property": "C36",
   "status": "partial",
   "theorems": [
    "C36_partial",
    "C36_psf_size_refuted"
   ],
   "note": "Refuted: PSF size/shape unchecked, out-of-bounds reads (concrete shapes). Partial: in bounds and correct cycles when the PSF is square and >= 2x the image; scaled PSFs/residuals are inputs of the model."
  },
  {
   "property": "C37",
   "status": "proved",
   "theorems": [
    "C37_one_dimension",
    "C37_batch",
    "C37_two_dimensions",
    "C37_batch_two_dimensions",
    "C37_power_of_two",
    "C37_rejects"
   ],
   "note": "Every length (radix-2 path and general path), one and two dimensions, with and without batches; rejections."
  },
  {
   "property": "C38",
   "status": "proved",
   "theorems": [
    "C38_one_dimension",
    "C38_two_dimensions"
   ],
   "note": "Both orders (forward-inverse and inverse-forward)."
  },
  {
   "property": "C39",
   "status": "proved",
   "theorems": [
    "C39_phase",
    "C39_phase_twice",
    "C39_norm",
    "C39_norm_large_refuted"
   ],
   "note": "All sizes whose number of pixels fits int; C39_norm_large_refuted shows the undefined behaviour beyond, as the statement says."
  },
  {
   "property": "C40",
   "status": "partial",
   "theorems": [
    "C40_square",
    "C40_partial",
    "C40_rows_partial",
    "C40_sign_refuted"
   ],
   "note": "Square even arrays: exact. Other even shapes: the result is (-1)^((nx+ny)/2) times the centred transform; refuted for 2 x 4."
  },
  {
   "property": "C41",
   "status": "proved",
   "theorems": [
    "C41_smallest"
   ],
   "note": "Including the binary heap, any contents of the malloc'ed memory."
  },
  {
   "property": "C42",
   "status": "proved",
   "theorems": [
    "C42_smallest",
    "C42_small"
   ],
   "note": ""
  },
  {
   "property": "C43",
   "status": "partial",
   "theorems": [
    "C43_even_partial",
    "C43_odd_refuted",
    "C43_odd_kernel_refuted"
   ],
   "note": "Even sizes: exact linear convolution, in bounds, frame. Refuted: every odd first size leaves the arrays, an odd second size gives wrong values."
  },
  {
   "property": "C44",
   "status": "partial",
   "theorems": [
    "C44_create",
    "C44_prepare_facet",
    "C44_extract_from_facet",
    "C44_add_to_facet",
    "C44_add_to_subgrid",
    "C44_extract_from_subgrid_partial",
    "C44_finish_facet",
    "C44_extract_negative_refuted",
    "C44_empty_facet_refuted"
   ],
   "note": "All six functions and creation, every size and offset. Refuted: extract_from_subgrid with facet offset below -(m/2) image/xM indexes with a negative C remainder; a facet of width 0 is read outside."
  },
  {
   "property": "C45",
   "status": "partial",
   "theorems": [
    "C45_add_2d_partial",
    "C45_extract_2d_partial",
    "C45_add_2d_negative_refuted",
    "C45_extract_2d_negative_refuted"
   ],
   "note": "Placement proved for offsets >= -(m/2) image/xM along each axis; refuted for every smaller offset (negative C remainder used as an index)."
  },
  {
   "property": "C46",
   "status": "partial",
   "theorems": [
    "C46_adjoint_partial",
    "C46_negative_refuted"
   ],
   "note": "<f, backward s> = image/xM <forward f, s> for the whole chain of six calls, for facet offsets that are non-negative or a multiple of image/xM. Refuted for all others: negative offsets that are not a multiple of image/xM are rounded down in the forward and towards zero in the backward direction (C46_negative_refuted), and very negative ones are undefined (C44_extract_negative_refuted)."
  },
  {
   "property": "C47",
   "status": "partial",
   "theorems": [
    "C47_table",
    "C47_symmetric",
    "C47_cached",
    "C47_error",
    "C47_odd_refuted",
    "C47_empty_refuted"
   ],
   "note": "Proved for every even size; refuted for odd sizes (last element never written) and for size 0 (out-of-bounds write)."
  },
  {
   "property": "C48",
   "status": "partial",
   "theorems": [
    "C48_v00_partial",
    "C48_v01_partial",
    "C48_linear",
    "C48_additive",
    "C48_frequency",
    "C48_overflow_refuted"
   ],
   "note": "Measurement equation for every visibility, linearity, additivity and frequency scaling for all contents. Partial: arrays of at most 2^31 elements (positions are int; C48_overflow_refuted gives an accepted input on which they overflow), and v01 assumes two-dimensional directions, which it does not check."
  },
  {
   "property": "C49",
   "status": "partial",
   "theorems": [
    "C49_uvw_length",
    "C49_uvw_same",
    "C49_uvw_roundtrip_partial",
    "C49_uvw_roundtrip_refuted",
    "C49_vis_rotation",
    "C49_vis_amplitude",
    "C49_vis_same",
    "C49_vis_roundtrip"
   ],
   "note": "Lengths, amplitudes, identity and the visibility round trip proved for all centres. The coordinate round trip holds when only one of ra and dec changes and is refuted in general."
  },
  {
   "property": "C50",
   "status": "proved",
   "theorems": [
    "C50_count",
    "C50_kept",
    "C50_nearest_pixel",
    "C50_bucket_sort",
    "C50_tiled_indexing",
    "C50_any_order",
    "C50_tiles_exist"
   ],
   "note": "Under the tiles_ok hypothesis (touched tiles exist), which C50_tiles_exist proves for grids of an odd number of tiles; without it C51_outside_grid_refuted applies."
  },
  {
   "property": "C51",
   "status": "partial",
   "theorems": [
    "C51_v_range",
    "C51_u_range_partial",
    "C51_u_range_refuted",
    "C51_outside_grid_refuted"
   ],
   "note": "v range exact. Refuted: the u range always starts at tile 0 and the range leaves the tile grid for an even number of tiles."
  },
  {
   "property": "C52",
   "status": "proved",
   "theorems": [
    "C52_flags",
    "C52_never_cleared",
    "C52_independent"
   ],
   "note": "For arrays of equal shape, at least two spectral samples and a history of at least two; arbitrary arithmetic; the exact set of flags is characterised."
  },
  {
   "property": "C53",
   "status": "partial",
   "theorems": [
    "C53_refuted",
    "C53_in_bounds_partial",
    "C53_settings_refuted"
   ],
   "note": "Refuted: every run with a time sample reads element 1 of a one-element history; sampling_step 0, fewer than two samples, a history of one and a small flag array are not rejected either. With that one unused read given any value, everything else is in bounds."
  },
  {
   "property": "C54",
   "status": "partial",
   "theorems": [
    "C54_uniform",
    "C54_briggs",
    "C54_documented_range",
    "C54_uniform_inverse",
    "C54_negative_refuted",
    "C54_edge_refuted",
    "C54_shapes_refuted"
   ],
   "note": "Proved for coordinates whose cells are not negative (in particular the documented range) and arrays of matching shapes and types. Refuted: cells below zero are not rejected, a coordinate equal to the maximum gets no weight, shapes and type of the input, of the frequencies and of the grid's last axis are not checked."
  },
  {
   "property": "C55",
   "status": "partial",
   "theorems": [
    "C55_in_bounds_partial",
    "C55_negative_w_refuted",
    "C55_geometry_refuted"
   ],
   "note": "In bounds when the w coordinate is not more than two steps below zero, the w kernel is not deeper than the grid and both kernels have rows (C55_in_bounds_partial). Otherwise false of the code: C55_negative_w_refuted, C55_geometry_refuted."
  },
  {
   "property": "C56",
   "status": "partial",
   "theorems": [
    "C56_entry_partial",
    "C56_out_of_table",
    "C56_large_refuted"
   ],
   "note": "Proved for images up to 39999 pixels (C56_entry_partial), with an exact characterisation for all sizes (C56_out_of_table). For larger images the search ends without a candidate and reads row 244 of a table of 244 rows (C56_large_refuted)."
  },
  {
   "property": "C57",
   "status": "partial",
   "theorems": [
    "C57_beam",
    "C57_linear",
    "C57_order",
    "C57_unit",
    "C57_api",
    "C57_shapes_refuted",
    "C57_types_refuted"
   ],
   "note": "Proved over the reals given arrays large enough (C57_beam, C57_linear, C57_order, C57_unit) and the API's accept/reject behaviour (C57_api). Refuted: shapes and types of the other arrays are not compared with the output and the precision (C57_shapes_refuted: scalar element beam with polarised output read out of bounds; C57_types_refuted: single-precision output with double-precision coordinates)."
  },
  {
   "property": "C58",
   "status": "partial",
   "theorems": [
    "C58_coefficients",
    "C58_pattern",
    "C58_api",
    "C58_sizes_refuted"
   ],
   "note": "Proved over the reals given arrays large enough (C58_pattern), and the API's accept/reject behaviour (C58_api). Refuted: the API does not compare array sizes or input types with num_points and l_max (C58_sizes_refuted). NaN propagation, rounding and the GPU branch are not modelled."
  },
  {
   "property": "C59",
   "status": "proved",
   "theorems": [
    "C59_add",
    "C59_add_always",
    "C59_min",
    "C59_max",
    "C59_terminates",
    "C59_linearizable"
   ],
   "note": "Full, for the compare-and-swap loops: sums, minima and maxima for every interleaving, termination with a bound on the number of steps, and the operations taking effect one at a time. Assumes that a read and an atomicCAS are each one atomic step, exact arithmetic for the sum, and no NaN for min and max (the order is a strict weak order, so 0 and -0 are covered)."
  },
  {
   "property": "C60",
   "status": "proved",
   "theorems": [
    "C60_filter",
    "C60_constant",
    "C60_unrecognised"
   ],
   "note": "Full. Calls racing on the static level are not modelled; nor are the time stamp and the text."
  },
  {
   "property": "C61",
   "status": "partial",
   "theorems": [
    "C61_vector_add",
    "C61_vector_add_rejects",
    "C61_status",
    "C61_overlap_refuted",
    "C61_example_partial",
    "C61_example_rejects",
    "C61_example_overrun_refuted",
    "C61_example_negative_refuted",
    "C61_example_closed"
   ],
   "note": "sdp_vector_add: full for outputs that are an input or disjoint from it; overlapping otherwise gives a different result without an error (refuted). sdp_function_example_a_exec accepts outputs longer than a*b and then writes outside its work area, for every such output (refuted); with exactly a*b elements it computes the sums. A negative a*b gives a null work area (refuted)."
  },
  {
   "property": "C62",
   "status": "proved",
   "theorems": [
    "C62_count_check"
   ],
   "note": ""
  },
  {
   "property": "C63",
   "status": "proved",
   "theorems": [
    "C63_predict",
    "C63_image",
    "C63_adjoint"
   ],
   "note": ""
  },
  {
   "property": "C64",
   "status": "partial",
   "theorems": [
    "C64_channels_outside_selection_refuted",
    "C64_rows_partial"
   ],
   "note": "Refuted: every channel of a row with a non-empty range is processed. Partial: rows with an empty range are untouched."
  },
  {
   "property": "C65",
   "status": "partial",
   "theorems": [
    "C65_nonzero",
    "C65_count",
    "C65_list",
    "C65_rank_injective",
    "C65_not_square_refuted"
   ],
   "note": "Proved for square images (and the list for any image once sized correctly); refuted for non-square images: the count uses the first dimension twice."
  },
  {
   "property": "C66",
   "status": "partial",
   "theorems": [
    "C66_complex_refuted",
    "C66_indexing_coordinates_refuted",
    "C66_single_precision_refuted",
    "C66_real_partial"
   ],
   "note": "Refuted: complex visibilities are copied as reals, sdp_tiled_indexing leaves the coordinates zero, single precision counting does nothing; the real-valued copy is proved."
  },
  {
   "property": "C67",
   "status": "partial",
   "theorems": [
    "C67_dft_v00",
    "C67_dft_v01",
    "C67_rotate_uvw",
    "C67_rotate_vis",
    "C67_uniform",
    "C67_briggs",
    "C67_flagger",
    "C67_degrid",
    "C67_harp",
    "C67_dipole",
    "C67_station",
    "C67_vector_add",
    "C67_example",
    "C67_clamp_refuted",
    "C67_worst_case_refuted"
   ],
   "note": "Proved (the failing call does not depend on any contents and returns the outputs as they were) for both DFTs, both phase rotations, both weightings, the flagger, the custom degridder, both element beams, the station beam and both examples. Refuted: sdp_gridder_clamp_channels_single runs its loop after a failed check (writes the outputs, and element 0 of a read-only array), sdp_gridder_worst_case_image clears the image first."
  },
  {
   "property": "C68",
   "status": "partial",
   "theorems": [
    "C68_finish_inplace",
    "C68_finish_is_crop",
    "C68_finish_2d",
    "C68_round_trip_partial",
    "C68_round_trip_2d_partial",
    "C68_sign_refuted",
    "C68_sign_2d_refuted",
    "C68_strides_refuted"
   ],
   "note": "Round trip exact when off + xM/2 is even (2-D: off0 + off1 even); refuted otherwise (minus the input), and for column-major arrays (wrong strides passed for the temporary array)."
  },
  {
   "property": "C69",
   "status": "partial",
   "theorems": [
    "C69_degrid_driver",
    "C69_adjoint_partial",
    "C69_adjoint_odd",
    "C69_odd_refuted"
   ],
   "note": "Proved for even w_support. Refuted for odd w_support; C69_adjoint_odd gives the exact relation (one w-step of phase)."
  },
  {
   "property": "C70",
   "status": "partial",
   "theorems": [
    "C70_power",
    "C70_create_partial",
    "C70_overflow_refuted",
    "C70_uninitialised_refuted"
   ],
   "note": "Partial: the eigenvalue search pswf_segv is not modelled (its result is an argument). Proved for 1e-10 <= c < 174 in every arithmetic; refuted for c >= 174 (stack arrays of 200 elements overrun) and c = 0 (uninitialised element read)."
  },
  {
   "property": "C71",
   "status": "partial",
   "theorems": [
    "C71_uvw_frame_partial",
    "C71_uvw_frame_refuted"
   ],
   "note": "Holds when ra is unchanged or the original centre is on the equator; refuted in general (the code rotates by the difference of declinations instead of undoing the original declination first)."
  },
  {
   "property": "C72",
   "status": "partial",
   "theorems": [
    "C72_dft",
    "C72_dft_v01",
    "C72_rotate_uvw_refuted",
    "C72_rotate_vis_refuted",
    "C72_vector_add_refuted"
   ],
   "note": "Proved for both point-source DFTs; refuted for the input of sdp_phase_rotate_uvw and the output of sdp_phase_rotate_vis, which accept strided arrays and treat them as contiguous."
  },
  {
   "property": "C73",
   "status": "partial",
   "theorems": [
    "C73_window_partial",
    "C73_refuted"
   ],
   "note": "Proved for every channel but the first; refuted for channel 0 (the code tests c - w - 1 > 0)."
  },
  {
   "property": "C74",
   "status": "proved",
   "theorems": [
    "C74_scale"
   ],
   "note": ""
  },
  {
   "property": "C75",
   "status": "partial",
   "theorems": [
    "C75_values",
    "C75_position",
    "C75_nonsquare_refuted"
   ],
   "note": "Values, positions and untouched elements are proved. The v axis is centred at x_size/2: on a grid with different x and y sizes the position of v is wrong (C75_nonsquare_refuted). Arrays assumed contiguous (not checked by the code, see C72)."
  },
  {
   "property": "C76",
   "status": "partial",
   "theorems": [
    "C76_accuracy",
    "C76_accuracy_refuted",
    "C76_support_refuted"
   ],
   "note": "Accuracy, smoothness and size proved when the request is not below 5.06e-15. Below that the last row is used silently (C76_accuracy_refuted) and the support limit of single precision is not kept (C76_support_refuted)."
  },
  {
   "property": "C77",
   "status": "partial",
   "theorems": [
    "C77_least",
    "C77_bounds",
    "C77_overflow_refuted"
   ],
   "note": "Proved for 1 <= n <= 97612893 (22 n fits int); n >= 2^30 overflows (C77_overflow_refuted)."
  },
  {
   "property": "C78",
   "status": "partial",
   "theorems": [
    "C78_polynomial",
    "C78_recursion",
    "C78_weight",
    "C78_accuracy_refuted"
   ],
   "note": "Polynomial, derivative, recursion and weight are proved. The accuracy of the nodes is refuted: the Newton loop tests the positive difference and stops after the first downward step (C78_accuracy_refuted)."
  },
  {
   "property": "C79",
   "status": "partial",
   "theorems": [
    "C79_functions",
    "C79_axis",
    "C79_axis_refuted"
   ],
   "note": "Proved for sin theta <> 0 (C79_functions). Refuted on the axis: for l = m = 1 the third output is 0 instead of the limit 1 (C79_axis_refuted)."
  },
  {
   "property": "C80",
   "status": "proved",
   "theorems": [
    "C80_dipole",
    "C80_axis",
    "C80_pattern",
    "C80_scalar",
    "C80_api"
   ],
   "note": "Over the reals; arrays large enough; GPU branch not modelled."
  },
  {
   "property": "C85",
   "status": "partial",
   "theorems": [
    "C85_apply",
    "C85_spread",
    "C85_correction",
    "C85_odd_refuted",
    "C85_overflow_refuted"
   ],
   "note": "Proved for even sizes with subset*grid^2 <= 2^31-1; _refuted theorems show odd sizes lose the last row and column and 65536-cell grids overflow. Exact real arithmetic."
  },
  {
   "property": "C86",
   "status": "partial",
   "theorems": [
    "C86_gridding",
    "C86_degridding",
    "C86_support_refuted",
    "C86_overflow_refuted"
   ],
   "note": "Atomic additions of the kernel are modelled as single steps, other read-modify-writes as two. Exact real arithmetic; refuted for support 16 at grid points and for grids >= 46341."
  },
  {
   "property": "C87",
   "status": "partial",
   "theorems": [
    "C87_gridding",
    "C87_degridding",
    "C87_adjoint",
    "C87_output_refuted",
    "C87_other_sizes_refuted"
   ],
   "note": "cuFFT is taken to be the exact DFT. Launches are ordered by the stream. Refuted: outputs accumulate; sizes are not compared with the plan."
  },
  {
   "property": "C81",
   "status": "partial",
   "theorems": [
    "C81_accepts",
    "C81_codes",
    "C81_type_code",
    "C81_create",
    "C81_oom_refuted",
    "C81_exec",
    "C81_readonly_refuted",
    "C81_type_refuted",
    "C81_rank_refuted"
   ],
   "note": "No CUDA. Failures of calloc for the plan structure and the temporary tables are not modelled. Refuted: null write on allocation failure, integer uvw, extra dimensions, read-only image in degridding."
  },
  {
   "property": "C82",
   "status": "partial",
   "theorems": [
    "C82_create",
    "C82_planes",
    "C82_needed",
    "C82_spacing",
    "C82_edge_refuted",
    "C82_width_refuted"
   ],
   "note": "Exact real arithmetic. Refuted: edge w = min, zero width."
  },
  {
   "property": "C83",
   "status": "partial",
   "theorems": [
    "C83_range",
    "C83_python",
    "C83_order_refuted"
   ],
   "note": "Exact real arithmetic. Refuted for descending frequencies."
  },
  {
   "property": "C84",
   "status": "proved",
   "theorems": [
    "C84_tables",
    "C84_correction",
    "C84_ready"
   ],
   "note": "Exact real arithmetic."
  },
  {
   "property": "C88",
   "status": "proved",
   "theorems": [
    "C88_nodes",
    "C88_integral"
   ],
   "note": "Exact real arithmetic; interval computations in rationals checked by the kernel (vm_compute)."
  },
  {
   "property": "C89",
   "status": "proved",
   "theorems": [
    "C89_table",
    "C89_correction"
   ],
   "note": "Exact real arithmetic; bounds from integer interval computations checked by the kernel."
  },
  {
   "property": "C90",
   "status": "partial",
   "theorems": [
    "C90_peak",
    "C90_safe",
    "C90_ends",
    "C90_bounds_refuted",
    "C90_lockstep_refuted",
    "C90_levels_refuted",
    "C90_tie_refuted"
   ],
   "note": "Proved for images of 16 x 16 and 256 x 256 pixels when the 16 threads of a half warp run in step (C90_peak), bounds for these sizes and all other multiples of 256 (C90_safe: with C90_bounds_refuted, exactly the sizes that stay in bounds), completion for all sizes (C90_ends). The code does not have the property otherwise: for every size n >= 1 that is neither 16 nor a multiple of 256 the search reads outside its arrays (C90_bounds_refuted), without lockstep a peak can be missed (C90_lockstep_refuted), for 512 x 512 pixels the second launch can overwrite maxima that it has not read (C90_levels_refuted), and among equal peaks the choice differs from the CPU (C90_tie_refuted)."
  },
  {
   "property": "C91",
   "status": "partial",
   "theorems": [
    "C91_cycles",
    "C91_consistent",
    "C91_ends",
    "C91_safe",
    "C91_model_refuted",
    "C91_threshold_refuted"
   ],
   "note": "Proved for 16 x 16 and 256 x 256 pixels with lockstep, where the peak search is right (C90): C91_cycles, C91_consistent, C91_safe; completion for all sizes (C91_ends). Refuted: the model image is not cleared first, so components are added to its previous contents (C91_model_refuted); a peak equal to the threshold is cleaned on the CPU only (C91_threshold_refuted). Exact rational arithmetic."
  },
  {
   "property": "C92",
   "status": "partial",
   "theorems": [
    "C92_v00_partial",
    "C92_v01_partial",
    "C92_grid_refuted"
   ],
   "note": "Proved up to 2^31 elements (C92_v00_partial, C92_v01_partial), including exactly when the call succeeds. Accepting what the CPU accepts is false: more than 131070 channels or times, or empty arrays, are refused by the launch (C92_grid_refuted). Exact arithmetic."
  },
  {
   "property": "C93",
   "status": "partial",
   "theorems": [
    "C93_uvw_partial",
    "C93_vis_partial",
    "C93_wrap_refuted"
   ],
   "note": "Proved for fewer than 2^32 baselines (C93_uvw_partial) and for visibilities whose sizes fit the launch (C93_vis_partial); the cases in which the launch is refused are part of the statements. With more than 2^32 baselines the unsigned thread index wraps and the last rows are left untouched although the call reports success (C93_wrap_refuted). Exact arithmetic."
  },
  {
   "property": "C94",
   "status": "partial",
   "theorems": [
    "C94_uniform_partial"
   ],
   "note": "Proved for sizes within int (the kernels compute positions in int) and coordinates in view, including exactly when the call succeeds; exact arithmetic."
  },
  {
   "property": "C95",
   "status": "partial",
   "theorems": [
    "C95_briggs_partial",
    "C95_zeroed_partial",
    "C95_crash_refuted",
    "C95_fresh_refuted"
   ],
   "note": "C95_briggs_partial gives the result for any content of the memory of the two sums, C95_zeroed_partial the equality with the CPU if that memory is zero. The full property is false: the memory is allocated and never cleared, so that the weights depend on what it contained (C95_fresh_refuted), and arguments that pass the checks but have no kernel or do not fit in a launch make the call read through a null pointer (C95_crash_refuted)."
  },
  {
   "property": "C96",
   "status": "partial",
   "theorems": [
    "C96_accumulate_partial",
    "C96_accumulate_real_partial",
    "C96_real_scaled_refuted",
    "C96_scale_inv_partial",
    "C96_idft_partial",
    "C96_clean",
    "C96_types",
    "C96_shapes_refuted"
   ],
   "note": "Proved for arrays of matching shapes with sides within int, exact arithmetic, including exactly when the launch is refused (an empty side, or more than 65535 blocks in the second dimension, is an error, unlike on the CPU). Not all of the property holds: with a real output a second input is ignored (C96_real_scaled_refuted), and shapes are not compared (C96_shapes_refuted)."
  },
  {
   "property": "C97",
   "status": "partial",
   "theorems": [
    "C97_cut_out_partial",
    "C97_add_partial",
    "C97_add_race_refuted",
    "C97_types",
    "C97_shift_partial"
   ],
   "note": "Proved for sides within int, exact ring arithmetic; adding for sub-grids not larger than the grid: otherwise two threads update a pixel without an atomic operation and a contribution can be lost (C97_add_race_refuted). Real grids, which the CPU accepts, are refused (C97_types). Shifting for square sub-grids."
  },
  {
   "property": "C98",
   "status": "proved",
   "theorems": [
    "C98_one_at_a_time",
    "C98_ends",
    "C98_add"
   ],
   "note": "Proved for every type of values and locations; values are bit patterns, as atomicCAS compares them. Loads and compare-and-swaps are atomic and sequentially consistent."
  },
  {
   "property": "C99",
   "status": "partial",
   "theorems": [
    "C99_bounds_partial",
    "C99_as_cpu",
    "C99_negative_width_refuted"
   ],
   "note": "for every channel separation the bounds in every schedule are those of the CPU (C99_as_cpu); with a separation that is not negative they are the least and greatest coordinates (C99_bounds_partial: exact arithmetic); with a negative one they can miss coordinates (C99_negative_width_refuted, as C23 on the CPU)"
  },
  {
   "property": "C100",
   "status": "partial",
   "theorems": [
    "C100_sum_partial",
    "C100_cpu_partial",
    "C100_safe",
    "C100_lockstep_refuted",
    "C100_overflow_refuted",
    "C100_errors_refuted",
    "C100_lengths_refuted"
   ],
   "note": "C100_sum_partial: on devices that keep the threads of a warp in step, the sum reduced to a 32-bit int; C100_cpu_partial: the CPU's result if it fits in an int; C100_safe. Refuted: without lockstep (no __syncwarp in warp_reduce) differences can be lost; sums outside int wrap; errors end in a null pointer dereference; lengths of the arrays are not compared. The atomic additions of the blocks are kept apart and summed (C98_add)."
  },
  {
   "property": "C101",
   "status": "partial",
   "theorems": [
    "C101_set_value_1d_partial",
    "C101_set_value_2d_partial",
    "C101_set_value_3d_partial",
    "C101_set_value_refused",
    "C101_scale_partial",
    "C101_scale_read_only_refuted",
    "C101_scale_large_refuted"
   ],
   "note": "Sizes within int. Refuted: scale_real changes arrays marked read-only (as on the CPU there is no check), and leaves the elements from 2^32 on unscaled without an error."
  },
  {
   "property": "C102",
   "status": "partial",
   "theorems": [
    "C102_norm_partial",
    "C102_norm_large_refuted",
    "C102_phase_partial",
    "C102_w_stack_partial",
    "C102_w_stack_zero",
    "C102_pswf_partial",
    "C102_pswf_outside",
    "C102_types"
   ],
   "note": "Exact arithmetic, sides within int. The factor of the PSWF in n is a parameter. Refuted: sdp_fft_norm multiplies the sides as int, which is undefined for 2^31 pixels or more."
  },
  {
   "property": "C103",
   "status": "partial",
   "theorems": [
    "C103_single_partial",
    "C103_uv_partial",
    "C103_refused",
    "C103_refused_uv",
    "C103_lengths_refuted"
   ],
   "note": "Exact rational arithmetic, number of rows within int; no rows is an error on the GPU. Refuted: the lengths of the arrays of channels are not checked (out-of-bounds access)."
  },
  {
   "property": "C104",
   "status": "partial",
   "theorems": [
    "C104_beam",
    "C104_cpu",
    "C104_refused",
    "C104_null_refuted",
    "C104_layout"
   ],
   "note": "Exact arithmetic. Refuted: a null pointer for an optional array, which the CPU accepts, is passed on to the launch (undefined); a call without points succeeds on the CPU and is an error on the GPU (C104_refused)."
  },
  {
   "property": "C105",
   "status": "partial",
   "theorems": [
    "C105_pattern_partial",
    "C105_scalar_partial",
    "C105_cpu_partial",
    "C105_outside_refuted",
    "C105_beyond_refuted",
    "C105_refused"
   ],
   "note": "Holds for arrays with room for the number of points rounded up to a multiple of 256 (C105_pattern_partial, C105_scalar_partial; equal to the CPU for multiples of 256, C105_cpu_partial). Refuted otherwise: the kernels never test the number of points, so that threads beyond the last point read outside the arrays (C105_outside_refuted) or overwrite values beyond (C105_beyond_refuted). Exact arithmetic."
  },
  {
   "property": "C106",
   "status": "proved",
   "theorems": [
    "C106_degrid",
    "C106_grid",
    "C106_refused"
   ],
   "note": "Relative to the CPU: whether the CPU call itself stays inside its arrays is C24 (with its refutations). Exact arithmetic; the convolution kernels are taken to be in GPU memory already."
  },
  {
   "property": "C107",
   "status": "partial",
   "theorems": [
    "C107_values",
    "C107_cpu_partial",
    "C107_rounding",
    "C107_ties_refuted"
   ],
   "note": "Values on the GPU proved for every schedule. Equality with the CPU is false at half-way positions (CPU: round, halves away from zero; GPU: __double2int_rn, halves to even): C107_ties_refuted gives such a call, C107_cpu_partial proves equality for all other positions."
  },
  {
   "property": "C108",
   "status": "partial",
   "theorems": [
    "C108_offsets_partial",
    "C108_cpu_partial",
    "C108_safe",
    "C108_race_refuted"
   ],
   "note": "Values proved for fewer than 512 tiles, every schedule; freedom from accesses outside proved for every number. From 512 tiles on the claim is false: the running total is read from shared memory after the last barrier, while the last thread may already clear it for the next turn; C108_race_refuted gives, for 512 tiles, a schedule in which the total that is reported is the count of the last tile."
  },
  {
   "property": "C109",
   "status": "partial",
   "theorems": [
    "C109_tiles",
    "C109_count",
    "C109_offsets_partial",
    "C109_tiles_exist",
    "C109_outside_grid_refuted"
   ],
   "note": "Counts proved for every schedule when the tiles that visibilities belong to exist (C109_tiles_exist: when the grid is an odd number of tiles in both directions). Otherwise false: C109_outside_grid_refuted gives a call in which a thread leaves the array. Offsets proved for fewer than 512 tiles (C108_race_refuted)."
  },
  {
   "property": "C110",
   "status": "proved",
   "theorems": [
    "C110_bucket_sort",
    "C110_tiled_indexing"
   ],
   "note": "Proved for every schedule of atomic additions and stores, under the conditions of C109 on tiles."
  },
  {
   "property": "C111",
   "status": "partial",
   "theorems": [
    "C111_cpu_refuted",
    "C111_robust_refuted",
    "C111_written",
    "C111_last_tile_refuted",
    "C111_first_tile_refuted",
    "C111_empty_tile_refuted",
    "C111_race_refuted"
   ],
   "note": "C111_written is proved for every schedule: only slots of tiles other than the last, below the number of visibilities of the tile, are written. The rest of the property is false of the code and each part is refuted: CPU arrays are always an error although documented (C111_cpu_refuted); robust (a double passed to an int kernel parameter) has no effect for every whole number up to 2^20 (C111_robust_refuted); with the offsets of the prefix sum the last tile, and with those the bucket sort leaves the first tile, is never written, nor slots not below the population of their tile (C111_last_tile_refuted, C111_first_tile_refuted); a tile beginning where the visibilities end makes every call read out of bounds (C111_empty_tile_refuted); two schedules give two different weights (C111_race_refuted). Exact rational arithmetic."
  },
  {
   "property": "C112",
   "status": "partial",
   "theorems": [
    "C112_same_partial",
    "C112_cpu",
    "C112_edge_refuted",
    "C112_unit_refuted",
    "C112_output_refuted",
    "C112_refused"
   ],
   "note": "Proved for all sizes (odd ones included) whose padded size P is at least n1 + 2 - always so for n2 >= 3 - and at most 2^15 (C112_same_partial), with equality to the CPU for even sizes (C112_cpu; for odd sizes the CPU goes out of bounds, C43). Missing: padded sizes above 2^15. False of the code and refuted: n2 of 1 or 2 with P < n1 + 2 makes every call read before an array (C112_edge_refuted), n1 = n2 = 1 is always an error (C112_unit_refuted), and the size of the output is not checked (C112_output_refuted). Exact complex arithmetic; cuFFT is taken to compute the DFT."
  },
  {
   "property": "C113",
   "status": "partial",
   "theorems": [
    "C113_degrid",
    "C113_real_partial",
    "C113_grid",
    "C113_adjoint",
    "C113_correct",
    "C113_correct_adjoint",
    "C113_zero_refuted",
    "C113_single_refuted",
    "C113_complex_refuted",
    "C113_size_refuted"
   ],
   "note": "Proved: the exact result of degridding for every supported pixel type, with the real parts of the pixels (C113_degrid), hence the direct transform for real-valued images (C113_real_partial); gridding (C113_grid); adjointness (C113_adjoint); the corrections and their adjointness (C113_correct, C113_correct_adjoint). False of the code and refuted: imaginary parts of complex sub-grid images are dropped (C113_complex_refuted), an all-zero sub-grid is an error (C113_zero_refuted), degridding with single-precision coordinates always fails although gridding supports them (C113_single_refuted), and a sub-grid larger than the plan's reads past the taper (C113_size_refuted). Selection of single channels inside the range: see C64. Exact arithmetic; arrays in CPU memory (in GPU memory: C97)."
  },
  {
   "property": "C114",
   "status": "partial",
   "theorems": [
    "C114_sum_partial",
    "C114_cpu",
    "C114_rejects",
    "C114_wrap_refuted",
    "C114_wrap_exists_refuted",
    "C114_empty_refuted"
   ],
   "note": "Proved for vectors of 1 to 2^32 elements, every schedule and every aliasing of an input with the output (C114_sum_partial), agreement with the CPU (C114_cpu) and rejection without side effects (C114_rejects). False of the code and refuted: the thread index is a 32-bit product, so no element from 2^32 on is ever written although the call succeeds (C114_wrap_refuted, C114_wrap_exists_refuted); empty vectors are an error in GPU memory and not in CPU memory (C114_empty_refuted)."
  },
  {
   "property": "C115",
   "status": "partial",
   "theorems": [
    "C115_sky",
    "C115_beam",
    "C115_shift_refuted",
    "C115_odd_refuted"
   ],
   "note": "Proved: the exact restored image for even image and beam sizes (C115_sky), the shape of the beam (C115_beam). False of the code and refuted: the beams are centred one pixel further in both directions than the components, for every even size; shown end to end for a single point source (C115_shift_refuted); images of odd size make the convolution leave its arrays (C115_odd_refuted, from C43). Exact arithmetic; the CLEAN loop itself is C34, C35. Odd beam sizes are not treated; CPU memory."
  },
  {
   "property": "C116",
   "status": "partial",
   "theorems": [
    "C116_adjoint_partial",
    "C116_degrid_order",
    "C116_grid_order",
    "C116_prediction",
    "C116_predicted_unique"
   ],
   "note": "Proved: the value of the prediction (C116_prediction; it is determined by the image, the tasks and the coordinates: C116_predicted_unique), adjointness with different orders of the tasks in the two calls (C116_adjoint_partial), and that predictions and dirty images do not depend on the order of the tasks, the scratch arrays or the earlier outputs (C116_degrid_order, C116_grid_order). Partial: for complex images, even sizes and even w-support (for odd w-support even the w-towers are not adjoint, C69_odd_refuted), exact arithmetic; tasks are single steps and are given with channel ranges that satisfy the input conditions of C69 (which tasks the code makes and that they cover everything once: C17, C18, C62)."
  },
  {
   "property": "C117",
   "status": "proved",
   "theorems": [
    "C117_no_update_lost",
    "C117_bounded",
    "C117_no_deadlock",
    "C117_grid",
    "C117_rows",
    "C117_unlocked_refuted",
    "C117_large_refuted",
    "C117_degrid"
   ],
   "note": "C117_no_update_lost (any additions in a critical section, or without common indices), C117_bounded and C117_no_deadlock, C117_grid (sub-grids, critical section), C117_rows (parallel rows), C117_degrid (visibilities, no lock; its hypothesis that tasks differ in sub-grid or rows is what C17 proves of the tasks handed out). C117_unlocked_refuted shows that the critical section is needed, C117_large_refuted that rows of a sub-grid larger than the grid are not separate (outside the statement). Sequentially consistent memory and exact arithmetic."
  },
  {
   "property": "C118",
   "status": "partial",
   "theorems": [
    "C118_sky",
    "C118_odd_partial",
    "C118_cpu",
    "C118_shift_refuted"
   ],
   "note": "Proved: the exact restored image for all image and beam sizes whose convolution has its margin (C118_sky; padded size at most 2^15), with the beams centred on the components for odd beam sizes (C118_odd_partial), and equal to the CPU result for even sizes (C118_cpu). Refuted for every even beam size: the beams are centred one pixel further in both directions (C118_shift_refuted). Exact arithmetic, arrays of the right types in GPU memory; the components and residual are those after the minor cycles (C90, C91)."
  },
  {
   "property": "C119",
   "status": "partial",
   "theorems": [
    "C119_exclusion",
    "C119_serial",
    "C119_no_deadlock",
    "C119_counter",
    "C119_no_openmp_refuted",
    "C119_relock_refuted"
   ],
   "note": "Proved for a library built with OpenMP and clients that lock outside, unlock and access inside and do not return inside: C119_exclusion, C119_serial, C119_no_deadlock; C119_counter applies it to a client of any number of threads. Refuted: without OpenMP the functions do nothing (C119_no_openmp_refuted); a thread that locks twice waits for itself (C119_relock_refuted; excluded by the statement). Sequentially consistent memory; omp_lock_t by the OpenMP specification."
  }
 ]
}