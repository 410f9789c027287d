{
 "C01": {
  "note": "Positive sizes, at least one dimension (rank 0 is reported non-contiguous by the code)."
 },
 "C04": {
  "note": "Refuted as stated: offset+size > source size is accepted and addresses memory outside the block. Partial: what is rejected."
 },
 "C05": {
  "note": "Refuted: sdp_mem_create_alias drops the read-only flag. Partial: aliases name the same elements and never free them."
 },
 "C07": {
  "status": "partial",
  "note": "Refuted: the copy keeps the source strides but allocates only num_elements*size bytes. The contiguous case is C06."
 },
 "C10": {
  "note": "Refuted for sdp_mem_check_same_shape (does not test the status on entry); proved for chains of all other checks."
 },
 "C20": {
  "note": "Refuted for falling coordinates (concrete row); proved for rising and constant ones."
 },
 "C21": {
  "status": "proved",
  "note": "Proved under the stated condition that the coordinate step is zero or resolved; C21_unresolved_step_refuted shows the condition is needed."
 },
 "C23": {
  "note": "Proved for non-negative channel width; refuted for negative width."
 },
 "C33": {
  "note": "Formulas proved for equal shapes; refuted: input shapes of scale_inv_array and the row range of sum_diff are not checked."
 },
 "C64": {
  "note": "Refuted: every channel of a row with a non-empty range is processed. Partial: rows with an empty range are untouched."
 },
 "C65": {
  "note": "Proved for square images (and the list for any image once sized correctly); refuted for non-square images: the count uses the first dimension twice."
 },
 "C35": {
  "note": "Proved for outputs shaped like the dirty image; refuted: only dimension 0 of the outputs is checked, so a 2x1 residual is accepted and written outside."
 },
 "C51": {
  "note": "v range exact. Refuted: the u range always starts at tile 0 and the range leaves the tile grid for an even number of tiles."
 },
 "C66": {
  "note": "Refuted: complex visibilities are copied as reals, sdp_tiled_indexing leaves the coordinates zero, single precision counting does nothing; the real-valued copy is proved."
 },
 "C50": {
  "note": "Under the tiles_ok hypothesis (touched tiles exist), which C50_tiles_exist proves for grids of an odd number of tiles; without it C51_outside_grid_refuted applies."
 },
 "C36": {
  "note": "Refuted: PSF size/shape unchecked, out-of-bounds reads (concrete shapes). Partial: in bounds and correct cycles when the PSF is square and >= 2x the image; scaled PSFs/residuals are inputs of the model."
 },
 "C37": {
  "note": "Every length (radix-2 path and general path), one and two dimensions, with and without batches; rejections."
 },
 "C38": {
  "note": "Both orders (forward-inverse and inverse-forward)."
 },
 "C40": {
  "note": "Square even arrays: exact. Other even shapes: the result is (-1)^((nx+ny)/2) times the centred transform; refuted for 2 x 4."
 },
 "C41": {
  "note": "Including the binary heap, any contents of the malloc'ed memory."
 },
 "C43": {
  "note": "Even sizes: exact linear convolution, in bounds, frame. Refuted: every odd first size leaves the arrays, an odd second size gives wrong values."
 },
 "C44": {
  "note": "All six functions and creation, every size and offset. Refuted: extract_from_subgrid with facet offset below -(m/2) image/xM indexes with a negative C remainder; a facet of width 0 is read outside."
 },
 "C45": {
  "note": "Placement proved for offsets >= -(m/2) image/xM along each axis; refuted for every smaller offset (negative C remainder used as an index)."
 },
 "C46": {
  "status": "partial",
  "note": "<f, backward s> = image/xM <forward f, s> for the whole chain of six calls, for facet offsets that are non-negative or a multiple of image/xM. Refuted for all others: negative offsets that are not a multiple of image/xM are rounded down in the forward and towards zero in the backward direction (C46_negative_refuted), and very negative ones are undefined (C44_extract_negative_refuted)."
 },
 "C68": {
  "note": "Round trip exact when off + xM/2 is even (2-D: off0 + off1 even); refuted otherwise (minus the input), and for column-major arrays (wrong strides passed for the temporary array)."
 },
 "C24": {
  "note": "Refuted: the bounds check ignores the kernel support, and tests the wrong side for coordinates that fall with frequency. Partial: in bounds when every accepted visibility leaves room for the kernel."
 },
 "C26": {
  "note": "Refuted within half an oversampling step of the upper plane (row 0 is used instead of the last row). Partial: nearest row elsewhere."
 },
 "C69": {
  "note": "Proved for even w_support. Refuted for odd w_support; C69_adjoint_odd gives the exact relation (one w-step of phase)."
 },
 "C28": {
  "note": "Refuted: division by zero when every number within the field of view divides the size (C28_divides gives exactly that case), and an out-of-bounds write for an odd size with the full field of view. Partial: completes otherwise, with the exact image."
 },
 "C47": {
  "note": "Proved for every even size; refuted for odd sizes (last element never written) and for size 0 (out-of-bounds write)."
 },
 "C70": {
  "note": "Partial: the eigenvalue search pswf_segv is not modelled (its result is an argument). Proved for 1e-10 <= c < 174 in every arithmetic; refuted for c >= 174 (stack arrays of 200 elements overrun) and c = 0 (uninitialised element read)."
 },
 "C48": {
  "note": "Measurement equation for every visibility, linearity, additivity and frequency scaling for all contents. Partial: arrays of at most 2^31 elements (positions are int; C48_overflow_refuted gives an accepted input on which they overflow), and v01 assumes two-dimensional directions, which it does not check."
 },
 "C49": {
  "note": "Lengths, amplitudes, identity and the visibility round trip proved for all centres. The coordinate round trip holds when only one of ra and dec changes and is refuted in general."
 },
 "C71": {
  "note": "Holds when ra is unchanged or the original centre is on the equator; refuted in general (the code rotates by the difference of declinations instead of undoing the original declination first)."
 },
 "C72": {
  "note": "Proved for both point-source DFTs; refuted for the input of sdp_phase_rotate_uvw and the output of sdp_phase_rotate_vis, which accept strided arrays and treat them as contiguous."
 },
 "C52": {
  "note": "For arrays of equal shape, at least two spectral samples and a history of at least two; arbitrary arithmetic; the exact set of flags is characterised."
 },
 "C53": {
  "note": "Refuted: every run with a time sample reads element 1 of a one-element history; sampling_step 0, fewer than two samples, a history of one and a small flag array are not rejected either. With that one unused read given any value, everything else is in bounds."
 },
 "C73": {
  "note": "Proved for every channel but the first; refuted for channel 0 (the code tests c - w - 1 > 0)."
 },
 "C54": {
  "note": "Proved for coordinates whose cells are not negative (in particular the documented range) and arrays of matching shapes and types. Refuted: cells below zero are not rejected, a coordinate equal to the maximum gets no weight, shapes and type of the input, of the frequencies and of the grid's last axis are not checked."
 },
 "C55": {
  "note": "In bounds when the w coordinate is not more than two steps below zero, the w kernel is not deeper than the grid and both kernels have rows (C55_in_bounds_partial). Otherwise false of the code: C55_negative_w_refuted, C55_geometry_refuted."
 },
 "C75": {
  "note": "Values, positions and untouched elements are proved. The v axis is centred at x_size/2: on a grid with different x and y sizes the position of v is wrong (C75_nonsquare_refuted). Arrays assumed contiguous (not checked by the code, see C72)."
 },
 "C56": {
  "note": "Proved for images up to 39999 pixels (C56_entry_partial), with an exact characterisation for all sizes (C56_out_of_table). For larger images the search ends without a candidate and reads row 244 of a table of 244 rows (C56_large_refuted)."
 },
 "C76": {
  "note": "Accuracy, smoothness and size proved when the request is not below 5.06e-15. Below that the last row is used silently (C76_accuracy_refuted) and the support limit of single precision is not kept (C76_support_refuted)."
 },
 "C77": {
  "note": "Proved for 1 <= n <= 97612893 (22 n fits int); n >= 2^30 overflows (C77_overflow_refuted)."
 },
 "C78": {
  "note": "Polynomial, derivative, recursion and weight are proved. The accuracy of the nodes is refuted: the Newton loop tests the positive difference and stops after the first downward step (C78_accuracy_refuted)."
 },
 "C58": {
  "note": "Proved over the reals given arrays large enough (C58_pattern), and the API's accept/reject behaviour (C58_api). Refuted: the API does not compare array sizes or input types with num_points and l_max (C58_sizes_refuted). NaN propagation, rounding and the GPU branch are not modelled."
 },
 "C79": {
  "note": "Proved for sin theta <> 0 (C79_functions). Refuted on the axis: for l = m = 1 the third output is 0 instead of the limit 1 (C79_axis_refuted)."
 },
 "C57": {
  "note": "Proved over the reals given arrays large enough (C57_beam, C57_linear, C57_order, C57_unit) and the API's accept/reject behaviour (C57_api). Refuted: shapes and types of the other arrays are not compared with the output and the precision (C57_shapes_refuted: scalar element beam with polarised output read out of bounds; C57_types_refuted: single-precision output with double-precision coordinates)."
 },
 "C80": {
  "note": "Over the reals; arrays large enough; GPU branch not modelled."
 },
 "C59": {
  "note": "Full, for the compare-and-swap loops: sums, minima and maxima for every interleaving, termination with a bound on the number of steps, and the operations taking effect one at a time. Assumes that a read and an atomicCAS are each one atomic step, exact arithmetic for the sum, and no NaN for min and max (the order is a strict weak order, so 0 and -0 are covered)."
 },
 "C60": {
  "note": "Full. Calls racing on the static level are not modelled; nor are the time stamp and the text."
 },
 "C61": {
  "note": "sdp_vector_add: full for outputs that are an input or disjoint from it; overlapping otherwise gives a different result without an error (refuted). sdp_function_example_a_exec accepts outputs longer than a*b and then writes outside its work area, for every such output (refuted); with exactly a*b elements it computes the sums. A negative a*b gives a null work area (refuted)."
 },
 "C67": {
  "note": "Proved (the failing call does not depend on any contents and returns the outputs as they were) for both DFTs, both phase rotations, both weightings, the flagger, the custom degridder, both element beams, the station beam and both examples. Refuted: sdp_gridder_clamp_channels_single runs its loop after a failed check (writes the outputs, and element 0 of a read-only array), sdp_gridder_worst_case_image clears the image first."
 },
 "C85": {
  "note": "Proved for even sizes with subset*grid^2 <= 2^31-1; _refuted theorems show odd sizes lose the last row and column and 65536-cell grids overflow. Exact real arithmetic."
 },
 "C86": {
  "note": "Atomic additions of the kernel are modelled as single steps, other read-modify-writes as two. Exact real arithmetic; refuted for support 16 at grid points and for grids >= 46341."
 },
 "C87": {
  "note": "cuFFT is taken to be the exact DFT. Launches are ordered by the stream. Refuted: outputs accumulate; sizes are not compared with the plan."
 },
 "C81": {
  "note": "No CUDA. Failures of calloc for the plan structure and the temporary tables are not modelled. Refuted: null write on allocation failure, integer uvw, extra dimensions, read-only image in degridding."
 },
 "C82": {
  "note": "Exact real arithmetic. Refuted: edge w = min, zero width."
 },
 "C83": {
  "note": "Exact real arithmetic. Refuted for descending frequencies."
 },
 "C84": {
  "note": "Exact real arithmetic."
 },
 "C88": {
  "note": "Exact real arithmetic; interval computations in rationals checked by the kernel (vm_compute)."
 },
 "C89": {
  "note": "Exact real arithmetic; bounds from integer interval computations checked by the kernel."
 },
 "C90": {
  "note": "Proved for images of 16 x 16 and 256 x 256 pixels when the 16 threads of a half warp run in step (C90_peak), bounds for these sizes and all other multiples of 256 (C90_safe: with C90_bounds_refuted, exactly the sizes that stay in bounds), completion for all sizes (C90_ends). The code does not have the property otherwise: for every size n >= 1 that is neither 16 nor a multiple of 256 the search reads outside its arrays (C90_bounds_refuted), without lockstep a peak can be missed (C90_lockstep_refuted), for 512 x 512 pixels the second launch can overwrite maxima that it has not read (C90_levels_refuted), and among equal peaks the choice differs from the CPU (C90_tie_refuted)."
 },
 "C91": {
  "note": "Proved for 16 x 16 and 256 x 256 pixels with lockstep, where the peak search is right (C90): C91_cycles, C91_consistent, C91_safe; completion for all sizes (C91_ends). Refuted: the model image is not cleared first, so components are added to its previous contents (C91_model_refuted); a peak equal to the threshold is cleaned on the CPU only (C91_threshold_refuted). Exact rational arithmetic."
 },
 "C92": {
  "note": "Proved up to 2^31 elements (C92_v00_partial, C92_v01_partial), including exactly when the call succeeds. Accepting what the CPU accepts is false: more than 131070 channels or times, or empty arrays, are refused by the launch (C92_grid_refuted). Exact arithmetic."
 },
 "C93": {
  "note": "Proved for fewer than 2^32 baselines (C93_uvw_partial) and for visibilities whose sizes fit the launch (C93_vis_partial); the cases in which the launch is refused are part of the statements. With more than 2^32 baselines the unsigned thread index wraps and the last rows are left untouched although the call reports success (C93_wrap_refuted). Exact arithmetic."
 },
 "C94": {
  "note": "Proved for sizes within int (the kernels compute positions in int) and coordinates in view, including exactly when the call succeeds; exact arithmetic."
 },
 "C95": {
  "note": "C95_briggs_partial gives the result for any content of the memory of the two sums, C95_zeroed_partial the equality with the CPU if that memory is zero. The full property is false: the memory is allocated and never cleared, so that the weights depend on what it contained (C95_fresh_refuted), and arguments that pass the checks but have no kernel or do not fit in a launch make the call read through a null pointer (C95_crash_refuted)."
 },
 "C96": {
  "note": "Proved for arrays of matching shapes with sides within int, exact arithmetic, including exactly when the launch is refused (an empty side, or more than 65535 blocks in the second dimension, is an error, unlike on the CPU). Not all of the property holds: with a real output a second input is ignored (C96_real_scaled_refuted), and shapes are not compared (C96_shapes_refuted)."
 },
 "C97": {
  "note": "Proved for sides within int, exact ring arithmetic; adding for sub-grids not larger than the grid: otherwise two threads update a pixel without an atomic operation and a contribution can be lost (C97_add_race_refuted). Real grids, which the CPU accepts, are refused (C97_types). Shifting for square sub-grids."
 },
 "C98": {
  "note": "Proved for every type of values and locations; values are bit patterns, as atomicCAS compares them. Loads and compare-and-swaps are atomic and sequentially consistent."
 },
 "C99": {
  "note": "for every channel separation the bounds in every schedule are those of the CPU (C99_as_cpu); with a separation that is not negative they are the least and greatest coordinates (C99_bounds_partial: exact arithmetic); with a negative one they can miss coordinates (C99_negative_width_refuted, as C23 on the CPU)"
 },
 "C100": {
  "note": "C100_sum_partial: on devices that keep the threads of a warp in step, the sum reduced to a 32-bit int; C100_cpu_partial: the CPU's result if it fits in an int; C100_safe. Refuted: without lockstep (no __syncwarp in warp_reduce) differences can be lost; sums outside int wrap; errors end in a null pointer dereference; lengths of the arrays are not compared. The atomic additions of the blocks are kept apart and summed (C98_add)."
 },
 "C101": {
  "note": "Sizes within int. Refuted: scale_real changes arrays marked read-only (as on the CPU there is no check), and leaves the elements from 2^32 on unscaled without an error."
 },
 "C102": {
  "note": "Exact arithmetic, sides within int. The factor of the PSWF in n is a parameter. Refuted: sdp_fft_norm multiplies the sides as int, which is undefined for 2^31 pixels or more."
 },
 "C103": {
  "note": "Exact rational arithmetic, number of rows within int; no rows is an error on the GPU. Refuted: the lengths of the arrays of channels are not checked (out-of-bounds access)."
 },
 "C104": {
  "note": "Exact arithmetic. Refuted: a null pointer for an optional array, which the CPU accepts, is passed on to the launch (undefined); a call without points succeeds on the CPU and is an error on the GPU (C104_refused)."
 },
 "C105": {
  "note": "Holds for arrays with room for the number of points rounded up to a multiple of 256 (C105_pattern_partial, C105_scalar_partial; equal to the CPU for multiples of 256, C105_cpu_partial). Refuted otherwise: the kernels never test the number of points, so that threads beyond the last point read outside the arrays (C105_outside_refuted) or overwrite values beyond (C105_beyond_refuted). Exact arithmetic."
 },
 "C106": {
  "note": "Relative to the CPU: whether the CPU call itself stays inside its arrays is C24 (with its refutations). Exact arithmetic; the convolution kernels are taken to be in GPU memory already."
 },
 "C107": {
  "note": "Values on the GPU proved for every schedule. Equality with the CPU is false at half-way positions (CPU: round, halves away from zero; GPU: __double2int_rn, halves to even): C107_ties_refuted gives such a call, C107_cpu_partial proves equality for all other positions."
 },
 "C108": {
  "note": "Values proved for fewer than 512 tiles, every schedule; freedom from accesses outside proved for every number. From 512 tiles on the claim is false: the running total is read from shared memory after the last barrier, while the last thread may already clear it for the next turn; C108_race_refuted gives, for 512 tiles, a schedule in which the total that is reported is the count of the last tile."
 },
 "C109": {
  "note": "Counts proved for every schedule when the tiles that visibilities belong to exist (C109_tiles_exist: when the grid is an odd number of tiles in both directions). Otherwise false: C109_outside_grid_refuted gives a call in which a thread leaves the array. Offsets proved for fewer than 512 tiles (C108_race_refuted)."
 },
 "C110": {
  "note": "Proved for every schedule of atomic additions and stores, under the conditions of C109 on tiles."
 },
 "C111": {
  "note": "C111_written is proved for every schedule: only slots of tiles other than the last, below the number of visibilities of the tile, are written. The rest of the property is false of the code and each part is refuted: CPU arrays are always an error although documented (C111_cpu_refuted); robust (a double passed to an int kernel parameter) has no effect for every whole number up to 2^20 (C111_robust_refuted); with the offsets of the prefix sum the last tile, and with those the bucket sort leaves the first tile, is never written, nor slots not below the population of their tile (C111_last_tile_refuted, C111_first_tile_refuted); a tile beginning where the visibilities end makes every call read out of bounds (C111_empty_tile_refuted); two schedules give two different weights (C111_race_refuted). Exact rational arithmetic."
 },
 "C112": {
  "note": "Proved for all sizes (odd ones included) whose padded size P is at least n1 + 2 - always so for n2 >= 3 - and at most 2^15 (C112_same_partial), with equality to the CPU for even sizes (C112_cpu; for odd sizes the CPU goes out of bounds, C43). Missing: padded sizes above 2^15. False of the code and refuted: n2 of 1 or 2 with P < n1 + 2 makes every call read before an array (C112_edge_refuted), n1 = n2 = 1 is always an error (C112_unit_refuted), and the size of the output is not checked (C112_output_refuted). Exact complex arithmetic; cuFFT is taken to compute the DFT."
 },
 "C113": {
  "note": "Proved: the exact result of degridding for every supported pixel type, with the real parts of the pixels (C113_degrid), hence the direct transform for real-valued images (C113_real_partial); gridding (C113_grid); adjointness (C113_adjoint); the corrections and their adjointness (C113_correct, C113_correct_adjoint). False of the code and refuted: imaginary parts of complex sub-grid images are dropped (C113_complex_refuted), an all-zero sub-grid is an error (C113_zero_refuted), degridding with single-precision coordinates always fails although gridding supports them (C113_single_refuted), and a sub-grid larger than the plan's reads past the taper (C113_size_refuted). Selection of single channels inside the range: see C64. Exact arithmetic; arrays in CPU memory (in GPU memory: C97)."
 },
 "C114": {
  "note": "Proved for vectors of 1 to 2^32 elements, every schedule and every aliasing of an input with the output (C114_sum_partial), agreement with the CPU (C114_cpu) and rejection without side effects (C114_rejects). False of the code and refuted: the thread index is a 32-bit product, so no element from 2^32 on is ever written although the call succeeds (C114_wrap_refuted, C114_wrap_exists_refuted); empty vectors are an error in GPU memory and not in CPU memory (C114_empty_refuted)."
 },
 "C115": {
  "note": "Proved: the exact restored image for even image and beam sizes (C115_sky), the shape of the beam (C115_beam). False of the code and refuted: the beams are centred one pixel further in both directions than the components, for every even size; shown end to end for a single point source (C115_shift_refuted); images of odd size make the convolution leave its arrays (C115_odd_refuted, from C43). Exact arithmetic; the CLEAN loop itself is C34, C35. Odd beam sizes are not treated; CPU memory."
 },
 "C116": {
  "note": "Proved: the value of the prediction (C116_prediction; it is determined by the image, the tasks and the coordinates: C116_predicted_unique), adjointness with different orders of the tasks in the two calls (C116_adjoint_partial), and that predictions and dirty images do not depend on the order of the tasks, the scratch arrays or the earlier outputs (C116_degrid_order, C116_grid_order). Partial: for complex images, even sizes and even w-support (for odd w-support even the w-towers are not adjoint, C69_odd_refuted), exact arithmetic; tasks are single steps and are given with channel ranges that satisfy the input conditions of C69 (which tasks the code makes and that they cover everything once: C17, C18, C62)."
 },
 "C117": {
  "status": "proved",
  "note": "C117_no_update_lost (any additions in a critical section, or without common indices), C117_bounded and C117_no_deadlock, C117_grid (sub-grids, critical section), C117_rows (parallel rows), C117_degrid (visibilities, no lock; its hypothesis that tasks differ in sub-grid or rows is what C17 proves of the tasks handed out). C117_unlocked_refuted shows that the critical section is needed, C117_large_refuted that rows of a sub-grid larger than the grid are not separate (outside the statement). Sequentially consistent memory and exact arithmetic."
 },
 "C118": {
  "status": "partial",
  "note": "Proved: the exact restored image for all image and beam sizes whose convolution has its margin (C118_sky; padded size at most 2^15), with the beams centred on the components for odd beam sizes (C118_odd_partial), and equal to the CPU result for even sizes (C118_cpu). Refuted for every even beam size: the beams are centred one pixel further in both directions (C118_shift_refuted). Exact arithmetic, arrays of the right types in GPU memory; the components and residual are those after the minor cycles (C90, C91)."
 },
 "C39": {
  "status": "proved",
  "note": "All sizes whose number of pixels fits int; C39_norm_large_refuted shows the undefined behaviour beyond, as the statement says."
 },
 "C119": {
  "status": "partial",
  "note": "Proved for a library built with OpenMP and clients that lock outside, unlock and access inside and do not return inside: C119_exclusion, C119_serial, C119_no_deadlock; C119_counter applies it to a client of any number of threads. Refuted: without OpenMP the functions do nothing (C119_no_openmp_refuted); a thread that locks twice waits for itself (C119_relock_refuted; excluded by the statement). Sequentially consistent memory; omp_lock_t by the OpenMP specification."
 }
}