{"id": "C01", "title": "Created arrays have distinct, in-bounds elements", "statement": "After a successful sdp_mem_create with dimension sizes s[0..n-1], the array has product(s) elements, is reported C-contiguous, owned and writeable, its last stride equals the element size, and every in-range multi-index addresses its own element: two different multi-indices never overlap, and every element lies wholly inside the allocated block.", "quantifier": "every data type, number of dimensions and list of positive dimension sizes, and every pair of in-range multi-indices", "why_tests_cant": "there are unboundedly many shapes and index pairs; a test only samples a few shapes", "anchors": ["src/ska-sdp-func/utility/sdp_mem.cpp: sdp_mem_create, sdp_mem_create_wrapper, sdp_mem_alloc, sdp_mem_type_size", "src/ska-sdp-func/utility/sdp_mem_view.h: sdp_MemView::operator()"]}
{"id": "C02", "title": "Reference counting releases owned data exactly once", "statement": "For any history of sdp_mem_ref_inc and sdp_mem_free calls on one handle that makes no call after the count has reached zero, the data block is released exactly once if the handle owns it and never if it is a wrapper, and the release happens on the free call that balances the creation and all increments, not before.", "quantifier": "every finite history of reference increments and frees", "why_tests_cant": "histories are unbounded; double free and leak depend on the exact number and order of calls", "anchors": ["src/ska-sdp-func/utility/sdp_mem.cpp: sdp_mem_ref_inc, sdp_mem_free"]}
{"id": "C03", "title": "A slice addresses the elements it names", "statement": "When sdp_mem_create_wrapper_for_slice succeeds and the requested block lies inside the source, element (i0,..,ik) of the slice is exactly element (offset + i) of the source (leading dimensions fixed at their offsets), so reads and writes through the slice are reads and writes of those source elements.", "quantifier": "every source array (any strides), offset vector, slice shape and slice index", "why_tests_cant": "quantifies over all shapes, strides, offsets and dimensions dropped", "anchors": ["src/ska-sdp-func/utility/sdp_mem.cpp: sdp_mem_create_wrapper_for_slice"]}
{"id": "C04", "title": "A slice request that does not fit the source is rejected", "statement": "sdp_mem_create_wrapper_for_slice reports an error whenever offset plus slice size exceeds the source size in some dimension, so that a slice obtained without error never addresses memory outside its source.", "quantifier": "every source array, offset vector and slice shape", "why_tests_cant": "a missing bound check shows only for particular offset/shape combinations, and out-of-bounds reads often go unnoticed in tests", "anchors": ["src/ska-sdp-func/utility/sdp_mem.cpp: sdp_mem_create_wrapper_for_slice"]}
{"id": "C05", "title": "Read-only data stays read-only through aliases", "statement": "An alias created with sdp_mem_create_alias from a read-only array is itself read-only, so functions that check for writeability refuse it.", "quantifier": "every source array and every sequence of alias / set_read_only calls", "why_tests_cant": "must hold for every derived handle; protection lost on one path silently allows writes", "anchors": ["src/ska-sdp-func/utility/sdp_mem.cpp: sdp_mem_create_alias, sdp_mem_set_read_only, sdp_mem_is_read_only"]}
{"id": "C06", "title": "A copy of a contiguous array is equal and independent", "statement": "sdp_mem_create_copy of a C-contiguous array yields an owned array with the same type, shape and element values, stored in a new block, so later writes to either do not alter the other.", "quantifier": "every C-contiguous source of any type and shape and every later write to either array", "why_tests_cant": "all shapes, contents and subsequent writes", "anchors": ["src/ska-sdp-func/utility/sdp_mem.cpp: sdp_mem_create_copy, sdp_mem_copy_contents"]}
{"id": "C07", "title": "A copy of any array can be indexed safely", "statement": "Every in-range element of an array obtained by sdp_mem_create_copy lies inside the block allocated for it, also when the source is a strided wrapper.", "quantifier": "every source array including non-contiguous wrappers, and every in-range index", "why_tests_cant": "depends on strides that ordinary tests (contiguous arrays) never exercise", "anchors": ["src/ska-sdp-func/utility/sdp_mem.cpp: sdp_mem_create_copy"]}
{"id": "C08", "title": "sdp_mem_copy_contents copies exactly the named range", "statement": "When source and destination ranges lie inside their arrays, sdp_mem_copy_contents makes elements [offset_dst, offset_dst+n) of the destination equal to elements [offset_src, offset_src+n) of the source and changes nothing else; sdp_mem_clear_portion zeroes exactly elements [start, start+n); a prior error status makes both a no-op.", "quantifier": "every type, offset, count, content and entry status", "why_tests_cant": "frame conditions (what must not change) hold for all other elements, which tests do not enumerate", "anchors": ["src/ska-sdp-func/utility/sdp_mem.cpp: sdp_mem_copy_contents, sdp_mem_clear_portion, sdp_mem_clear_contents"]}
{"id": "C09", "title": "sdp_mem_set_value reaches every element and only those", "statement": "For a CPU array of 1 to 3 dimensions with a supported type, sdp_mem_set_value sets every addressed element to the given value (imaginary part zero for complex types) and leaves all bytes that are not part of an element untouched; an unsupported type or number of dimensions yields an error and no write.", "quantifier": "every shape, stride and value", "why_tests_cant": "quantifies over all layouts including padded strides", "anchors": ["src/ska-sdp-func/utility/sdp_mem.cpp: sdp_mem_set_value"]}
{"id": "C10", "title": "An error status is never cleared or replaced by the argument checks", "statement": "Each of the sdp_mem_check_* functions and each data-model check, when called with a status that already reports an error, leaves that status unchanged, so a chain of checks reports the first error.", "quantifier": "every check, every argument combination and every non-success entry status, in any order", "why_tests_cant": "all chains of checks and all initial error codes", "anchors": ["src/ska-sdp-func/utility/sdp_mem.cpp: sdp_mem_check_*_at", "src/ska-sdp-func/utility/sdp_data_model_checks.c"]}
{"id": "C11", "title": "Argument checks accept exactly the arrays they describe", "statement": "From a success status, sdp_mem_check_writeable / c_contiguity / location / num_dims / dim_size / shape / shape_dim / same_shape / type leaves success if and only if the array has the named attribute, and otherwise sets the error code documented for it.", "quantifier": "every array and every expected value", "why_tests_cant": "soundness and completeness over all arrays", "anchors": ["src/ska-sdp-func/utility/sdp_mem.cpp: sdp_mem_check_*_at"]}
{"id": "C12", "title": "A checked view is usable or empty", "statement": "sdp_mem_check_and_view succeeds exactly when element type, number of dimensions, location and (for mutable views) writeability match; on success the view addresses the same element as the array for every in-range index, and on failure the view has all dimension sizes zero so that loops over it do nothing.", "quantifier": "every array, requested type, rank and location, and entry status", "why_tests_cant": "the 'empty on error' guarantee must hold on every failing path", "anchors": ["src/ska-sdp-func/utility/sdp_mem_view.h: sdp_mem_check_and_view_at, sdp_MemView, sdp_MemViewCpu"]}
{"id": "C13", "title": "Data-model checks establish consistent metadata", "statement": "If sdp_data_model_check_visibility, check_uvw and check_weights all succeed with the same expected sizes, then visibilities, coordinates and weights have the stated types, locations and shapes, the polarisation count is as expected, and a metadata query reports exactly those sizes.", "quantifier": "every triple of arrays and expected sizes", "why_tests_cant": "all combinations of ranks, types and shapes", "anchors": ["src/ska-sdp-func/utility/sdp_data_model_checks.c"]}
{"id": "C14", "title": "sdp_mem_is_matching is an equivalence", "statement": "sdp_mem_is_matching (with location checked) is reflexive, symmetric and transitive, and holds exactly when type, location, rank, every dimension size and every stride agree.", "quantifier": "every pair and triple of arrays", "why_tests_cant": "algebraic law over all arrays", "anchors": ["src/ska-sdp-func/utility/sdp_mem.cpp: sdp_mem_is_matching"]}
{"id": "C15", "title": "Timers report the time they were running", "statement": "After any sequence of start / pause / resume / elapsed / reset calls at non-decreasing clock readings, sdp_timer_elapsed returns the total length of the periods during which the timer was running since the last reset or start; reading it never changes later readings, and pausing a paused or resuming a running timer has no effect.", "quantifier": "every finite sequence of timer calls and every non-decreasing clock", "why_tests_cant": "histories and clock values are unbounded and not reproducible in a test", "anchors": ["src/ska-sdp-func/utility/sdp_timer.cpp: sdp_timer_create, sdp_timer_elapsed, sdp_timer_pause, sdp_timer_resume, sdp_timer_reset, sdp_timer_start, sdp_timer_restart"]}
{"id": "C16", "title": "Nested timers follow the call tree", "statement": "With sdp_timers_push / pop used in a balanced way, every pop returns to the node that was current at the matching push, surplus pops leave the current node at the root, and pushing the same name twice from the same node accumulates into one node.", "quantifier": "every sequence of push and pop with arbitrary names", "why_tests_cant": "all call trees", "anchors": ["src/ska-sdp-func/utility/sdp_timer.cpp: sdp_timers_push, sdp_timers_pop"]}
{"id": "C17", "title": "Every row of every subgrid is processed exactly once under every schedule", "statement": "In the parallel w-stacking (de)gridder, for any number of threads and any interleaving, the row ranges handed out for a subgrid are disjoint and together cover all its rows exactly once; subgrids without visibilities are never handed out.", "quantifier": "every number of threads, every interleaving of task requests, every list of subgrid visibility counts, row count and chunk size", "why_tests_cant": "interleavings cannot be enumerated by tests", "anchors": ["src/ska-sdp-func/grid_data/sdp_grid_wstack_wtower.cpp: sdp_SubgridTask, pick_task, sdp_grid_wstack_wtower_degrid_all, sdp_grid_wstack_wtower_grid_all"]}
{"id": "C18", "title": "The task pool drains and all workers stop", "statement": "Every worker that keeps asking for work eventually receives 'no more tasks'; the total number of tasks handed out equals the sum of the chunk counts computed at start-up, whatever the schedule.", "quantifier": "every schedule, number of threads and subgrid set", "why_tests_cant": "liveness over all interleavings", "anchors": ["src/ska-sdp-func/grid_data/sdp_grid_wstack_wtower.cpp: pick_task"]}
{"id": "C19", "title": "Channel clamping keeps exactly the channels inside the range", "statement": "sdp_gridder_clamp_channels_single returns a channel interval inside the one given such that a channel c of the given interval is kept if and only if its scaled coordinate uvw*(f0+c*df)/c_light lies in the requested range, with the boundary conventions: lower bound inclusive and upper exclusive for increasing coordinate, upper inclusive and lower exclusive for decreasing coordinate.", "quantifier": "every coordinate, frequency set-up, input interval and range (exact arithmetic)", "why_tests_cant": "the ceil-based solution must be right for every real coordinate and every integer channel", "anchors": ["src/ska-sdp-func/grid_data/sdp_gridder_clamp_channels.h", "src/ska-sdp-func/grid_data/sdp_gridder_clamp_channels.cpp"]}
{"id": "C20", "title": "The documented boundary convention of channel clamping", "statement": "The documentation says the minimum is inclusive and the maximum exclusive: a channel exactly at the minimum is kept and one exactly at the maximum is dropped.", "quantifier": "every coordinate (of either sign), frequency set-up and range", "why_tests_cant": "fails only for exact boundary hits with decreasing coordinates", "anchors": ["src/ska-sdp-func/grid_data/sdp_gridder_clamp_channels.h"]}
{"id": "C21", "title": "Adjacent ranges split the channels without loss or overlap", "statement": "For ranges [a,b) and [b,c) (as used for neighbouring w-planes, w-layers and subgrids), the channel intervals selected for a row of uvw data are disjoint and their union is the selection for [a,c), so no visibility is gridded twice or dropped.", "quantifier": "every row, frequency set-up, interval and every chain of adjacent ranges (exact arithmetic, coordinate step not negligible)", "why_tests_cant": "partition over all boundaries and coordinates", "anchors": ["src/ska-sdp-func/grid_data/sdp_gridder_clamp_channels.h", "src/ska-sdp-func/grid_data/sdp_gridder_wtower_uvw.cpp"]}
{"id": "C22", "title": "Every visibility is covered by the range of w-planes visited", "statement": "The w-planes visited by w-towers (de)gridding, from the first to the last plane computed from the coordinate bounds, include the plane of every visibility whose scaled coordinate lies within these bounds.", "quantifier": "every w step, w offset and w bounds and every w within them", "why_tests_cant": "covers all real w values including exact multiples of the step", "anchors": ["src/ska-sdp-func/grid_data/sdp_gridder_wtower_uvw.cpp: sdp_gridder_wtower_uvw_degrid, sdp_gridder_wtower_uvw_grid"]}
{"id": "C23", "title": "Coordinate bounds contain every coordinate", "statement": "sdp_gridder_uvw_bounds_all returns bounds that contain uvw*(f)/c_light of every row at the first and last of its channels, and hence at every channel in between, are attained (tight) when some row is non-empty, and skip rows with an empty channel interval.", "quantifier": "every uvw table, channel intervals and frequency set-up", "why_tests_cant": "bounding property over all rows and channels", "anchors": ["src/ska-sdp-func/grid_data/sdp_gridder_utils.cpp: sdp_gridder_uvw_bounds_all"]}
{"id": "C24", "title": "W-towers kernels only access subgrid and kernel tables inside their bounds", "statement": "For a visibility that passes the bounds check of the w-towers (de)gridding kernels, every subgrid pixel and every kernel table entry accessed is inside its array.", "quantifier": "every uvw coordinate, frequency set-up, support, oversampling and subgrid size", "why_tests_cant": "out-of-bounds accesses depend on coordinate signs and rounding that sample data does not hit", "anchors": ["src/ska-sdp-func/grid_data/sdp_gridder_wtower_uvw.cpp"]}
{"id": "C25", "title": "W-towers degridding is the adjoint of gridding", "statement": "With the same plan, coordinates and channel ranges, the inner product of gridded visibilities with any set of subgrids equals the inner product of the visibilities with the degridded subgrids: gridding spreads each visibility with the same kernel weights with which degridding interpolates it.", "quantifier": "every visibility set, subgrid content and coordinate set (exact arithmetic)", "why_tests_cant": "identity over all contents; tests compare a few data sets to tolerance", "anchors": ["src/ska-sdp-func/grid_data/sdp_gridder_wtower_uvw.cpp"]}
{"id": "C26", "title": "The w-kernel row matches the position between planes", "statement": "The row of the w-kernel table used for a visibility at fraction x in [0,1) of a w-step is the tabulated row nearest to x.", "quantifier": "every fraction x and oversampling factor", "why_tests_cant": "fails only close to the upper plane", "anchors": ["src/ska-sdp-func/grid_data/sdp_gridder_wtower_uvw.cpp"]}
{"id": "C27", "title": "The w-tower height search returns the boundary", "statement": "If the error as a function of the half-height is monotone and crosses the target, sdp_gridder_determine_max_w_tower_height terminates and returns twice the largest half-height whose error is below the target.", "quantifier": "every monotone error function and target", "why_tests_cant": "termination and optimality for all error functions", "anchors": ["src/ska-sdp-func/grid_data/sdp_gridder_wtower_height.cpp: sdp_gridder_determine_max_w_tower_height"]}
{"id": "C28", "title": "Worst-case image generation never divides by zero", "statement": "sdp_gridder_worst_case_image (as used by the tower height search) completes for every image size and field of view up to the image size.", "quantifier": "every image size and field of view", "why_tests_cant": "fails only for special divisibility patterns", "anchors": ["src/ska-sdp-func/grid_data/sdp_gridder_wtower_height.cpp: sdp_gridder_worst_case_image"]}
{"id": "C29", "title": "Cutting out and adding subgrids stay in bounds and wrap periodically", "statement": "sdp_gridder_subgrid_cut_out reads and sdp_gridder_subgrid_add writes only in-range grid pixels for any (also negative or very large) offset, subgrid pixel (i,j) corresponding to the grid pixel congruent to i + G/2 - S/2 -/+ offset modulo the grid size.", "quantifier": "every grid size of at least one pixel, every subgrid size and integer offset", "why_tests_cant": "all offsets including far outside the grid", "anchors": ["src/ska-sdp-func/grid_data/sdp_gridder_utils.cpp: sdp_gridder_subgrid_add, sdp_gridder_subgrid_cut_out"]}
{"id": "C30", "title": "Subgrid add is the adjoint of subgrid cut-out", "statement": "For any grid, subgrid and offset, <cut_out(grid, offset), sub> = <grid, add(0, -offset, sub)>; when the subgrid is no larger than the grid, cutting out with offset -o the subgrid added to an empty grid with offset o returns factor times the subgrid, and pixels outside the subgrid window are unchanged.", "quantifier": "every grid, subgrid, factor and offset (exact arithmetic)", "why_tests_cant": "linear-algebra identity over all contents", "anchors": ["src/ska-sdp-func/grid_data/sdp_gridder_utils.cpp: sdp_gridder_subgrid_add, sdp_gridder_subgrid_cut_out"]}
{"id": "C31", "title": "Shifting the subgrid stack moves each plane one place", "statement": "sdp_gridder_shift_subgrids replaces plane i by the previous plane i+1 for every plane but the last, which is kept, for square subgrids.", "quantifier": "every stack size, plane size and content", "why_tests_cant": "frame condition over all contents", "anchors": ["src/ska-sdp-func/grid_data/sdp_gridder_utils.cpp: sdp_gridder_shift_subgrids"]}
{"id": "C32", "title": "Grid and w-stacking corrections are invertible", "statement": "Applying sdp_gridder_grid_correct_w_stack and then its inverse with the same parameters restores the facet exactly (in exact arithmetic), and only the facet's own pixels are touched; the correction reads the PSWF table in bounds when the facet lies inside the image.", "quantifier": "every facet, offset, w step, w offset and shear", "why_tests_cant": "identity over all parameters", "anchors": ["src/ska-sdp-func/grid_data/sdp_gridder_grid_correct.cpp"]}
{"id": "C33", "title": "Inverse scaling and difference utilities", "statement": "sdp_gridder_scale_inv_array(out,in1,in2,e) sets out = in1 / in2^e elementwise, sdp_gridder_sum_diff returns sum(a)-sum(b) = sum(a-b) for arrays of the same shape, and shape mismatches are reported rather than read out of bounds.", "quantifier": "every array content, shape and exponent", "why_tests_cant": "all shapes and contents", "anchors": ["src/ska-sdp-func/grid_data/sdp_gridder_utils.cpp: sdp_gridder_scale_inv_array, sdp_gridder_sum_diff, sdp_gridder_rms_diff"]}
{"id": "C34", "title": "Hogbom CLEAN keeps the residual consistent with its model", "statement": "At every iteration and at exit of sdp_hogbom_clean, residual = dirty image minus the component model convolved with the PSF, in exact arithmetic.", "quantifier": "every dirty image, PSF, loop gain, threshold and cycle limit", "why_tests_cant": "loop invariant over unbounded iterations", "anchors": ["src/ska-sdp-func/clean/sdp_hogbom_clean.cpp"]}
{"id": "C35", "title": "Hogbom CLEAN subtracts in bounds at the true peak and stops correctly", "statement": "Each iteration picks a pixel with the greatest residual value (the first in row-major order on ties), all PSF accesses are inside the PSF, at most cycle_limit iterations run, and on earlier exit every residual pixel is below the threshold.", "quantifier": "every image content, size, threshold and cycle limit", "why_tests_cant": "all contents and positions of the peak", "anchors": ["src/ska-sdp-func/clean/sdp_hogbom_clean.cpp"]}
{"id": "C36", "title": "Multi-scale CLEAN reads the PSF in bounds", "statement": "sdp_ms_clean_cornwell rejects dirty images and PSFs whose sizes do not fit, so that its PSF accesses are in bounds whenever it reports success.", "quantifier": "every pair of image and PSF sizes", "why_tests_cant": "missing validation only shows on sizes tests do not use", "anchors": ["src/ska-sdp-func/clean/sdp_ms_clean_cornwell.cpp"]}
{"id": "C37", "title": "The native FFT computes the DFT", "statement": "For every power-of-two length the native (fallback) FFT gives exactly the discrete Fourier transform of its input in exact complex arithmetic, forward or inverse sign.", "quantifier": "every length 2^k and every input vector", "why_tests_cant": "all lengths and inputs, exact identity", "anchors": ["src/ska-sdp-func/fourier_transforms/sdp_fft.cpp: sdp_1d_fft, Stockham radix-2, DFT"]}
{"id": "C38", "title": "Forward then inverse transform restores the data up to N", "statement": "Applying the forward and then the inverse native transform multiplies the data by the number of elements, in one and two dimensions.", "quantifier": "every length and input", "why_tests_cant": "identity over all inputs", "anchors": ["src/ska-sdp-func/fourier_transforms/sdp_fft.cpp: sdp_fft_exec"]}
{"id": "C39", "title": "FFT phase and normalisation", "statement": "sdp_fft_phase multiplies element (x,y) by (-1)^(x+y), applying it twice is the identity, and sdp_fft_norm divides every element by the number of elements (as long as that number fits in an int; beyond that the call has undefined behaviour).", "quantifier": "every array size and content", "why_tests_cant": "identity over all sizes, even and odd", "anchors": ["src/ska-sdp-func/fourier_transforms/sdp_fft.cpp: sdp_fft_phase, sdp_fft_norm, sdp_fft_exec_shift"]}
{"id": "C40", "title": "Shifted FFT is the centred transform", "statement": "For even sizes sdp_fft_exec_shift computes the DFT with the origin at the array centre in both domains.", "quantifier": "every even shape and input", "why_tests_cant": "sign depends on size modulo 4", "anchors": ["src/ska-sdp-func/fourier_transforms/sdp_fft.cpp: sdp_fft_exec_shift"]}
{"id": "C41", "title": "Padded FFT size is the smallest suitable size", "statement": "sdp_fft_padded_size(n, f) returns the smallest even number not less than ceil(n*f) (and at least 2) having only the prime factors 2, 3, 5, 7 and 11.", "quantifier": "every positive size below the overflow limit", "why_tests_cant": "minimality quantifies over all smaller candidates", "anchors": ["src/ska-sdp-func/fourier_transforms/sdp_fft_padded_size.cpp"]}
{"id": "C42", "title": "Good FFT size is the smallest 11-smooth size", "statement": "sdp_good_size_complex(n) returns the smallest number >= n whose prime factors are all <= 11, and it is at most twice n.", "quantifier": "every positive n below the overflow limit", "why_tests_cant": "minimality quantifies over all candidates", "anchors": ["src/ska-sdp-func/grid_data/sdp_gridder_uvw_es_fft_utils.cpp: sdp_good_size_complex"]}
{"id": "C43", "title": "FFT convolution gives the 'same'-mode convolution and writes in bounds", "statement": "sdp_fft_convolution(in1,in2,out) writes the central part (same size as in1) of the full linear convolution and never writes outside out.", "quantifier": "every pair of square inputs", "why_tests_cant": "off-by-one errors depend on parity and padding of the sizes", "anchors": ["src/ska-sdp-func/numeric_functions/sdp_fft_convolution.cpp"]}
{"id": "C44", "title": "SwiFTly facet/subgrid index maps are periodic copies inside the arrays", "statement": "sdp_swiftly_prepare_facet, extract_from_facet, add_to_subgrid, extract_from_subgrid, add_to_facet and finish_facet access only in-range elements and place the element of centred coordinate x at the position congruent to x modulo the array size, for any integer offsets they accept.", "quantifier": "every image, facet and subgrid size, and every (also negative) offset", "why_tests_cant": "wrap-around positions depend on offsets over all integers", "anchors": ["src/ska-sdp-func/fourier_transforms/sdp_swiftly.cpp"]}
{"id": "C45", "title": "SwiFTly two-dimensional variants accept the offsets of the one-dimensional ones", "statement": "sdp_swiftly_add_to_subgrid_2d and extract_from_subgrid(_2d) give the same element placement as the one-dimensional functions for negative facet offsets.", "quantifier": "every negative or positive facet offset", "why_tests_cant": "only negative offsets expose the C remainder", "anchors": ["src/ska-sdp-func/fourier_transforms/sdp_swiftly.cpp: sdp_swiftly_add_to_subgrid_2d, sdp_swiftly_extract_from_subgrid"]}
{"id": "C46", "title": "SwiFTly forward and backward steps are adjoint", "statement": "add_to_facet is the transpose of extract_from_facet, and extract_from_subgrid of add_to_subgrid, up to the same Fourier and window factors.", "quantifier": "every offset and content", "why_tests_cant": "identity over all contents", "anchors": ["src/ska-sdp-func/fourier_transforms/sdp_swiftly.cpp"]}
{"id": "C47", "title": "The PSWF table is symmetric and fully written", "statement": "sdp_generate_pswf writes every element of the table, with value at centre+i equal to the value at centre-i.", "quantifier": "every table size", "why_tests_cant": "parity-dependent", "anchors": ["src/ska-sdp-func/fourier_transforms/sdp_pswf.cpp"]}
{"id": "C48", "title": "The point-source DFT evaluates the measurement equation and is linear", "statement": "sdp_dft_point_v00/v01 write every visibility exactly once as the sum over sources of flux times the phasor of -2 pi (lu+mv+nw) (scaled by frequency in v01), so the result is additive in the list of sources and linear in the fluxes.", "quantifier": "every source list, uvw table and frequency set-up (exact arithmetic)", "why_tests_cant": "all sizes and contents", "anchors": ["src/ska-sdp-func/visibility/sdp_dft.cpp"]}
{"id": "C49", "title": "Phase rotation preserves baseline lengths and visibility amplitudes and is reversible", "statement": "sdp_phase_rotate_uvw preserves the length of each baseline vector and rotating back to the original centre restores it; sdp_phase_rotate_vis preserves each visibility's amplitude and rotating with the negated phase restores it; rotating to the same centre changes nothing.", "quantifier": "every pair of phase centres, coordinates, frequencies and visibilities", "why_tests_cant": "trigonometric identity over all angles", "anchors": ["src/ska-sdp-func/visibility/sdp_phase_rotate.cpp"]}
{"id": "C50", "title": "Visibility tiling sorts every visibility into its tile's bucket", "statement": "After counting, prefix sum and bucket sort, the sorted output is a permutation of the tile hits, tile t's entries occupy exactly the half-open range [offset(t), offset(t+1)), for any order in which threads process the input.", "quantifier": "every input visibility set, tile assignment and processing order", "why_tests_cant": "concurrent counting-sort correctness over all orders", "anchors": ["src/ska-sdp-func/visibility/sdp_tiled_functions.cpp: sdp_prefix_sum, sdp_bucket_simple, sdp_count_and_prefix_sum, sdp_bucket_sort"]}
{"id": "C51", "title": "Tiles written for a visibility are all tiles its kernel touches", "statement": "The tile range computed for a visibility covers exactly the tiles overlapped by its kernel support and stays within the tile grid.", "quantifier": "every grid position, support and tile size", "why_tests_cant": "boundary tiles", "anchors": ["src/ska-sdp-func/visibility/sdp_tiled_functions.cpp: TILE_RANGES"]}
{"id": "C52", "title": "Flags are only ever added and depend only on their own baseline", "statement": "sdp_flagger_dynamic_threshold never clears a flag that was set, and the flags of one baseline and polarisation depend only on the visibilities of that baseline and polarisation, so the result does not depend on the order in which threads process baselines.", "quantifier": "every visibility set, parameters and schedule", "why_tests_cant": "non-interference over all contents and schedules", "anchors": ["src/ska-sdp-func/visibility/sdp_flagger.cpp: flagger_dynamic_threshold"]}
{"id": "C53", "title": "The flagger's statistics stay in bounds", "statement": "The flagger reads and writes only inside its work arrays for every number of time samples, channels and every window and sampling setting it accepts.", "quantifier": "every data size and parameter", "why_tests_cant": "boundary sizes", "anchors": ["src/ska-sdp-func/visibility/sdp_flagger.cpp: median_calc, median_dev_calc, flagger_dynamic_threshold"]}
{"id": "C54", "title": "Weighting accumulates each visibility into one in-range grid cell", "statement": "sdp_weighting_uniform and sdp_weighting_briggs access only in-range cells of the weights grid; the grid holds the sum of weights per cell and each output weight is the documented function of its own cell.", "quantifier": "every uvw table, frequency list, weights and robustness", "why_tests_cant": "out-of-range cells appear only for large negative coordinates", "anchors": ["src/ska-sdp-func/visibility/sdp_weighting.cpp"]}
{"id": "C55", "title": "Kernel lookup in custom degridding stays in bounds", "statement": "sdp_degrid_uvw_custom accesses only in-range grid and kernel entries for every visibility that it does not skip.", "quantifier": "every uvw coordinate, channel and kernel geometry", "why_tests_cant": "depends on signs and rounding of coordinates", "anchors": ["src/ska-sdp-func/grid_data/sdp_degrid_uvw_custom.cpp"]}
{"id": "C56", "title": "Kernel parameter selection always returns a table entry", "statement": "sdp_calculate_params_from_epsilon returns parameters taken from its kernel table for every epsilon and image size.", "quantifier": "every accuracy, image size and precision", "why_tests_cant": "only extreme image sizes leave the search without a candidate", "anchors": ["src/ska-sdp-func/grid_data/sdp_gridder_uvw_es_fft_utils.cpp: sdp_calculate_params_from_epsilon"]}
{"id": "C57", "title": "Station beams are linear in the weights and element order", "statement": "The station beam evaluated by sdp_station_beam_aperture_array is, for every point and evaluated polarisation, the (optionally normalised) sum over elements of weight times e^{ik(xX+yY+zZ)} times element response; it is linear in the weights, does not depend on the order of the elements, equals 1 for unit weights in the reference direction when normalised, and no other output element changes; rejected calls write nothing and accepted calls stay in bounds.", "quantifier": "every element list, weights and point list (exact arithmetic)", "why_tests_cant": "all permutations and contents", "anchors": ["src/ska-sdp-func/station_beam/sdp_station.cpp"]}
{"id": "C58", "title": "Element patterns are the spherical-wave expansion of their coefficients", "statement": "For every point the four outputs of sdp_element_beam_spherical_wave_harp are the phi and theta components, for the X and Y dipole, of the sum over degrees l = 1..l_max and orders M = -l..l of the coefficients times the normalised spherical waves; each coefficient has its own place in the array, the arrays are not accessed out of bounds, and no other output element changes; rejected calls write nothing.", "quantifier": "every l_max, coefficient array, set of points, offset and argument combination (exact arithmetic)", "why_tests_cant": "unbounded orders", "anchors": ["src/ska-sdp-func/station_beam/sdp_element_spherical_wave_harp.cpp"]}
{"id": "C59", "title": "Atomic accumulation loses no update", "statement": "sdp atomic add/min/max helpers built on compare-and-swap make the final value the sum (minimum, maximum) of the initial value and all contributions, for every interleaving of the threads' reads and compare-and-swaps.", "quantifier": "every number of threads, operands and interleaving of the individual reads and compare-and-swaps (exact arithmetic)", "why_tests_cant": "lost updates depend on interleavings", "anchors": ["src/ska-sdp-func/utility/sdp_cuda_atomics.h"]}
{"id": "C60", "title": "Logging honours the level filter", "statement": "A message is printed if and only if its level is at least as severe as the level asked for by the environment variable SKA_SDP_FUNC_LOG_LEVEL (names debug, info, warn, err, crit in lower or upper case, whatever follows), INFO when the variable is unset; the first setting that asks for a level stays in force for the rest of the program; while the value is none of the names every message is printed.", "quantifier": "every level, every environment value and every sequence of calls, with the environment changing between calls", "why_tests_cant": "lazy initialisation over all call sequences", "anchors": ["src/ska-sdp-func/utility/sdp_logging.c"]}
{"id": "C61", "title": "The example vector functions compute in bounds or report an error", "statement": "sdp_vector_add either reports an error without writing or writes the elementwise sum; sdp_function_example_a_exec never writes outside its work area and computes prefix sums.", "quantifier": "every array size and parameter", "why_tests_cant": "sizes between the checked and the allocated size", "anchors": ["src/ska-sdp-func/examples/sdp_vector_add.cpp", "src/ska-sdp-func/examples/sdp_function_example_a.cpp"]}
{"id": "C62", "title": "The visibility count check of the w-stacking gridder never fails", "statement": "For a w-plane of sdp_grid_wstack_wtower_(de)grid_all, the numbers of visibilities processed by all tasks, whatever the number of threads and the order in which they take tasks, add up to the number of visibilities selected on the w-plane, so the internal consistency check (which ends the process) never fires.", "quantifier": "every uvw table, channel ranges, sub-grid spacing, number of threads and schedule (exact arithmetic; coordinate steps zero or resolvable by the channel computation)", "why_tests_cant": "combines all schedules with all coordinates, including those exactly on sub-grid boundaries", "anchors": ["src/ska-sdp-func/grid_data/sdp_grid_wstack_wtower.cpp: sdp_grid_wstack_wtower_degrid_all, sdp_grid_wstack_wtower_grid_all, count_visibilities, pick_task"]}
{"id": "C63", "title": "Direct Fourier transforms of the gridder compute the measurement equation and are adjoint", "statement": "sdp_gridder_dft adds to each visibility of a processed row the sum over sources of flux * exp(-2 pi i (l u + m v + n w)) with coordinates scaled to the channel frequency and shifted by the sub-grid offset, sdp_gridder_idft adds to each pixel the (tapered) sum over visibilities with the opposite sign, and the two are adjoint to each other.", "quantifier": "every uvw table, source list, channel layout, sub-grid offset, taper and content (exact arithmetic)", "why_tests_cant": "an equality for all data and coordinates; tests sample a few sources and baselines", "anchors": ["src/ska-sdp-func/grid_data/sdp_gridder_utils.cpp: sdp_gridder_dft, sdp_gridder_idft"]}
{"id": "C64", "title": "Direct Fourier transforms touch only the selected channels", "statement": "sdp_gridder_dft and sdp_gridder_idft with channel ranges process exactly the channels start <= c < end of each row.", "quantifier": "every channel range per row", "why_tests_cant": "tests use full or empty ranges", "anchors": ["src/ska-sdp-func/grid_data/sdp_gridder_utils.cpp: sdp_gridder_dft, sdp_gridder_idft"]}
{"id": "C65", "title": "Source lists made from an image have exactly one entry per non-zero pixel", "statement": "sdp_gridder_image_to_flmn produces a list whose length is the number of non-zero pixels, every write is inside the list, every entry corresponds to exactly one non-zero pixel (in row-major order) and holds its flux and direction cosines.", "quantifier": "every image size, content, field of view, shear and taper", "why_tests_cant": "depends on the pattern of zeros of an arbitrary image and on its shape", "anchors": ["src/ska-sdp-func/grid_data/sdp_gridder_utils.cpp: sdp_gridder_image_to_flmn, count_nonzero_pixels"]}
{"id": "C66", "title": "Sorted arrays of the tiled indexing hold the data of the sorted visibilities", "statement": "After sdp_bucket_sort (or sdp_tiled_indexing) the sorted visibility, weight and coordinate arrays hold at position k the visibility, weight and (u, v) of the visibility that was sorted to k, in every supported precision.", "quantifier": "every visibility content, channel layout, tile size and precision", "why_tests_cant": "must hold for every permutation the sort produces", "anchors": ["src/ska-sdp-func/visibility/sdp_tiled_functions.cpp"]}
{"id": "C67", "title": "A call that reports an error leaves the arrays alone", "statement": "A processing function that reports an error because of the type, location or shape of an argument has not read or written any array element.", "quantifier": "every invalid argument combination", "why_tests_cant": "every combination of wrong types and shapes", "anchors": ["src/ska-sdp-func/grid_data/sdp_gridder_clamp_channels.cpp", "src/ska-sdp-func/grid_data/sdp_gridder_wtower_height.cpp", "src/ska-sdp-func/visibility/sdp_dft.cpp", "src/ska-sdp-func/visibility/sdp_phase_rotate.cpp", "src/ska-sdp-func/visibility/sdp_weighting.cpp", "src/ska-sdp-func/station_beam/sdp_station.cpp", "src/ska-sdp-func/examples/sdp_vector_add.cpp"]}
{"id": "C68", "title": "SwiFTly subgrid preparation is the inverse of subgrid finishing", "statement": "sdp_swiftly_prepare_subgrid_inplace(_2d) applied to the result of sdp_swiftly_finish_subgrid_inplace(_2d) with the same offsets gives back the original subgrid, for any offset and any array layout, and sdp_swiftly_finish_subgrid is the central part of the in-place result.", "quantifier": "every subgrid content, size, offset and stride", "why_tests_cant": "the sign of the round trip depends on the parity of the offset and half size; the layout on strides", "anchors": ["src/ska-sdp-func/fourier_transforms/sdp_swiftly.cpp: sdp_swiftly_finish_subgrid_inplace, sdp_swiftly_prepare_subgrid_inplace, sdp_swiftly_finish_subgrid_inplace_2d, sdp_swiftly_prepare_subgrid_inplace_2d, sdp_swiftly_finish_subgrid"]}
{"id": "C69", "title": "The w-towers drivers are adjoint to each other", "statement": "For the same plan, offsets, coordinates and channel ranges, sdp_gridder_wtower_uvw_grid is the Hermitian adjoint of sdp_gridder_wtower_uvw_degrid: <grid(vis), image> = <vis, degrid(image)>, over all w-planes, including the w-phase and the Fourier transforms of every sub-grid of the stack; and degridding a visibility equals the interpolation of the transformed image at the planes around its w.", "quantifier": "every image, every set of visibilities, every plan, every number of planes", "why_tests_cant": "identity of two linear operators over all inputs and plane counts; parity of the w support", "anchors": ["src/ska-sdp-func/grid_data/sdp_gridder_wtower_uvw.cpp: sdp_gridder_wtower_uvw_degrid, sdp_gridder_wtower_uvw_grid"]}
{"id": "C70", "title": "PSWF creation is memory safe and deterministic", "statement": "sdp_pswf_create and sdp_pswf_evaluate only access elements inside their work arrays, and only read elements that were written before, for every order m and every spheroidal parameter c >= 0.", "quantifier": "every m and c, every rounding behaviour of the arithmetic", "why_tests_cant": "over-runs and uninitialised reads depend on c and on stack contents", "anchors": ["src/ska-sdp-func/fourier_transforms/sdp_pswf.cpp", "src/ska-sdp-func/fourier_transforms/private_pswf.h"]}
{"id": "C71", "title": "Rotated baseline coordinates describe the same baseline in the new frame", "statement": "The coordinates written by sdp_phase_rotate_uvw are the (u, v, w) coordinates of the same baseline vector in the frame (east, north, towards the centre) of the new phase centre.", "quantifier": "every pair of phase centres and every table of coordinates (exact arithmetic)", "why_tests_cant": "a geometric identity over all angles; the tests use one pair of centres", "anchors": ["src/ska-sdp-func/visibility/sdp_phase_rotate.cpp: sdp_phase_rotate_uvw"]}
{"id": "C72", "title": "Strided arrays are addressed by their strides or rejected", "statement": "A processing function that accepts an array and reports success has read and written the elements of the array where its strides place them.", "quantifier": "every shape and every set of strides an array can be created with", "why_tests_cant": "tests use contiguous arrays", "anchors": ["src/ska-sdp-func/visibility/sdp_dft.cpp", "src/ska-sdp-func/visibility/sdp_phase_rotate.cpp", "src/ska-sdp-func/utility/sdp_data_model_checks.c", "src/ska-sdp-func/examples/sdp_vector_add.cpp"]}
{"id": "C73", "title": "The window flags the neighbours of a detection on both sides", "statement": "With window w, sdp_flagger_dynamic_threshold flags every channel at most w channels away, on either side, from a channel it detects.", "quantifier": "every spectrum, window and channel", "why_tests_cant": "the edge of the band matters only for some positions of the interference", "anchors": ["src/ska-sdp-func/visibility/sdp_flagger.h: window", "src/ska-sdp-func/visibility/sdp_flagger.cpp: flagger_dynamic_threshold"]}
{"id": "C74", "title": "Flags do not depend on the units of the visibilities", "statement": "Multiplying every visibility by the same non-zero complex number leaves all flags of sdp_flagger_dynamic_threshold as they were, because thresholds apply to normalised scores.", "quantifier": "every visibility set, factor, parameters and schedule (exact arithmetic)", "why_tests_cant": "all contents and factors", "anchors": ["src/ska-sdp-func/visibility/sdp_flagger.cpp: modified_zscore, flagger_dynamic_threshold"]}
{"id": "C75", "title": "Custom degridding returns the kernel-weighted grid values around each visibility", "statement": "After a successful sdp_degrid_uvw_custom every visibility whose kernel support lies inside the grid is the sum over the kernel planes, rows and columns of w kernel times v kernel times u kernel times the grid value around its position (conjugated on request); the kernel rows and the grid point represent the coordinate (centre of the grid plus theta times the coordinate in wavelengths) to half an oversampling step; all other visibilities keep their value; on an error nothing is written.", "quantifier": "every shape, kernel, coordinate, channel and polarisation (exact arithmetic)", "why_tests_cant": "every coordinate, rounding case and kernel geometry", "anchors": ["src/ska-sdp-func/grid_data/sdp_degrid_uvw_custom.cpp: calculate_coordinates, degrid_uvw_custom, sdp_degrid_uvw_custom"]}
{"id": "C76", "title": "The gridder parameters meet the requested accuracy", "statement": "The kernel chosen for a requested accuracy and precision is a kernel of the table whose accuracy is at most the requested one and whose correction range is acceptable; the grid size is even, has only prime factors up to 11 and exceeds the image size times the oversampling factor of that kernel; the support is at most 8 for single and 16 for double precision; requests that no kernel can meet are reported.", "quantifier": "every accuracy, image size and precision (exact arithmetic)", "why_tests_cant": "continuum of accuracies and every image size", "anchors": ["src/ska-sdp-func/grid_data/sdp_gridder_uvw_es_fft_utils.cpp: sdp_calculate_params_from_epsilon"]}
{"id": "C77", "title": "FFT sizes are the least 11-smooth numbers", "statement": "sdp_good_size_complex(n) terminates without overflow and returns the least integer that is at least n and has no prime factor above 11.", "quantifier": "every n", "why_tests_cant": "minimality over all integers and termination of a search with five nested loops", "anchors": ["src/ska-sdp-func/grid_data/sdp_gridder_uvw_es_fft_utils.cpp: sdp_good_size_complex"]}
{"id": "C78", "title": "Legendre polynomials and quadrature nodes of the gridder", "statement": "sdp_get_legendre returns the Legendre polynomial of the given degree at x (value 1 at x = 1, solution of the Legendre equation) and stores its derivative for -1 < x < 1; the Gauss-Legendre weight belongs to the returned node; the node is a root of the polynomial to the requested accuracy.", "quantifier": "every degree and real argument (exact arithmetic)", "why_tests_cant": "every degree and every real argument; a differential equation", "anchors": ["src/ska-sdp-func/grid_data/sdp_gridder_uvw_es_fft_utils.cpp: sdp_get_legendre, sdp_get_approx_legendre_root, sdp_calculate_legendre_root"]}
{"id": "C79", "title": "Associated Legendre functions", "statement": "The associated-Legendre routine used for element patterns returns P_l^m(cos theta) as defined by the m-th derivative of the Legendre polynomial, that value divided by sin theta, and its derivative (sin theta times the derivative by cos theta), for every degree and order; on the axis the last two must be the limits.", "quantifier": "every degree l, order 0 <= m <= l and angle (exact arithmetic)", "why_tests_cant": "unbounded degrees and all angles", "anchors": ["src/ska-sdp-func/math/sdp_legendre_polynomial.h:sdp_legendre2"]}
{"id": "C80", "title": "Dipole element patterns", "statement": "sdp_element_beam_dipole evaluates the far field of a dipole along x: of size |cos(kL u) - cos kL| / sqrt(1 - u^2) with u the cosine of the angle to the dipole and kL = pi L f / c, transverse, zero along the dipole and going to zero there without a jump; scalar output is the root mean square of the X and Y dipoles; outputs go to stride*i+offset and nowhere else; rejected calls write nothing.", "quantifier": "every frequency, length, direction, number of points, stride and offset (exact arithmetic)", "why_tests_cant": "all directions, including those where the formula divides by zero", "anchors": ["src/ska-sdp-func/station_beam/sdp_element_dipole.cpp"]}
{"id": "C85", "title": "GPU gridder: every image pixel is updated exactly once, whatever the thread schedule", "statement": "The kernels that add w-planes to the dirty image, spread the image over the planes and correct the image for the gridding kernel update each pixel of an even-sized image exactly once with the documented value (sum over planes of the real part of plane times conjugate w screen, image times w screen, image times correction), touch nothing else, and never leave their buffers. Odd image sizes and grids of 65536 or more cells break this (refuted).", "quantifier": "all image sizes, grid sizes, plane counts, pixel contents and all interleavings of the GPU threads", "why_tests_cant": "the interleavings of the threads of a launch cannot be enumerated, and tests use few sizes", "anchors": ["src/ska-sdp-func/grid_data/sdp_gridder_uvw_es_fft_kernels.cu: apply_w_screen_and_sum, reverse_w_screen_to_stack, conv_corr_and_scaling", "src/ska-sdp-func/grid_data/sdp_gridder_uvw_es_fft.cpp: sdp_grid_uvw_es_fft, sdp_ifft_degrid_uvw_es"]}
{"id": "C86", "title": "GPU gridder: gridding and degridding sums, whatever the thread schedule", "statement": "The gridding kernel adds to every cell of the planes the sum over all visibilities of weight x visibility (conjugated for negative w) x gridding kernel, and the degridding kernel adds to every visibility the sum over all cells with the same factors, independent of the order in which threads run, without leaving any buffer, for kernels of support up to 15 (or 16 off the grid points). A zero baseline with support 16 overruns the local kernel table, and grids of 46341 or more cells overflow an int (refuted).", "quantifier": "all visibilities, coordinates, frequencies, weights, sizes and all interleavings of the GPU threads", "why_tests_cant": "a race or an overrun shows only for some schedules and coordinates", "anchors": ["src/ska-sdp-func/grid_data/sdp_gridder_uvw_es_fft_kernels.cu: sdp_cuda_nifty_gridder_gridding_3d, sdp_cuda_nifty_gridder_gridding_2d"]}
{"id": "C87", "title": "GPU gridder: the dirty image is the weighted sum of responses and degridding is its adjoint", "statement": "sdp_grid_uvw_es_fft makes the image correction x (old image + sum of weight x Re(visibility x response)), where the response is the sum of plane waves of the cells near the visibility's position; sdp_ifft_degrid_uvw_es corrects the image in place and adds to each visibility the sum of corrected pixels times the conjugate response, so that it is the exact adjoint of gridding. The results do not depend on the thread schedule. The output buffers are not overwritten but accumulated into, and buffers of other sizes than planned are not rejected (refuted).", "quantifier": "all plans, visibilities, weights, images and all interleavings of the GPU threads", "why_tests_cant": "adjointness is a statement about all pairs of images and visibilities; tests try a few with tolerances", "anchors": ["src/ska-sdp-func/grid_data/sdp_gridder_uvw_es_fft.cpp: sdp_grid_uvw_es_fft, sdp_ifft_degrid_uvw_es", "src/ska-sdp-func/grid_data/sdp_gridder_uvw_es_fft_kernels.cu"]}
{"id": "C81", "title": "GPU gridder: exactly the fitting buffers are taken, failures are clean", "statement": "The gridder takes exactly buffers in one memory space, of one precision, contiguous, with matching rows and channels, (row, 3) coordinates and a square image, and a writable output; other buffers give an error code: that for the location exactly when locations differ, that for the data type exactly for a wrong kind of number or, with fitting shapes, a wrong precision. After an earlier error, with different pixel sizes or unfit buffers, creation returns no plan and touches nothing; in a library without CUDA creation reports the missing GPU and gives back all memory. Refuted: a failing allocation is written through a null pointer; integer coordinates and additional dimensions are accepted; degridding, which overwrites the image, accepts a read-only one.", "quantifier": "all handles (null, any type, shape, strides, location), pixel sizes, accuracies, heaps and incoming status values", "why_tests_cant": "the checks combine five handles with all their attributes; allocation failures cannot be provoked", "anchors": ["src/ska-sdp-func/grid_data/sdp_gridder_uvw_es_fft.cpp: sdp_gridder_check_buffers, sdp_gridder_uvw_es_fft_create_plan, sdp_grid_uvw_es_fft, sdp_ifft_degrid_uvw_es"]}
{"id": "C82", "title": "GPU gridder: the w planes cover the kernel of every visibility and are close enough", "statement": "For a range of w of positive width and an image above the horizon a plan exists (within int range). Every plane to which the kernel of a visibility with |w| in (min, max] reaches is in the stack, every plane of the stack is reached from some w of the range, the visibility's position between the planes is its |w|, and the path difference between planes is at most a quarter wavelength (times 1 + 1e-13) for every pixel. At |w| = min exactly, one plane with weight exp(-beta) is missing, and a range of zero width gives no finite scale (refuted).", "quantifier": "all image sizes, pixel sizes, accuracies, ranges of w, visibilities, planes and pixels", "why_tests_cant": "boundary values of real quantities; tests use a few data sets", "anchors": ["src/ska-sdp-func/grid_data/sdp_gridder_uvw_es_fft.cpp: sdp_gridder_uvw_es_fft_create_plan"]}
{"id": "C83", "title": "GPU gridder: the computed range of w covers all visibilities", "statement": "For ascending frequencies the range found by get_w_range contains |w| in wavelengths of every row and channel and is attained, and the Python function finds the same range as the C++ one. With descending frequencies visibilities are outside the range (refuted).", "quantifier": "all numbers of rows and channels, coordinates and frequencies", "why_tests_cant": "the claim is about all data sets; the tests use ascending frequencies", "anchors": ["src/ska-sdp-func/grid_data/sdp_gridder_uvw_es_fft_utils.h: get_w_range", "src/ska_sdp_func/grid_data/gridder_uvw_es_fft.py: get_w_range"]}
{"id": "C84", "title": "GPU gridder: the tables of a plan are the transform of the gridding kernel", "statement": "Creating a plan writes its tables in bounds for every support; the quadrature tables hold the computed Legendre roots, weights and the kernel there and zeros beyond, so that host and device, which use different numbers of points, compute the same sum; the l and m correction tables are the kernel's transform relative to its norm, and the total correction is the inverse of the product of the transforms in l, m and n. With buffers of the planned sizes such a plan meets all that C87 requires.", "quantifier": "all image sizes, pixel sizes, accuracies, precisions and ranges of w", "why_tests_cant": "the tables depend on real parameters; tests compare images to finite tolerance for a few cases", "anchors": ["src/ska-sdp-func/grid_data/sdp_gridder_uvw_es_fft_utils.cpp: sdp_generate_gauss_legendre_conv_kernel", "src/ska-sdp-func/grid_data/sdp_gridder_uvw_es_fft.cpp: sdp_gridder_uvw_es_fft_create_plan"]}
{"id": "C88", "title": "GPU gridder: the quadrature tables are Gauss-Legendre rules", "statement": "For every kernel support in use, the computed nodes lie strictly between 0 and 1, decrease, and are within 1e-11 of zeros of the Legendre polynomial of the right degree; the weights are positive; and the rule integrates every even polynomial of degree below 4p over [0, 1] (p points) to within 2e-8 times the sum of the absolute values of its coefficients.", "quantifier": "all supports 4 to 16, all points, all requested accuracies up to 1e-13, all even polynomials of degree below 4p with real coefficients", "why_tests_cant": "exactness is a statement about all polynomials; Newton iteration in real numbers stops by a real comparison", "anchors": ["src/ska-sdp-func/grid_data/sdp_gridder_uvw_es_fft_utils.cpp: sdp_calculate_legendre_root, sdp_generate_gauss_legendre_conv_kernel"]}
{"id": "C89", "title": "GPU gridder: the grid correction of every plan is positive and bounded", "statement": "For every plan the norm of the kernel is positive, the l and m correction tables lie between 1/175 and 1, and the correction applied to every pixel is positive and, relative to the norm, at most 175 per dimension: nothing is divided by zero or by a tiny number.", "quantifier": "all image sizes, pixel sizes, accuracies, precisions, ranges of w and pixels", "why_tests_cant": "a zero of the kernel's transform inside the image would only show for particular sizes and accuracies", "anchors": ["src/ska-sdp-func/grid_data/sdp_gridder_uvw_es_fft.cpp: sdp_gridder_uvw_es_fft_create_plan", "src/ska-sdp-func/grid_data/sdp_gridder_uvw_es_fft_utils.cpp: sdp_generate_gauss_legendre_conv_kernel", "src/ska-sdp-func/grid_data/sdp_gridder_uvw_es_fft.cu: sdp_cuda_nifty_conv_corr_and_scaling"]}
{"id": "C90", "title": "Hogbom CLEAN on the GPU finds a greatest pixel", "statement": "In every cycle of sdp_hogbom_clean with GPU memory, the search for the peak finds a pixel of the residual with the greatest value and that value, whatever the order in which the threads run, reads and writes only allocated memory, and always completes.", "quantifier": "all images, all image sizes, all interleavings of the threads of the kernel launches", "why_tests_cant": "the outcome depends on thread schedules that a test cannot enumerate, and reading past the end of a device array is usually silent", "anchors": ["src/ska-sdp-func/clean/sdp_hogbom_clean.cu: find_maximum_value, warpReduce", "src/ska-sdp-func/clean/sdp_hogbom_clean.cpp: sdp_hogbom_clean_gpu"]}
{"id": "C91", "title": "Hogbom CLEAN on the GPU keeps components and residual consistent", "statement": "sdp_hogbom_clean with GPU memory runs at most cycle_limit minor cycles, each at a greatest pixel above the threshold, stops early only when no pixel is above the threshold, and leaves a residual that equals the dirty image minus the components convolved with the PSF, as with CPU memory.", "quantifier": "all images, PSFs, gains, thresholds and cycle limits, all interleavings of the threads", "why_tests_cant": "an identity over whole histories of cycles and over all thread schedules", "anchors": ["src/ska-sdp-func/clean/sdp_hogbom_clean.cu: add_clean_comp, subtract_psf", "src/ska-sdp-func/clean/sdp_hogbom_clean.cpp: sdp_hogbom_clean_gpu"]}
{"id": "C92", "title": "The point-source DFT on the GPU evaluates the measurement equation", "statement": "sdp_dft_point_v00 and sdp_dft_point_v01 on GPU memory always complete; whatever the order in which the threads run, they either report an error and leave the visibilities alone, or write to every visibility the sum over components of flux times phasor; a call that is accepted for CPU memory is also accepted for GPU memory.", "quantifier": "all array sizes, contents and types, all thread schedules", "why_tests_cant": "an identity over all sizes and over all schedules of the threads; sizes at which the launch limits of the device are exceeded are not tested", "anchors": ["src/ska-sdp-func/visibility/sdp_dft.cu: dft_point_v00, dft_point_v01", "src/ska-sdp-func/visibility/sdp_dft.cpp: sdp_dft_point_v00, sdp_dft_point_v01", "src/ska-sdp-func/utility/sdp_device_wrapper.cpp: sdp_launch_cuda_kernel"]}
{"id": "C93", "title": "Phase rotation on the GPU gives what it gives on the CPU", "statement": "sdp_phase_rotate_uvw and sdp_phase_rotate_vis on GPU memory always complete and, whatever the order in which the threads run, give the same status and the same output array as the same call on CPU memory.", "quantifier": "all array sizes, contents, types and directions, in place or not, all thread schedules", "why_tests_cant": "equality of two programs over all sizes and schedules", "anchors": ["src/ska-sdp-func/visibility/sdp_phase_rotate.cu: rotate_uvw, rotate_vis", "src/ska-sdp-func/visibility/sdp_phase_rotate.cpp: sdp_phase_rotate_uvw, sdp_phase_rotate_vis"]}
{"id": "C94", "title": "Uniform weighting on the GPU gives every visibility the inverse of its cell", "statement": "sdp_weighting_uniform on GPU memory always completes; whatever the order in which the threads run, an error leaves grid and output alone, and otherwise every grid cell receives the sum of the input weights of its visibilities and every visibility on the grid the inverse of the value of its cell, as on the CPU.", "quantifier": "all array sizes, coordinates, frequencies, weights and types; all schedules of the threads and of their atomic additions", "why_tests_cant": "an identity over all inputs and all schedules", "anchors": ["src/ska-sdp-func/visibility/sdp_weighting.cu: grid_write_gpu, grid_uniform_read_gpu", "src/ska-sdp-func/visibility/sdp_weighting.cpp: sdp_weighting_uniform"]}
{"id": "C95", "title": "Briggs weighting on the GPU gives what it gives on the CPU", "statement": "sdp_weighting_briggs on GPU memory always returns, with a status if the arguments cannot be handled; whatever the order in which the threads run, the result is that of the CPU version.", "quantifier": "all array sizes, coordinates, frequencies, weights, types and robustness values; all schedules; all previous contents of the device memory", "why_tests_cant": "the result depends on what freshly allocated device memory contains, which a test does not control, and on schedules", "anchors": ["src/ska-sdp-func/visibility/sdp_weighting.cu: grid_write_gpu, calc_sum_gpu, grid_briggs_read_gpu", "src/ska-sdp-func/visibility/sdp_weighting.cpp: sdp_weighting_briggs", "src/ska-sdp-func/utility/sdp_mem.cpp: sdp_mem_create, sdp_mem_create_copy"]}
{"id": "C96", "title": "The array utilities of the gridder give on the GPU what they give on the CPU", "statement": "sdp_gridder_accumulate_scaled_arrays, sdp_gridder_scale_inv_array and sdp_gridder_idft on GPU memory complete for every schedule of the threads and compute pixel by pixel what is documented (out += in1 * in2**exponent, out = in1 / in2**exponent, image += taper * direct Fourier sum); an error leaves the output alone, and unsupported types are refused.", "quantifier": "all image sizes, values, exponents, optional arguments, supported types; all schedules of the threads", "why_tests_cant": "an identity over all sizes (boundaries of blocks of threads) and all schedules", "anchors": ["src/ska-sdp-func/grid_data/sdp_gridder_utils.cu", "src/ska-sdp-func/grid_data/sdp_gridder_utils.cpp: sdp_gridder_accumulate_scaled_arrays, sdp_gridder_scale_inv_array, sdp_gridder_idft"]}
{"id": "C97", "title": "Sub-grids on the GPU: cutting out, adding and shifting", "statement": "On GPU memory, sdp_gridder_subgrid_cut_out, sdp_gridder_subgrid_add and sdp_gridder_shift_subgrids give for every schedule of the threads what they give on the CPU.", "quantifier": "all grid and sub-grid sizes, offsets, values and factors; all schedules of the threads", "why_tests_cant": "threads that update the same pixel lose contributions only in some schedules", "anchors": ["src/ska-sdp-func/grid_data/sdp_gridder_utils.cu: sdp_gridder_subgrid_add, sdp_gridder_subgrid_cut_out, sdp_gridder_shift_subgrids", "src/ska-sdp-func/grid_data/sdp_gridder_utils.cpp"]}
{"id": "C98", "title": "Atomic additions, minima and maxima made from compare-and-swap lose nothing and end", "statement": "sdp_atomic_min, sdp_atomic_max and (on devices without atomicAdd for double) sdp_atomic_add have, for any number of concurrent threads and any schedule, the effect of the operations done one at a time in some order; in particular every location receives everything added to it, and no schedule runs forever.", "quantifier": "all numbers of threads, operations, locations and values; all schedules", "why_tests_cant": "lost updates and livelock depend on the schedule", "anchors": ["src/ska-sdp-func/utility/sdp_cuda_atomics.h"]}
{"id": "C99", "title": "Coordinate bounds on the GPU are those of the CPU", "statement": "sdp_gridder_uvw_bounds_all on GPU memory completes and gives in every schedule of the threads the least and the greatest (u,v,w) coordinate, in wavelengths, of the channels selected for every row, infinite if there are none.", "quantifier": "all numbers of rows, coordinates, channel ranges and frequencies; all schedules of the threads and their compare-and-swap loops", "why_tests_cant": "an extremum over all inputs and all schedules", "anchors": ["src/ska-sdp-func/grid_data/sdp_gridder_utils.cu: sdp_gridder_uvw_bounds_all", "src/ska-sdp-func/grid_data/sdp_gridder_utils.cpp: sdp_gridder_uvw_bounds_all", "src/ska-sdp-func/utility/sdp_cuda_atomics.h"]}
{"id": "C100", "title": "The sum of differences on the GPU is the sum over the rows", "statement": "sdp_gridder_sum_diff on GPU memory completes and returns, in every schedule of the threads, the sum of a[i] - b[i] over the rows from start_row to end_row (all rows if one of them is negative), as on the CPU; nothing outside the arrays is accessed; arguments of the wrong type, rank, location or length are reported.", "quantifier": "all numbers of rows, ranges and values; all schedules of the threads of the 8 blocks", "why_tests_cant": "races in the reduction depend on the schedule; overflow and unreported errors on the inputs", "anchors": ["src/ska-sdp-func/grid_data/sdp_gridder_utils.cu: sdp_gridder_sum_diff, warp_reduce", "src/ska-sdp-func/grid_data/sdp_gridder_utils.cpp: sdp_gridder_sum_diff"]}
{"id": "C101", "title": "Setting and scaling arrays in GPU memory reaches every element", "statement": "sdp_mem_set_value and sdp_mem_scale_real on GPU memory change every element of the array and nothing else, in every schedule of the threads, or report an error and change nothing. Read-only arrays, unsupported types and ranks are refused.", "quantifier": "all sizes, ranks, types, values and schedules", "why_tests_cant": "an uncovered or twice covered element depends on the size, also on sizes that do not fit in 32 bits", "anchors": ["src/ska-sdp-func/utility/sdp_mem.cu: sdp_mem_scale_real, sdp_mem_set_value_1d, sdp_mem_set_value_2d, sdp_mem_set_value_3d", "src/ska-sdp-func/utility/sdp_mem.cpp: sdp_mem_scale_real, sdp_mem_set_value"]}
{"id": "C102", "title": "FFT normalisation and phases, and the correction of facets, on the GPU", "statement": "sdp_fft_norm, sdp_fft_phase, sdp_gridder_grid_correct_w_stack and sdp_gridder_grid_correct_pswf on GPU memory multiply every pixel by the same factor as on the CPU, or report an error and change nothing; the table of the PSWF is read in bounds exactly if the facet lies in the image.", "quantifier": "all sizes, types, offsets, parameters and schedules", "why_tests_cant": "limits of the grid of threads and integer overflow depend on the size", "anchors": ["src/ska-sdp-func/fourier_transforms/sdp_fft.cu: sdp_fft_norm, sdp_fft_phase", "src/ska-sdp-func/fourier_transforms/sdp_fft.cpp: sdp_fft_norm, sdp_fft_phase", "src/ska-sdp-func/grid_data/sdp_gridder_grid_correct.cu: sdp_gridder_grid_correct_pswf, sdp_gridder_grid_correct_w_stack", "src/ska-sdp-func/grid_data/sdp_gridder_grid_correct.cpp: sdp_gridder_grid_correct_pswf, sdp_gridder_grid_correct_w_stack"]}
{"id": "C103", "title": "Channel clamping in GPU memory", "statement": "sdp_gridder_clamp_channels_single and sdp_gridder_clamp_channels_uv on GPU memory write to every row asked for exactly the interval of the channels in range, as on the CPU, and leave the other rows alone, in every schedule of the threads and also when the inputs are the outputs; other types, read-only outputs and earlier errors are refused without a write.", "quantifier": "all numbers of rows, limits of rows, coordinates, frequencies, ranges and schedules (exact arithmetic)", "why_tests_cant": "the rows covered depend on the size and the limits; the interval on real numbers", "anchors": ["src/ska-sdp-func/grid_data/sdp_gridder_clamp_channels.cu: sdp_gridder_clamp_channels_single, sdp_gridder_clamp_channels_uv", "src/ska-sdp-func/grid_data/sdp_gridder_clamp_channels.cpp: sdp_gridder_clamp_channels_single, sdp_gridder_clamp_channels_uv"]}
{"id": "C104", "title": "Station beams in GPU memory", "statement": "sdp_station_beam_aperture_array on GPU memory gives, for every point and evaluated polarisation, the normalised weighted sum over the elements of the phase factor times the element response, the same as on the CPU, in every schedule of the threads and blocks; elements of the output that are not evaluated do not change; no thread accesses memory outside the arrays or outside its block's shared memory; unsupported types, arrays that are not in GPU memory, earlier errors and calls without points are refused without a write.", "quantifier": "all numbers of elements and points, offsets, weights, positions, responses and indices, precisions and polarisations, all schedules (exact arithmetic)", "why_tests_cant": "the elements are copied chunk by chunk to shared memory that all threads of a block use and overwrite; a missing barrier is a race that few schedules show", "anchors": ["src/ska-sdp-func/station_beam/sdp_station.cu: sdp_station_beam_dft", "src/ska-sdp-func/station_beam/sdp_station.cpp: sdp_station_beam_aperture_array"]}
{"id": "C105", "title": "Dipole element patterns in GPU memory", "statement": "sdp_element_beam_dipole on GPU memory gives for every point asked for the dipole response (both polarisations, or the scalar power response), the same as on the CPU, in every schedule, and changes no other element; no thread accesses memory outside the arrays; other locations, other types, earlier errors and calls without points are refused without a write.", "quantifier": "all numbers of points, directions, frequencies, dipole lengths, strides and offsets, precisions and polarisations, all schedules (exact arithmetic)", "why_tests_cant": "threads beyond the last point read and write outside the arrays, which usually goes unnoticed because GPU allocations are padded", "anchors": ["src/ska-sdp-func/station_beam/sdp_element_dipole.cu: sdp_dipole_pattern, sdp_dipole_pattern_scalar", "src/ska-sdp-func/station_beam/sdp_element_dipole.cpp: sdp_element_beam_dipole"]}
{"id": "C106", "title": "w-towers gridding and degridding in GPU memory", "statement": "sdp_gridder_wtower_uvw_degrid and _grid on arrays in GPU memory: whenever the same call on CPU memory is defined, no thread accesses memory outside the arrays, and every schedule of the threads (and of their atomic additions) ends with exactly the visibilities, or the sub-grids, that the CPU gives; earlier errors, unsupported combinations of types, sub-grids in another memory, read-only visibilities and calls without rows are refused without a write.", "quantifier": "all plans, w-planes, offsets, frequencies, ranges of rows and channels, coordinates, visibilities and sub-grids (sides up to 46340), all schedules (exact arithmetic)", "why_tests_cant": "the threads of rows that share pixels add to them in an order that differs from run to run, and a lost update shows up only in rare interleavings", "anchors": ["src/ska-sdp-func/grid_data/sdp_gridder_wtower_uvw.cu: sdp_gridder_wtower_degrid, sdp_gridder_wtower_grid", "src/ska-sdp-func/grid_data/sdp_gridder_wtower_uvw.cpp: degrid_gpu, grid_gpu"]}
{"id": "C107", "title": "Degridding with user-supplied kernels in GPU memory", "statement": "sdp_degrid_uvw_custom on arrays in GPU memory: no thread accesses memory outside the arrays; in every schedule each visibility whose kernel support is inside the grid becomes the kernel-weighted sum of the grid around its position, and the others keep their value; errors, and calls that do not fit in a grid of threads, change nothing; and the outcome is that of the same call in CPU memory.", "quantifier": "all arrays of values, coordinates, kernels and sizes (positions that int can hold), all schedules (exact arithmetic)", "why_tests_cant": "the two branches round positions in different ways, which shows only for coordinates exactly half-way between two kernel rows, and index arithmetic of the threads depends on all sizes at once", "anchors": ["src/ska-sdp-func/grid_data/sdp_degrid_uvw_custom.cu: degrid_uvw_custom, calculate_coordinates", "src/ska-sdp-func/grid_data/sdp_degrid_uvw_custom.cpp: sdp_degrid_uvw_custom"]}
{"id": "C108", "title": "Prefix sum over tiles in GPU memory", "statement": "The prefix sum that sdp_count_and_prefix_sum runs on arrays in GPU memory: no thread accesses memory outside the arrays; in every schedule the offset of a tile is the number of entries in the tiles before it and the last offset is the number of all entries; and these are the offsets that the CPU computes.", "quantifier": "all numbers of tiles, all counts, all schedules of the 512 threads", "why_tests_cant": "a race on shared memory shows only in rare schedules and only for many tiles", "anchors": ["src/ska-sdp-func/visibility/sdp_tiled_functions.cu: sdp_prefix_sum_gpu", "src/ska-sdp-func/visibility/sdp_tiled_functions.cpp: sdp_count_and_prefix_sum"]}
{"id": "C109", "title": "Counting visibilities per tile in GPU memory", "statement": "sdp_count_and_prefix_sum on arrays in GPU memory: in every schedule each tile is counted exactly once for every visibility whose kernel is inside the grid and overlaps the tile, every other visibility is counted as skipped, the offsets are the numbers of (tile, visibility) pairs of the tiles before, and no thread accesses memory outside the arrays.", "quantifier": "all coordinates, frequencies, grid and tile sizes, supports and numbers of visibilities (exact arithmetic), all schedules", "why_tests_cant": "lost updates depend on the schedule; tiles outside the grid on combinations of sizes", "anchors": ["src/ska-sdp-func/visibility/sdp_tiled_functions.cu: sdp_tile_count_simple_gpu, sdp_prefix_sum_gpu", "src/ska-sdp-func/visibility/sdp_tiled_functions.cpp: sdp_count_and_prefix_sum"]}
{"id": "C110", "title": "Bucket sort and tile indexing in GPU memory", "statement": "sdp_bucket_sort and sdp_tiled_indexing on arrays in GPU memory, from the offsets of the prefix sum: in every schedule the slots of each tile hold exactly the visibilities that belong to the tile, each once, with their coordinates, weight or index, and the code of the tile; the offset of a tile becomes that of the next tile; no thread accesses memory outside the arrays.", "quantifier": "all coordinates, frequencies, grid and tile sizes, supports and numbers of visibilities (exact arithmetic), all schedules, including those in which stores of different threads to different arrays interleave", "why_tests_cant": "slots are taken by atomic additions in an order that depends on the schedule", "anchors": ["src/ska-sdp-func/visibility/sdp_tiled_functions.cu: sdp_bucket_sort_simple_gpu, sdp_tiled_indexing_gpu", "src/ska-sdp-func/visibility/sdp_tiled_functions.cpp: sdp_bucket_sort, sdp_tiled_indexing"]}
{"id": "C111", "title": "Optimised (tiled) Briggs weighting gives every sorted visibility its Briggs weight", "statement": "sdp_optimized_weighting (and its indexed variant) accepts the weights, sorted coordinates, sorted tile codes and tile offsets that the tiling functions leave, and sets the weight of every sorted visibility to w / (1 + r * W), where W is the sum of the weights in its pixel, r is (5 / 10^robust)^2 / (sum of W^2 / sum of W), and robust is the documented parameter between -2 and 2; nothing else is written, the result does not depend on the schedule of the threads, and no call touches memory outside of the arrays.", "quantifier": "every grid size, every number of visibilities and every assignment of them to tiles, every robust parameter, and every schedule of blocks and threads between barriers, with atomic additions in any order", "why_tests_cant": "the test of the library notes that the function currently gives inaccurate results; which weights are missed depends on the tile populations, and the race between the two sums and their use depends on the schedule of 512 threads", "anchors": ["src/ska-sdp-func/visibility/sdp_opt_weighting.cpp", "src/ska-sdp-func/visibility/sdp_opt_weighting.cu", "src/ska-sdp-func/visibility/sdp_opt_weighting.h", "sdp_optimized_weighting", "sdp_optimised_indexed_weighting", "tests/visibility/test_opt_weighting.py"]}
{"id": "C112", "title": "2D convolution of arrays in GPU memory is the linear convolution, kept at the size of the first input", "statement": "sdp_fft_convolution on two square complex arrays in GPU memory sets element (i, j) of the output to element (i + (n2-1)/2, j + (n2-1)/2) of the full linear convolution of the n1 x n1 and n2 x n2 inputs (the 'same' mode of numpy, the documented replacement for scipy.signal.fftconvolve), without wrap-around from the padding to a power of 2; nothing else is written; it equals the result on the CPU; and invalid arguments set an error and leave the output unchanged.", "quantifier": "every pair of sizes n1, n2 >= 1, even or odd, all element values, every type, memory location and shape of the arguments, and every interleaving of the memory operations of the threads of the six kernels", "why_tests_cant": "the test convolves two fixed sizes; whether the window is exact depends on n1, n2 and the gap to the next power of 2 through two integer halvings, and sizes with no gap read before the array", "anchors": ["src/ska-sdp-func/numeric_functions/sdp_fft_convolution.cpp", "src/ska-sdp-func/numeric_functions/sdp_fft_convolution.cu", "src/ska-sdp-func/numeric_functions/sdp_fft_convolution.h", "sdp_fft_convolution", "sdp_fft_convolution_gpu", "tests/numeric_functions/test_fft_convolution.py"]}
{"id": "C113", "title": "The direct gridder computes the direct Fourier transform of the tapered sub-grid in both directions", "statement": "sdp_gridder_direct_degrid adds to every visibility selected by the channel ranges the sum over all sub-grid pixels of pixel times the PSWF taper at its two coordinates times e^{-2 pi i (ul+vm+wn)}, with coordinates relative to the sub-grid offsets, and leaves other visibilities alone; sdp_gridder_direct_grid adds to every pixel the taper times the sum of the selected visibilities times the conjugate phases, so that the two are adjoint linear maps; the two facet corrections divide by the taper over the image and multiply complex facets by opposite w phases, hence are adjoint too; every sub-grid image and every supported type is handled.", "quantifier": "every plan (sizes, field of view, w step, shear, support), every sub-grid image, coordinates, frequencies, channel ranges, sub-grid offsets, visibilities, starting contents of the output, and element types of the arguments", "why_tests_cant": "the tests compare one real double-precision sub-grid with a Python implementation, so complex pixels, all-zero sub-grids, single precision and other sizes are never seen, and adjointness is a statement about all pairs of inputs", "anchors": ["src/ska-sdp-func/grid_data/sdp_gridder_direct.cpp", "src/ska-sdp-func/grid_data/sdp_gridder_direct.h", "src/ska-sdp-func/grid_data/sdp_gridder_utils.cpp", "src/ska-sdp-func/grid_data/sdp_gridder_grid_correct.cpp", "sdp_gridder_direct_degrid", "sdp_gridder_direct_grid", "sdp_gridder_direct_degrid_correct", "sdp_gridder_direct_grid_correct", "src/ska_sdp_func/grid_data/gridder_direct.py", "tests/grid_data/test_gridder_direct.py"]}
{"id": "C114", "title": "Vector addition on the GPU stores the sum of every pair of elements, as on the CPU", "statement": "sdp_vector_add with arrays in GPU memory writes, for every accepted call and in whatever order the threads run, out[i] = a[i] + b[i] for every element i (also when an input is the output itself), which is what the same call does with CPU memory; calls with wrong types, sizes, locations or a read-only output report an error and leave the output untouched.", "quantifier": "every element type, every number of elements, all contents, every aliasing of an input with the output, every schedule of the threads, every combination of argument properties", "why_tests_cant": "the test adds one pair of vectors of 32 elements; the number of elements a 32-bit thread index can reach, the empty case and the freedom of scheduling are out of its reach", "anchors": ["src/ska-sdp-func/examples/sdp_vector_add.cu", "src/ska-sdp-func/examples/sdp_vector_add.cpp", "src/ska-sdp-func/examples/sdp_vector_add.h", "sdp_vector_add", "tests/examples/test_vector_add.cpp", "tests/examples/test_vector_add.py"]}
{"id": "C115", "title": "The restored image of CLEAN is the residual plus the CLEAN beam at every component", "statement": "sdp_hogbom_clean stores in clean_model the components its minor cycles found and in skymodel the residual image plus, for every component, its flux times the elliptical Gaussian CLEAN beam that cbeam_details describes (peak one, given widths and position angle), centred on that component and cut to the given number of pixels.", "quantifier": "every image size, beam size, beam widths and angle, dirty image, PSF, gain, threshold and cycle limit, every starting content of the outputs", "why_tests_cant": "the test compares one image with a Python transcription of the same convolution, with the same displacement; that the beam is centred on the component, and which image sizes can be restored at all, are statements about all images and sizes", "anchors": ["src/ska-sdp-func/clean/sdp_hogbom_clean.cpp", "src/ska-sdp-func/clean/sdp_hogbom_clean.h", "src/ska-sdp-func/fourier_transforms/sdp_fft_convolution.cpp", "sdp_hogbom_clean", "src/ska_sdp_func/clean/hogbom_clean.py", "tests/clean/test_hogbom_clean.py"]}
{"id": "C116", "title": "Whole-image gridding and degridding with w-stacking are adjoint and independent of the schedule", "statement": "sdp_grid_wstack_wtower_degrid_all writes to each visibility the sum, over the w-planes and the sub-grid tasks that hold it, of the w-towers interpolation of the image divided by the kernel taper, moved to the w-plane and cut down to the sub-grid. For the same coordinates and parameters, sdp_grid_wstack_wtower_grid_all is its adjoint: the Hermitian product of the dirty image made from any visibilities with any image equals that of the visibilities with the prediction from that image. The order in which threads take the sub-grid tasks of a w-plane, in either call, does not change the results, and neither do earlier contents of the outputs.", "quantifier": "every image, every set of visibilities, every number of w-planes, sub-grids and tasks, every order of the tasks on each w-plane, every even image and sub-grid size, kernels, offsets and prolate tables", "why_tests_cant": "the tests compare a few calls with a direct Fourier transform to some digits; adjointness is a statement about all pairs of images and visibilities, and independence one about all orders of the tasks", "anchors": ["src/ska-sdp-func/grid_data/sdp_grid_wstack_wtower.cpp", "src/ska-sdp-func/grid_data/sdp_grid_wstack_wtower.h", "src/ska-sdp-func/grid_data/sdp_gridder_wtower_uvw.cpp", "src/ska-sdp-func/grid_data/sdp_gridder_grid_correct.cpp", "src/ska-sdp-func/grid_data/sdp_gridder_utils.cpp", "sdp_grid_wstack_wtower_degrid_all", "sdp_grid_wstack_wtower_grid_all", "src/ska_sdp_func/grid_data/grid_wstack_wtower.py", "tests/grid_data/test_gridder_wtower_uvw.py"]}
{"id": "C117", "title": "Threads that add to the grid at the same time lose no addition", "statement": "When the w-stacking gridder runs with several threads, each thread adds its sub-grids to the one grid; whatever the interleaving of the threads, the finished grid is the one obtained by adding all sub-grids one after another, in any order. The rows of one sdp_gridder_subgrid_add, which threads share without a lock, also give the result of the sequential loop when the sub-grid is not larger than the grid; and so do the additions to the visibilities that threads degridding different sub-grids or rows make without a lock. The threads always finish.", "quantifier": "every number of threads, every distribution of sub-grids and rows to threads, every interleaving of single loads and stores, every grid, sub-grid, offset and factor", "why_tests_cant": "a lost addition needs two threads to interleave inside one read-modify-write; tests see a few schedules", "anchors": ["src/ska-sdp-func/grid_data/sdp_grid_wstack_wtower.cpp", "src/ska-sdp-func/grid_data/sdp_gridder_utils.cpp", "sdp_grid_wstack_wtower_grid_all", "sdp_gridder_subgrid_add"]}
{"id": "C118", "title": "The restored image of CLEAN on the GPU is the residual plus the CLEAN beam at every component", "statement": "sdp_hogbom_clean with arrays in GPU memory stores in skymodel, whatever the interleaving of the GPU threads, the residual image plus, for every component in clean_model, its flux times the elliptical Gaussian CLEAN beam that cbeam_details describes, centred on that component and cut to the given number of pixels: the image that the same call with CPU memory restores from these components.", "quantifier": "every image size, beam size, widths and angle, component image, residual and earlier content of skymodel, both precisions, every schedule of the kernels", "why_tests_cant": "the GPU test compares one image of one even size and one beam with a reference that has the same displacement; no test covers all sizes or schedules", "anchors": ["src/ska-sdp-func/clean/sdp_hogbom_clean.cu: create_cbeam, create_copy_complex, create_copy_real, add_residual", "src/ska-sdp-func/clean/sdp_hogbom_clean.cpp: sdp_hogbom_clean_gpu"]}
{"id": "C119", "title": "The mutex excludes, makes what it protects atomic, and does not deadlock by itself", "statement": "For threads that call sdp_mutex_lock before and sdp_mutex_unlock after they access what they share: whatever the interleaving, at most one thread is between the two calls, the result is one that running each thread without interruption from lock to unlock gives, and never are all threads stuck.", "quantifier": "every client program that uses the mutex as intended, every number of threads, every interleaving of their single accesses, every shared data", "why_tests_cant": "exclusion and atomicity are statements about all interleavings; no test of the library uses the mutex directly", "anchors": ["src/ska-sdp-func/utility/sdp_thread_support.cpp: sdp_mutex_create, sdp_mutex_lock, sdp_mutex_unlock", "src/ska-sdp-func/utility/sdp_thread_support.h"]}
