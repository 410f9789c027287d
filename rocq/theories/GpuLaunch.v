(** Launching a kernel from the host: sdp_launch_cuda_kernel, utility/sdp_device_wrapper.cpp 17-83, built with CUDA, and the kernels that the library
    registers.  The launch itself is the machine of Gpu.v; it is refused outside of the limits that CUDA documents for cudaLaunchKernel. *)
From Coq Require Import String.
From Verif Require Import Base Gpu.
Open Scope Z_scope.

(** The names registered with SDP_CUDA_KERNEL in all .cu files (the macro makes a string of its arguments, in which any white space between two tokens is one space) *)
Definition registry : list string := [
  "add_clean_comp<double, double>";
  "add_clean_comp<float, float>";
  "add_residual<double>";
  "add_residual<float>";
  "apply_w_screen_and_sum<double, double2>";
  "apply_w_screen_and_sum<float, float2>";
  "calc_sum_gpu<double, double, double>";
  "calc_sum_gpu<double, double, float>";
  "complex_multiply<cuDoubleComplex>";
  "complex_multiply<cuFloatComplex>";
  "conv_corr_and_scaling<double>";
  "conv_corr_and_scaling<float>";
  "create_cbeam<double, cuDoubleComplex>";
  "create_cbeam<float, cuFloatComplex>";
  "create_copy_complex<double, cuDoubleComplex>";
  "create_copy_complex<float, cuFloatComplex>";
  "create_copy_real<cuDoubleComplex, double>";
  "create_copy_real<cuFloatComplex, float>";
  "degrid_uvw_custom<double2>";
  "dft_point_v00<double3, double2, double3, double2>";
  "dft_point_v00<double3, double2, double3, float2>";
  "dft_point_v01<double3, double2, double3, double2>";
  "dft_point_v01<double3, double2, double3, float2>";
  "fft_normalise_gpu<cuDoubleComplex>";
  "fft_normalise_gpu<cuFloatComplex>";
  "fft_shift_2D_gpu<cuDoubleComplex>";
  "fft_shift_2D_gpu<cuFloatComplex>";
  "find_maximum_value<double, int>";
  "find_maximum_value<float, int>";
  "grid_briggs_read_gpu<double, double, double>";
  "grid_briggs_read_gpu<double, double, float>";
  "grid_uniform_read_gpu<double, double, double>";
  "grid_uniform_read_gpu<double, double, float>";
  "grid_write_gpu<double, double, double>";
  "grid_write_gpu<double, double, float>";
  "pad_2D_gpu<cuDoubleComplex>";
  "pad_2D_gpu<cuFloatComplex>";
  "remove_padding_2D_gpu<cuDoubleComplex>";
  "remove_padding_2D_gpu<cuFloatComplex>";
  "reverse_w_screen_to_stack<double, double2>";
  "reverse_w_screen_to_stack<float, float2>";
  "rotate_uvw<double3>";
  "rotate_uvw<float3>";
  "rotate_vis<double3, double2>";
  "rotate_vis<double3, float2>";
  "rotate_vis<float3, float2>";
  "sdp_bucket_sort_simple_gpu<double, double, double, double, 1>";
  "sdp_bucket_sort_simple_gpu<float, float, float, float, 1>";
  "sdp_cuda_nifty_gridder_gridding_2d<double, double2, double, double2, double3>";
  "sdp_cuda_nifty_gridder_gridding_2d<float, float2, double, double2, double3>";
  "sdp_cuda_nifty_gridder_gridding_2d<float, float2, float, float2, float3>";
  "sdp_cuda_nifty_gridder_gridding_3d<double, double2, double, double2, double3>";
  "sdp_cuda_nifty_gridder_gridding_3d<float, float2, double, double2, double3>";
  "sdp_cuda_nifty_gridder_gridding_3d<float, float2, float, float2, float3>";
  "sdp_dipole_pattern<double, double2>";
  "sdp_dipole_pattern<float, float2>";
  "sdp_dipole_pattern_scalar<double, double2>";
  "sdp_dipole_pattern_scalar<float, float2>";
  "sdp_fft_norm<complex<double> >";
  "sdp_fft_norm<complex<float> >";
  "sdp_fft_phase<complex<double> >";
  "sdp_fft_phase<complex<float> >";
  "sdp_gridder_accum_complex_real_array<double, complex<double> >";
  "sdp_gridder_accum_complex_real_array<double, complex<float> >";
  "sdp_gridder_accum_complex_real_array<float, complex<double> >";
  "sdp_gridder_accum_complex_real_array<float, complex<float> >";
  "sdp_gridder_accum_scale_array<complex<double>, complex<double>, complex<double> >";
  "sdp_gridder_accum_scale_array<complex<double>, complex<float>, complex<double> >";
  "sdp_gridder_accum_scale_array<complex<double>, double, complex<double> >";
  "sdp_gridder_accum_scale_array<complex<double>, float, complex<double> >";
  "sdp_gridder_accum_scale_array<complex<float>, complex<double>, complex<double> >";
  "sdp_gridder_accum_scale_array<complex<float>, complex<float>, complex<double> >";
  "sdp_gridder_accum_scale_array<complex<float>, double, complex<double> >";
  "sdp_gridder_accum_scale_array<complex<float>, float, complex<double> >";
  "sdp_gridder_clamp_channels_single<double>";
  "sdp_gridder_clamp_channels_single<float>";
  "sdp_gridder_clamp_channels_uv<double>";
  "sdp_gridder_clamp_channels_uv<float>";
  "sdp_gridder_grid_correct_pswf<complex<double> >";
  "sdp_gridder_grid_correct_pswf<complex<float> >";
  "sdp_gridder_grid_correct_pswf<double>";
  "sdp_gridder_grid_correct_pswf<float>";
  "sdp_gridder_grid_correct_w_stack<complex<double> >";
  "sdp_gridder_grid_correct_w_stack<complex<float> >";
  "sdp_gridder_idft<double, complex<double>, double, double>";
  "sdp_gridder_idft<float, complex<float>, float, float>";
  "sdp_gridder_scale_inv_array<complex<double>, complex<double>, complex<double> >";
  "sdp_gridder_scale_inv_array<complex<double>, double, complex<double> >";
  "sdp_gridder_scale_inv_array<complex<float>, complex<float>, complex<double> >";
  "sdp_gridder_scale_inv_array<complex<float>, float, complex<double> >";
  "sdp_gridder_shift_subgrids<complex<double> >";
  "sdp_gridder_shift_subgrids<complex<float> >";
  "sdp_gridder_subgrid_add<complex<double>, complex<double>, double>";
  "sdp_gridder_subgrid_add<complex<float>, complex<float>, double>";
  "sdp_gridder_subgrid_cut_out<complex<double>, complex<double> >";
  "sdp_gridder_subgrid_cut_out<complex<float>, complex<float> >";
  "sdp_gridder_sum_diff<int, 512>";
  "sdp_gridder_uvw_bounds_all<double>";
  "sdp_gridder_uvw_bounds_all<float>";
  "sdp_gridder_wtower_degrid<complex<double>, double, complex<double> >";
  "sdp_gridder_wtower_degrid<complex<double>, double, complex<float> >";
  "sdp_gridder_wtower_degrid<complex<float>, double, complex<float> >";
  "sdp_gridder_wtower_degrid<complex<float>, float, complex<float> >";
  "sdp_gridder_wtower_grid<double, double, complex<double> >";
  "sdp_gridder_wtower_grid<double, double, complex<float> >";
  "sdp_gridder_wtower_grid<float, double, complex<float> >";
  "sdp_gridder_wtower_grid<float, float, complex<float> >";
  "sdp_mem_scale_real<complex<double> >";
  "sdp_mem_scale_real<complex<float> >";
  "sdp_mem_scale_real<double>";
  "sdp_mem_scale_real<float>";
  "sdp_mem_set_value_1d<complex<double> >";
  "sdp_mem_set_value_1d<complex<float> >";
  "sdp_mem_set_value_1d<double>";
  "sdp_mem_set_value_1d<float>";
  "sdp_mem_set_value_1d<int>";
  "sdp_mem_set_value_2d<complex<double> >";
  "sdp_mem_set_value_2d<complex<float> >";
  "sdp_mem_set_value_2d<double>";
  "sdp_mem_set_value_2d<float>";
  "sdp_mem_set_value_2d<int>";
  "sdp_mem_set_value_3d<complex<double> >";
  "sdp_mem_set_value_3d<complex<float> >";
  "sdp_mem_set_value_3d<double>";
  "sdp_mem_set_value_3d<float>";
  "sdp_mem_set_value_3d<int>";
  "sdp_opt_briggs_bucket_gpu<double, double>";
  "sdp_opt_briggs_index_gpu<double, double, double>";
  "sdp_prefix_sum_gpu<int>";
  "sdp_station_beam_dft<double, double2, 1>";
  "sdp_station_beam_dft<double, double2, 4>";
  "sdp_station_beam_dft<float, float2, 1>";
  "sdp_station_beam_dft<float, float2, 4>";
  "sdp_tile_count_simple_gpu<double, double>";
  "sdp_tile_count_simple_gpu<float, float>";
  "sdp_tiled_indexing_gpu<double, double, double, double, 1>";
  "sdp_tiled_indexing_gpu<float, float, float, float, 1>";
  "subtract_psf<double, double>";
  "subtract_psf<float, float>";
  "vector_add<double>";
  "vector_add<float>"
]%string.
Definition registered (name : string) : bool := existsb (String.eqb name) registry.

(** A size in three dimensions *)
Definition dim3 := (Z * Z * Z)%type.
(** uint64_t to unsigned int, as in the constructor of dim3, 43-44 *)
Definition to_dim3 (d : dim3) : dim3 := let '(x, y, z) := d in (x mod 4294967296, y mod 4294967296, z mod 4294967296).
(** The limits of a launch (CUDA C++ Programming Guide, compute capability 3.0 and later) *)
Definition grid_ok (blocks threads : dim3) : bool :=
  let '(bx, by_, bz) := blocks in let '(tx, ty, tz) := threads in
  (1 <=? bx) && (bx <=? 2147483647) && (1 <=? by_) && (by_ <=? 65535) && (1 <=? bz) && (bz <=? 65535) &&
  (1 <=? tx) && (tx <=? 1024) && (1 <=? ty) && (ty <=? 1024) && (1 <=? tz) && (tz <=? 64) && (tx * ty * tz <=? 1024).
(** The threads of a launch: blockDim.x * blockIdx.x + threadIdx.x and the same in y and z *)
Definition threads3 (blocks threads : dim3) : list (Z * Z * Z) :=
  let '(bx, by_, bz) := blocks in let '(tx, ty, tz) := threads in
  list_prod (list_prod (zrange 0 (bx * tx)) (zrange 0 (by_ * ty))) (zrange 0 (bz * tz)).

(** The array the kernel writes, as a flat memory *)
Definition flat {A} (x : nd A) (i : Z) : A := elem x [i].
Definition unflat {A} (sh : list Z) (m : Z -> A) : nd A := mk_nd sh (fun idx => m (hd 0 idx)).

(** sdp_launch_cuda_kernel, 27-77: status and array after the call and after the kernel has ended.  [body]: the memory operations of a thread. *)
Definition launch_kernel {A} (plus : A -> A -> A) (name : option string) (blocks threads : dim3) (body : Z * Z * Z -> option (list (op Z A)))
    (st : error) (x : nd A) (st' : error) (x' : nd A) : Prop :=
  if failed st then st' = st /\ x' = x else
  match name with
  | None => st' = ERR_INVALID_ARGUMENT /\ x' = x
  | Some n =>
      if negb (registered n) then st' = ERR_RUNTIME /\ x' = x
      else if negb (grid_ok (to_dim3 blocks) (to_dim3 threads)) then st' = ERR_RUNTIME /\ x' = x
      else st' = st /\ exists m', runs Z.eqb plus (threads3 (to_dim3 blocks) (to_dim3 threads)) body (flat x) m' /\ x' = unflat (shape x) m'
  end.

(** (n + t - 1) / t in unsigned 64-bit arithmetic *)
Definition blocks_of (n t : Z) : Z := (((n mod 18446744073709551616) + t - 1) mod 18446744073709551616) / t.
