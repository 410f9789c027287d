(** Model of the two execution functions of grid_data/sdp_gridder_uvw_es_fft.cpp: sdp_grid_uvw_es_fft (532-742) and sdp_ifft_degrid_uvw_es (745-956),
    after their argument checks (EsBuffers.v) and with status = SDP_SUCCESS.  The launches are those of EsKernels.v; between two launches the device is
    synchronised (one stream).  cuFFT is taken to compute the exact, unnormalised discrete Fourier transform.  Exact real arithmetic. *)
From Verif Require Import Base Cplx FftSpec Gpu EsKernels EsKernelsSpec EsScreenSpec.
Open Scope Z_scope.

(** The fields of the plan that are used, 12-57 *)
Record es_plan := mk_plan { p_rows : Z; p_chan : Z; p_image : Z; p_grid : Z; p_support : Z; p_num_w : Z; p_do_w : bool;
  p_beta : R; p_px : R; p_uv_scale : R; p_w_scale : R; p_inv_w_scale : R; p_min_plane_w : R; p_norm : R; p_conv : nd R; p_qk : nd R; p_qn : nd R; p_qw : nd R }.

(** num_w_grids_subset, 580-584 and 834-838; num_w_grids_batched = 1 *)
Definition subset_of (num_w batch : Z) : Z := Z.min 1 (num_w - cmod batch num_w).
(** The arguments of the (de)gridding kernels, 627-650 and 921-944 *)
Definition args_of (P : es_plan) (batch : Z) : es_args :=
  mk_es (p_rows P) (p_chan P) (p_grid P) batch (subset_of (p_num_w P) batch) (p_support P) (p_beta P) (p_uv_scale P) (p_w_scale P) (p_min_plane_w P) (p_do_w P).

(** The work area as an array of complex numbers *)
Definition stack_of (cells : Z) (st : Z * bool -> R) : nd C := mk_nd [cells] (fun i => match i with [k] => (st (k, false), st (k, true)) | _ => C0 end).
(** sdp_fft_exec on the g x g work area, in place *)
Definition fft (inverse : bool) (g : Z) (a : nd C) : nd C :=
  mk_nd [g * g] (fun i => match i with [k] => DFT2 inverse g g (fun s t => elem a [s * g + t]) (k / g) (k mod g) | _ => C0 end).

Section Exec.
Context (P : es_plan) (uvw freq : nd R).
Notation n := (p_image P).
Notation g := (p_grid P).

(** conv_corr_and_scaling on a buffer of [pixels] pixels, launched for npix x npix; 704-741 and 788-824 *)
Definition correct (npix pixels : Z) (img img' : Z -> R) : Prop :=
  runs Z.eqb Rplus (image_threads npix) (conv_corr_and_scaling n (p_px P) (p_inv_w_scale P) (p_do_w P) (p_support P) (p_norm P) (p_conv P) (p_qk P) (p_qn P) (p_qw P) pixels) img img'.

(** One batch of gridding, 578-699: clear the work area, grid, transform (inverse), add to the image *)
Definition grid_batch (npix pixels : Z) (vis : nd C) (weight : nd R) (batch : Z) (img img' : Z -> R) : Prop :=
  exists st, runs loc_eqb Rplus (vis_threads (args_of P batch)) (gridding (args_of P batch) vis weight uvw freq (g * g)) (fun _ => 0%R) st /\
    runs Z.eqb Rplus (image_threads npix)
      (apply_w_screen_and_sum n g batch (subset_of (p_num_w P) batch) (p_px P) (p_inv_w_scale P) (p_min_plane_w P) true (p_do_w P) (fft true g (stack_of (g * g) st)) pixels) img img'.
(** 574-578 and 704: all batches, then the correction *)
Definition grid_exec (npix pixels : Z) (vis : nd C) (weight : nd R) (img img' : Z -> R) : Prop :=
  exists imgs : Z -> Z -> R, imgs 0 = img /\ (forall k, 0 <= k < p_num_w P -> grid_batch npix pixels vis weight k (imgs k) (imgs (k + 1))) /\ correct npix pixels (imgs (p_num_w P)) img'.

(** The memory of the image as an array *)
Definition image_of (pixels : Z) (img : Z -> R) : nd R := mk_nd [pixels] (fun i => match i with [k] => img k | _ => 0%R end).

(** One batch of degridding, 832-952: clear the work area, spread the image, transform (forward), degrid.  [nvis]: the number of visibilities in the buffer *)
Definition degrid_batch (npix pixels nvis : Z) (img : Z -> R) (batch : Z) (v v' : Z * bool -> R) : Prop :=
  exists st : Z -> C, runs Z.eqb Cadd (image_threads npix)
      (reverse_w_screen_to_stack n g batch (subset_of (p_num_w P) batch) (p_px P) (p_inv_w_scale P) (p_min_plane_w P) true (p_do_w P) (image_of pixels img) (g * g)) (fun _ => C0) st /\
    runs loc_eqb Rplus (vis_threads (args_of P batch))
      (degridding (args_of P batch) (fft false g (mk_nd [g * g] (fun i => match i with [k] => st k | _ => C0 end))) nvis uvw freq) v v'.
(** 788-956: the correction, which is made in the image itself, then all batches *)
Definition degrid_exec (npix pixels nvis : Z) (img : Z -> R) (v : Z * bool -> R) (img' : Z -> R) (v' : Z * bool -> R) : Prop :=
  correct npix pixels img img' /\
  exists vs : Z -> Z * bool -> R, vs 0 = v /\ (forall k, 0 <= k < p_num_w P -> degrid_batch npix pixels nvis img' k (vs k) (vs (k + 1))) /\ vs (p_num_w P) = v'.
End Exec.
