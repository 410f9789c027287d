(** Vocabulary for the exponential-of-semicircle gridder. *)
From Verif Require Import Base Sum CRing Cplx FftSpec Gpu EsKernels.
Open Scope Z_scope.

Definition rsumf (lo hi : Z) (f : Z -> R) : R := sum Rplus 0%R lo hi f.

(** The exponential-of-semicircle function of width [s], at distance [d] *)
Definition es (beta : R) (s : Z) (d : R) : R :=
  if Rle_dec (Rabs d) (IZR s / 2) then exp (beta * (sqrt (1 - (d / (IZR s / 2)) * (d / (IZR s / 2))) - 1)) else 0%R.

(** Visibilities with negative w are replaced by the conjugate at the opposite baseline, when w is taken into account. *)
Definition turned (P : es_args) (uvw : nd R) (r : Z) : R := if wstack P then (if Rlt_dec (elem uvw [r; 2%Z]) 0 then -1 else 1)%R else 1%R.
(** Coordinate [k] of row [r], in wavelengths of channel [c] *)
Definition waves (P : es_args) (uvw freq : nd R) (r c k : Z) : R := (turned P uvw r * elem uvw [r; k] * elem freq [c] / 299792458)%R.
Definition at_u (P : es_args) (uvw freq : nd R) (r c : Z) : R := (waves P uvw freq r c 0 * uv_scale P)%R.
Definition at_v (P : es_args) (uvw freq : nd R) (r c : Z) : R := (waves P uvw freq r c 1 * uv_scale P)%R.
Definition at_w (P : es_args) (uvw freq : nd R) (r c : Z) : R := if wstack P then ((waves P uvw freq r c 2 - min_plane_w P) * w_scale P)%R else 0%R.

(** The weight with which visibility (r, c) goes to cell (a, b) of plane [k]; the centre of the grid is cell (g/2, g/2), and the signs move the
    origin of the image to its centre. *)
Definition coef (P : es_args) (uvw freq : nd R) (r c k a b : Z) : R :=
  let o := grid_size P / 2 in
  (sign ((a - o) + (b - o)) * es (beta P) (support P) (IZR (a - o) - at_u P uvw freq r c) * es (beta P) (support P) (IZR (b - o) - at_v P uvw freq r c)
   * es (beta P) (support P) (IZR k - at_w P uvw freq r c))%R.

(** The kernel tables of a thread are large enough. *)
Definition off_grid (x : R) : Prop := forall k, x <> IZR k.
Definition fits (P : es_args) (uvw freq : nd R) (r c : Z) : Prop :=
  support P <= 15 \/ (support P = 16 /\ off_grid (at_u P uvw freq r c) /\ off_grid (at_v P uvw freq r c)).
(** Positions fit an int *)
Definition near (x : R) : Prop := (Rabs x <= 2147483600)%R.

(** What a call of the (de)gridding kernels needs; [cells] elements in the stack, [nvis] visibilities *)
Record es_ok (P : es_args) (uvw freq : nd R) (nvis cells : Z) : Prop := {
  ok_rows : 0 <= num_vis_rows P; ok_chan : 0 <= num_vis_chan P; ok_int : num_vis_chan P * (num_vis_rows P + 256) <= 2147483647;
  ok_uvw : shape uvw = [num_vis_rows P; 3]; ok_freq : shape freq = [num_vis_chan P]; ok_vis : nvis = num_vis_rows P * num_vis_chan P;
  ok_grid : 1 <= grid_size P; ok_grid2 : grid_size P * grid_size P <= 2147483647; ok_cells : cells = num_w_grids_subset P * (grid_size P * grid_size P);
  ok_start : 0 <= grid_start_w P; ok_subset : 1 <= num_w_grids_subset P; ok_end : grid_start_w P + num_w_grids_subset P <= 2147483647;
  ok_support : 1 <= support P;
  ok_place : forall r c, 0 <= r < num_vis_rows P -> 0 <= c < num_vis_chan P ->
    fits P uvw freq r c /\ near (at_u P uvw freq r c) /\ near (at_v P uvw freq r c) /\ near (at_w P uvw freq r c) }.

(** The launch of the (de)gridding kernels: blocks of 1 x 256 threads; sdp_gridder_uvw_es_fft.cpp 620-625 and 914-919 *)
Definition vis_threads (P : es_args) : list (Z * Z) := launch_threads (num_vis_chan P) ((num_vis_rows P + 255) / 256) 1 256.

Definition loc_eqb (a b : Z * bool) : bool := (fst a =? fst b) && Bool.eqb (snd a) (snd b).
(** Cell (a, b) of plane number [p] of a stack of g x g planes *)
Definition cell (g p a b : Z) : Z := (p * g + a) * g + b.
(** One part of a complex number *)
Definition part (im_part : bool) (z : C) : R := if im_part then im z else re z.
Definition memory_of (a : nd C) (l : Z * bool) : R := part (snd l) (elem a [fst l]).
