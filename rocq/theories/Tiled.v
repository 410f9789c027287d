(** Model of the CPU code of visibility/sdp_tiled_functions.cpp.  Arithmetic on coordinates is
    exact ([inv_tile_size] is the exact quotient, floor/ceil of an exact quotient of integers are
    integer divisions, the conversions to int do not overflow).  The arrays are accessed in the
    code through raw C-contiguous pointers: [uvw] is nt x nb x 3, flat outputs are 1-D. *)
From Verif Require Import Base QNum Clamp.
Open Scope Z_scope.

(** Parameters: support, grid_size, tile_size_u, tile_size_v, cell_size_rad *)
Record tparams := mk_tparams { support : Z; grid_size : Z; tile_u : Z; tile_v : Z; cell : Q }.

(** 332-342, 530-541, 736-745 *)
Definition num_tiles1 (P : tparams) (ts : Z) : Z := cdiv (grid_size P + ts - 1) ts.
Definition num_tiles_u (P : tparams) : Z := num_tiles1 P (tile_u P).
Definition num_tiles (P : tparams) : Z := num_tiles1 P (tile_u P) * num_tiles1 P (tile_v P).
Definition top_left (P : tparams) (ts : Z) : Z :=
  let grid_centre := cdiv (grid_size P) 2 in
  let ctile := cdiv grid_centre ts in grid_centre - ctile * ts - cdiv ts 2.

Definition floor_div (a b : Z) : Z := a / b.
Definition ceil_div (a b : Z) : Z := - (- a / b).

(** TILE_RANGES 11-20 as called at 81-86, 184-189, 265-270: the second argument (U_MIN) and the
    fourth (V_MIN) are both tile_v_min, so tile_u_min keeps its initial value 0. *)
Definition tile_ranges (P : tparams) (grid_u grid_v : Z) : Z * Z * Z * Z :=
  let tile_u_min := 0 in
  let rel_u := grid_u - top_left P (tile_u P) in
  let rel_v := grid_v - top_left P (tile_v P) in
  let tile_v_min := floor_div (rel_u - support P) (tile_u P) in
  let tile_u_max := ceil_div (rel_u + support P + 1) (tile_u P) in
  let tile_v_min := floor_div (rel_v - support P) (tile_v P) in
  let tile_v_max := ceil_div (rel_v + support P + 1) (tile_v P) in
  (tile_u_min, tile_u_max, tile_v_min, tile_v_max).

(** 71-74, 174-177, 255-258 *)
Definition inside (P : tparams) (gu gv : Z) : bool :=
  (gu + support P <? grid_size P) && (gu - support P >=? 0) && (gv + support P <? grid_size P) && (gv - support P >=? 0).

(** 63-65, 166-168: pos_u = uvw[...] * (freq / C_0) * grid_scale *)
Definition position (P : tparams) (x f : Q) : Q := (x * (f / C_0) * (inject_Z (grid_size P) * cell P))%Q.
(** 67-70 *)
Definition grid_pos (P : tparams) (pos : Q) : Z := qround pos + cdiv (grid_size P) 2.

(** The loop nest shared by sdp_tile_count_simple 52-101, sdp_bucket_sort_simple 147-206 and
    tiled_indexing 231-288, with the statement run for each tile ([hit]) and the "else" branch. *)
Definition visit {S} (P : tparams) (num_times num_baselines num_channels : Z) (uvw freqs : nd Q)
    (hit : Z -> Q -> Q -> Z -> Z -> S -> option S) (skip : S -> option S) (s : S) : option S :=
  for_ 0 num_times (fun i_time => for_ 0 num_baselines (fun i_baseline => for_ 0 num_channels (fun i_channel s =>
    let i_vis := num_channels * (num_baselines * i_time + i_baseline) + i_channel in
    let* f := rd freqs [i_channel] in
    let* u := rd uvw [i_time; i_baseline; 0] in
    let* v := rd uvw [i_time; i_baseline; 1] in
    let pos_u := position P u f in let pos_v := position P v f in
    let grid_u := grid_pos P pos_u in let grid_v := grid_pos P pos_v in
    if inside P grid_u grid_v then
      let '(u0, u1, v0, v1) := tile_ranges P grid_u grid_v in
      for_ v0 v1 (fun pv => for_ u0 u1 (fun pu => hit i_vis pos_u pos_v pu pv)) s
    else skip s))) s.

(** sdp_tile_count_simple 32-103: (num_points_in_tiles, num_skipped) *)
Definition tile_count (P : tparams) nt nb nc uvw freqs (st : nd Z * nd Z) : option (nd Z * nd Z) :=
  visit P nt nb nc uvw freqs
    (fun _ _ _ pu pv st => let '(pts, sk) := st in
       let* x := rd pts [pu + pv * num_tiles_u P] in
       let* pts := wr pts [pu + pv * num_tiles_u P] (x + 1) in Some (pts, sk))
    (fun st => let '(pts, sk) := st in let* x := rd sk [0] in let* sk := wr sk [0] (x + 1) in Some (pts, sk)) st.

(** sdp_prefix_sum 106-122 *)
Definition prefix_sum (n : Z) (pts offs : nd Z) : option (nd Z) :=
  let* (offs, s) := for_ 0 n (fun i st => let '(offs, s) := st in
    let* x := rd pts [i] in
    let* offs := wr offs [i] s in Some (offs, s + x)) (offs, 0) in
  wr offs [n] s.

(** sdp_count_and_prefix_sum 308-393, double precision on the CPU: outputs cleared first;
    returns (tile_offsets, num_points_in_tiles, num_skipped, num_visibilities) *)
Definition clear (a : nd Z) : nd Z := mk_nd (shape a) (fun _ => 0).
Definition count_and_prefix_sum (P : tparams) nt nb nc uvw freqs (offs pts sk : nd Z) : option (nd Z * nd Z * nd Z * Z) :=
  let* (pts, sk) := tile_count P nt nb nc uvw freqs (clear pts, clear sk) in
  let* offs := prefix_sum (num_tiles P) pts (clear offs) in
  let* nv := rd offs [num_tiles P] in
  Some (offs, pts, sk, nv).

(** Elements 190-201, 271-278: the slot is taken from and incremented in tile_offsets.  The
    parallel output arrays (all of the same length) are one array of entries. *)
Definition put {E} (t : Z) (e : E) (st : nd Z * nd E) : option (nd Z * nd E) :=
  let '(offs, out) := st in
  let* off := rd offs [t] in
  let* offs := wr offs [t] (off + 1) in
  let* out := wr out [off] e in Some (offs, out).

(** sdp_bucket_sort_simple 125-207.  An entry is (uu, vv, vis, weight, tile); [vis] and [weight]
    are the flat arrays as read through the pointers of the call, indexed with one polarisation. *)
Definition bucket_sort {V W} (P : tparams) nt nb nc uvw freqs (vis : nd V) (weight : nd W)
    (st : nd Z * nd (Q * Q * V * W * Z)) :=
  visit P nt nb nc uvw freqs
    (fun i_vis pu_ pv_ pu pv st =>
       let* v := rd vis [i_vis] in let* w := rd weight [i_vis] in
       put (pu + pv * num_tiles_u P) (pu_, pv_, v, w, pv * 32768 + pu) st)
    (fun st => Some st) st.

(** tiled_indexing 210-289.  An entry is (vis_index, tile). *)
Definition tiled_indexing (P : tparams) nt nb nc uvw freqs (st : nd Z * nd (Z * Z)) :=
  visit P nt nb nc uvw freqs
    (fun i_vis _ _ pu pv st => put (pu + pv * num_tiles_u P) (i_vis, pv * 32768 + pu) st)
    (fun st => Some st) st.

(** The arrays sorted_uu and sorted_vv of sdp_tiled_indexing 710-795 on the CPU: cleared, never
    written. *)
Definition tiled_indexing_uu (sorted_uu : nd Q) : nd Q := mk_nd (shape sorted_uu) (fun _ => 0%Q).
(** sdp_bucket_sort 576-603: the documented complex array [vis] is passed as an array of real
    numbers: flat component 2k is the real part of visibility k, 2k+1 its imaginary part. *)
Definition as_reals (vis : nd (Q * Q)) : nd Q :=
  mk_nd [2 * dim vis 0] (fun idx => let k := nth 0 idx 0 in
    if Z.even k then fst (elem vis [k / 2]) else snd (elem vis [k / 2])).

(** sdp_count_and_prefix_sum with single precision coordinates on the CPU, 366-393: no branch is
    taken and no error is set; the cleared arrays are the result. *)
Definition count_and_prefix_sum_float (offs pts sk : nd Z) (num_visibilities : Z) : nd Z * nd Z * nd Z * Z :=
  (clear offs, clear pts, clear sk, num_visibilities).
