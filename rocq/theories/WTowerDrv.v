(** Model of sdp_gridder_wtower_uvw_degrid and sdp_gridder_wtower_uvw_grid (CPU, native FFT),
    grid_data/sdp_gridder_wtower_uvw.cpp 659-908 and 930-1122, in exact complex arithmetic.  The
    location checks are not modelled.  [pattern] is plan->w_pattern, [temp] the work area of
    the FFT plan; uninitialised scratch arrays are arguments. *)
From Verif Require Import Base CRing Cplx Clamp Select QNum Fft GridUtils Subgrid WTower.
Open Scope Z_scope.

(** sdp_mem_create_wrapper_for_slice: reading and writing one plane of the stack *)
Definition plane (sg : nd C) (i n : Z) : nd C := mk_nd [n; n] (fun idx => elem sg (i :: idx)).
Definition set_plane (sg : nd C) (i : Z) (d : nd C) : nd C :=
  mk_nd (shape sg) (fun idx => match idx with a :: rest => if a =? i then elem d rest else elem sg idx | [] => elem sg idx end).

(** sdp_fft_phase; sdp_fft_exec; sdp_fft_phase on one plane (e.g. 835-837, 874-876, 1024-1026) *)
Definition plane_fft (is_forward : Z) (d temp : nd C) : option (nd C) :=
  let* (e, r) := fft_exec_shift 2 is_forward false d temp in
  if failed e then None else Some r.

(** Bounds of w and the planes, 711-723 and 980-992: no selected visibility leaves infinite
    bounds, and converting those to int is undefined. *)
Definition w_planes (plan : wplan Cring) (uvws : nd Q) (f0 df : Q) (scs ecs : nd Z) (off_w : Z) : option (Z * Z) :=
  let* (c_min, c_max) := uvw_bounds uvws f0 df scs ecs in
  let* lo := elem c_min [2] in
  let* hi := elem c_max [2] in
  let* _ := to_int (Qfloor (lo / w_step plan - eta)) in
  let* _ := to_int (Qceiling (hi / w_step plan + eta)) in
  Some (first_w_plane lo (w_step plan) off_w, last_w_plane hi (w_step plan) off_w).

(** sdp_gridder_wtower_uvw_degrid 659-908 *)
Definition degrid_driver (plan : wplan Cring) (pattern subgrid_image : nd C) (off_u off_v off_w : Z) (f0 df : Q)
    (uvws : nd Q) (scs ecs : nd Z) (vis : nd C) (start_row end_row : Z) (w_image subgrids temp : nd C) : option (nd C) :=
  let df := driver_dfreq df in
  let (start_row, end_row) := driver_rows uvws start_row end_row in
  let n := subgrid_size plan in
  let w_support := w_support plan in
  let* (first, last) := w_planes plan uvws f0 df scs ecs off_w in
  let* w_image := scale_inv_array w_image subgrid_image pattern (first - cdiv w_support 2) in
  let* (w_image, subgrids) := for_ 0 w_support (fun i st =>
    let* d := plane_fft 1 (fst st) temp in
    let* w_image := scale_inv_array (fst st) (fst st) pattern 1 in
    Some (w_image, set_plane (snd st) i d)) (w_image, subgrids) in
  let* (_, _, vis) := for_ first (last + 1) (fun w_plane st =>
    let '(w_image, subgrids, vis) := st in
    let* (w_image, subgrids) :=
      if negb (w_plane =? first) then
        let* subgrids := shift_subgrids (A := Cring) subgrids in
        let* d := plane_fft 1 w_image temp in
        let* w_image := scale_inv_array w_image w_image pattern 1 in
        Some (w_image, set_plane subgrids (w_support - 1) d)
      else Some (w_image, subgrids) in
    let* vis := degrid plan w_plane off_u off_v off_w f0 df start_row end_row uvws scs ecs subgrids vis in
    Some (w_image, subgrids, vis)) (w_image, subgrids, vis) in
  Some vis.

(** sdp_gridder_wtower_uvw_grid 930-1122 *)
Definition grid_driver (plan : wplan Cring) (pattern vis : nd C) (uvws : nd Q) (scs ecs : nd Z) (f0 df : Q)
    (subgrid_image : nd C) (off_u off_v off_w : Z) (start_row end_row : Z) (temp : nd C) : option (nd C) :=
  let df := driver_dfreq df in
  let (start_row, end_row) := driver_rows uvws start_row end_row in
  let n := subgrid_size plan in
  let w_support := w_support plan in
  let* (first, last) := w_planes plan uvws f0 df scs ecs off_w in
  let w_image := mk_nd [n; n] (fun _ => C0) in
  let subgrids := mk_nd [w_support; n; n] (fun _ => C0) in
  let* (w_image, subgrids) := for_ first (last + 1) (fun w_plane st =>
    let* (w_image, subgrids) :=
      if negb (w_plane =? first) then
        let* w_image := scale_inv_array (fst st) (fst st) pattern 1 in
        let* d := plane_fft 0 (plane (snd st) 0 n) temp in
        let* w_image := accum_scale_array w_image d None 0 in
        let* subgrids := shift_subgrids (A := Cring) (snd st) in
        Some (w_image, set_plane subgrids (w_support - 1) (mk_nd [n; n] (fun _ => C0)))
      else Some st in
    let* subgrids := grid plan w_plane off_u off_v off_w f0 df start_row end_row uvws scs ecs vis subgrids in
    Some (w_image, subgrids)) (w_image, subgrids) in
  let* w_image := for_ 0 w_support (fun i w_image =>
    let* w_image := scale_inv_array w_image w_image pattern 1 in
    let* d := plane_fft 0 (plane subgrids i n) temp in
    accum_scale_array w_image d None 0) w_image in
  accum_scale_array subgrid_image w_image (Some pattern) (last + cdiv w_support 2 - 1).
