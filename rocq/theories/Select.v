(** Model of the selection of visibilities by the w-stacking / w-towers drivers: coordinate
    bounds, plane and sub-grid index ranges and visibility counts (exact rationals). *)
From Verif Require Import Base Clamp.

(** std::min / std::max with an accumulator that starts at +/- INFINITY (None). *)
Definition std_min (a : Q) (b : option Q) : option Q :=
  match b with None => Some a | Some b => Some (if Qltb b a then b else a) end.
Definition std_max (a : Q) (b : option Q) : option Q :=
  match b with None => Some a | Some b => Some (if Qltb a b then b else a) end.

(** uvw_bounds_all, sdp_gridder_utils.cpp 681-721 and sdp_gridder_uvw_bounds_all 1992-2037 (CPU);
    the state is (uvw_min[3], uvw_max[3]). *)
Definition bounds_row (uvw : nd Q) (f0 df : Q) (s_in e_in : nd Z) (i : Z)
    (st : nd (option Q) * nd (option Q)) : option (nd (option Q) * nd (option Q)) :=
  let* s := rd s_in [i] in
  let* e := rd e_in [i] in
  if s >=? e then Some st else
  for_ 0 3 (fun j st =>
    let* u := rd uvw [i; j] in
    let* mn := rd (fst st) [j] in
    let* mx := rd (snd st) [j] in
    let u0 := (f0 * u / C_0)%Q in
    let du := (df * u / C_0)%Q in
    let first := (u0 + inject_Z s * du)%Q in
    let last := (u0 + inject_Z (e - 1) * du)%Q in
    let (lo, hi) := if Qle_bool 0 u then (first, last) else (last, first) in
    let* a := wr (fst st) [j] (std_min lo mn) in
    let* b := wr (snd st) [j] (std_max hi mx) in
    Some (a, b)) st.

Definition uvw_bounds (uvw : nd Q) (f0 df : Q) (s_in e_in : nd Z)
    : option (nd (option Q) * nd (option Q)) :=
  for_ 0 (dim uvw 0) (bounds_row uvw f0 df s_in e_in)
    (mk_nd [3] (fun _ => None), mk_nd [3] (fun _ => None)).

Definition eta : Q := 1 # 100000.

(** sdp_grid_wstack_wtower.cpp 322-327 (degrid) and 580-585 (grid): first and last sub-grid or
    w-stack plane for coordinates between [lo] and [hi] and spacing [d]. *)
Definition first_cell (lo d : Q) : Z := Qfloor (lo / d + (1 # 2) - eta).
Definition last_cell (hi d : Q) : Z := Qfloor (hi / d + (1 # 2) + eta).

(** sdp_grid_wstack_wtower.cpp 106-109, 355-356, 406-409, 613-614, 656-659: range of cell [i] *)
Definition cell_min (d : Q) (i : Z) : Q := (inject_Z i * d - d / 2)%Q.
Definition cell_max (d : Q) (i : Z) : Q := (inject_Z (i + 1) * d - d / 2)%Q.

(** sdp_gridder_wtower_uvw.cpp 786-791, 995-1000 *)
Definition first_w_plane (lo w_step : Q) (off : Z) : Z := Qfloor (lo / w_step - eta) - off.
Definition last_w_plane (hi w_step : Q) (off : Z) : Z := Qceiling (hi / w_step + eta) - off + 1.

(** sdp_gridder_wtower_uvw.cpp 97-102: w range of one plane *)
Definition plane_min (w_step : Q) (off p : Z) : Q := (inject_Z (p + off - 1) * w_step)%Q.
Definition plane_max (w_step : Q) (off p : Z) : Q := (inject_Z (p + off) * w_step)%Q.

(** Number of visibilities of sub-grid (iu, iv) on a w-plane, as count_visibilities does
    (sdp_grid_wstack_wtower.cpp 97-115): clamp in u and v for all rows, then sum the lengths. *)
Definition count_subgrid (uvw : nd Q) (f0 df : Q) (s_w e_w s_uv e_uv : nd Z) (d : Q) (iu iv : Z)
    : option Z :=
  let* (so, eo) := clamp_uv uvw f0 df s_w e_w (cell_min d iu) (cell_max d iu)
                     (cell_min d iv) (cell_max d iv) s_uv e_uv (-1) (-1) in
  sum_diff_rows eo so 0 (dim eo 0).

(** The work of one task: the same for the rows of the task only (sdp_grid_wstack_wtower.cpp
    406-421, 656-671); the value added to vis_count_check. *)
Definition count_task (uvw : nd Q) (f0 df : Q) (s_w e_w s_uv e_uv : nd Z) (d : Q) (iu iv r0 r1 : Z)
    : option Z :=
  let* (so, eo) := clamp_uv uvw f0 df s_w e_w (cell_min d iu) (cell_max d iu)
                     (cell_min d iv) (cell_max d iv) s_uv e_uv r0 r1 in
  sum_diff_rows eo so r0 r1.
