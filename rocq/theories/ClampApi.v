(** Model of the entry points of grid_data/sdp_gridder_clamp_channels.cpp with their views.  The contents of the five arrays are flat; a view reaches the
    element at the dot product of its strides with the index (sdp_mem_view.h 95-140, compiled with NDEBUG so that there is no bounds assertion).
    A failed check leaves the pointer of the view set and its strides zero (sdp_mem_view.h 362-368, 414-420), and the loops run all the same.
    Arrays in CPU memory; in a build without CUDA the other branch only reports errors. *)
From Verif Require Import Base Mem Checks Clamp.
Open Scope Z_scope.

(** Reading and writing through a view: a null pointer is undefined behaviour *)
Definition vrd {A} (v : view) (d : nd A) (idx : list Z) : option A :=
  match v_ptr v with Some _ => rd d [dot (v_stride v) idx] | None => None end.
Definition vwr {A} (v : view) (d : nd A) (idx : list Z) (x : A) : option (nd A) :=
  match v_ptr v with Some _ => wr d [dot (v_stride v) idx] x | None => None end.

(** The five views, 27-34 and 88-95 *)
Definition clamp_views (ty : Z) (uvw si ei so eo : option mem) (st : error) : view * view * view * view * view * error :=
  let (v1, st) := check_and_view_const uvw ty 2 MEM_CPU st in
  let (v2, st) := check_and_view_const si MEM_INT 1 MEM_CPU st in
  let (v3, st) := check_and_view_const ei MEM_INT 1 MEM_CPU st in
  let (v4, st) := check_and_view so MEM_INT 1 MEM_CPU st in
  let (v5, st) := check_and_view eo MEM_INT 1 MEM_CPU st in
  (v1, v2, v3, v4, v5, st).

(** sdp_gridder_clamp_channels_single, 10-66 and 155-206.  Inputs and outputs are different arrays. *)
Definition clamp_single_api (uvw : option mem) (dim : Z) (f0 df : Q) (si ei : option mem) (mn mx : Q) (so eo : option mem) (start_row end_row : Z)
    (uvw_d : nd Q) (si_d ei_d so_d eo_d : nd Z) (st : error) : option (error * (nd Z * nd Z)) :=
  if failed st then Some (st, (so_d, eo_d)) else
  let (r0, r1) := if (start_row <? 0) || (end_row <? 0) then (0, shape_dim uvw 0) else (start_row, end_row) in
  if negb (location uvw =? MEM_CPU) then Some (if location uvw =? MEM_GPU then ERR_RUNTIME else st, (so_d, eo_d)) else
  if (mtype uvw =? MEM_DOUBLE) || (mtype uvw =? MEM_FLOAT) then
    let '(v1, v2, v3, v4, v5, st) := clamp_views (mtype uvw) uvw si ei so eo st in
    let* out := for_ r0 r1 (fun i o =>
      let* u := vrd v1 uvw_d [i; dim] in
      let* s := vrd v2 si_d [i] in
      let* e := vrd v3 ei_d [i] in
      let* (s', e') := clamp1 u f0 df s e mn mx in
      let* so_d := vwr v4 (fst o) [i] s' in
      let* eo_d := vwr v5 (snd o) [i] e' in
      Some (so_d, eo_d)) (so_d, eo_d) in
    Some (st, out)
  else Some (ERR_DATA_TYPE, (so_d, eo_d)).

(** sdp_gridder_clamp_channels_uv, 69-150 and 253-303 *)
Definition clamp_uv_api (uvw : option mem) (f0 df : Q) (si ei : option mem) (mnu mxu mnv mxv : Q) (so eo : option mem) (start_row end_row : Z)
    (uvw_d : nd Q) (si_d ei_d so_d eo_d : nd Z) (st : error) : option (error * (nd Z * nd Z)) :=
  if failed st then Some (st, (so_d, eo_d)) else
  let (r0, r1) := if (start_row <? 0) || (end_row <? 0) then (0, shape_dim uvw 0) else (start_row, end_row) in
  if negb (location uvw =? MEM_CPU) then Some (if location uvw =? MEM_GPU then ERR_RUNTIME else st, (so_d, eo_d)) else
  if (mtype uvw =? MEM_DOUBLE) || (mtype uvw =? MEM_FLOAT) then
    let '(v1, v2, v3, v4, v5, st) := clamp_views (mtype uvw) uvw si ei so eo st in
    let* out := for_ r0 r1 (fun i o =>
      let* u := vrd v1 uvw_d [i; 0] in
      let* v := vrd v1 uvw_d [i; 1] in
      let* s := vrd v2 si_d [i] in
      let* e := vrd v3 ei_d [i] in
      let* (s', e') := clamp2 u v f0 df s e mnu mxu mnv mxv in
      let* so_d := vwr v4 (fst o) [i] s' in
      let* eo_d := vwr v5 (snd o) [i] e' in
      Some (so_d, eo_d)) (so_d, eo_d) in
    Some (st, out)
  else Some (ERR_DATA_TYPE, (so_d, eo_d)).
