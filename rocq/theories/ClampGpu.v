(** Model of the selection of channels in GPU memory: grid_data/sdp_gridder_clamp_channels.cu, and the GPU branches of grid_data/sdp_gridder_clamp_channels.cpp.
    Exact rational arithmetic, as in Clamp.v.  The two outputs are different arrays; an element of them is one location, that holds the pair of values of a row
    (only the thread of that row touches them).  The inputs are other arrays, or ([inp] = None) the outputs themselves. *)
From Coq Require Import String.
From Verif Require Import Base Mem Checks Clamp Gpu GpuLaunch GpuView PhaseRotateGpu.
Open Scope Z_scope.

(** The pair after the row has been processed; the result of clamp1 and clamp2 is always defined (C19_always_defined) *)
Definition or_keep (r : option (Z * Z)) (p : Z * Z) : Z * Z := match r with Some q => q | None => p end.
(** Row [i] of the inputs, if they are not the outputs *)
Definition row_in (inp : option (nd Z * nd Z)) (i : Z) : option (option (Z * Z)) :=
  match inp with None => Some None | Some (si, ei) => let* s := rd si [i] in let* e := rd ei [i] in Some (Some (s, e)) end.
Definition of_in (q : option (Z * Z)) (p : Z * Z) : Z * Z := match q with Some q => q | None => p end.

(** sdp_gridder_clamp_channels_single, clamp_channels.cu 9-54; [ns], [ne]: lengths of the outputs *)
Definition single_thread (uvw : nd Q) (dim : Z) (f0 df : Q) (start_row end_row : Z) (inp : option (nd Z * nd Z)) (mn mx : Q) (ns ne : Z) (id : Z * Z * Z)
    : option (list (op (list Z) (Z * Z))) :=
  let '(x, _, _) := id in
  let i := u32 x + start_row in
  if (end_row <=? i) || (Base.dim uvw 0 <=? i) then Some [] else
  let* u := rd uvw [i; dim] in
  let* q := row_in inp i in
  if in_shape [ns] [i] && in_shape [ne] [i]
  then Some [Update [i] (fun p => let '(s, e) := of_in q p in or_keep (clamp1 u f0 df s e mn mx) p)] else None.
(** sdp_gridder_clamp_channels_uv, clamp_channels.cu 57-124 *)
Definition uv_thread (uvw : nd Q) (f0 df : Q) (start_row end_row : Z) (inp : option (nd Z * nd Z)) (mnu mxu mnv mxv : Q) (ns ne : Z) (id : Z * Z * Z)
    : option (list (op (list Z) (Z * Z))) :=
  let '(x, _, _) := id in
  let i := u32 x + start_row in
  if (end_row <=? i) || (Base.dim uvw 0 <=? i) then Some [] else
  let* u := rd uvw [i; 0] in
  let* v := rd uvw [i; 1] in
  let* q := row_in inp i in
  if in_shape [ns] [i] && in_shape [ne] [i]
  then Some [Update [i] (fun p => let '(s, e) := of_in q p in or_keep (clamp2 u v f0 df s e mnu mxu mnv mxv) p)] else None.

(** The two outputs as one array *)
Definition zipped (so eo : nd Z) : nd (Z * Z) := mk_nd (shape so) (fun i => (elem so i, elem eo i)).
Definition firsts (y : nd (Z * Z)) : nd Z := mk_nd (shape y) (fun i => fst (elem y i)).
Definition seconds (sh : list Z) (y : nd (Z * Z)) : nd Z := mk_nd sh (fun i => snd (elem y i)).

(** Common to both functions, clamp_channels.cpp 205-249 and 302-348: the checks of the views and the launch *)
Definition gpu_clamp (single : bool) (uvw si ei so eo : option mem) (body : Z * Z * Z -> option (list (op (list Z) (Z * Z)))) (so_d eo_d : nd Z) (st st' : error) (r1 r2 : nd Z) : Prop :=
  let st := snd (check_and_view_const si MEM_INT 1 MEM_GPU st) in
  let st := snd (check_and_view_const ei MEM_INT 1 MEM_GPU st) in
  let st := snd (check_and_view so MEM_INT 1 MEM_GPU st) in
  let st := snd (check_and_view eo MEM_INT 1 MEM_GPU st) in
  let name :=
    if mtype uvw =? MEM_DOUBLE then Some (if single then "sdp_gridder_clamp_channels_single<double>" else "sdp_gridder_clamp_channels_uv<double>")%string
    else if mtype uvw =? MEM_FLOAT then Some (if single then "sdp_gridder_clamp_channels_single<float>" else "sdp_gridder_clamp_channels_uv<float>")%string else None in
  let st := match name with Some _ => snd (check_and_view_const uvw (mtype uvw) 2 MEM_GPU st) | None => ERR_DATA_TYPE end in
  exists y, launch_view (fun a _ => a) name (blocks_of (shape_dim uvw 0) 256, 1, 1) (256, 1, 1) body st (zipped so_d eo_d) st' y /\
    r1 = (if failed st' then so_d else firsts y) /\ r2 = (if failed st' then eo_d else seconds (shape eo_d) y).
(** clamp_channels.cpp 172-176, 269-273 *)
Definition clamp_bounds (n start_row end_row : Z) : Z * Z := if (start_row <? 0) || (end_row <? 0) then (0, n) else (start_row, end_row).
(** sdp_gridder_clamp_channels_single, clamp_channels.cpp 155-250, for uvw in GPU memory; [inp]: the contents of the inputs, None if they are the outputs *)
Definition gpu_clamp_single (uvw : option mem) (dim : Z) (f0 df : Q) (si ei : option mem) (mn mx : Q) (so eo : option mem) (start_row end_row : Z)
    (uvw_d : nd Q) (inp : option (nd Z * nd Z)) (so_d eo_d : nd Z) (st st' : error) (r1 r2 : nd Z) : Prop :=
  if failed st then st' = st /\ r1 = so_d /\ r2 = eo_d else
  let '(a, b) := clamp_bounds (shape_dim uvw 0) start_row end_row in
  gpu_clamp true uvw si ei so eo (single_thread uvw_d dim f0 df a b inp mn mx (Base.dim so_d 0) (Base.dim eo_d 0)) so_d eo_d st st' r1 r2.
(** sdp_gridder_clamp_channels_uv, clamp_channels.cpp 253-350, for uvw in GPU memory *)
Definition gpu_clamp_uv (uvw : option mem) (f0 df : Q) (si ei : option mem) (mnu mxu mnv mxv : Q) (so eo : option mem) (start_row end_row : Z)
    (uvw_d : nd Q) (inp : option (nd Z * nd Z)) (so_d eo_d : nd Z) (st st' : error) (r1 r2 : nd Z) : Prop :=
  if failed st then st' = st /\ r1 = so_d /\ r2 = eo_d else
  let '(a, b) := clamp_bounds (shape_dim uvw 0) start_row end_row in
  gpu_clamp false uvw si ei so eo (uv_thread uvw_d f0 df a b inp mnu mxu mnv mxv (Base.dim so_d 0) (Base.dim eo_d 0)) so_d eo_d st st' r1 r2.
