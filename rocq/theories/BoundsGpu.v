(** Model of sdp_gridder_uvw_bounds_all on arrays in GPU memory: grid_data/sdp_gridder_utils.cu 297-334 and sdp_gridder_utils.cpp 1992-2107.
    Exact arithmetic.  The memory of the bounds: location (false, j) is uvw_min[j], (true, j) is uvw_max[j]; None is +INFINITY or -INFINITY. *)
From Coq Require Import String.
From Verif Require Import Base Mem Checks Clamp GpuLaunch GpuCas PhaseRotateGpu.
Open Scope Z_scope.

Definition bound_loc := (bool * Z)%type.
Definition loc_eqb (a b : bound_loc) : bool := Bool.eqb (fst a) (fst b) && (snd a =? snd b).
Definition bits_eqb (a b : option Q) : bool :=
  match a, b with None, None => true | Some a, Some b => (Qnum a =? Qnum b) && Pos.eqb (Qden a) (Qden b) | _, _ => false end.
(** val < value at a minimum, value < val at a maximum *)
Definition below_min (v r : option Q) : bool := match v, r with Some v, Some r => Qltb v r | Some _, None => true | None, _ => false end.
Definition above_max (r v : option Q) : bool := match v, r with Some v, Some r => Qltb r v | Some _, None => true | None, _ => false end.

(** .cu 297-334 *)
Definition bounds_thread (uvw : nd Q) (f0 df : Q) (s_in e_in : nd Z) (id : Z * Z * Z) : option (list (rmw bound_loc (option Q))) :=
  let '(x, _, _) := id in
  let i := u32 x in
  if dim uvw 0 <=? i then Some [] else
  let* s := rd s_in [i] in
  let* e := rd e_in [i] in
  if s >=? e then Some [] else
  let* u := rd uvw [i; 0] in let* v := rd uvw [i; 1] in let* w := rd uvw [i; 2] in
  let component j u :=
    let u0 := (f0 * u / C_0)%Q in
    let du := (df * u / C_0)%Q in
    if Qle_bool 0 u then [atomic_min below_min (false, j) (Some (u0 + inject_Z s * du)%Q); atomic_max above_max (true, j) (Some (u0 + inject_Z (e - 1) * du)%Q)]
    else [atomic_max above_max (true, j) (Some (u0 + inject_Z s * du)%Q); atomic_min below_min (false, j) (Some (u0 + inject_Z (e - 1) * du)%Q)] in
  Some (component 0 u ++ component 1 v ++ component 2 w).

(** The host code.  [mn], [mx]: the arrays of the caller.  Copies to and from the device succeed. *)
Definition bounds_kernel (uvws : option mem) : option string :=
  if mtype uvws =? MEM_DOUBLE then Some "sdp_gridder_uvw_bounds_all<double>"%string
  else if mtype uvws =? MEM_FLOAT then Some "sdp_gridder_uvw_bounds_all<float>"%string else None.
Definition gpu_uvw_bounds (uvws : option mem) (f0 df : Q) (start_chs end_chs : option mem) (uvw_d : nd Q) (s_d e_d : nd Z) (mn mx : nd (option Q))
    (st st' : error) (mn' mx' : nd (option Q)) : Prop :=
  if failed st then st' = st /\ mn' = mn /\ mx' = mx else
  let st := snd (check_and_view_const end_chs MEM_INT 1 MEM_GPU (snd (check_and_view_const start_chs MEM_INT 1 MEM_GPU st))) in
  let name := bounds_kernel uvws in
  let st := match name with Some _ => snd (check_and_view_const uvws (mtype uvws) 2 MEM_GPU st) | None => ERR_DATA_TYPE end in
  exists m', launch_cas loc_eqb bits_eqb name (blocks_of (shape_dim uvws 0) 256, 1, 1) (256, 1, 1) (bounds_thread uvw_d f0 df s_d e_d) st (fun _ => None) st' m' /\
    let result b := mk_nd [3] (fun idx => if failed st' then None else m' (b, hd 0 idx)) in
    mn' = result false /\ mx' = result true.
