(** Model of the point-source DFT in GPU memory: visibility/sdp_dft.cu, and the GPU branches of visibility/sdp_dft.cpp.  Exact arithmetic; positions
    are computed in int as in the code. *)
From Coq Require Import Reals String.
From Verif Require Import Base Mem Checks CRing Cplx Clamp Dft Gpu GpuLaunch.
Open Scope Z_scope.

(** dft.cu 60-94 and 147-181: the loop over components; [factor] is 1 in v00 and the inverse wavelength in v01.  Directions are elements of three numbers. *)
Definition gpu_accumulate (ncomp npol nchan c : Z) (factor uu vv ww : R) (dirs : nd R) (flux local : nd C) : option (nd C) :=
  for_ 0 ncomp (fun s local =>
    let* l := rd dirs [3 * s] in
    let* m := rd dirs [3 * s + 1] in
    let* n := rd dirs [3 * s + 2] in
    let phase := (-2 * PI * factor * (l * uu + m * vv + n * ww))%R in
    let phasor := cis phase in
    let* i_pol_start := INDEX_3D nchan npol s c 0 in
    if npol =? 1 then
      let* f := rd flux [i_pol_start] in
      let* x := rd local [0] in
      wr local [0] (Cadd x (Cmul phasor f))
    else if npol =? 4 then
      for_ 0 4 (fun p local =>
        let* f := rd flux [i_pol_start + p] in
        let* x := rd local [p] in
        wr local [p] (Cadd x (Cmul phasor f))) local
    else Some local) local.

(** dft.cu 96-104 and 183-191: the writes of a thread, in order, to an array of [size] elements *)
Definition gpu_write_out (npol nchan nbase t b c size : Z) (local : nd C) : option (list (op Z C)) :=
  for_ 0 npol (fun p ops =>
    let* i_out := INDEX_4D nbase nchan npol t b c p in
    let* x := rd local [p] in
    if in_shape [size] [i_out] then Some (ops ++ [Update i_out (fun _ => x)]) else None) [].

(** dft_point_v00, dft.cu 18-105, for the thread with indices (x, y, z) *)
Definition dft_v00_thread (ncomp npol nchan nbase ntime : Z) (dirs : nd R) (flux : nd C) (uvw : nd R) (size : Z) (id : Z * Z * Z) : option (list (op Z C)) :=
  let '(x, y, z) := id in
  let b := int_of x in let c := int_of y in let t := int_of z in
  if (4 <? npol) || (nbase <=? b) || (nchan <=? c) || (ntime <=? t) then Some [] else
  let local := mk_nd [4] (fun _ => C0) in
  let* i_uvw := INDEX_3D nbase nchan t b c in
  let* uu := rd uvw [3 * i_uvw] in
  let* vv := rd uvw [3 * i_uvw + 1] in
  let* ww := rd uvw [3 * i_uvw + 2] in
  let* local := gpu_accumulate ncomp npol nchan c 1 uu vv ww dirs flux local in
  gpu_write_out npol nchan nbase t b c size local.

(** The macro INDEX_2D, dft.cu 8 *)
Definition INDEX_2D (N1 I2 I1 : Z) : option Z := let* a := to_int (N1 * I2) in to_int (a + I1).
(** dft_point_v01, dft.cu 111-192 *)
Definition dft_v01_thread (ncomp npol nchan nbase ntime : Z) (dirs : nd R) (flux : nd C) (uvw : nd R) (f0 df : R) (size : Z) (id : Z * Z * Z) : option (list (op Z C)) :=
  let '(x, y, z) := id in
  let b := int_of x in let c := int_of y in let t := int_of z in
  if (4 <? npol) || (nbase <=? b) || (nchan <=? c) || (ntime <=? t) then Some [] else
  let local := mk_nd [4] (fun _ => C0) in
  let* i_uvw := INDEX_2D nbase t b in
  let* uu := rd uvw [3 * i_uvw] in
  let* vv := rd uvw [3 * i_uvw + 1] in
  let* ww := rd uvw [3 * i_uvw + 2] in
  let inv_wavelength := ((f0 + IZR c * df) / c_0)%R in
  let* local := gpu_accumulate ncomp npol nchan c inv_wavelength uu vv ww dirs flux local in
  gpu_write_out npol nchan nbase t b c size local.

(** dft.cpp 207-214 and 464-471 *)
Definition vis_threads : dim3 := (128, 2, 2).
Definition vis_blocks (nbase nchan ntime : Z) : dim3 := (blocks_of nbase 128, blocks_of nchan 2, blocks_of ntime 2).
(** dft.cpp 215-235 and 472-492: the kernel for the types *)
Definition dft_kernel (fn : string) (dirs flux uvw vis : option mem) : option string :=
  if (mtype dirs =? MEM_DOUBLE) && (mtype flux =? MEM_COMPLEX_DOUBLE) && (mtype uvw =? MEM_DOUBLE) && (mtype vis =? MEM_COMPLEX_DOUBLE)
  then Some (fn ++ "<double3, double2, double3, double2>")%string
  else if (mtype dirs =? MEM_DOUBLE) && (mtype flux =? MEM_COMPLEX_DOUBLE) && (mtype uvw =? MEM_DOUBLE) && (mtype vis =? MEM_COMPLEX_FLOAT)
  then Some (fn ++ "<double3, double2, double3, float2>")%string
  else None.

(** sdp_dft_point_v00, dft.cpp 150-250, for arrays in GPU memory: status and visibilities once the kernel has ended *)
Definition gpu_dft_v00 (dirs flux uvw vis : option mem) (dirs_d : nd R) (flux_d : nd C) (uvw_d : nd R) (vis_d : nd C) (st st' : error) (r : nd C) : Prop :=
  let st := check_params_v00 dirs flux uvw vis st in
  if failed st then st' = st /\ r = vis_d else
  let nt := int_of (shape_dim vis 0) in let nb := int_of (shape_dim vis 1) in let nc := int_of (shape_dim vis 2) in let np := int_of (shape_dim vis 3) in
  let ncomp := int_of (shape_dim dirs 0) in
  let name := dft_kernel "dft_point_v00" dirs flux uvw vis in
  let st := match name with Some _ => st | None => ERR_DATA_TYPE end in
  launch_kernel Cadd name (vis_blocks nb nc nt) vis_threads (dft_v00_thread ncomp np nc nb nt dirs_d flux_d uvw_d (product (shape vis_d))) st vis_d st' r.

(** sdp_dft_point_v01, dft.cpp 400-508, for arrays in GPU memory *)
Definition gpu_dft_v01 (dirs flux uvw vis : option mem) (dirs_d : nd R) (flux_d : nd C) (uvw_d : nd R) (f0 df : R) (vis_d : nd C) (st st' : error) (r : nd C) : Prop :=
  let st := check_params_v01 dirs flux uvw vis st in
  if failed st then st' = st /\ r = vis_d else
  let nt := int_of (shape_dim vis 0) in let nb := int_of (shape_dim vis 1) in let nc := int_of (shape_dim vis 2) in let np := int_of (shape_dim vis 3) in
  let ncomp := int_of (shape_dim dirs 0) in
  let name := dft_kernel "dft_point_v01" dirs flux uvw vis in
  let st := match name with Some _ => st | None => ERR_DATA_TYPE end in
  launch_kernel Cadd name (vis_blocks nb nc nt) vis_threads (dft_v01_thread ncomp np nc nb nt dirs_d flux_d uvw_d f0 df (product (shape vis_d))) st vis_d st' r.
