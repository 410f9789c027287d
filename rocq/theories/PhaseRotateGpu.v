(** Model of phase rotation in GPU memory: visibility/sdp_phase_rotate.cu, and the GPU branches of visibility/sdp_phase_rotate.cpp.  Exact arithmetic;
    indices of threads are unsigned int, positions are int64_t and are modelled in Z (no overflow for arrays that fit in memory). *)
From Coq Require Import Reals String.
From Verif Require Import Base Mem Checks CRing Cplx Dft PhaseRotate Gpu GpuLaunch.
Open Scope Z_scope.

(** blockDim.x * blockIdx.x + threadIdx.x has the type unsigned int *)
Definition u32 (x : Z) : Z := x mod 4294967296.

(** double3 or float3 *)
Definition vec3 := (R * R * R)%type.
(** An array of numbers as an array of double3 or float3, and back *)
Definition as_rows (x : nd R) : nd vec3 :=
  mk_nd [product (shape x) / 3] (fun idx => let i := hd 0 idx in (elem x [3 * i], elem x [3 * i + 1], elem x [3 * i + 2])).
Definition of_rows (sh : list Z) (y : nd vec3) : nd R :=
  mk_nd sh (fun idx => let k := hd 0 idx in let '(a, b, c) := elem y [k / 3] in if k mod 3 =? 0 then a else if k mod 3 =? 1 then b else c).

(** phase_rotate.cu 32-35 *)
Definition rotate_row (m : Z -> R) (q : vec3) : vec3 :=
  let '(x, y, z) := q in
  (m 0%Z * x + m 1%Z * y + m 2%Z * z, m 3%Z * x + m 4%Z * y + m 5%Z * z, m 6%Z * x + m 7%Z * y + m 8%Z * z)%R.
(** rotate_uvw, phase_rotate.cu 12-37, for the thread (x, y, z), on arrays of [size] rows.  [alias] = uvw_in and uvw_out are the same memory. *)
Definition rotate_uvw_thread (alias : bool) (num : Z) (m : Z -> R) (uvw_in : nd vec3) (size : Z) (id : Z * Z * Z) : option (list (op Z vec3)) :=
  let '(x, _, _) := id in
  let i := u32 x in
  if num <=? i then Some [] else
  let* upd := if alias then Some (rotate_row m) else let* q := rd uvw_in [i] in Some (fun _ => rotate_row m q) in
  if in_shape [size] [i] then Some [Update i upd] else None.

(** rotate_vis, phase_rotate.cu 43-85, for the thread (x, y, z), on arrays of [size] visibilities *)
Definition rotate_vis_thread (alias : bool) (nt nb nc np : Z) (f0 df dl dm dn : R) (uvw : nd R) (vis_in : nd C) (size : Z) (id : Z * Z * Z) : option (list (op Z C)) :=
  let '(x, y, z) := id in
  let b := u32 x in let c := u32 y in let t := u32 z in
  if (4 <? np) || (nb <=? b) || (nc <=? c) || (nt <=? t) then Some [] else
  let* uu := rd uvw [3 * (nb * t + b)] in
  let* vv := rd uvw [3 * (nb * t + b) + 1] in
  let* ww := rd uvw [3 * (nb * t + b) + 2] in
  let inv_wavelength := ((f0 + IZR c * df) / c_0)%R in
  let phase := (2 * PI * inv_wavelength * (uu * dl + vv * dm + ww * dn))%R in
  let phasor := cis phase in
  for_ 0 np (fun p ops =>
    let i_vis := np * (nc * (nb * t + b) + c) + p in
    let* upd := if alias then Some (Cmul phasor) else let* v := rd vis_in [i_vis] in Some (fun _ => Cmul phasor v) in
    if in_shape [size] [i_vis] then Some (ops ++ [Update i_vis upd]) else None) [].

(** phase_rotate.cpp 164-183: the kernel for the types *)
Definition rotate_uvw_kernel (uvw_in uvw_out : option mem) : option string :=
  if (mtype uvw_in =? MEM_DOUBLE) && (mtype uvw_out =? MEM_DOUBLE) then Some "rotate_uvw<double3>"%string
  else if (mtype uvw_in =? MEM_FLOAT) && (mtype uvw_out =? MEM_FLOAT) then Some "rotate_uvw<float3>"%string
  else None.
(** phase_rotate.cpp 331-348 *)
Definition rotate_vis_kernel (uvw vis_in vis_out : option mem) : option string :=
  if (mtype uvw =? MEM_DOUBLE) && (mtype vis_in =? MEM_COMPLEX_DOUBLE) && (mtype vis_out =? MEM_COMPLEX_DOUBLE) then Some "rotate_vis<double3, double2>"%string
  else if (mtype uvw =? MEM_FLOAT) && (mtype vis_in =? MEM_COMPLEX_FLOAT) && (mtype vis_out =? MEM_COMPLEX_FLOAT) then Some "rotate_vis<float3, float2>"%string
  else None.

(** sdp_phase_rotate_uvw, phase_rotate.cpp 87-202, for arrays in GPU memory: status and coordinates once the kernel has ended *)
Definition gpu_phase_rotate_uvw (orig new : option sky_coord) (alias : bool) (uvw_in uvw_out : option mem) (in_d out_d : nd R) (st st' : error) (r : nd R) : Prop :=
  if failed st then st' = st /\ r = out_d else
  let st := check_writeable uvw_out st in
  let (md, st) := get_uvw_metadata uvw_in st in
  let '(ty, loc, nt, nb) := match md with Some x => x | None => (MEM_VOID, MEM_CPU, 0, 0) end in
  let st := check_uvw uvw_out ty loc nt nb st in
  if failed st then st' = st /\ r = out_d else
  let mat := rot_matrix orig new in
  let num_total := nt * nb in
  let name := rotate_uvw_kernel uvw_in uvw_out in
  let st := match name with Some _ => st | None => ERR_DATA_TYPE end in
  exists y, launch_kernel (fun a _ => a) name (blocks_of num_total 256, 1, 1) (256, 1, 1)
      (rotate_uvw_thread alias num_total mat (as_rows in_d) (product (shape out_d) / 3)) st (as_rows out_d) st' y /\
    r = if failed st' then out_d else of_rows (shape out_d) y.

(** sdp_phase_rotate_vis, phase_rotate.cpp 205-367, for arrays in GPU memory *)
Definition gpu_phase_rotate_vis (orig new : option sky_coord) (f0 df : R) (alias : bool) (uvw vis_in vis_out : option mem)
    (uvw_d : nd R) (in_d out_d : nd C) (st st' : error) (r : nd C) : Prop :=
  if failed st then st' = st /\ r = out_d else
  let st := check_writeable vis_out st in
  let st := check_location vis_out (location uvw) st in
  let (md, st) := get_vis_metadata vis_out st in
  let '(ty, loc, nt, nb, nc, np) := match md with Some x => x | None => (MEM_VOID, MEM_CPU, 0, 0, 0, 0) end in
  let st := check_vis vis_in ty (location uvw) nt nb nc np st in
  let st := check_uvw uvw MEM_VOID (location uvw) nt nb st in
  if failed st then st' = st /\ r = out_d else
  let d_a := (- (sky_value new 0 - sky_value orig 0))%R in
  let sin_d_a := sin d_a in let cos_d_a := cos d_a in
  let sin_dec0 := sin (sky_value orig 1) in let cos_dec0 := cos (sky_value orig 1) in
  let sin_dec := sin (sky_value new 1) in let cos_dec := cos (sky_value new 1) in
  let l1 := (cos_dec * - sin_d_a)%R in
  let m1 := (cos_dec0 * sin_dec - sin_dec0 * cos_dec * cos_d_a)%R in
  let n1 := (sin_dec0 * sin_dec + cos_dec0 * cos_dec * cos_d_a)%R in
  let dl := (0 - l1)%R in let dm := (0 - m1)%R in let dn := (1 - n1)%R in
  let name := rotate_vis_kernel uvw vis_in vis_out in
  let st := match name with Some _ => st | None => ERR_DATA_TYPE end in
  launch_kernel Cadd name (blocks_of nb 128, blocks_of nc 2, blocks_of nt 2) (128, 2, 2)
    (rotate_vis_thread alias nt nb nc np f0 df dl dm dn uvw_d in_d (product (shape out_d))) st out_d st' r.
