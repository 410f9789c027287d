(** Model of visibility/sdp_phase_rotate.cpp (CPU) and of the sky coordinates of utility/sdp_sky_coord.c.
    Arithmetic on coordinates and visibilities is exact; positions are int64_t and are modelled in Z
    (no overflow for arrays that fit in memory). *)
From Coq Require Import Reals.
From Verif Require Import Base Mem Checks CRing Cplx Sets Dft.
Open Scope Z_scope.

(** struct sdp_SkyCoord, sdp_sky_coord.c 9-14 (the type string is not modelled) *)
Record sky_coord := mk_sky { sky_epoch : R; sky_0 : R; sky_1 : R; sky_2 : R }.
(** sdp_sky_coord_create, 17-33 *)
Definition sky_create (c0 c1 c2 : R) : sky_coord := mk_sky 2000 c0 c1 c2.
(** sdp_sky_coord_value, 63-66 *)
Definition sky_value (c : option sky_coord) (dim : Z) : R :=
  match c with
  | Some c => if dim =? 0 then sky_0 c else if dim =? 1 then sky_1 c else if dim =? 2 then sky_2 c else 0
  | None => 0
  end.

(** rotate_uvw, sdp_phase_rotate.cpp 20-37.  [alias] = uvw_in and uvw_out are the same memory. *)
Definition rotate_uvw (alias : bool) (num : Z) (m : Z -> R) (uvw_in uvw_out : nd R) : option (nd R) :=
  for_ 0 num (fun i out =>
    let src := if alias then out else uvw_in in
    let i3 := i * 3 in
    let* uu := rd src [i3 + 0] in
    let* vv := rd src [i3 + 1] in
    let* ww := rd src [i3 + 2] in
    let* out := wr out [i3 + 0] (m 0%Z * uu + m 1%Z * vv + m 2%Z * ww)%R in
    let* out := wr out [i3 + 1] (m 3%Z * uu + m 4%Z * vv + m 5%Z * ww)%R in
    wr out [i3 + 2] (m 6%Z * uu + m 7%Z * vv + m 8%Z * ww)%R) uvw_out.

(** rotate_vis, 40-84 *)
Definition rotate_vis (alias : bool) (nt nb nc np : Z) (f0 df dl dm dn : R) (uvw : nd R) (vis_in vis_out : nd C) : option (nd C) :=
  for_ 0 nt (fun t => for_ 0 nb (fun b out =>
    let i_uvw := 3 * (nb * t + b) + 0 in
    let* uu := rd uvw [i_uvw + 0] in
    let* vv := rd uvw [i_uvw + 1] in
    let* ww := rd uvw [i_uvw + 2] in
    for_ 0 nc (fun c => 
      let inv_wavelength := ((f0 + IZR c * df) / c_0)%R in
      let phase := (2 * PI * inv_wavelength * (uu * dl + vv * dm + ww * dn))%R in
      let phasor := cis phase in
      for_ 0 np (fun p out =>
        let i_vis := np * (nc * (nb * t + b) + c) + p in
        let* x := rd (if alias then out else vis_in) [i_vis] in
        wr out [i_vis] (Cmul x phasor))) out)) vis_out.

(** The matrix of 119-133 *)
Definition rot_matrix (orig new : option sky_coord) (k : Z) : R :=
  let d_a := (- (sky_value new 0 - sky_value orig 0))%R in
  let d_d := (sky_value new 1 - sky_value orig 1)%R in
  if k =? 0 then cos d_a else if k =? 1 then 0 else if k =? 2 then sin d_a
  else if k =? 3 then sin d_a * sin d_d else if k =? 4 then cos d_d else if k =? 5 then - cos d_a * sin d_d
  else if k =? 6 then - sin d_a * cos d_d else if k =? 7 then sin d_d else if k =? 8 then cos d_a * cos d_d else 0.

(** sdp_phase_rotate_uvw, 87-205, for arrays in CPU memory; the contents are flat arrays. *)
Definition phase_rotate_uvw (orig new : option sky_coord) (alias : bool) (uvw_in uvw_out : option mem) (in_d out_d : nd R) (st : error)
  : option (error * nd R) :=
  if failed st then Some (st, out_d) else
  let st := check_writeable uvw_out st in
  let (md, st) := get_uvw_metadata uvw_in st in
  let '(ty, loc, nt, nb) := match md with Some x => x | None => (MEM_VOID, MEM_CPU, 0, 0) end in
  let st := check_uvw uvw_out ty loc nt nb st in
  if failed st then Some (st, out_d) else
  let mat := rot_matrix orig new in
  let num_total := nt * nb in
  if ((mtype uvw_in =? MEM_DOUBLE) && (mtype uvw_out =? MEM_DOUBLE)) || ((mtype uvw_in =? MEM_FLOAT) && (mtype uvw_out =? MEM_FLOAT)) then
    let* r := rotate_uvw alias num_total mat in_d out_d in Some (st, r)
  else Some (ERR_DATA_TYPE, out_d).

(** sdp_phase_rotate_vis, 208-340, for arrays in CPU memory *)
Definition phase_rotate_vis (orig new : option sky_coord) (f0 df : R) (alias : bool) (uvw vis_in vis_out : option mem)
    (uvw_d : nd R) (in_d out_d : nd C) (st : error) : option (error * nd C) :=
  if failed st then Some (st, out_d) else
  let st := check_writeable vis_out st in
  let st := check_location vis_out (location uvw) st in
  let (md, st) := get_vis_metadata vis_out st in
  let '(ty, loc, nt, nb, nc, np) := match md with Some x => x | None => (MEM_VOID, MEM_CPU, 0, 0, 0, 0) end in
  let st := check_vis vis_in ty (location uvw) nt nb nc np st in
  let st := check_uvw uvw MEM_VOID (location uvw) nt nb st in
  if failed st then Some (st, out_d) else
  let d_a := (- (sky_value new 0 - sky_value orig 0))%R in
  let sin_d_a := sin d_a in let cos_d_a := cos d_a in
  let sin_dec0 := sin (sky_value orig 1) in let cos_dec0 := cos (sky_value orig 1) in
  let sin_dec := sin (sky_value new 1) in let cos_dec := cos (sky_value new 1) in
  let l1 := (cos_dec * - sin_d_a)%R in
  let m1 := (cos_dec0 * sin_dec - sin_dec0 * cos_dec * cos_d_a)%R in
  let n1 := (sin_dec0 * sin_dec + cos_dec0 * cos_dec * cos_d_a)%R in
  let dl := (0 - l1)%R in let dm := (0 - m1)%R in let dn := (1 - n1)%R in
  if ((mtype uvw =? MEM_DOUBLE) && (mtype vis_in =? MEM_COMPLEX_DOUBLE) && (mtype vis_out =? MEM_COMPLEX_DOUBLE)) ||
     ((mtype uvw =? MEM_FLOAT) && (mtype vis_in =? MEM_COMPLEX_FLOAT) && (mtype vis_out =? MEM_COMPLEX_FLOAT)) then
    let* r := rotate_vis alias nt nb nc np f0 df dl dm dn uvw_d in_d out_d in Some (st, r)
  else Some (ERR_DATA_TYPE, out_d).
