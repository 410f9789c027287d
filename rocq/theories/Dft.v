(** Model of visibility/sdp_dft.cpp (CPU).  Arithmetic on directions, coordinates and visibilities
    is exact (real and complex numbers); array positions are computed in int as in the code, where
    an overflow is undefined. *)
From Coq Require Import Reals.
From Verif Require Import Base Mem Checks CRing Cplx Clamp.
Open Scope Z_scope.

Definition c_0 : R := 299792458%R.

(** The macros INDEX_3D and INDEX_4D, 12-14, on int operands *)
Definition INDEX_3D (N2 N1 I3 I2 I1 : Z) : option Z :=
  let* a := to_int (N2 * I3) in let* a := to_int (a + I2) in
  let* a := to_int (N1 * a) in to_int (a + I1).
Definition INDEX_4D (N3 N2 N1 I4 I3 I2 I1 : Z) : option Z :=
  let* a := to_int (N3 * I4) in let* a := to_int (a + I3) in
  let* a := to_int (N2 * a) in let* a := to_int (a + I2) in
  let* a := to_int (N1 * a) in to_int (a + I1).

(** The loop over components, 58-84 and 292-318: [factor] is 1 in v00 and the inverse wavelength in
    v01 (there the product is -2 pi * inv_wavelength * (..)). *)
Definition accumulate (ncomp npol nchan c : Z) (factor uu vv ww : R) (dirs : nd R) (flux local : nd C) : option (nd C) :=
  for_ 0 ncomp (fun s local =>
    let* i_dir := to_int (3 * s) in
    let* l := rd dirs [i_dir] in
    let* m := rd dirs [i_dir + 1] in
    let* n := rd dirs [i_dir + 2] in
    let phase := (-2 * PI * factor * (l * uu + m * vv + n * ww))%R in
    let phasor := cis phase in
    let* i_pol_start := INDEX_3D nchan npol s c 0 in
    for_ 0 npol (fun p local =>
      let* f := rd flux [i_pol_start + p] in
      let* x := rd local [p] in
      wr local [p] (Cadd x (Cmul phasor f))) local) local.

(** 86-93 and 320-327 *)
Definition write_out (npol nchan nbase t b c : Z) (local vis : nd C) : option (nd C) :=
  for_ 0 npol (fun p vis =>
    let* i_out := INDEX_4D nbase nchan npol t b c p in
    let* x := rd local [p] in
    wr vis [i_out] x) vis.

(** dft_point_v00, 26-98 *)
Definition dft_v00 (ncomp npol nchan nbase ntime : Z) (dirs : nd R) (flux : nd C) (uvw : nd R) (vis : nd C) : option (nd C) :=
  for_ 0 ntime (fun t => for_ 0 nchan (fun c => for_ 0 nbase (fun b vis =>
    let local := mk_nd [4] (fun _ => C0) in
    let* i_uvw := INDEX_4D nbase nchan 3 t b c 0 in
    let* uu := rd uvw [i_uvw] in
    let* vv := rd uvw [i_uvw + 1] in
    let* ww := rd uvw [i_uvw + 2] in
    let* local := accumulate ncomp npol nchan c 1 uu vv ww dirs flux local in
    write_out npol nchan nbase t b c local vis))) vis.

(** dft_point_v01, 256-336 *)
Definition dft_v01 (ncomp npol nchan nbase ntime : Z) (dirs : nd R) (flux : nd C) (uvw : nd R) (f0 df : R) (vis : nd C) : option (nd C) :=
  for_ 0 ntime (fun t => for_ 0 nbase (fun b vis =>
    let* i_uvw := INDEX_3D nbase 3 t b 0 in
    let* uu := rd uvw [i_uvw] in
    let* vv := rd uvw [i_uvw + 1] in
    let* ww := rd uvw [i_uvw + 2] in
    for_ 0 nchan (fun c vis =>
      let local := mk_nd [4] (fun _ => C0) in
      let inv_wavelength := ((f0 + IZR c * df) / c_0)%R in
      let* local := accumulate ncomp npol nchan c inv_wavelength uu vv ww dirs flux local in
      write_out npol nchan nbase t b c local vis) vis)) vis.

(** check_params_v00, 101-147 *)
Definition check_params_v00 (dirs flux uvw vis : option mem) (st : error) : error :=
  if failed st then st else
  let (md, st) := get_vis_metadata vis st in
  let '(loc, nt, nb, nc, np) := match md with Some (_, l, a, b, c, d) => (l, a, b, c, d) | None => (MEM_CPU, 0, 0, 0, 0) end in
  let st := check_c_contiguity dirs st in
  let st := check_c_contiguity flux st in
  let st := check_c_contiguity uvw st in
  let st := check_c_contiguity vis st in
  let st := check_writeable vis st in
  if negb (location flux =? loc) || negb (location dirs =? loc) || negb (location uvw =? loc) then ERR_MEM_LOCATION else
  if negb (is_complex flux) then ERR_DATA_TYPE else
  let ncomp := shape_dim dirs 0 in
  let st := check_shape dirs [ncomp; 3] st in
  let st := check_shape flux [ncomp; nc; np] st in
  check_shape uvw [nt; nb; nc; 3] st.

(** check_params_v01, 338-397 *)
Definition check_params_v01 (dirs flux uvw vis : option mem) (st : error) : error :=
  if failed st then st else
  let (md, st) := get_vis_metadata vis st in
  let '(loc, nt, nb, nc, np) := match md with Some (_, l, a, b, c, d) => (l, a, b, c, d) | None => (MEM_CPU, 0, 0, 0, 0) end in
  let st := check_writeable vis st in
  let st := check_c_contiguity vis st in
  let st := check_uvw uvw MEM_VOID loc nt nb st in
  let st := check_location dirs loc st in
  let st := check_c_contiguity dirs st in
  let ncomp := shape_dim dirs 0 in
  let st := check_dim_size dirs 1 3 st in
  if failed st then st else
  if negb (is_complex flux) then ERR_DATA_TYPE else
  let st := check_location flux loc st in
  let st := check_c_contiguity flux st in
  check_shape flux [ncomp; nc; np] st.

(** The conversion of int64_t to int (two's complement) *)
Definition int_of (z : Z) : Z := (z + 2147483648) mod 4294967296 - 2147483648.

(** The types the CPU kernels exist for (168-204, 413-452) *)
Definition types_ok (dirs flux uvw vis : option mem) : bool :=
  (mtype dirs =? MEM_DOUBLE) && (mtype flux =? MEM_COMPLEX_DOUBLE) && (mtype uvw =? MEM_DOUBLE) &&
  ((mtype vis =? MEM_COMPLEX_DOUBLE) || (mtype vis =? MEM_COMPLEX_FLOAT)).

(** sdp_dft_point_v00, 150-250, for arrays in CPU memory.  The contents are flat arrays. *)
Definition dft_point_v00 (dirs flux uvw vis : option mem) (dirs_d : nd R) (flux_d : nd C) (uvw_d : nd R) (vis_d : nd C) (st : error)
  : option (error * nd C) :=
  let st := check_params_v00 dirs flux uvw vis st in
  if failed st then Some (st, vis_d) else
  if types_ok dirs flux uvw vis then
    let* r := dft_v00 (int_of (shape_dim dirs 0)) (int_of (shape_dim vis 3)) (int_of (shape_dim vis 2)) (int_of (shape_dim vis 1))
      (int_of (shape_dim vis 0)) dirs_d flux_d uvw_d vis_d in
    Some (st, r)
  else Some (ERR_DATA_TYPE, vis_d).

(** sdp_dft_point_v01, 400-503, for arrays in CPU memory *)
Definition dft_point_v01 (dirs flux uvw vis : option mem) (dirs_d : nd R) (flux_d : nd C) (uvw_d : nd R) (f0 df : R) (vis_d : nd C) (st : error)
  : option (error * nd C) :=
  let st := check_params_v01 dirs flux uvw vis st in
  if failed st then Some (st, vis_d) else
  if types_ok dirs flux uvw vis then
    let* r := dft_v01 (int_of (shape_dim dirs 0)) (int_of (shape_dim vis 3)) (int_of (shape_dim vis 2)) (int_of (shape_dim vis 1))
      (int_of (shape_dim vis 0)) dirs_d flux_d uvw_d f0 df vis_d in
    Some (st, r)
  else Some (ERR_DATA_TYPE, vis_d).
