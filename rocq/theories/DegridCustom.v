(** Model of grid_data/sdp_degrid_uvw_custom.cpp (CPU).  Coordinates are rational numbers; grid, kernel and visibility values are elements of
    any commutative ring with any conjugation.  Arithmetic is exact.  int variables are modelled with overflow (undefined) and conversion
    (two's complement); int64_t positions and loop counters are modelled in Z (dimensions below 2^31). *)
From Coq Require Import QArith.
From Verif Require Import Base Mem Checks CRing QNum Clamp.
Open Scope Z_scope.

(** The conversion of int64_t to int *)
Definition int_of (z : Z) : Z := (z + 2147483648) mod 4294967296 - 2147483648.

(** One coordinate of calculate_coordinates, 40-44 and 46-50: grid coordinate and fraction.  [rnd]: the rounding to an integer, round() here and another function on the GPU (DegridCustomGpu.v) *)
Definition coordinate (rnd : Q -> Z) (grid_size oversample : Z) (o : Q) : option (Z * Z) :=
  let* k := to_int (rnd o) in
  let i := int_of (k + (cdiv grid_size 2 + 1) * oversample - 1) in
  if oversample =? 0 then None else
  Some (cdiv i oversample, oversample - 1 - cmod i oversample).

(** calculate_coordinates, 22-62: offsets in the kernels and grid coordinates.  The strides and oversampling factors are int. *)
Definition calculate_coordinates (rnd : Q -> Z) (grid_size kernel_stride oversample wkernel_stride oversample_w : Z) (theta wstep u v w : Q) : option (Z * Z * Z * Z * Z) :=
  let* (home_x, frac_x) := coordinate rnd grid_size oversample (theta * u * inject_Z oversample) in
  let* (home_y, frac_y) := coordinate rnd grid_size oversample (theta * v * inject_Z oversample) in
  if Qeq_bool wstep 0 then None else
  let* kz := to_int (rnd ((1 + w / wstep) * inject_Z oversample_w)%Q) in
  let* ioz := to_int (kz + oversample_w) in
  let* ioz := to_int (ioz - 1) in
  if oversample_w =? 0 then None else
  let frac_z := oversample_w - 1 - cmod ioz oversample_w in
  let* sx := to_int (kernel_stride * frac_x) in
  let* sy := to_int (kernel_stride * frac_y) in
  let* sz := to_int (wkernel_stride * frac_z) in
  Some (sx, sy, sz, home_x, home_y).

Definition INDEX_3D (N2 N1 I3 I2 I1 : Z) : Z := N1 * (N2 * I3 + I2) + I1.
Definition INDEX_4D (N3 N2 N1 I4 I3 I2 I1 : Z) : Z := N1 * (N2 * (N3 * I4 + I3) + I2) + I1.
Definition INDEX_5D (N4 N3 N2 N1 I5 I4 I3 I2 I1 : Z) : Z := N1 * (N2 * (N3 * (N4 * I5 + I4) + I3) + I2) + I1.

Section Degrid.
Context {A : cring} (conj : A -> A).
Context (uv_kernel_size w_kernel_size x_size y_size z_size num_times num_baselines num_channels num_pols : Z).
Context (grid : nd A) (uvw : nd Q) (uv_kernel w_kernel : nd A) (uv_os w_os : Z) (theta wstep f0 df : Q) (conjugate : bool).

(** The sums over the kernels, 139-173 *)
Definition degrid_pol (i_channel i_pol sx sy sz gx gy : Z) : option A :=
  let half := cdiv uv_kernel_size 2 in
  for_ 0 w_kernel_size (fun z vis_local =>
    let* visz := for_ 0 uv_kernel_size (fun y visz =>
      let i_grid_y := gy + y - half in
      let* visy := for_ 0 uv_kernel_size (fun x visy =>
        let i_grid_x := gx + x - half in
        let* value := rd grid [INDEX_5D z_size y_size x_size num_pols i_channel z i_grid_y i_grid_x i_pol] in
        let* k := rd uv_kernel [sx + x] in
        Some (visy + k * value)%cr) r0 in
      let* k := rd uv_kernel [sy + y] in
      Some (visz + k * visy)%cr) r0 in
    let* k := rd w_kernel [sz + z] in
    Some (vis_local + k * visz)%cr) r0.

(** degrid_uvw_custom, 65-188 *)
Definition degrid_uvw_custom (vis : nd A) : option (nd A) :=
  let half := cdiv uv_kernel_size 2 in
  for_ 0 num_times (fun t => for_ 0 num_baselines (fun b vis =>
    let i_uvw := INDEX_3D num_baselines 3 t b 0 in
    let* u := rd uvw [i_uvw] in
    let* v := rd uvw [i_uvw + 1] in
    let* w := rd uvw [i_uvw + 2] in
    for_ 0 num_channels (fun c vis =>
      let inv_wavelength := ((f0 + inject_Z c * df) / C_0)%Q in
      let* (sx, sy, sz, gx, gy) := calculate_coordinates qround x_size (int_of uv_kernel_size) (int_of uv_os) (int_of w_kernel_size) (int_of w_os) theta wstep
        (inv_wavelength * u) (inv_wavelength * v) (inv_wavelength * w) in
      if negb ((gx >? half) && (gx <? x_size - half) && (gy >? half) && (gy <? y_size - half)) then Some vis else
      for_ 0 num_pols (fun p vis =>
        let* vl := degrid_pol c p sx sy sz gx gy in
        let vl := if conjugate then conj vl else vl in
        wr vis [INDEX_4D num_baselines num_channels num_pols t b c p] vl) vis) vis)) vis.
End Degrid.

(** sdp_degrid_uvw_custom, 191-272, arrays in CPU memory.  Contents are flat arrays. *)
Definition degrid_api {A : cring} (conj : A -> A) (grid uvw uv_kernel w_kernel vis : option mem) (grid_d : nd A) (uvw_d : nd Q) (uvk_d wk_d : nd A)
    (theta wstep f0 df : Q) (conjugate : bool) (vis_d : nd A) (st : error) : option (error * nd A) :=
  if failed st then Some (st, vis_d) else
  let (md, st) := get_vis_metadata vis st in
  let '(ty, loc, nt, nb, nc, np) := match md with Some d => d | None => (MEM_VOID, MEM_CPU, 0, 0, 0, 0) end in
  let st := check_writeable vis st in
  let st := check_uvw uvw MEM_VOID loc nt nb st in
  let z_size := shape_dim grid 1 in let y_size := shape_dim grid 2 in let x_size := shape_dim grid 3 in
  let st := check_shape grid [nc; z_size; y_size; x_size; np] st in
  if failed st then Some (st, vis_d) else
  if negb (location grid =? loc) || negb (location uv_kernel =? loc) || negb (location w_kernel =? loc) then Some (ERR_MEM_LOCATION, vis_d) else
  if negb (ty =? MEM_COMPLEX_DOUBLE) || negb (mtype grid =? MEM_COMPLEX_DOUBLE) || negb (mtype uvw =? MEM_DOUBLE) ||
     negb (mtype uv_kernel =? MEM_DOUBLE) || negb (mtype w_kernel =? MEM_DOUBLE) then Some (ERR_DATA_TYPE, vis_d) else
  let* r := degrid_uvw_custom conj (shape_dim uv_kernel 1) (shape_dim w_kernel 1) x_size y_size z_size nt nb nc np grid_d uvw_d uvk_d wk_d
    (shape_dim uv_kernel 0) (shape_dim w_kernel 0) theta wstep f0 df conjugate vis_d in
  Some (st, r).
