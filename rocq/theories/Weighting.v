(** Model of visibility/sdp_weighting.cpp (CPU).  Coordinates and frequencies are rational numbers; weights are elements of any
    commutative ring with any division.  Arithmetic is exact.  Array positions are int64_t in the code and are modelled in Z. *)
From Coq Require Import QArith Qround.
From Verif Require Import Base Mem Checks CRing Clamp.
Open Scope Z_scope.

(** Conversion of a floating-point value that is a whole number to int64_t *)
Definition to_int64 (z : Z) : option Z := if (-9223372036854775808 <=? z) && (z <=? 9223372036854775807) then Some z else None.

(** INDEX_3D and INDEX_4D, 13-15 *)
Definition INDEX_3D (N2 N1 I3 I2 I1 : Z) : Z := N1 * (N2 * I3 + I2) + I1.
Definition INDEX_4D (N3 N2 N1 I4 I3 I2 I1 : Z) : Z := N1 * (N2 * (N3 * I4 + I3) + I2) + I1.

Section Weighting.
Context {A : cring} (wdiv : A -> A -> A).
Context (num_times num_baselines num_channels num_pols grid_size : Z) (uvw freq_hz : nd Q) (max_abs_uv : Q).

(** The cell of a visibility, 44-52, 104-112, 175-183 and 239-247.  Dividing by a zero maximum gives infinities or NaN, whose conversion to
    int64_t is undefined. *)
Definition cell (i_uv i_channel : Z) : option (Z * Z) :=
  let half := cdiv grid_size 2 in
  let* f := rd freq_hz [i_channel] in
  let inv_wavelength := (f / C_0)%Q in
  let* u := rd uvw [i_uv] in
  let* v := rd uvw [i_uv + 1] in
  let grid_u := (u * inv_wavelength)%Q in
  let grid_v := (v * inv_wavelength)%Q in
  if Qeq_bool max_abs_uv 0 then None else
  let* idx_u := to_int64 (Qfloor (grid_u / max_abs_uv * inject_Z half) + half) in
  let* idx_v := to_int64 (Qfloor (grid_v / max_abs_uv * inject_Z half) + half) in
  Some (idx_u, idx_v).

(** The loops around the body of the four functions, e.g. 34-73: [body] is called with the position of the grid cell and of the weights of
    the visibility. *)
Definition each_vis {S} (body : Z -> Z -> S -> option S) (s : S) : option S :=
  for_ 0 num_times (fun t => for_ 0 num_baselines (fun b s =>
    let i_uv := INDEX_3D num_baselines 3 t b 0 in
    for_ 0 num_channels (fun c s =>
      let* (idx_u, idx_v) := cell i_uv c in
      if (idx_u >=? grid_size) || (idx_v >=? grid_size) then Some s else
      let i_pol_s := INDEX_3D grid_size num_pols idx_u idx_v 0 in
      let i_pol_start := INDEX_4D num_baselines num_channels num_pols t b c 0 in
      body i_pol_s i_pol_start s) s)) s.

(** weights_grid_write, 19-74 *)
Definition weights_grid_write (input : nd A) : nd A -> option (nd A) :=
  each_vis (fun i_pol_s i_pol_start =>
    for_ 0 num_pols (fun p grid =>
      let* g := rd grid [i_pol_s + p] in
      let* w := rd input [i_pol_start + p] in
      wr grid [i_pol_s + p] (g + w)%cr)).

(** sum_weights_calc, 78-132: sumweight and sumweight2 *)
Definition sum_weights_calc (grid : nd A) : A * A -> option (A * A) :=
  each_vis (fun i_pol_s _ =>
    for_ 0 num_pols (fun p s =>
      let* g := rd grid [i_pol_s + p] in
      Some (fst s + g, snd s + g * g)%cr)).

(** uniform_weights_grid_read, 149-207 *)
Definition uniform_weights_grid_read (grid : nd A) : nd A -> option (nd A) :=
  each_vis (fun i_pol_s i_pol_start =>
    for_ 0 num_pols (fun p out =>
      let* g := rd grid [i_pol_s + p] in
      wr out [i_pol_start + p] (wdiv r1 g))).

(** briggs_weights_grid_read, 211-274 *)
Definition briggs_weights_grid_read (grid input : nd A) (robustness : A) : nd A -> option (nd A) :=
  each_vis (fun i_pol_s i_pol_start =>
    for_ 0 num_pols (fun p out =>
      let* w := rd input [i_pol_start + p] in
      let* g := rd grid [i_pol_s + p] in
      wr out [i_pol_start + p] (wdiv w (r1 + robustness * g)%cr))).
End Weighting.

(** robustness_calc, 136-145.  [strength] is (5 / 10^robust_param)^2. *)
Definition robustness_calc {A : cring} (wdiv : A -> A -> A) (sumweight2 sumweight strength : A) : A :=
  wdiv strength (wdiv sumweight2 sumweight).

(** The checks of sdp_weighting_uniform, 288-336, and of sdp_weighting_briggs, 518-568: numbers of times, baselines, channels and
    polarisations, type of the output, grid size and status *)
Definition weighting_checks (uvw freq grid input output : option mem) (st : error) : Z * Z * Z * Z * Z * Z * error :=
  let (md1, st) := get_weights_metadata input st in
  let (md2, st) := get_weights_metadata output st in
  let '(ty, loc, nt, nb, nc, np) := match md2 with Some d => d | None => match md1 with Some d => d | None => (MEM_VOID, location output, 0, 0, 0, 0) end end in
  let st := check_uvw uvw MEM_VOID loc nt nb st in
  let st := check_location freq loc st in
  let st := check_location grid loc st in
  let st := check_writeable output st in
  let st := check_writeable grid st in
  let st := check_num_dims grid 3 st in
  let gs := shape_dim grid 0 in
  let st := check_dim_size grid 1 gs st in
  (nt, nb, nc, np, ty, gs, st).

(** The types the CPU kernels exist for, 339-407 and 571-680.  The type of the input weights is not among them. *)
Definition weighting_types (uvw freq grid : option mem) (ty : Z) : bool :=
  (mtype uvw =? MEM_DOUBLE) && (mtype freq =? MEM_DOUBLE) && ((ty =? MEM_DOUBLE) && (mtype grid =? MEM_DOUBLE) || (ty =? MEM_FLOAT) && (mtype grid =? MEM_FLOAT)).

Section Api.
Context {A : cring} (wdiv : A -> A -> A).

(** The input weights are read through a pointer to the type of the output; if they have another type the reads are undefined. *)
Definition input_as (input : option mem) (ty : Z) (input_d : nd A) : option (nd A) := if mtype input =? ty then Some input_d else None.

(** sdp_weighting_uniform, 277-407, arrays in CPU memory: status, grid and output.  Contents are flat arrays. *)
Definition weighting_uniform (uvw freq : option mem) (max_abs_uv : Q) (grid input output : option mem)
    (uvw_d freq_d : nd Q) (grid_d input_d output_d : nd A) (st : error) : option (error * nd A * nd A) :=
  if failed st then Some (st, grid_d, output_d) else
  let '(nt, nb, nc, np, ty, gs, st) := weighting_checks uvw freq grid input output st in
  if failed st then Some (st, grid_d, output_d) else
  if weighting_types uvw freq grid ty then
    let* input_d := input_as input ty input_d in
    let* g := weights_grid_write nt nb nc np gs uvw_d freq_d max_abs_uv input_d grid_d in
    let* out := uniform_weights_grid_read wdiv nt nb nc np gs uvw_d freq_d max_abs_uv g output_d in
    Some (st, g, out)
  else Some (ERR_DATA_TYPE, grid_d, output_d).

(** sdp_weighting_briggs, 506-680, arrays in CPU memory *)
Definition weighting_briggs (uvw freq : option mem) (max_abs_uv : Q) (strength : A) (grid input output : option mem)
    (uvw_d freq_d : nd Q) (grid_d input_d output_d : nd A) (st : error) : option (error * nd A * nd A) :=
  if failed st then Some (st, grid_d, output_d) else
  let '(nt, nb, nc, np, ty, gs, st) := weighting_checks uvw freq grid input output st in
  if failed st then Some (st, grid_d, output_d) else
  if weighting_types uvw freq grid ty then
    let* input_d := input_as input ty input_d in
    let* g := weights_grid_write nt nb nc np gs uvw_d freq_d max_abs_uv input_d grid_d in
    let* (sw, sw2) := sum_weights_calc nt nb nc np gs uvw_d freq_d max_abs_uv g (r0, r0) in
    let* out := briggs_weights_grid_read wdiv nt nb nc np gs uvw_d freq_d max_abs_uv g input_d (robustness_calc wdiv sw2 sw strength) output_d in
    Some (st, g, out)
  else Some (ERR_DATA_TYPE, grid_d, output_d).
End Api.
