(** Model of station_beam/sdp_station.cpp and station_beam/sdp_element_dipole.cpp (CPU), over the real and complex numbers. *)
From Coq Require Import Reals.
From Verif Require Import Base CRing Cplx Clamp Mem SphericalWave.
Open Scope Z_scope.

(** 77-81: the accumulators of one point *)
Definition outs : Type := (C * C * C * C)%type.
(** 96-114 and 124-141: accumulate the contributions [v k] of one element *)
Definition accumulate (pol : Z) (eval_x eval_y : bool) (v : Z -> option C) (o : outs) : option outs :=
  let '(o0, o1, o2, o3) := o in
  if pol =? 1 then let* v0 := v 0 in Some (Cadd o0 v0, o1, o2, o3)
  else if pol =? 4 then
    let* (ox : C * C) := (if eval_x then let* v0 := v 0 in let* v1 := v 1 in Some (Cadd o0 v0, Cadd o1 v1) else Some (o0, o1)) in
    let* (oy : C * C) := (if eval_y then let* v2 := v 2 in let* v3 := v 3 in Some (Cadd o2 v2, Cadd o3 v3) else Some (o2, o3)) in
    Some (fst ox, snd ox, fst oy, snd oy)
  else Some o.

(** 88-142: one element *)
Definition element (pol : Z) (weights : nd C) (x_in y_in z_in : nd R) (num_out i_out : Z) (data_idx : option (nd Z)) (data : option (nd C))
    (eval_x eval_y : bool) (xo yo zo : R) (i : Z) (o : outs) : option outs :=
  let* x := rd x_in [i] in let* y := rd y_in [i] in let* z := rd z_in [i] in
  let phase := (xo * x + yo * y + zo * z)%R in
  let* w := rd weights [i] in
  let wp := Cmul (cis phase) w in
  match data with
  | Some data =>
      let* j := match data_idx with Some d => rd d [i] | None => Some i end in
      let* i_in := to_int (pol * (j * num_out + i_out)) in
      accumulate pol eval_x eval_y (fun k => let* d := rd data [i_in + k] in Some (Cmul wp d)) o
  | None => accumulate pol eval_x eval_y (fun _ => Some wp) o
  end.

(** 144-163: store one point *)
Definition store (pol : Z) (eval_x eval_y : bool) (o : outs) (norm : R) (at_ : Z) (output : nd C) : option (nd C) :=
  let '(o0, o1, o2, o3) := o in
  let sc v := Cmul v (RtoC norm) in
  if pol =? 1 then wr output [at_] (sc o0)
  else if pol =? 4 then
    let* output := (if eval_x then let* output := wr output [at_] (sc o0) in wr output [at_ + 1] (sc o1) else Some output) in
    if eval_y then let* output := wr output [at_ + 2] (sc o2) in wr output [at_ + 3] (sc o3) else Some output
  else Some output.

(** sdp_station_beam_dft, 53-165.  The order of the points does not matter (parallel for). *)
Definition station_beam_dft (pol : Z) (wavenumber : R) (num_in : Z) (weights : nd C) (x_in y_in z_in : nd R) (off_pts num_out : Z) (x_out y_out : nd R)
    (z_out : option (nd R)) (data_idx : option (nd Z)) (data : option (nd C)) (off_output : Z) (output : nd C) (norm : R) (eval_x eval_y : bool) : option (nd C) :=
  for_ 0 num_out (fun i_out output =>
    let* i_pt := to_int (i_out + off_pts) in
    let* x := rd x_out [i_pt] in
    let* y := rd y_out [i_pt] in
    let* zo := match z_out with Some z_out => let* z := rd z_out [i_pt] in Some (wavenumber * z)%R | None => Some 0%R end in
    let* o := for_ 0 num_in (element pol weights x_in y_in z_in num_out i_out data_idx data eval_x eval_y (wavenumber * x)%R (wavenumber * y)%R zo)
      (C0, C0, C0, C0) in
    let* at_ := to_int (pol * (i_out + off_output)) in
    store pol eval_x eval_y o norm at_ output) output.

(** sdp_station_beam_aperture_array, 168-319 (CPU; calls on GPU memory: StationGpu.v).  [None] for point_z, element_beam_index
    and element_beam data is the NULL data pointer of an empty array. *)
Definition station_beam (wavenumber : R) (w x y bi b out : option mem) (weights : nd C) (x_in y_in z_in : nd R) (off_pts num_points : Z) (x_out y_out : nd R)
    (z_out : option (nd R)) (data_idx : option (nd Z)) (data : option (nd C)) (off_output : Z) (output : nd C) (normalise eval_x eval_y : bool) (st : error)
    : option (error * nd C) :=
  if failed st then Some (st, output) else
  let* num := to_int (num_elements x) in
  let norm := (if normalise then 1 / IZR num else 1)%R in
  if negb (is_complex w) then Some (ERR_DATA_TYPE, output) else
  if match data with Some _ => negb (is_complex b) | None => false end then Some (ERR_DATA_TYPE, output) else
  if match data_idx with Some _ => negb (mtype bi =? MEM_INT) | None => false end then Some (ERR_DATA_TYPE, output) else
  if negb (is_complex out) then Some (ERR_DATA_TYPE, output) else
  if negb (location out =? MEM_CPU) then Some (st, output) else
  if (mtype x =? MEM_FLOAT) || (mtype x =? MEM_DOUBLE) then
    let* r := station_beam_dft (if is_complex4 out then 4 else 1) wavenumber num weights x_in y_in z_in off_pts num_points x_out y_out z_out data_idx data
      off_output output norm eval_x eval_y in Some (st, r)
  else Some (ERR_DATA_TYPE, output).

(** sdp_dipole, sdp_element_dipole.cpp 16-40: (e_theta, e_phi) *)
Definition dipole (kL cos_kL phi sin_theta cos_theta : R) : C * C :=
  (let cos_phi := cos phi in
   let denominator := 1 + cos_phi * cos_phi * (cos_theta * cos_theta - 1) in
   if Req_EM_T denominator 0 then (C0, C0)
   else let temp := (cos (kL * cos_phi * sin_theta) - cos_kL) / denominator in
        (RtoC (- cos_phi * cos_theta * temp), RtoC (sin phi * temp)))%R.

(** sdp_dipole_pattern, 43-65 *)
Definition dipole_pattern (num_points : Z) (theta phi : nd R) (kL cos_kL : R) (stride off_theta off_phi : Z) (pattern : nd C) : option (nd C) :=
  for_ 0 num_points (fun i pattern =>
    let* p := rd phi [i] in
    let* t := rd theta [i] in
    let (et, ep) := dipole kL cos_kL p (sin t) (cos t) in
    let* it := to_int (i * stride + off_theta) in
    let* ip := to_int (i * stride + off_phi) in
    let* pattern := wr pattern [it] et in
    wr pattern [ip] ep) pattern.

(** sdp_dipole_pattern_scalar, 68-96 *)
Definition dipole_pattern_scalar (num_points : Z) (theta phi : nd R) (kL cos_kL : R) (stride off : Z) (pattern : nd C) : option (nd C) :=
  for_ 0 num_points (fun i pattern =>
    let* t := rd theta [i] in
    let* p := rd phi [i] in
    let (x_theta, x_phi) := dipole kL cos_kL p (sin t) (cos t) in
    let (y_theta, y_phi) := dipole kL cos_kL (p + PI / 2)%R (sin t) (cos t) in
    let amp := (re x_theta * re x_theta + re x_phi * re x_phi + re y_theta * re y_theta + re y_phi * re y_phi)%R in
    let* j := to_int (i * stride + off) in
    wr pattern [j] (RtoC (sqrt (amp / 2)))) pattern.

(** sdp_element_beam_dipole, 99-190 (CPU; for the GPU branch see DipoleGpu.v; such calls do nothing here) *)
Definition element_beam_dipole (num_points : Z) (theta phi beam : option mem) (theta_d phi_d : nd R) (freq_hz dipole_length_m : R) (stride offset : Z)
    (beam_d : nd C) (st : error) : option (error * nd C) :=
  if failed st then Some (st, beam_d) else
  let loc := location beam in
  let kL := (dipole_length_m * (PI * freq_hz / 299792458))%R in
  if negb (location theta =? loc) || negb (location phi =? loc) then Some (ERR_MEM_LOCATION, beam_d) else
  if negb (is_complex beam) then Some (ERR_DATA_TYPE, beam_d) else
  if negb (loc =? MEM_CPU) then Some (st, beam_d) else
  if (mtype beam =? MEM_COMPLEX_FLOAT) || (mtype beam =? MEM_COMPLEX_DOUBLE) then
    let* r := (if is_complex4 beam then dipole_pattern num_points theta_d phi_d kL (cos kL) stride offset (offset + 1) beam_d
               else dipole_pattern_scalar num_points theta_d phi_d kL (cos kL) stride offset beam_d) in Some (st, r)
  else Some (ERR_DATA_TYPE, beam_d).
