(** Model of sdp_element_beam_dipole on arrays in GPU memory: station_beam/sdp_element_dipole.cu and sdp_element_dipole.cpp 98-265, over the real and complex numbers. *)
From Coq Require Import Reals String.
From Verif Require Import Base CRing Cplx Clamp Gpu GpuLaunch Mem SphericalWave Station.
Open Scope Z_scope.

(** sdp_dipole_pattern, sdp_element_dipole.cu 41-60; sdp_dipole is the function of the CPU (9-37).  Every thread of the launch writes (num_points is not used);
    [len]: the elements that the output has. *)
Definition dipole_thread (theta phi : nd R) (kL cos_kL : R) (stride off_theta off_phi len : Z) (id : Z * Z * Z) : option (list (op Z C)) :=
  let '(x, _, _) := id in
  let* i := to_int x in
  let* p := rd phi [i] in
  let* t := rd theta [i] in
  let (et, ep) := dipole kL cos_kL p (sin t) (cos t) in
  let* a := to_int (i * stride) in
  let* it := to_int (a + off_theta) in
  let* ip := to_int (a + off_phi) in
  if in_shape [len] [it] && in_shape [len] [ip] then Some [Update it (fun _ => et); Update ip (fun _ => ep)] else None.
(** sdp_dipole_pattern_scalar, .cu 66-94 *)
Definition dipole_scalar_thread (theta phi : nd R) (kL cos_kL : R) (stride off len : Z) (id : Z * Z * Z) : option (list (op Z C)) :=
  let '(x, _, _) := id in
  let* i := to_int x in
  let* t := rd theta [i] in
  let* p := rd phi [i] in
  let (x_theta, x_phi) := dipole kL cos_kL p (sin t) (cos t) in
  let (y_theta, y_phi) := dipole kL cos_kL (p + PI / 2)%R (sin t) (cos t) in
  let amp := (re x_theta * re x_theta + re x_phi * re x_phi + re y_theta * re y_theta + re y_phi * re y_phi)%R in
  let* a := to_int (i * stride) in
  let* j := to_int (a + off) in
  if in_shape [len] [j] then Some [Update j (fun _ => RtoC (sqrt (amp / 2)))] else None.
(** sdp_element_dipole.cpp 199-252 *)
Definition dipole_kernel (ty : Z) (complex4 : bool) : option string :=
  if complex4 then
    if ty =? MEM_COMPLEX_FLOAT then Some "sdp_dipole_pattern<float, float2>"%string
    else if ty =? MEM_COMPLEX_DOUBLE then Some "sdp_dipole_pattern<double, double2>"%string else None
  else
    if ty =? MEM_COMPLEX_FLOAT then Some "sdp_dipole_pattern_scalar<float, float2>"%string
    else if ty =? MEM_COMPLEX_DOUBLE then Some "sdp_dipole_pattern_scalar<double, double2>"%string else None.
(** sdp_element_beam_dipole, 98-265, for an output in GPU memory; the output is the one-dimensional array [beam_d].  (sdp_mem_gpu_buffer cannot fail after the test
    of the locations.) *)
Definition gpu_element_dipole (num_points : Z) (theta phi beam : option mem) (theta_d phi_d : nd R) (freq_hz dipole_length_m : R) (stride offset : Z)
    (beam_d : nd C) (st st' : error) (r : nd C) : Prop :=
  if failed st then st' = st /\ r = beam_d else
  let kL := (dipole_length_m * (PI * freq_hz / 299792458))%R in
  if negb (location theta =? MEM_GPU) || negb (location phi =? MEM_GPU) then st' = ERR_MEM_LOCATION /\ r = beam_d else
  if negb (is_complex beam) then st' = ERR_DATA_TYPE /\ r = beam_d else
  let name := dipole_kernel (mtype beam) (is_complex4 beam) in
  let st := match name with Some _ => st | None => ERR_DATA_TYPE end in
  launch_kernel Cadd name (blocks_of num_points 256, 1, 1) (256, 1, 1)
    (if is_complex4 beam then dipole_thread theta_d phi_d kL (cos kL) stride offset (offset + 1) (dim beam_d 0)
     else dipole_scalar_thread theta_d phi_d kL (cos kL) stride offset (dim beam_d 0)) st beam_d st' r.
