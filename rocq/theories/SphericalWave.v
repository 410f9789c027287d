(** Model of math/sdp_legendre_polynomial.h and of station_beam/sdp_element_spherical_wave_harp.cpp (CPU), over the real and complex numbers. *)
From Coq Require Import Reals.
From Verif Require Import Base CRing Cplx Clamp Mem.
Open Scope Z_scope.

(** sdp_legendre2, sdp_legendre_polynomial.h 10-55: out0, out1, out2 *)
Definition legendre2 (l m : Z) (cos_t sin_t : R) : option (R * R * R) :=
  let* s := (if m >? 0 then for_ 1 (m + 1) (fun _ (s : R * R) => let (p0, fact) := s in Some (p0 * ((- fact) * sin_t), fact + 2)%R) (1, 1)%R else Some (1, 1)%R) in
  let p0 := fst s in
  let out0 := (cos_t * IZR (2 * m + 1) * p0)%R in
  let* s := (if l =? m then Some (p0, out0, p0)
    else for_ (m + 2) (l + 2) (fun i (s : R * R * R) => let '(p0, p1, _) := s in
      let out0 := p1 in
      Some (out0, ((IZR (2 * i - 1) * cos_t * out0 - IZR (i + m - 1) * p0) / IZR (i - m))%R, out0)) (p0, out0, out0)) in
  let '(_, p1, out0) := s in
  Some (if Req_EM_T sin_t 0 then (out0, 0%R, 0%R)
        else (out0, (out0 / sin_t)%R, ((cos_t * out0 * IZR (l + 1) - p1 * IZR (l - m + 1)) / sin_t)%R)).

(** SPH_WAVE_HARP, sdp_element_spherical_wave_harp.cpp 18-24: theta and phi components *)
Definition SPH_WAVE_HARP (M : R) (a_te a_tm : C) (pds dpms sin_p cos_p : R) (ct_cp : C * C) : C * C :=
  let qq := (- cos_p * dpms, - sin_p * dpms)%R in
  let dd := (- sin_p * pds * M, cos_p * pds * M)%R in
  (Cadd (fst ct_cp) (Cadd (Cmul dd a_tm) (Cmul qq a_te)), Cadd (snd ct_cp) (Csub (Cmul qq a_tm) (Cmul dd a_te))).

(** 80-89: factorial by repeated multiplication *)
Definition factorial (n : Z) : option R := for_ 2 (n + 1) (fun i f => Some (f * IZR i)%R) 1%R.

(** 61-116: the contribution of l and |m| = abs_m *)
Definition add_lm (alpha : nd C) (l abs_m : Z) (cos_t sin_t phi_x phi_y : R) (s : (C * C) * (C * C)) : option ((C * C) * (C * C)) :=
  let (x, y) := s in
  let* ll := to_int (l * l) in
  let ind0 := ll - 1 + l in
  let f_ := (IZR (2 * l + 1) / (4 * PI * IZR l * IZR (l + 1)))%R in
  let* p := legendre2 l abs_m cos_t sin_t in
  let '(_, pds, dpms) := p in
  if abs_m =? 0 then
    let* i := to_int (4 * ind0 + 3) in
    let* te_x := rd alpha [4 * ind0] in let* tm_x := rd alpha [4 * ind0 + 1] in
    let* te_y := rd alpha [4 * ind0 + 2] in let* tm_y := rd alpha [4 * ind0 + 3] in
    Some (SPH_WAVE_HARP 0 te_x tm_x pds dpms 0 (sqrt f_) x, SPH_WAVE_HARP 0 te_y tm_y pds dpms 0 (sqrt f_) y)
  else
    let* d_fact := factorial (l - abs_m) in
    let* s_fact := factorial (l + abs_m) in
    let nf := sqrt (f_ * d_fact / s_fact) in
    let* ind_m := to_int (4 * (ind0 - abs_m)) in
    let* ind_p := to_int (4 * (ind0 + abs_m)) in
    let* te_x_m := rd alpha [ind_m] in let* tm_x_m := rd alpha [ind_m + 1] in
    let* te_y_m := rd alpha [ind_m + 2] in let* tm_y_m := rd alpha [ind_m + 3] in
    let* te_x_p := rd alpha [ind_p] in let* tm_x_p := rd alpha [ind_p + 1] in
    let* te_y_p := rd alpha [ind_p + 2] in let* tm_y_p := rd alpha [ind_p + 3] in
    let p := (IZR (- abs_m) * phi_x)%R in
    let sin_p := (sin p * nf)%R in let cos_p := (cos p * nf)%R in
    let x := SPH_WAVE_HARP (IZR (- abs_m)) te_x_m tm_x_m pds dpms sin_p cos_p x in
    let x := SPH_WAVE_HARP (IZR abs_m) te_x_p tm_x_p pds dpms (- sin_p) cos_p x in
    let p := (IZR (- abs_m) * phi_y)%R in
    let sin_p := (sin p * nf)%R in let cos_p := (cos p * nf)%R in
    let y := SPH_WAVE_HARP (IZR (- abs_m)) te_y_m tm_y_m pds dpms sin_p cos_p y in
    let y := SPH_WAVE_HARP (IZR abs_m) te_y_p tm_y_p pds dpms (- sin_p) cos_p y in
    Some (x, y).

(** sdp_spherical_wave_pattern_harp, 28-125.  Real numbers have no NAN: 50-55 never apply.  The order of the points does not matter
    (parallel for): each point writes its own four elements. *)
Definition spherical_wave_pattern_harp (num_points : Z) (theta phi_x phi_y : nd R) (l_max : Z) (alpha : nd C) (offset : Z) (pattern : nd C) : option (nd C) :=
  for_ 0 num_points (fun i pattern =>
    let* theta_ := rd theta [i] in
    let theta_ := if Rlt_dec theta_ (1 / 100000) then (1 / 100000)%R else theta_ in
    let* px := rd phi_x [i] in
    let* py := rd phi_y [i] in
    let sin_t := sin theta_ in let cos_t := cos theta_ in
    let* s := for_ 1 (l_max + 1) (fun l => for_ 0 (l + 1) (fun k => add_lm alpha l (l - k) cos_t sin_t px py)) ((C0, C0), (C0, C0)) in
    let '((x_theta, x_phi), (y_theta, y_phi)) := s in
    let* i_out := to_int (4 * (i + offset)) in
    let* pattern := wr pattern [i_out] x_phi in
    let* pattern := wr pattern [i_out + 1] x_theta in
    let* pattern := wr pattern [i_out + 2] y_phi in
    wr pattern [i_out + 3] y_theta) pattern.

(** sdp_mem_is_complex4, utility/sdp_mem.cpp 650-656 *)
Definition is_complex4 (m : option mem) : bool :=
  is_complex m && let n := num_dims m in
  ((n >? 1) && (shape_dim m (n - 1) =? 4)) || ((n >? 2) && (shape_dim m (n - 1) =? 2) && (shape_dim m (n - 2) =? 2)).

(** sdp_element_beam_spherical_wave_harp, 128-240 (CPU; the GPU branch 194-239 is not modelled: such calls do nothing here) *)
Definition element_beam_harp (num_points : Z) (theta phi_x phi_y coeffs beam : option mem) (theta_d phi_x_d phi_y_d : nd R) (l_max : Z)
    (alpha : nd C) (offset : Z) (beam_d : nd C) (st : error) : option (error * nd C) :=
  if failed st then Some (st, beam_d) else
  let loc := location beam in
  let is_c4 := is_complex4 beam in
  if negb (location theta =? loc) || negb (location phi_x =? loc) || negb (location phi_y =? loc) || negb (location coeffs =? loc) then Some (ERR_MEM_LOCATION, beam_d) else
  if negb (is_complex beam) then Some (ERR_DATA_TYPE, beam_d) else
  if negb (loc =? MEM_CPU) then Some (st, beam_d) else
  if negb is_c4 then Some (ERR_DATA_TYPE, beam_d) else
  if (mtype beam =? MEM_COMPLEX_FLOAT) || (mtype beam =? MEM_COMPLEX_DOUBLE) then
    let* r := spherical_wave_pattern_harp num_points theta_d phi_x_d phi_y_d l_max alpha offset beam_d in Some (st, r)
  else Some (ERR_DATA_TYPE, beam_d).
