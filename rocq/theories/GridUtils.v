(** Model of array utilities of grid_data/sdp_gridder_utils.cpp and of
    grid_data/sdp_gridder_grid_correct.cpp on complex arrays in exact arithmetic (CPU; type
    dispatch and precision not modelled; "omp parallel for" loops whose iterations write
    different elements are run in order). *)
From Verif Require Import Base CRing Cplx Clamp.
Open Scope Z_scope.

(** std::pow(z, int) *)
Definition Cpowz (z : C) (e : Z) : C :=
  if e >=? 0 then rpow (A := Cring) z (Z.to_nat e) else Cinv (rpow (A := Cring) z (Z.to_nat (- e))).

(** accum_scale_array 21-77; [in2 = None] models a NULL pointer *)
Definition accum_scale_array (out in1 : nd C) (in2 : option (nd C)) (exponent : Z) : option (nd C) :=
  let shape0 := dim out 0 in let shape1 := dim out 1 in
  match in2 with
  | Some in2 =>
      if exponent =? 0 then
        for_ 0 shape0 (fun i => for_ 0 shape1 (fun j out =>
          let* o := rd out [i; j] in let* a := rd in1 [i; j] in wr out [i; j] (Cadd o a))) out
      else if exponent =? 1 then
        for_ 0 shape0 (fun i => for_ 0 shape1 (fun j out =>
          let* o := rd out [i; j] in let* a := rd in1 [i; j] in let* b := rd in2 [i; j] in
          wr out [i; j] (Cadd o (Cmul a b)))) out
      else
        for_ 0 shape0 (fun i => for_ 0 shape1 (fun j out =>
          let* o := rd out [i; j] in let* a := rd in1 [i; j] in let* b := rd in2 [i; j] in
          wr out [i; j] (Cadd o (Cmul a (Cpowz b exponent))))) out
  | None =>
      for_ 0 shape0 (fun i => for_ 0 shape1 (fun j out =>
          let* o := rd out [i; j] in let* a := rd in1 [i; j] in wr out [i; j] (Cadd o a))) out
  end.

(** scale_inv_array 484-523 (and sdp_gridder_scale_inv_array 1540-1665, which checks no shape) *)
Definition scale_inv_array (out in1 in2 : nd C) (exponent : Z) : option (nd C) :=
  let shape0 := dim out 0 in let shape1 := dim out 1 in
  if exponent =? 1 then
    for_ 0 shape0 (fun i => for_ 0 shape1 (fun j out =>
      let* a := rd in1 [i; j] in let* b := rd in2 [i; j] in wr out [i; j] (Cdiv a b))) out
  else
    for_ 0 shape0 (fun i => for_ 0 shape1 (fun j out =>
      let* a := rd in1 [i; j] in let* b := rd in2 [i; j] in wr out [i; j] (Cdiv a (Cpowz b exponent)))) out.

(** sdp_gridder_residual 1383-1466 (shape checks) and residual 429-457 *)
Definition same_2d (a b : list Z) : bool :=
  Nat.eqb (length a) 2 && Nat.eqb (length b) 2 && (nth 0 a 0 =? nth 0 b 0) && (nth 1 a 0 =? nth 1 b 0).
Definition residual (a b out : nd C) : option (error * nd C) :=
  if negb (same_2d (shape a) (shape b) && same_2d (shape a) (shape out)) then Some (ERR_INVALID_ARGUMENT, out) else
  let* out := for_ 0 (dim a 0) (fun i => for_ 0 (dim a 1) (fun j out =>
      let* x := rd a [i; j] in let* y := rd b [i; j] in wr out [i; j] (Csub x y))) out in
  Some (SUCCESS, out).

(** sdp_gridder_rms_diff 1469-1537 and rms_diff 460-481: the sum of squares before the division
    by the size and the square root; None for the error return. *)
Definition rms_sum (a b : nd C) : option (error * R) :=
  if negb (same_2d (shape a) (shape b)) then Some (ERR_INVALID_ARGUMENT, 0%R) else
  let* s := for_ 0 (dim a 0) (fun i => for_ 0 (dim a 1) (fun j acc =>
      let* x := rd a [i; j] in let* y := rd b [i; j] in Some (acc + Cnorm2 (Csub x y))%R)) 0%R in
  Some (SUCCESS, s).

(** sdp_gridder_sum_diff 1919-1946 and sum_diff 652-677 (int subtraction without overflow) *)
Definition sum_diff (a b : nd Z) (start_row end_row : Z) : option (error * Z) :=
  let (r0, r1) := if (start_row <? 0) || (end_row <? 0) then (0, dim a 0) else (start_row, end_row) in
  if negb (dim a 0 =? dim b 0) then Some (ERR_INVALID_ARGUMENT, 0) else
  let* r := sum_diff_rows a b r0 r1 in Some (SUCCESS, r).

(** lm_to_n, sdp_gridder_utils.h 399-412 *)
Definition lm_to_n (l m h_u h_v : R) : R :=
  if Req_EM_T h_u 0 then
    if Req_EM_T h_v 0 then (sqrt (1 - l * l - m * m) - 1)%R
    else let a := (h_u * l + h_v * m - 1)%R in let b := (h_u * h_u + h_v * h_v + 1)%R in
         ((sqrt (a * a - b * (l * l + m * m)) + a) / b)%R
  else let a := (h_u * l + h_v * m - 1)%R in let b := (h_u * h_u + h_v * h_v + 1)%R in
         ((sqrt (a * a - b * (l * l + m * m)) + a) / b)%R.

(** grid_corr_w_stack, sdp_gridder_grid_correct.cpp 79-118 *)
Definition grid_corr_w_stack (image_size : Z) (theta w_step shear_u shear_v : R) (facet : nd C)
    (off_l off_m w_offset : Z) (inverse : bool) : option (nd C) :=
  if w_offset =? 0 then Some facet else
  let num_l := dim facet 0 in let num_m := dim facet 1 in
  for_ 0 num_l (fun il =>
    for_ 0 num_m (fun im facet =>
      let pl := il - cdiv num_l 2 + off_l in
      let l := (IZR pl * theta / IZR image_size)%R in
      let pm := im - cdiv num_m 2 + off_m in
      let m := (IZR pm * theta / IZR image_size)%R in
      let n := lm_to_n l m shear_u shear_v in
      let phase := (2 * PI * w_step * n * IZR w_offset)%R in
      let w := (cos phase, sin phase) in
      let w := if inverse then w else Cdiv C1 w in
      let* f := rd facet [il; im] in
      wr facet [il; im] (Cmul f w))) facet.

(** grid_corr_pswf, sdp_gridder_grid_correct.cpp 18-75; [pswf_n] is the factor computed from n
    at 61-69 (1 when the function has no parameter or |n| is too large) *)
Definition grid_corr_pswf (image_size : Z) (theta shear_u shear_v : R) (pswf : nd R) (pswf_n : R -> R)
    (facet : nd C) (off_l off_m : Z) : option (nd C) :=
  let num_l := dim facet 0 in let num_m := dim facet 1 in
  for_ 0 num_l (fun il facet =>
    let pl := il - cdiv num_l 2 + off_l in
    let l := (IZR pl * theta / IZR image_size)%R in
    let* pswf_l := rd pswf [pl + cdiv image_size 2] in
    for_ 0 num_m (fun im facet =>
      let pm := im - cdiv num_m 2 + off_m in
      let m := (IZR pm * theta / IZR image_size)%R in
      let* pswf_m := rd pswf [pm + cdiv image_size 2] in
      let n := lm_to_n l m shear_u shear_v in
      let scale := (1 / (pswf_l * pswf_m * pswf_n n))%R in
      let* f := rd facet [il; im] in
      wr facet [il; im] (Cmul f (RtoC scale))) facet) facet.

(** ** Direct Fourier transforms of the gridder utilities *)

(** Phase of source (l, m, n) for baseline row [i] and channel [c]: 188-205, 294-304 without the
    factor 2 pi and sign. du, dv, dw: 179-185 *)
Definition inv_wave (freq0 dfreq : R) (c : Z) : R := ((freq0 + dfreq * IZR c) / 299792458)%R.
Definition offsets (theta w_step : R) (su sv sw : Z) : R * R * R :=
  if Rlt_dec 0 theta then (IZR su / theta, IZR sv / theta, IZR sw * w_step)%R else (0, 0, 0)%R.

Definition turns (uvw lmn : nd R) (freq0 dfreq : R) (off : R * R * R) (i c s : Z) : option R :=
  let '(du, dv, dw) := off in
  let iw := inv_wave freq0 dfreq c in
  let* u := rd uvw [i; 0] in let* v := rd uvw [i; 1] in let* w := rd uvw [i; 2] in
  let* l := rd lmn [s; 0] in let* m := rd lmn [s; 1] in let* n := rd lmn [s; 2] in
  Some (l * (u * iw - du) + m * (v * iw - dv) + n * (w * iw - dw))%R.

(** dft 133-214; chs = (start_chs, end_chs) or None for NULL *)
Definition row_skipped (chs : option (nd Z * nd Z)) (i : Z) : option bool :=
  match chs with
  | None => Some false
  | Some (s, e) => let* a := rd s [i] in let* b := rd e [i] in Some (a >=? b)
  end.
Definition gridder_dft (uvw : nd R) (chs : option (nd Z * nd Z)) (flux : nd C) (lmn : nd R)
    (su sv sw : Z) (theta w_step freq0 dfreq : R) (vis : nd C) : option (nd C) :=
  let num_uvw := dim uvw 0 in let num_chan := dim vis 1 in let num_sources := dim flux 0 in
  let off := offsets theta w_step su sv sw in
  for_ 0 num_uvw (fun i vis =>
    let* skip := row_skipped chs i in
    if skip then Some vis else
    for_ 0 num_chan (fun c vis =>
      let* local := for_ 0 num_sources (fun s acc =>
        let* t := turns uvw lmn freq0 dfreq off i c s in
        let* f := rd flux [s] in
        Some (Cadd acc (Cmul f (cis (-2 * PI * t)%R)))) C0 in
      let* v := rd vis [i; c] in
      wr vis [i; c] (Cadd v local)) vis) vis.

(** idft 223-316 *)
Definition gridder_idft (uvw : nd R) (vis : nd C) (chs : option (nd Z * nd Z)) (lmn : nd R)
    (taper : option (nd R)) (su sv sw : Z) (theta w_step freq0 dfreq : R) (image : nd C) : option (nd C) :=
  let num_uvw := dim uvw 0 in let image_size := dim image 0 in let num_chan := dim vis 1 in
  let off := offsets theta w_step su sv sw in
  for_ 0 image_size (fun il =>
    for_ 0 image_size (fun im image =>
      let s := il * image_size + im in
      let* pix := for_ 0 num_uvw (fun i acc =>
        let* skip := row_skipped chs i in
        if skip then Some acc else
        for_ 0 num_chan (fun c acc =>
          let* t := turns uvw lmn freq0 dfreq off i c s in
          let* v := rd vis [i; c] in
          Some (Cadd acc (Cmul v (cis (2 * PI * t)%R)))) acc) C0 in
      let* tv := match taper with
                 | None => Some 1%R
                 | Some t => let* a := rd t [il] in let* b := rd t [im] in Some (a * b)%R
                 end in
      let* p := rd image [il; im] in
      wr image [il; im] (Cadd p (Cmul pix (RtoC tv))))) image.
