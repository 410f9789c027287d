(** Model of grid_data/sdp_gridder_clamp_channels.{h,cpp} in exact rational arithmetic
    (double/float rounding is not modelled; a conversion to int that would not fit in an int
    is undefined behaviour, None). *)
From Verif Require Export Base.
From Coq Require Export QArith Qabs Qround Qminmax.
Open Scope Z_scope.

(** math/sdp_math_macros.h 23 *)
Definition C_0 : Q := 299792458 # 1.

Definition Qltb (a b : Q) : bool := negb (Qle_bool b a).

(** (int) x for an integer-valued double *)
Definition to_int (z : Z) : option Z :=
  if (-2147483648 <=? z) && (z <=? 2147483647) then Some z else None.

(** One coordinate of one row: sdp_gridder_clamp_channels.cpp 39-66 (single), 100-124 (u in uv),
    126-150 (v in uv, where the "else" keeps the values).
    [u] coordinate in metres, [s],[e] the incoming channel range. *)
Definition clamp1 (u f0 df : Q) (s e : Z) (mn mx : Q) : option (Z * Z) :=
  let u0 := (u * (f0 / C_0))%Q in
  let du := (u * (df / C_0))%Q in
  let eta := (Qmax (Qabs (mn - u0)) (Qabs (mx - u0)) / (2147483645 # 1))%Q in
  let* (s', e') :=
    if Qltb eta (Qabs du) then
      let* mins := to_int (Qceiling ((mn - u0) / du)) in
      let* maxs := to_int (Qceiling ((mx - u0) / du)) in
      let pos := Qltb 0 du in
      let s_ := if pos then mins else maxs in
      let e_ := if pos then maxs else mins in
      Some (Z.max s s_, Z.min e e_)
    else if Qltb u0 mn || Qle_bool mx u0 then Some (0, 0)
    else Some (s, e) in
  Some (s', Z.max e' s').

(** sdp_gridder_clamp_channels.cpp 98-150: u, then v on what is left *)
Definition clamp2 (u v f0 df : Q) (s e : Z) (mnu mxu mnv mxv : Q) : option (Z * Z) :=
  let* (s1, e1) := clamp1 u f0 df s e mnu mxu in
  if s1 >=? e1 then Some (s1, e1) else clamp1 v f0 df s1 e1 mnv mxv.

(** sdp_gridder_clamp_channels.h 115-172 (used by the w-tower kernels; int64 conversions) *)
Definition clamp_inline (u f0 df : Q) (s e : Z) (mn mx : Q) : Z * Z :=
  let u0 := (f0 * u / C_0)%Q in
  let du := (df * u / C_0)%Q in
  let eta := (Qmax (Qabs (mn - u0)) (Qabs (mx - u0)) / (2147483645 # 1))%Q in
  let (s', e') :=
    if Qltb eta du then
      (Z.max s (Qceiling ((mn - u0) / du)), Z.min e (Qceiling ((mx - u0) / du)))
    else if Qltb du (- eta) then
      (Z.max s (Qceiling ((mx - u0) / du)), Z.min e (Qceiling ((mn - u0) / du)))
    else if Qltb u0 mn || Qle_bool mx u0 then (0, 0) else (s, e) in
  if e' <=? s' then (0, 0) else (s', e').

(** sdp_gridder_clamp_channels.cpp 10-66 over all rows: loop over rows, writing both outputs.
    Views are arrays whose out-of-range access is undefined. *)
Definition clamp_rows (uvw : nd Q) (dim : Z) (f0 df : Q) (start_row end_row : Z)
    (s_in e_in : nd Z) (mn mx : Q) (s_out e_out : nd Z) : option (nd Z * nd Z) :=
  for_ start_row end_row (fun i st =>
    let* u := rd uvw [i; dim] in
    let* s := rd s_in [i] in
    let* e := rd e_in [i] in
    let* (s', e') := clamp1 u f0 df s e mn mx in
    let* so := wr (fst st) [i] s' in
    let* eo := wr (snd st) [i] e' in
    Some (so, eo)) (s_out, e_out).

(** sdp_gridder_clamp_channels_single, 155-190 (CPU, double or float uvw): a negative row
    bound selects all rows. *)
Definition clamp_single (uvw : nd Q) (dim : Z) (f0 df : Q) (s_in e_in : nd Z) (mn mx : Q)
    (s_out e_out : nd Z) (start_row end_row : Z) : option (nd Z * nd Z) :=
  let (r0, r1) := if (start_row <? 0) || (end_row <? 0) then (0, Base.dim uvw 0) else (start_row, end_row) in
  clamp_rows uvw dim f0 df r0 r1 s_in e_in mn mx s_out e_out.

(** clamp_channels_uv, 69-150 over all rows, and sdp_gridder_clamp_channels_uv 253-290 *)
Definition clamp_uv (uvw : nd Q) (f0 df : Q) (s_in e_in : nd Z) (mnu mxu mnv mxv : Q)
    (s_out e_out : nd Z) (start_row end_row : Z) : option (nd Z * nd Z) :=
  let (r0, r1) := if (start_row <? 0) || (end_row <? 0) then (0, Base.dim uvw 0) else (start_row, end_row) in
  for_ r0 r1 (fun i st =>
    let* u := rd uvw [i; 0] in
    let* v := rd uvw [i; 1] in
    let* s := rd s_in [i] in
    let* e := rd e_in [i] in
    let* (s', e') := clamp2 u v f0 df s e mnu mxu mnv mxv in
    let* so := wr (fst st) [i] s' in
    let* eo := wr (snd st) [i] e' in
    Some (so, eo)) (s_out, e_out).

(** sdp_gridder_sum_diff, sdp_gridder_utils.cpp 654-683 for one range of rows:
    sum over rows of end - start *)
Definition sum_diff_rows (e s : nd Z) (r0 r1 : Z) : option Z :=
  for_ r0 r1 (fun i acc => let* a := rd e [i] in let* b := rd s [i] in Some (acc + (a - b))) 0.
