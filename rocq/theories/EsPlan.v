(** Model of the creation of a plan of the exponential-of-semicircle gridder: grid_data/sdp_gridder_uvw_es_fft_utils.cpp 122-175,
    sdp_gridder_uvw_es_fft_utils.h 16-40 and the numbers computed by sdp_gridder_uvw_es_fft.cpp 302-429 (the argument checks are in EsBuffers.v).
    Exact real arithmetic in place of double; int arithmetic with overflow undefined; a division by zero, which makes an infinity or NaN in C, gives None.
    The copies of the tables to the GPU (431-515) and the float copies of the numbers are not modelled. *)
From Coq Require Import QArith Qreals.
From Verif Require Import Base Clamp Cplx Legendre EsKernels EsParams EsPipe.
Open Scope Z_scope.

(** QUADRATURE_SUPPORT_BOUND, utils.h 13 *)
Definition QUADRATURE_SUPPORT_BOUND := 32.
(** Conversion of a double to int *)
Definition truncZ (x : R) : Z := if Rltb x 0 then ceilZ x else floorZ x.
Definition int_of_double (x : R) : option Z := to_int (truncZ x).

(** sdp_generate_gauss_legendre_conv_kernel, utils.cpp 122-175, on the zeroed tables that create_plan passes: kernel, nodes, weights and conv_corr_kernel.
    (When a node is outside [-1, 1] the code computes the square root of a negative number, NaN; sqrt gives 0 here.  Division by a zero norm or grid size is not modelled.) *)
Definition conv_kernel (image grid support : Z) (beta : R) : option (nd R * nd R * nd R * nd R) :=
  let* p := int_of_double (3 / 2 * IZR support + 2) in
  let n := 2 * p in
  let zero := mk_nd [QUADRATURE_SUPPORT_BOUND] (fun _ => 0%R) in
  let* t := for_ 1 (n / 2 + 1) (fun i (t : nd R * nd R * nd R) =>
    let '(qk, qn, qw) := t in
    let* xw := calculate_legendre_root i n (1 / 10 ^ 16)%R in
    let (x, w) := (xw : R * R) in
    let k := exp (beta * (sqrt (1 - x * x) - 1)) in
    let* qn := wr qn [i - 1] x in
    let* qw := wr qw [i - 1] w in
    let* qk := wr qk [i - 1] k in
    Some (qk, qn, qw)) (zero, zero, zero) in
  let '(qk, qn, qw) := t in
  let* norm := for_ 0 p (fun i c => let* a := rd qk [i] in let* w := rd qw [i] in Some (c + a * w)%R) 0%R in
  let norm := (norm * IZR support)%R in
  let* conv := for_ 0 (image / 2 + 1) (fun l conv =>
    let l_norm := (IZR l * (1 / IZR grid))%R in
    let* c := for_ 0 p (fun i c =>
      let* a := rd qk [i] in let* w := rd qw [i] in let* x := rd qn [i] in
      Some (c + a * w * cos (PI * l_norm * IZR support * x))%R) 0%R in
    wr conv [l] (c * IZR support / norm)%R) (mk_nd [image / 2 + 1] (fun _ => 0%R)) in
  Some (qk, qn, qw, conv).

(** sdp_gridder_uvw_es_fft.cpp 345-355: the smallest n - 1 in the image *)
Definition get_nmin (image : Z) (px : R) : R :=
  let x0 := (- (1 / 2) * IZR image * px)%R in
  let y0 := (- (1 / 2) * IZR image * px)%R in
  if Rltb 1 (x0 * x0 + y0 * y0) then (- sqrt (Rabs (1 - x0 * x0 - y0 * y0)) - 1)%R
  else (sqrt (Rmax (1 - x0 * x0 - y0 * y0) 0) - 1)%R.

(** 356-366: number of w planes, w_scale, min_plane_w and max_plane_w *)
Definition w_planes (image support : Z) (px min_abs_w max_abs_w : R) : option (Z * R * R * R) :=
  let nmin := get_nmin image px in
  if Req_EM_T nmin 0 then None else
  let w_scale0 := (1 / 4 / Rabs nmin)%R in
  let* num := int_of_double ((max_abs_w - min_abs_w) / w_scale0 + 2) in
  let step := ((1 + 1 / 10 ^ 13) * (max_abs_w - min_abs_w))%R in
  if num - 1 =? 0 then None else
  if Req_EM_T step 0 then None else
  let w_scale := (1 / (step / IZR (num - 1)))%R in
  let min_plane_w := (min_abs_w - (1 / 2 * IZR support - 1) / w_scale)%R in
  let max_plane_w := (max_abs_w + (1 / 2 * IZR support - 1) / w_scale)%R in
  let* num := to_int (num + (support - 2)) in
  Some (num, w_scale, min_plane_w, max_plane_w).

(** 302-429: the numbers and tables of the plan.  [dbl]: double precision.  sdp_calculate_params_from_epsilon sets no status. *)
Definition make_plan (rows chan image : Z) (dbl : bool) (px : R) (epsilon : Q) (min_abs_w max_abs_w : R) (do_w : bool) : option es_plan :=
  let* a := calculate_params epsilon image dbl SUCCESS in
  let* b := snd a in
  let '(grid, support, beta) := b in
  let beta := (Q2R beta * IZR support)%R in
  let uv_scale := (IZR grid * px)%R in
  let* w := (if do_w then w_planes image support px min_abs_w max_abs_w else Some (1%Z, 1, 0, 0))%R in
  let '(num_w, w_scale, min_plane_w, _) := w in
  let inv_w_scale := (1 / w_scale)%R in
  let* t := conv_kernel image grid support beta in
  let '(qk, qn, qw, conv) := t in
  let* p := int_of_double (3 / 2 * IZR support + 2) in
  let* norm := for_ 0 p (fun i c => let* a := rd qk [i] in let* w := rd qw [i] in Some (c + a * w)%R) 0%R in
  let norm := (norm * IZR support)%R in
  Some (mk_plan rows chan image grid support num_w do_w beta px uv_scale w_scale inv_w_scale min_plane_w norm conv qk qn qw).

(** get_w_range, utils.h 16-40: [num_rows] rows and [num_chan] channels; the results start from the values passed in *)
Definition get_w_range (num_rows num_chan : Z) (uvw freq : nd R) (min_abs_w max_abs_w : R) : option (R * R) :=
  let* s := for_ 0 num_rows (fun i (s : R * R) =>
    let* w := rd uvw [i; 2] in
    let a := Rabs w in
    let mn := if Rltb a (fst s) then a else fst s in
    let mx := if Rltb (snd s) a then a else snd s in
    Some (mn, mx)) (min_abs_w, max_abs_w) in
  let* f0 := rd freq [0] in
  let* f1 := rd freq [num_chan - 1] in
  Some (fst s * (f0 / 299792458), snd s * (f1 / 299792458))%R.

(** GridderUvwEsFft.get_w_range, gridder_uvw_es_fft.py 91-108, for arrays on the host; numpy fails on an empty array *)
Definition py_w_range (num_rows num_chan : Z) (uvw freq : nd R) : option (R * R) :=
  let* w0 := rd uvw [0; 2] in
  let* s := for_ 1 num_rows (fun i (s : R * R) => let* w := rd uvw [i; 2] in Some (Rmin (fst s) (Rabs w), Rmax (snd s) (Rabs w))) (Rabs w0, Rabs w0) in
  let* f0 := rd freq [0] in
  let* f1 := rd freq [num_chan - 1] in
  Some (fst s * (f0 / 299792458), snd s * (f1 / 299792458))%R.
