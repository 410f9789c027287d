(** Model of the restored image of clean/sdp_hogbom_clean.cpp (CPU): the CLEAN beam, the convolution of the components with it, and the outputs, in exact
    arithmetic.  The CLEAN loop is modelled in Hogbom.v, in rational arithmetic; its results go on as real numbers here.  Memory can be allocated. *)
From Coq Require Import Reals.
From Verif Require Import Base CRing Cplx Hogbom FftConv.
Open Scope Z_scope.

(** Conversion of a real number to an integer: the fraction is lost *)
Definition truncated (r : R) : Z := if Rle_dec 0 r then Int_part r else - Int_part (- r).
(** sdp_create_cbeam, hogbom.cpp 35-76.  A zero width is a division by zero (with an arbitrary value here). *)
Definition create_cbeam (details : nd R) (dim : Z) (cbeam : nd C) : option (nd C) :=
  let x0 := cdiv dim 2 in let y0 := cdiv dim 2 in
  let* sigma_x := rd details [0] in
  let* sigma_y := rd details [1] in
  let* degrees := rd details [2] in
  let theta := (PI / 180 * degrees)%R in
  let a := (cos theta ^ 2 / (2 * sigma_x ^ 2) + sin theta ^ 2 / (2 * sigma_y ^ 2))%R in
  let b := (sin (2 * theta) / (4 * sigma_x ^ 2) - sin (2 * theta) / (4 * sigma_y ^ 2))%R in
  let c := (sin theta ^ 2 / (2 * sigma_x ^ 2) + cos theta ^ 2 / (2 * sigma_y ^ 2))%R in
  for_ 0 dim (fun x => for_ 0 dim (fun y cbeam =>
    let component := (1 * exp (- (a * IZR (x - x0) ^ 2 + 2 * b * IZR (x - x0) * IZR (y - y0) + c * IZR (y - y0) ^ 2)))%R in
    wr cbeam [dim * x + y] (RtoC component))) cbeam.
(** Lines 243-278: convolution, sky model and components.  [model], [sky]: the output arrays.  The size of the beam is cbeam_details[3], as an int64_t (130) and as
    an int16_t (180; other values are undefined).  A negative size is not modelled (no outcome). *)
Definition restore (details : nd R) (dim : Z) (comp residual model sky : nd R) : option (nd R * nd R) :=
  let* size := rd details [3] in
  let cbeam_dim := truncated size in
  if (cbeam_dim <? 0) || (32767 <? cbeam_dim) then None else
  let* cbeam := create_cbeam details cbeam_dim (mk_nd [cbeam_dim * cbeam_dim] (fun _ => C0)) in
  let* conv := fft_convolution (mk_nd (shape comp) (fun i => RtoC (elem comp i))) cbeam dim cbeam_dim (mk_nd [dim * dim] (fun _ => C0)) in
  let* sky := for_ 0 (dim * dim) (fun i sky => let* z := rd conv [i] in wr sky [i] (re z)) sky in
  let* sky := for_ 0 (dim * dim) (fun i sky => let* x := rd sky [i] in let* y := rd residual [i] in wr sky [i] (x + y)%R) sky in
  let* model := for_ 0 (dim * dim) (fun i model => let* x := rd comp [i] in wr model [i] x) model in
  Some (model, sky).
Definition to_reals (x : nd Qc) : nd R := mk_nd (shape x) (fun i => Q2R (this (elem x i))).
(** sdp_hogbom_clean with arrays in CPU memory, 739-899: status, residual, CLEAN model and sky model afterwards *)
Definition hogbom_sky (dirty_sh psf_sh cbeam_sh model_sh residual_sh sky_sh : list Z) (dirty psf : Z -> Qc) (details : nd R) (gain threshold : Qc) (cycle_limit : Z) (model sky : nd R)
    : option (error * (nd Qc * nd R * nd R)) :=
  let* r := hogbom dirty_sh psf_sh cbeam_sh model_sh residual_sh sky_sh dirty psf gain threshold cycle_limit in
  let '(st, (comp, residual)) := r in
  if failed st then Some (st, (residual, model, sky)) else
  let* o := restore details (nth0 dirty_sh 0) (to_reals comp) (to_reals residual) model sky in
  Some (st, (residual, fst o, snd o)).
