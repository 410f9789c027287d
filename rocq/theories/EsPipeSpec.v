(** What gridding and degridding compute *)
From Verif Require Import Base Sum CRing Cplx FftSpec Gpu EsKernels EsKernelsSpec EsScreenSpec EsPipe.
Open Scope Z_scope.

(** The buffers and the plan fit together. *)
Record plan_ok (P : es_plan) (uvw freq : nd R) (npix pixels nvis : Z) : Prop := {
  pk_image : 2 <= p_image P; pk_even : Z.even (p_image P) = true; pk_image2 : p_image P * p_image P <= 2147483647;
  pk_npix : npix = p_image P; pk_pixels : pixels = p_image P * p_image P;
  pk_geven : Z.even (p_grid P) = true; pk_grid : p_image P < p_grid P;
  pk_num_w : 1 <= p_num_w P; pk_no_w : p_do_w P = false -> p_num_w P = 1;
  pk_sky : p_do_w P = true -> in_sky (p_image P) (p_px P);
  pk_conv : shape (p_conv P) = [p_image P / 2 + 1]; pk_qk : shape (p_qk P) = [32]; pk_qn : shape (p_qn P) = [32]; pk_qw : shape (p_qw P) = [32];
  pk_support : p_support P <= 16;
  pk_args : forall k, 0 <= k < p_num_w P -> es_ok (args_of P k) uvw freq nvis (p_grid P * p_grid P) }.

(** The number of quadrature points: the smallest integer that is at least 1.5 support + 2 *)
Definition quadrature_points (support : Z) : Z := (3 * support + 1) / 2 + 2.
(** The transform of the gridding kernel at [k], by quadrature *)
Definition kernel_transform (P : es_plan) (k : R) : R :=
  (IZR (p_support P) * rsumf 0 (quadrature_points (p_support P)) (fun i => elem (p_qk P) [i] * cos (PI * k * IZR (p_support P) * elem (p_qn P) [i]) * elem (p_qw P) [i]))%R.
(** What the image is multiplied with at (dy, dx) from the centre *)
Definition correction (P : es_plan) (dy dx : Z) : R :=
  let l := (p_px P * IZR dx)%R in let m := (p_px P * IZR dy)%R in
  let third := if p_do_w P then kernel_transform P ((sqrt (1 - l * l - m * m) - 1) * p_inv_w_scale P) else 1%R in
  (/ (elem (p_conv P) [Z.abs dx] * elem (p_conv P) [Z.abs dy] * third * (p_norm P * p_norm P)))%R.

(** The pixel at (dy, dx) from the centre *)
Definition pixel (P : es_plan) (dy dx : Z) : Z := (p_image P / 2 + dy) * p_image P + (p_image P / 2 + dx).
Definition inside (P : es_plan) (d : Z) : Prop := - (p_image P / 2) <= d < p_image P / 2.

Section Response.
Context (P : es_plan) (uvw freq : nd R).
Definition args0 := args_of P 0.
(** How visibility (r, c) is seen in the direction (dy, dx): the sum of the plane waves of all cells near its position, weighted with the
    exponential-of-semicircle function of the distance *)
Definition response (r c dy dx : Z) : C :=
  let o := p_grid P / 2 in
  let E := es (p_beta P) (p_support P) in
  let z := csum 0 (p_num_w P) (fun k => csum 0 (p_grid P) (fun a => csum 0 (p_grid P) (fun b =>
    Cmul (Cmul (RtoC (E (IZR (a - o) - at_u args0 uvw freq r c) * E (IZR (b - o) - at_v args0 uvw freq r c) * E (IZR k - at_w args0 uvw freq r c))%R)
      (root true (p_grid P) ((a - o) * dy + (b - o) * dx))) (Cconj (screen (p_do_w P) (p_px P) (p_inv_w_scale P) (p_min_plane_w P) k dy dx))))) in
  if Rlt_dec (turned args0 uvw r) 0 then Cconj z else z.
(** The position of visibility (r, c) in its buffer *)
Definition vis_at (r c : Z) : Z := c + p_chan P * r.
(** The visibility that the image predicts *)
Definition predicted (img : Z -> R) (r c : Z) : C :=
  csum (- (p_image P / 2)) (p_image P / 2) (fun dy => csum (- (p_image P / 2)) (p_image P / 2) (fun dx => Cmul (RtoC (img (pixel P dy dx))) (Cconj (response r c dy dx)))).
End Response.
