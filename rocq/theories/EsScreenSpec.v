(** Vocabulary for the image kernels of the exponential-of-semicircle gridder. *)
From Verif Require Import Base Sum CRing Cplx FftSpec Gpu EsKernels EsKernelsSpec.
Open Scope Z_scope.

(** The launch of the image kernels for an image of n x n pixels; sdp_gridder_uvw_es_fft.cpp 667-673, 709-713, 793-797 and 848-854 *)
Definition image_threads (n : Z) : list (Z * Z) :=
  let nt := Z.min 32 ((n + 1) / 2) in let nb := (n / 2 + 1 + nt - 1) / nt in launch_threads nb nb nt nt.

(** exp(2 pi i w (n - 1)) / n in the direction (l, m), where n = sqrt(1 - l^2 - m^2) *)
Definition w_phase (w l m : R) : C := let n := sqrt (1 - l * l - m * m) in Cmul (RtoC (1 / n)) (cis (2 * PI * w * (n - 1))).
(** The screen of plane [k] at the pixel (dx, dy) from the centre *)
Definition screen (do_w : bool) (px inv_w_scale min_plane_w : R) (k dy dx : Z) : C :=
  if do_w then w_phase (IZR k * inv_w_scale + min_plane_w) (px * IZR dx) (px * IZR dy) else C1.
(** All pixels of the image are above the horizon. *)
Definition in_sky (n : Z) (px : R) : Prop := (2 * (px * IZR (n / 2)) * (px * IZR (n / 2)) < 1)%R.
Definition shift_sign (shift : bool) (m : Z) : R := if shift then sign m else 1%R.
