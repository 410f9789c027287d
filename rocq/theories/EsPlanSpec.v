(** Vocabulary for plans of the exponential-of-semicircle gridder *)
From Verif Require Import Base Cplx Legendre EsKernels EsKernelsSpec EsPipe EsPipeSpec.
Open Scope Z_scope.

(** The distance of visibility (r, c) from the w = 0 plane, in wavelengths *)
Definition abs_w (uvw freq : nd R) (r c : Z) : R := (Rabs (elem uvw [r; 2%Z]) * (elem freq [c] / 299792458))%R.
(** n - 1 in the direction of the pixel at (dy, dx) from the centre *)
Definition n_minus_1 (P : es_plan) (dy dx : Z) : R := (sqrt (1 - (p_px P * IZR dx) * (p_px P * IZR dx) - (p_px P * IZR dy) * (p_px P * IZR dy)) - 1)%R.
(** The number of points of the quadrature on the host *)
Definition host_points (support : Z) : Z := 3 * support / 2 + 2.
(** Entry [i] of the quadrature tables: the (i + 1)-th root and weight of the Legendre polynomial of twice that degree, as computed, and the kernel there *)
Definition quadrature_entry (P : es_plan) (i : Z) : Prop :=
  calculate_legendre_root (i + 1) (2 * host_points (p_support P)) (1 / 10 ^ 16) = Some (elem (p_qn P) [i], elem (p_qw P) [i]) /\
  elem (p_qk P) [i] = exp (p_beta P * (sqrt (1 - elem (p_qn P) [i] * elem (p_qn P) [i]) - 1)).
(** No table entry beyond the quadrature points *)
Definition no_entry (P : es_plan) (i : Z) : Prop := elem (p_qk P) [i] = 0%R /\ elem (p_qw P) [i] = 0%R /\ elem (p_qn P) [i] = 0%R.
