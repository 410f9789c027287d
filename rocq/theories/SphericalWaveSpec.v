(** Associated Legendre functions and the spherical-wave expansion of an element pattern *)
From Verif Require Import Base Sum CRing Cplx LegendreSpec.
Open Scope R_scope.

(** [P] is the function theta |-> P_l^m(cos theta), by the definition P_l^m(x) = (-1)^m (1 - x^2)^(m/2) (d/dx)^m P_l(x):
    [D j] is the j-th derivative of the Legendre polynomial of degree l. *)
Definition is_assoc_legendre (l m : Z) (P : R -> R) : Prop :=
  exists D : nat -> R -> R, is_legendre l (D 0%nat) (D 1%nat) /\ (forall j x, derivable_pt_lim (D j) x (D (S j) x)) /\
    forall theta, P theta = (- sin theta) ^ Z.to_nat m * D (Z.to_nat m) (cos theta).

(** The functions for all degrees and orders, and their derivatives in theta *)
Definition assoc_family (P dP : Z -> Z -> R -> R) : Prop :=
  forall l m, (0 <= m <= l)%Z -> is_assoc_legendre l m (P l m) /\ forall t, derivable_pt_lim (P l m) t (dP l m t).

(** n! *)
Definition factorialR (n : Z) : R := INR (fact (Z.to_nat n)).

Section Harp.
Context (P dP : Z -> Z -> R -> R) (coeff : Z -> C).
(** Normalisation of degree l, order M *)
Definition norm_lm (l M : Z) : R :=
  sqrt (IZR (2 * l + 1) / (4 * PI * IZR l * IZR (l + 1)) * (factorialR (l - Z.abs M) / factorialR (l + Z.abs M))).
(** N e^{i M phi} dP/dtheta and i M N e^{i M phi} P / sin theta *)
Definition q_lm (l M : Z) (t phi : R) : C := Cmul (RtoC (norm_lm l M * dP l (Z.abs M) t)) (cis (IZR M * phi)).
Definition d_lm (l M : Z) (t phi : R) : C := Cmul (0, IZR M * norm_lm l M * P l (Z.abs M) t / sin t) (cis (IZR M * phi)).
(** Place of the coefficient of degree l, order M; the four kinds are TE and TM of the X and the Y dipole *)
Definition coeff_at (l M k : Z) : C := coeff (4 * (l * l + l - 1 + M) + k)%Z.
(** The phi and theta components of one dipole, [k] = 0 for X and 2 for Y *)
Definition harp_phi (l_max k : Z) (t phi : R) : C :=
  sum Cadd C0 1 (l_max + 1) (fun l => sum Cadd C0 (- l) (l + 1) (fun M =>
    Csub (Cmul (q_lm l M t phi) (coeff_at l M (k + 1))) (Cmul (d_lm l M t phi) (coeff_at l M k)))).
Definition harp_theta (l_max k : Z) (t phi : R) : C :=
  sum Cadd C0 1 (l_max + 1) (fun l => sum Cadd C0 (- l) (l + 1) (fun M =>
    Cadd (Cmul (d_lm l M t phi) (coeff_at l M (k + 1))) (Cmul (q_lm l M t phi) (coeff_at l M k)))).
End Harp.

(** The angle from the zenith used: at least 0.00001 *)
Definition clip_theta (t : R) : R := Rmax t (1 / 100000).
