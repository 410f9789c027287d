(** Legendre polynomials by their differential equation *)
From Coq Require Import Reals.
Open Scope R_scope.

(** [P] with derivative [dP] is the Legendre polynomial of degree [n]: P(1) = 1 and ((1 - x^2) P')' + n (n + 1) P = 0 on the whole line. *)
Definition is_legendre (n : Z) (P dP : R -> R) : Prop :=
  (forall x, derivable_pt_lim P x (dP x)) /\ P 1 = 1 /\
  (forall x, derivable_pt_lim (fun y => (1 - y * y) * dP y) x (- (IZR n * (IZR n + 1)) * P x)).
