(** Vocabulary for degridding with user-supplied kernels on the GPU. *)
From Coq Require Import QArith.
From Verif Require Import Base Mem CRing QNum Clamp DegridCustomSpec.
Open Scope Z_scope.

(** Half-way between two integers *)
Definition halfway (q : Q) : Prop := exists z, (q == inject_Z z + (1 # 2))%Q.
(** [rnd q] is a nearest integer, and the even one of two *)
Definition nearest_even (rnd : Q -> Z) (q : Q) : Prop :=
  (inject_Z (rnd q) - (1 # 2) <= q <= inject_Z (rnd q) + (1 # 2))%Q /\ (halfway q -> Z.even (rnd q) = true).
Section NoTies.
Context (nt nb nc os osw : Z) (uvw : nd Q) (theta wstep f0 df : Q).
(** No visibility lies half-way between two steps of an oversampled kernel *)
Definition no_ties : Prop := forall t b c, 0 <= t < nt -> 0 <= b < nb -> 0 <= c < nc ->
  ~ halfway (theta * wavelengths nb uvw f0 df t b c 0 * inject_Z os) /\ ~ halfway (theta * wavelengths nb uvw f0 df t b c 1 * inject_Z os) /\
  ~ halfway ((1 + wavelengths nb uvw f0 df t b c 2 / wstep) * inject_Z osw).
End NoTies.
