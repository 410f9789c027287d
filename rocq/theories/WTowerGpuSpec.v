(** Vocabulary for the w-towers kernels on the GPU. *)
From Coq Require Import Reals.
From Verif Require Import Base CRing Cplx Mem WTower.
Open Scope Z_scope.

(** [flat] holds the stack of sub-grids [sg] in C order. *)
Definition laid_out {A : cring} (plan : wplan A) (sg flat : nd A) : Prop :=
  let n := subgrid_size plan in let w := w_support plan in
  shape sg = [w; n; n] /\ shape flat = [w * n * n] /\
  forall a b d, 0 <= a < w -> 0 <= b < n -> 0 <= d < n -> elem flat [(a * n + b) * n + d] = elem sg [a; b; d].
(** [flat] holds the stack of complex sub-grids [sg], as pairs of real numbers. *)
Definition laid_out_pairs (plan : wplan Cring) (sg : nd C) (flat : nd R) : Prop :=
  let n := subgrid_size plan in let w := w_support plan in
  shape sg = [w; n; n] /\ shape flat = [2 * (w * n * n)] /\
  forall a b d, 0 <= a < w -> 0 <= b < n -> 0 <= d < n ->
    elem sg [a; b; d] = (elem flat [2 * ((a * n + b) * n + d)], elem flat [2 * ((a * n + b) * n + d) + 1]).
(** The supported types of the sub-grids, the coordinates and the visibilities *)
Definition wtower_types (ts tu tv : Z) : Prop :=
  (ts = MEM_COMPLEX_DOUBLE /\ tu = MEM_DOUBLE /\ tv = MEM_COMPLEX_DOUBLE) \/ (ts = MEM_COMPLEX_FLOAT /\ (tu = MEM_DOUBLE \/ tu = MEM_FLOAT) /\ tv = MEM_COMPLEX_FLOAT).
