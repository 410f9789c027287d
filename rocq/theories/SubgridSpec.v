(** Specification vocabulary for sub-grid operations. *)
From Verif Require Import Base CRing.

(** Grid pixel (one dimension) of sub-grid pixel [i] of a sub-grid of [s] pixels centred
    [off] pixels from the centre of a periodic grid of [g] pixels. *)
Definition pixel (g s off i : Z) : Z := (i + g / 2 - s / 2 + off) mod g.

(** Bilinear product of two images of n x m pixels. *)
Definition dot {A : cring} (n m : Z) (a b : nd A) : A :=
  rsum 0 n (fun i => rsum 0 m (fun j => (elem a [i; j] * elem b [i; j])%cr)).

Definition zeros {A : cring} (sh : list Z) : nd A := mk_nd sh (fun _ => r0).
