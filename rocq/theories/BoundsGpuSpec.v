(** Specification vocabulary for bounds on the GPU *)
From Coq Require Import QArith.
(** The same number, or both infinite (the start value) *)
Definition same_bound (a b : option Q) : Prop := match a, b with Some a, Some b => (a == b)%Q | None, None => True | _, _ => False end.
