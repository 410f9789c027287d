(** Specification of suitable transform sizes. *)
From Coq Require Import ZArith Znumtheory List.
Import ListNotations.
Open Scope Z_scope.
(** No prime factor other than 2, 3, 5, 7 and 11 *)
Definition smooth (v : Z) : Prop := 0 < v /\ forall p, prime p -> (p | v) -> In p [2; 3; 5; 7; 11].
(** ... and even *)
Definition even_smooth (v : Z) : Prop := smooth v /\ (2 | v).
