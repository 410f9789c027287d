(** Numbers without prime factors above 11 *)
From Verif Require Import Base.
Open Scope Z_scope.

Definition smooth (y : Z) : Prop := exists a b c d e : nat, y = 2 ^ Z.of_nat a * 3 ^ Z.of_nat b * 5 ^ Z.of_nat c * 7 ^ Z.of_nat d * 11 ^ Z.of_nat e.
(** [r] is the least such number that is not below [n]. *)
Definition least_smooth (n r : Z) : Prop := smooth r /\ n <= r /\ forall y, smooth y -> n <= y -> r <= y.
