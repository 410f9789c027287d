(** The computation of QuadratureCells.v for the numbers of points 3 s / 2 + 2, s = 4 .. 16 *)
From Verif Require Import Base QuadratureCells.
Open Scope Z_scope.
Lemma tables_ok : forallb table_ok [8; 9; 11; 12; 14; 15; 17; 18; 20; 21; 23; 24; 26] = true.
Proof. vm_cast_no_check (eq_refl true). Qed.
