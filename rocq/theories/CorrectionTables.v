(** The computation of CorrectionCells.v for all supports *)
From Verif Require Import Base CorrectionCells.
Open Scope Z_scope.
Lemma supports_ok : forallb support_ok [4; 5; 6; 7; 8; 9; 10; 11; 12; 13; 14; 15; 16] = true.
Proof. vm_cast_no_check (eq_refl true). Qed.
