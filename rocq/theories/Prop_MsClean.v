(** C36: multi-scale CLEAN. *)
From Verif Require Import Base Sum CRing Checks Hogbom HogbomFacts MsClean MsCleanSpec MsCleanFacts.
Open Scope Z_scope.

(** When the PSF is square and at least twice as large as the (square) dirty image, the call succeeds
    with every access in bounds, as a sequence of at most cycle_limit cycles; if it stops earlier the
    chosen peak is below the threshold; components and residuals are explained by one list of
    (weight, scale, x, y). *)
Theorem C36_partial n p ns cb mo sk dirty psf kern_f spsf_f sres_f gain threshold limit :
  0 < n -> 0 < ns -> 2 * n <= p -> nth0 cb 0 = 4 -> nth0 mo 0 = n -> nth0 sk 0 = n ->
  let kern := mk_nd [ns * p * p] (fun idx => kern_f (nth0 idx 0)) in
  let spsf := mk_nd [ns * ns * p * p] (fun idx => spsf_f (nth0 idx 0)) in
  let sres0 := mk_nd [ns * n * n] (fun idx => sres_f (nth0 idx 0)) in
  exists comp sres k l, ms_clean [n; n] [p; p] cb [ns] mo [n; n] sk dirty psf kern_f spsf_f sres_f gain threshold limit =
      Some (SUCCESS, (comp, sres)) /\
    ms_cycles ns n p kern spsf gain threshold k (mk_nd [n * n] (fun _ => 0%Qc), sres0) (comp, sres) /\
    Z.of_nat k <= Z.max 0 limit /\
    (Z.of_nat k < limit -> exists v m x y, choice ns n p spsf sres v m x y /\ (img n sres m x y < threshold)%Qc) /\
    length l = k /\
    (forall i j, 0 <= i < n -> 0 <= j < n -> img n comp 0 i j = model_of n p kern l i j) /\
    (forall s i j, 0 <= s < ns -> 0 <= i < n -> 0 <= j < n ->
       img n sres s i j = (img n sres0 s i j - explained ns n p spsf l s i j)%Qc).
Proof. exact (ms_clean_lemma n p ns cb mo sk dirty psf kern_f spsf_f sres_f gain threshold limit). Qed.
Print Assumptions C36_partial.

(** Refuted: the size of the PSF is not checked.  A PSF of the size of the image is accepted and its
    window is read outside the array; a PSF of 4 x 1 pixels is read as 4 x 4. *)
Theorem C36_psf_size_refuted :
  ms_checks [2; 2] [4] [2; 2] [2; 2] [2; 2] = SUCCESS /\
  ms_clean [2; 2] [2; 2] [4] [1] [2; 2] [2; 2] [2; 2] (fun _ => 1%Qc) (fun _ => 1%Qc) (fun _ => 1%Qc) (fun _ => 1%Qc) (fun _ => 1%Qc)
    1 0 1 = None /\
  ms_clean [2; 2] [4; 1] [4] [1] [2; 2] [2; 2] [2; 2] (fun _ => 1%Qc) (fun _ => 1%Qc) (fun _ => 1%Qc) (fun _ => 1%Qc) (fun _ => 1%Qc)
    1 0 1 = None.
Proof. repeat split; vm_compute; reflexivity. Qed.
Print Assumptions C36_psf_size_refuted.

(** Two scales, one cycle, then the threshold stops the loop. *)
Example C36_hyps : exists comp res,
  ms_clean [2; 2] [4; 4] [4] [2] [2; 2] [2; 2] [2; 2] (fun _ => 1%Qc) (fun _ => 1%Qc)
    (fun i => if i =? 10 then 1%Qc else 0%Qc) (fun i => if i =? 10 then 1%Qc else 0%Qc) (fun i => if i =? 3 then 1%Qc else 0%Qc)
    1 (Q2Qc (QArith_base.Qmake 1 2)) 7 = Some (SUCCESS, (comp, res)) /\ elem comp [3] = 1%Qc /\ elem res [3] = 0%Qc.
Proof. eexists. eexists. split; [vm_compute; reflexivity|]. split; apply Qc_is_canon; vm_compute; reflexivity. Qed.
