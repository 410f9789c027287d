(** C34, C35: Hogbom CLEAN. *)
From Verif Require Import Base Sum CRing Checks Hogbom HogbomSpec HogbomFacts.
Open Scope Z_scope.

(** C34: the identity holds before the first cycle, is kept by every cycle, and holds in the result. *)
Theorem C34_start n psf (dirty res : nd Qc) : (forall i, 0 <= i < n * n -> elem res [i] = elem dirty [i]) ->
  consistent n psf dirty (mk_nd [n * n] (fun _ => 0%Qc), res).
Proof. exact (zero_consistent n psf dirty res). Qed.
Print Assumptions C34_start.
Theorem C34_every_cycle n psf dirty gain threshold k s s' : 0 < n -> cycles n psf gain threshold k s s' ->
  consistent n psf dirty s -> consistent n psf dirty s'.
Proof. exact (cycles_consistent n psf dirty gain threshold k s s'). Qed.
Print Assumptions C34_every_cycle.
Theorem C34_result n cb mo sk dirty psf gain threshold limit :
  0 < n -> 1 <= limit -> (0 < gain)%Qc -> nth0 cb 0 = 4 -> nth0 mo 0 = n -> nth0 sk 0 = n ->
  exists comp res, hogbom [n; n] [2 * n; 2 * n] cb mo [n; n] sk dirty psf gain threshold limit = Some (SUCCESS, (comp, res)) /\
    forall i j, 0 <= i < n -> 0 <= j < n -> elem res [n * i + j] =
      (dirty (n * i + j)%Z - convolved n comp (mk_nd [(2 * n * (2 * n))%Z] (fun idx => psf (nth0 idx 0))) i j)%Qc.
Proof.
  intros. destruct (hogbom_lemma n cb mo sk dirty psf gain threshold limit) as (comp & res & k & A & _ & _ & _ & B); auto.
  exists comp, res. split; [exact A|]. intros i j Hi Hj. exact (B i j Hi Hj).
Qed.
Print Assumptions C34_result.

(** C35: for images of matching shapes the call succeeds with every access in bounds; it is a
    sequence of at most cycle_limit minor cycles at true first peaks; if fewer ran, all residual
    pixels are below the threshold. *)
Theorem C35_partial n cb mo sk dirty psf gain threshold limit :
  0 < n -> 1 <= limit -> (0 < gain)%Qc -> nth0 cb 0 = 4 -> nth0 mo 0 = n -> nth0 sk 0 = n ->
  exists comp res k, hogbom [n; n] [2 * n; 2 * n] cb mo [n; n] sk dirty psf gain threshold limit = Some (SUCCESS, (comp, res)) /\
    (exists res0, (forall i, 0 <= i < n * n -> elem res0 [i] = dirty i) /\
      cycles n (mk_nd [2 * n * (2 * n)] (fun idx => psf (nth0 idx 0))) gain threshold k
        (mk_nd [n * n] (fun _ => 0%Qc), res0) (comp, res)) /\
    Z.of_nat k <= limit /\
    (Z.of_nat k < limit -> forall i, 0 <= i < n * n -> (elem res [i] < threshold)%Qc).
Proof.
  intros. destruct (hogbom_lemma n cb mo sk dirty psf gain threshold limit) as (comp & res & k & A & B & C & D & _); auto.
  exists comp, res, k. auto.
Qed.
Print Assumptions C35_partial.

(** Bad scalar arguments and mismatched PSF sizes are rejected. *)
Theorem C35_rejects dirty_sh psf_sh cb mo rs sk dirty psf gain threshold limit :
  limit < 1 \/ (gain <= 0)%Qc \/ nth0 psf_sh 0 <> 2 * nth0 dirty_sh 0 \/ nth0 psf_sh 1 <> nth0 psf_sh 0 \/
    nth0 dirty_sh 1 <> nth0 dirty_sh 0 ->
  exists st, hogbom dirty_sh psf_sh cb mo rs sk dirty psf gain threshold limit = Some (ERR_RUNTIME, st).
Proof.
  intro H. unfold hogbom.
  assert (E : hogbom_checks dirty_sh psf_sh cb mo rs sk gain limit = ERR_RUNTIME).
  { unfold hogbom_checks. repeat (match goal with |- context [if ?b then _ else _] => destruct b eqn:?; try reflexivity end).
    exfalso. destruct H as [H|[H|[H|[H|H]]]]; try lia.
    match goal with A : Qcltb 0 gain = true |- _ => destruct (Qcltb_spec 0 gain) as [L|]; [|discriminate] end.
    exact (Qcle_not_lt _ _ H L). }
  rewrite E. cbn [failed]. eauto.
Qed.
Print Assumptions C35_rejects.

(** Only the first dimension of the outputs is checked: a 2 x 1 residual is accepted for a 2 x 2
    image, and the copy writes outside it. *)
Theorem C35_output_shape_refuted :
  hogbom_checks [2; 2] [4; 4] [4] [2; 2] [2; 1] [2; 2] 1 1 = SUCCESS /\
  hogbom [2; 2] [4; 4] [4] [2; 2] [2; 1] [2; 2] (fun _ => 0%Qc) (fun _ => 0%Qc) 1 0 1 = None.
Proof. split; vm_compute; reflexivity. Qed.
Print Assumptions C35_output_shape_refuted.

(** Concrete case: a 2 x 2 image with one source of value 1 at pixel (1, 0), a point PSF, gain 1/2, threshold 1/3: two cycles. *)
Example C34_hyps : exists comp res,
  hogbom [2; 2] [4; 4] [4] [2; 2] [2; 2] [2; 2] (fun i => if i =? 2 then 1%Qc else 0%Qc) (fun i => if i =? 10 then 1%Qc else 0%Qc)
    (Q2Qc (QArith_base.Qmake 1 2)) (Q2Qc (QArith_base.Qmake 1 3)) 5 = Some (SUCCESS, (comp, res)) /\
  elem comp [2] = Q2Qc (QArith_base.Qmake 3 4) /\ elem res [2] = Q2Qc (QArith_base.Qmake 1 4).
Proof. eexists. eexists. split; [vm_compute; reflexivity|]. split; apply Qc_is_canon; vm_compute; reflexivity. Qed.
