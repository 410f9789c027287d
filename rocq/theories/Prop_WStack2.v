(** C116: the prediction of the w-stacking driver. *)
From Coq Require Import Lia Qreals.
From Verif Require Import Base BaseFacts Sum CRing Cplx Clamp QNum FftSpec FftFacts WTower WTowerSpec WTowerDrv WTowerDrvSpec Prop_WTowerDrv WStack WStackSpec WStackSpec2 WTowerDrvFacts3 WStackFacts2 WStackFacts3 Prop_WStack.
Open Scope Z_scope.

(** Degridding writes to each visibility the sum, over the w-planes and their tasks, of what the tasks predict; what the output contained before is lost. *)
Theorem C116_prediction s n m planes image subgrid w_image subgrids vis0 :
  let N := s_image_size s in
  setup_ok s -> planes_ok s n m planes -> scratch_ok s subgrid w_image subgrids -> shape image = [N; N] -> shape vis0 = [n; m] ->
  exists vis, degrid_all s image subgrid w_image subgrids planes vis0 = Some vis /\ shape vis = [n; m] /\
    forall i c, 0 <= i < n -> 0 <= c < m ->
      exists zss, Forall2 (fun p zs => Forall2 (fun t z => predicted s n m image (fst p) t i c z) (snd p) zs) planes zss /\ elem vis [i; c] = fold_right Cadd C0 (concat zss).
Proof.
  intros N Ok P Sc Si S0. unfold degrid_all.
  destruct (planes_predict s n m Ok image subgrid w_image subgrids planes P Si Sc (mk_nd (shape vis0) (fun _ => C0)) S0) as (v & E & Sv & V).
  exists v. split; [exact E|]. split; [exact Sv|]. intros i c Hi Hc. destruct (V i c Hi Hc) as (zss & F & Q). exists zss. split; [exact F|]. rewrite Q. cbn [elem]. unfold sumC. generalize (fold_right Cadd C0 (concat zss)). intro z. csolve.
Qed.
Print Assumptions C116_prediction.

Lemma cis_int z a b : cis a = cis b -> cis (- (IZR z * a)) = cis (- (IZR z * b)).
Proof.
  intro H. rewrite !cis_neg. f_equal. destruct (Z.le_gt_cases 0 z).
  - rewrite <- (Z2Nat.id z) by assumption. rewrite <- !INR_IZR_INZ, !cis_nat. now rewrite H.
  - replace (IZR z * a)%R with (- (IZR (- z) * a))%R by (rewrite opp_IZR; ring). replace (IZR z * b)%R with (- (IZR (- z) * b))%R by (rewrite opp_IZR; ring). rewrite !cis_neg. f_equal.
    rewrite <- (Z2Nat.id (- z)) by lia. rewrite <- !INR_IZR_INZ, !cis_nat. now rewrite H.
Qed.
(** The value a task predicts is determined by the image, the task and the coordinates. *)
Theorem C116_predicted_unique s n m image w t i c z z' : predicted s n m image w t i c z -> predicted s n m image w t i c z' -> z = z'.
Proof.
  intros (phi & df & r0 & r1 & first & last & proc & I & HP & A & B) (phi' & df2 & r02 & r12 & first2 & last2 & proc2 & I2 & HP2 & A2 & B2).
  destruct I as (_ & _ & RU & W & PL & _ & (_ & PO) & _). destruct I2 as (_ & _ & RU2 & W2 & PL2 & _ & (_ & PO2) & _).
  assert (D : df2 = df). { rewrite <- (width_used_dfreq _ _ W), <- (width_used_dfreq _ _ W2). reflexivity. } subst df2.
  rewrite PL in PL2. injection PL2 as <- <-.
  assert (R : r02 = r0 /\ r12 = r1). { destruct RU as (U1 & U2), RU2 as (V1 & V2). destruct (Z_lt_dec (t_row0 t) 0); [destruct U1, V1; auto; lia|]. destruct (Z_lt_dec (t_row1 t) 0); [destruct U1, V1; auto; lia|]. destruct U2, V2; try lia. }
  destruct R as (-> & ->).
  assert (Q : forall p, proc2 p = proc p). { intro p. destruct (proc2 p) eqn:E2, (proc p) eqn:E1; try reflexivity; [apply HP2, HP in E2; congruence|apply HP, HP2 in E1; congruence]. }
  assert (RD : {r0 <= i < r1} + {~ r0 <= i < r1}). { destruct (Z_le_dec r0 i); [|right; lia]. destruct (Z_lt_dec i r1); [left; lia|right; lia]. }
  destruct RD as [Hr|Hr]; [|rewrite A, A2 by assumption; reflexivity].
  rewrite B, B2 by assumption. apply csum_ext. intros p Hp. rewrite Q. destruct (proc p); [|reflexivity]. cbv zeta. unfold interp.
  apply (rsum_ext (A := Cring)); intros a Ha. f_equal. apply (rsum_ext (A := Cring)); intros b Hb. f_equal. apply (rsum_ext (A := Cring)); intros e He. f_equal.
  unfold w_subgrid. apply centred2_outside. intros x y Hx Hy. f_equal. apply cis_int. rewrite <- PO, <- PO2 by assumption. reflexivity.
Qed.
Print Assumptions C116_predicted_unique.

(** The set-up of C116 (an 8 x 8 image, 4 x 4 sub-grids, one visibility) with an image of ones *)
Example C116_prediction_hyps : let s := mk_wstack (ex_plan 2) (ex_const [4; 4] (cis (PI / 2))) 8 2 0%R 0%R (mk_nd [8] (fun _ => 1%R)) (fun _ => 1%R) C_0 C_0 ex_uvw (ex_const [64] C0) (ex_const [16] C0) in
  let t := mk_task 0 0 (ex_ch 0) (ex_ch 1) (-1) (-1) in
  exists vis, degrid_all s (ex_const [8; 8] C1) (ex_const [4; 4] C0) (ex_const [4; 4] C0) (ex_const [2; 4; 4] C0) [(0, [t])] (ex_const [1; 1] C0) = Some vis /\
    exists z, predicted s 1 1 (ex_const [8; 8] C1) 0 t 0 0 z /\ elem vis [0; 0] = z.
Proof.
  cbv zeta. destruct C116_hyps as (A & B & _ & D).
  match type of A with setup_ok ?x => set (s := x) in * end.
  destruct (C116_prediction s 1 1 [(0, [mk_task 0 0 (ex_ch 0) (ex_ch 1) (-1) (-1)])] (ex_const [8; 8] C1) (ex_const [4; 4] C0) (ex_const [4; 4] C0) (ex_const [2; 4; 4] C0) (ex_const [1; 1] C0) A B D eq_refl eq_refl) as (v & E & _ & V).
  exists v. split; [exact E|]. destruct (V 0 0 ltac:(lia) ltac:(lia)) as (zss & F & Q).
  inversion F as [|p zs ps l F1 F2]; subst. inversion F2; subst. inversion F1 as [|t z ts l' F3 F4]; subst. inversion F4; subst. cbn [concat app fold_right] in Q. exists z. split; [exact F3|]. rewrite Q. generalize z. intro z0. csolve.
Qed.
