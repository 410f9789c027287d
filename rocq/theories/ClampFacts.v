(** Proofs about channel clamping. *)
From Verif Require Import Base BaseFacts Clamp ClampSpec.
From Coq Require Import Lqa Qfield.
Open Scope Z_scope.

Lemma Qltb_lt a b : Qltb a b = true <-> (a < b)%Q.
Proof.
  unfold Qltb. destruct (Qle_bool b a) eqn:E; cbn.
  - apply Qle_bool_iff in E. split; [discriminate|]. intro H. apply Qlt_not_le in H. contradiction.
  - split; [|auto]. intros _. apply Qnot_le_lt. intro H. apply Qle_bool_iff in H. congruence.
Qed.
Lemma Qltb_ge a b : Qltb a b = false <-> (b <= a)%Q.
Proof.
  unfold Qltb. rewrite negb_false_iff. apply Qle_bool_iff.
Qed.

Lemma ceil_le x c : Qceiling x <= c <-> (x <= inject_Z c)%Q.
Proof.
  split; intro H.
  - apply Qle_trans with (inject_Z (Qceiling x)); [apply Qle_ceiling|]. now rewrite <- Zle_Qle.
  - rewrite <- (Qceiling_Z c). now apply Qceiling_resp_le.
Qed.
Lemma ceil_gt x c : c < Qceiling x <-> (inject_Z c < x)%Q.
Proof.
  split; intro H.
  - apply Qnot_le_lt. rewrite <- ceil_le. lia.
  - apply Qlt_not_le in H. rewrite <- ceil_le in H. lia.
Qed.

Lemma div_le_pos a d x : (0 < d)%Q -> ((a / d <= x)%Q <-> (a <= x * d)%Q).
Proof.
  intro H. split; intro A.
  - setoid_replace a with ((a / d) * d)%Q by (field; lra). apply Qmult_le_compat_r; lra.
  - apply Qle_shift_div_r; assumption.
Qed.
Lemma div_le_neg a d x : (d < 0)%Q -> ((a / d <= x)%Q <-> (x * d <= a)%Q).
Proof.
  intro H. setoid_replace (a / d)%Q with ((- a) / (- d))%Q by (field; lra).
  rewrite div_le_pos by lra. split; intro; lra.
Qed.
Lemma div_gt_pos a d x : (0 < d)%Q -> ((x < a / d)%Q <-> (x * d < a)%Q).
Proof.
  intro H. pose proof (div_le_pos a d x H). split; intro A; apply Qnot_le_lt; intro B; apply H0 in B; lra.
Qed.
Lemma div_gt_neg a d x : (d < 0)%Q -> ((x < a / d)%Q <-> (a < x * d)%Q).
Proof.
  intro H. pose proof (div_le_neg a d x H). split; intro A; apply Qnot_le_lt; intro B; apply H0 in B; lra.
Qed.

Lemma C_0_pos : (0 < C_0)%Q. Proof. reflexivity. Qed.

Lemma coord_lin u f0 df c :
  (coord u f0 df c == u * (f0 / C_0) + inject_Z c * (u * (df / C_0)))%Q.
Proof. unfold coord. field. discriminate. Qed.

Lemma coord_0 u f0 df : (coord u f0 df 0 == u * (f0 / C_0))%Q.
Proof. rewrite coord_lin. change (inject_Z 0) with 0%Q. ring. Qed.

Lemma coord_step_eq u df : (coord_step u df == u * (df / C_0))%Q.
Proof. unfold coord_step. field. discriminate. Qed.

Lemma coord_affine u f0 df c : (coord u f0 df c == coord u f0 df 0 + inject_Z c * coord_step u df)%Q.
Proof. rewrite coord_lin, coord_0, coord_step_eq. reflexivity. Qed.

Lemma Qmax_lt a b c : (Qmax a b < c)%Q <-> (a < c)%Q /\ (b < c)%Q.
Proof. apply Q.max_lub_lt_iff. Qed.

(** The guard of the code is exactly [step_resolved]. *)
Lemma guard_iff u f0 df mn mx u0 du :
  (u0 == coord u f0 df 0)%Q -> (du == coord_step u df)%Q ->
  ((Qmax (Qabs (mn - u0)) (Qabs (mx - u0)) / (2147483645 # 1) < Qabs du)%Q <-> step_resolved u f0 df mn mx).
Proof.
  intros E0 E1. unfold step_resolved. rewrite E0, E1. rewrite <- Qmax_lt.
  set (m := Qmax _ _). set (d := Qabs _). split; intro H.
  - apply Qnot_le_lt. intro B. apply Qlt_not_le in H. apply H. apply Qle_shift_div_l; [reflexivity|exact B].
  - apply Qnot_le_lt. intro B. apply Qlt_not_le in H. apply H.
    setoid_replace m with ((m / (2147483645 # 1)) * (2147483645 # 1))%Q by (field; discriminate).
    apply Qmult_le_compat_r; [exact B|discriminate].
Qed.

Lemma to_int_ceil x d : (Qabs x < Qabs d * (2147483645 # 1))%Q -> ~ (d == 0)%Q ->
  to_int (Qceiling (x / d)) = Some (Qceiling (x / d)).
Proof.
  intros H Hd. unfold to_int.
  assert (A : (- (2147483645 # 1) <= x / d)%Q /\ (x / d <= (2147483645 # 1))%Q).
  { revert H. apply Qabs_case; intros Hx; apply Qabs_case; intros Hdd H.
    - assert (0 < d)%Q by (destruct (Qlt_le_dec 0 d); auto; exfalso; apply Hd; lra). split.
      + apply Qle_shift_div_l; [assumption|]. lra.
      + apply Qle_shift_div_r; [assumption|]. lra.
    - assert (d < 0)%Q by (destruct (Qlt_le_dec d 0); auto; exfalso; apply Hd; lra).
      setoid_replace (x / d)%Q with ((- x) / (- d))%Q by (field; lra). split.
      + apply Qle_shift_div_l; lra.
      + apply Qle_shift_div_r; lra.
    - assert (0 < d)%Q by (destruct (Qlt_le_dec 0 d); auto; exfalso; apply Hd; lra). split.
      + apply Qle_shift_div_l; [assumption|]. lra.
      + apply Qle_shift_div_r; [assumption|]. lra.
    - assert (d < 0)%Q by (destruct (Qlt_le_dec d 0); auto; exfalso; apply Hd; lra).
      setoid_replace (x / d)%Q with ((- x) / (- d))%Q by (field; lra). split.
      + apply Qle_shift_div_l; lra.
      + apply Qle_shift_div_r; lra. }
  destruct A as [A1 A2].
  assert (B2 : Qceiling (x / d) <= 2147483645) by (apply ceil_le; exact A2).
  assert (B1 : -2147483646 < Qceiling (x / d)).
  { apply ceil_gt. apply Qlt_le_trans with (- (2147483645 # 1))%Q; [reflexivity|exact A1]. }
  destruct (_ && _) eqn:E; [reflexivity|]. lia.
Qed.

Lemma step_resolved_nz u f0 df mn mx : step_resolved u f0 df mn mx -> ~ (coord_step u df == 0)%Q.
Proof.
  intros [H _] E. rewrite E in H. change (Qabs 0) with 0%Q in H.
  pose proof (Qabs_nonneg (mn - coord u f0 df 0)). lra.
Qed.

Lemma clamp1_lemma u f0 df s e mn mx :
  step_resolved u f0 df mn mx ->
  exists r, clamp1 u f0 df s e mn mx = Some r /\ fst r <= snd r /\ s <= fst r /\
  forall c, selected r c <->
    s <= c < e /\ in_range_directed (0 < coord_step u df)%Q (coord u f0 df c) mn mx.
Proof.
  intro HR. unfold clamp1.
  set (u0 := (u * (f0 / C_0))%Q). set (du := (u * (df / C_0))%Q).
  assert (E0 : (u0 == coord u f0 df 0)%Q) by (symmetry; apply coord_0).
  assert (E1 : (du == coord_step u df)%Q) by (symmetry; apply coord_step_eq).
  pose proof (proj2 (guard_iff u f0 df mn mx u0 du E0 E1) HR) as G.
  apply Qltb_lt in G. rewrite G. cbn [bind].
  pose proof (step_resolved_nz _ _ _ _ _ HR) as NZ. rewrite <- E1 in NZ.
  destruct HR as [HR1 HR2]. rewrite <- E0, <- E1 in HR1, HR2.
  rewrite (to_int_ceil _ _ HR1 NZ), (to_int_ceil _ _ HR2 NZ). cbn [bind].
  assert (HC : forall c, (coord u f0 df c == u0 + inject_Z c * du)%Q) by (intro; apply coord_lin).
  clearbody u0 du.
  destruct (Qltb 0 du) eqn:Ep.
  - apply Qltb_lt in Ep. eexists. split; [reflexivity|]. cbn [fst snd].
    split; [lia|]. split; [lia|]. intro c. unfold selected. cbn [fst snd].
    pose proof (ceil_le ((mn - u0) / du) c) as L. pose proof (ceil_gt ((mx - u0) / du) c) as M.
    rewrite div_le_pos in L by assumption. rewrite div_gt_pos in M by assumption.
    unfold in_range_directed. rewrite <- E1, HC. split.
    + intros H. split; [lia|]. left. split; [assumption|].
      assert (A : Qceiling ((mn - u0) / du) <= c) by lia. assert (B : c < Qceiling ((mx - u0) / du)) by lia.
      apply L in A. apply M in B. lra.
    + intros [H [[_ [A B]]|[A _]]]; [|contradiction].
      assert (A' : (mn - u0 <= inject_Z c * du)%Q) by lra. assert (B' : (inject_Z c * du < mx - u0)%Q) by lra.
      apply L in A'. apply M in B'. lia.
  - apply Qltb_ge in Ep. assert (Hn : (du < 0)%Q) by (destruct (Qlt_le_dec du 0); auto; exfalso; apply NZ; lra).
    eexists. split; [reflexivity|]. cbn [fst snd].
    split; [lia|]. split; [lia|]. intro c. unfold selected. cbn [fst snd].
    pose proof (ceil_le ((mx - u0) / du) c) as L. pose proof (ceil_gt ((mn - u0) / du) c) as M.
    rewrite div_le_neg in L by assumption. rewrite div_gt_neg in M by assumption.
    unfold in_range_directed. rewrite <- E1, HC. split.
    + intros H. split; [lia|]. right. split; [lra|].
      assert (A : Qceiling ((mx - u0) / du) <= c) by lia. assert (B : c < Qceiling ((mn - u0) / du)) by lia.
      apply L in A. apply M in B. lra.
    + intros [H [[A _]|[_ [A B]]]]; [lra|].
      assert (A' : (inject_Z c * du <= mx - u0)%Q) by lra. assert (B' : (mn - u0 < inject_Z c * du)%Q) by lra.
      apply L in A'. apply M in B'. lia.
Qed.

Lemma in_range_dec x mn mx : {in_range x mn mx} + {~ in_range x mn mx}.
Proof.
  unfold in_range. destruct (Qlt_le_dec x mn); [right; lra|].
  destruct (Qlt_le_dec x mx); [left|right]; lra.
Qed.

Lemma clamp1_unresolved u f0 df s e mn mx :
  ~ step_resolved u f0 df mn mx ->
  clamp1 u f0 df s e mn mx =
  Some (if in_range_dec (coord u f0 df 0) mn mx then (s, Z.max e s) else (0, 0)).
Proof.
  intro HR. unfold clamp1.
  set (u0 := (u * (f0 / C_0))%Q). set (du := (u * (df / C_0))%Q).
  assert (E0 : (u0 == coord u f0 df 0)%Q) by (symmetry; apply coord_0).
  assert (E1 : (du == coord_step u df)%Q) by (symmetry; apply coord_step_eq).
  destruct (Qltb _ (Qabs du)) eqn:G.
  { exfalso. apply HR. apply Qltb_lt in G. now apply (guard_iff u f0 df mn mx u0 du E0 E1) in G. }
  destruct (in_range_dec _ _ _) as [[A B]|N].
  - rewrite <- E0 in A, B. destruct (Qltb u0 mn) eqn:X; [apply Qltb_lt in X; lra|].
    destruct (Qle_bool mx u0) eqn:Y; [apply Qle_bool_iff in Y; lra|]. reflexivity.
  - destruct (Qltb u0 mn) eqn:X; [reflexivity|].
    destruct (Qle_bool mx u0) eqn:Y; [reflexivity|].
    exfalso. apply N. apply Qltb_ge in X. unfold in_range. rewrite <- E0.
    split; [exact X|]. apply Qnot_le_lt. intro H. apply Qle_bool_iff in H. congruence.
Qed.

Lemma step_resolved_dec u f0 df mn mx : {step_resolved u f0 df mn mx} + {~ step_resolved u f0 df mn mx}.
Proof.
  unfold step_resolved.
  destruct (Qlt_le_dec (Qabs (mn - coord u f0 df 0)) (Qabs (coord_step u df) * (2147483645 # 1)));
    [|right; intros [H _]; apply (Qlt_not_le _ _ H); assumption].
  destruct (Qlt_le_dec (Qabs (mx - coord u f0 df 0)) (Qabs (coord_step u df) * (2147483645 # 1)));
    [left; auto|right; intros [_ H]; apply (Qlt_not_le _ _ H); assumption].
Qed.

(** Never undefined, whatever the input. *)
Lemma clamp1_defined u f0 df s e mn mx : exists r, clamp1 u f0 df s e mn mx = Some r /\ fst r <= snd r.
Proof.
  destruct (step_resolved_dec u f0 df mn mx) as [H|H].
  - destruct (clamp1_lemma u f0 df s e mn mx H) as (r & A & B & _). eauto.
  - rewrite clamp1_unresolved by assumption. eexists. split; [reflexivity|].
    destruct (in_range_dec _ _ _); cbn; lia.
Qed.

(** The inline version selects the same channels. *)
Lemma clamp_inline_lemma u f0 df s e mn mx :
  exists r, clamp1 u f0 df s e mn mx = Some r /\
    forall c, selected (clamp_inline u f0 df s e mn mx) c <-> selected r c.
Proof.
  unfold clamp_inline.
  set (u0' := (f0 * u / C_0)%Q). set (du' := (df * u / C_0)%Q).
  assert (E0 : (u0' == coord u f0 df 0)%Q) by (rewrite coord_0; unfold u0'; field; discriminate).
  assert (E1 : (du' == coord_step u df)%Q) by (unfold coord_step, du'; field; discriminate).
  set (eta := (Qmax _ _ / _)%Q).
  destruct (step_resolved_dec u f0 df mn mx) as [H|H].
  - destruct (clamp1_lemma u f0 df s e mn mx H) as (r & A & B & B2 & C).
    exists r. split; [exact A|]. intro c. rewrite C.
    pose proof (proj2 (guard_iff u f0 df mn mx u0' du' E0 E1) H) as G. fold eta in G.
    assert (HC : forall c, (coord u f0 df c == u0' + inject_Z c * du')%Q)
      by (intro; rewrite E0, E1; apply coord_affine).
    pose proof (step_resolved_nz _ _ _ _ _ H) as NZ.
    assert (Heta : (0 <= eta)%Q).
    { unfold eta. apply Qle_shift_div_l; [reflexivity|]. rewrite Qmult_0_l.
      apply Qle_trans with (Qabs (mn - u0')); [apply Qabs_nonneg|apply Q.le_max_l]. }
    unfold in_range_directed. rewrite <- E1 in *. rewrite HC. clear C A HC H. clearbody eta.
    destruct (Qlt_le_dec 0 du') as [P|P].
    + rewrite Qabs_pos in G by lra.
      destruct (Qltb eta du') eqn:L1; [|apply Qltb_ge in L1; lra].
      pose proof (ceil_le ((mn - u0') / du') c) as L. pose proof (ceil_gt ((mx - u0') / du') c) as M.
      rewrite div_le_pos in L by assumption. rewrite div_gt_pos in M by assumption.
      unfold selected.
      assert (T : (Z.max s (Qceiling ((mn - u0') / du')) <= c < Z.min e (Qceiling ((mx - u0') / du'))) <->
         (s <= c < e /\ (((0 < du')%Q /\ (mn <= u0' + inject_Z c * du')%Q /\ (u0' + inject_Z c * du' < mx)%Q) \/
          (~ (0 < du')%Q /\ (mn < u0' + inject_Z c * du')%Q /\ (u0' + inject_Z c * du' <= mx)%Q)))).
      { split.
        - intro K. assert (A : Qceiling ((mn - u0') / du') <= c) by lia.
          assert (D : c < Qceiling ((mx - u0') / du')) by lia. apply L in A. apply M in D.
          split; [lia|]. left. split; [assumption|]. split; lra.
        - intros [K [[_ [A D]]|[A _]]]; [|contradiction].
          assert (A' : (mn - u0' <= inject_Z c * du')%Q) by lra.
          assert (D' : (inject_Z c * du' < mx - u0')%Q) by lra. apply L in A'. apply M in D'. lia. }
      rewrite <- T. destruct (Z.leb_spec (Z.min e (Qceiling ((mx - u0') / du'))) (Z.max s (Qceiling ((mn - u0') / du')))); cbn; lia.
    + assert (Hn : (du' < 0)%Q) by (destruct (Qlt_le_dec du' 0); auto; exfalso; apply NZ; lra).
      rewrite Qabs_neg in G by lra.
      destruct (Qltb eta du') eqn:L1; [apply Qltb_lt in L1; lra|].
      destruct (Qltb du' (- eta)) eqn:L2; [|apply Qltb_ge in L2; lra].
      pose proof (ceil_le ((mx - u0') / du') c) as L. pose proof (ceil_gt ((mn - u0') / du') c) as M.
      rewrite div_le_neg in L by assumption. rewrite div_gt_neg in M by assumption.
      unfold selected.
      assert (T : (Z.max s (Qceiling ((mx - u0') / du')) <= c < Z.min e (Qceiling ((mn - u0') / du'))) <->
         (s <= c < e /\ (((0 < du')%Q /\ (mn <= u0' + inject_Z c * du')%Q /\ (u0' + inject_Z c * du' < mx)%Q) \/
          (~ (0 < du')%Q /\ (mn < u0' + inject_Z c * du')%Q /\ (u0' + inject_Z c * du' <= mx)%Q)))).
      { split.
        - intro K. assert (A : Qceiling ((mx - u0') / du') <= c) by lia.
          assert (D : c < Qceiling ((mn - u0') / du')) by lia. apply L in A. apply M in D.
          split; [lia|]. right. split; [lra|]. split; lra.
        - intros [K [[A _]|[_ [A D]]]]; [lra|].
          assert (A' : (inject_Z c * du' <= mx - u0')%Q) by lra.
          assert (D' : (mn - u0' < inject_Z c * du')%Q) by lra. apply L in A'. apply M in D'. lia. }
      rewrite <- T. destruct (Z.leb_spec (Z.min e (Qceiling ((mn - u0') / du'))) (Z.max s (Qceiling ((mx - u0') / du')))); cbn; lia.
  - eexists. split; [apply clamp1_unresolved; assumption|].
    assert (G : ~ (eta < Qabs du')%Q) by (intro K; apply H; now apply (guard_iff u f0 df mn mx u0' du' E0 E1)).
    assert (L1 : Qltb eta du' = false).
    { apply Qltb_ge. apply Qnot_lt_le. intro K. apply G. apply Qlt_le_trans with du'; [exact K|apply Qle_Qabs]. }
    assert (L2 : Qltb du' (- eta) = false).
    { apply Qltb_ge. apply Qnot_lt_le. intro K. apply G. apply Qlt_le_trans with (- du')%Q; [lra|].
      rewrite <- Qabs_opp. apply Qle_Qabs. }
    rewrite L1, L2. intro c.
    destruct (in_range_dec _ _ _) as [[A B]|N].
    + rewrite <- E0 in A, B. destruct (Qltb u0' mn) eqn:X; [apply Qltb_lt in X; lra|].
      destruct (Qle_bool mx u0') eqn:Y; [apply Qle_bool_iff in Y; lra|]. cbn [orb].
      unfold selected. destruct (Z.leb_spec e s); cbn; lia.
    + assert (Z0 : Qltb u0' mn || Qle_bool mx u0' = true).
      { destruct (Qltb u0' mn) eqn:X; [reflexivity|]. destruct (Qle_bool mx u0') eqn:Y; [reflexivity|].
        exfalso. apply N. apply Qltb_ge in X. unfold in_range. rewrite <- E0.
        split; [exact X|]. apply Qnot_le_lt. intro K. apply Qle_bool_iff in K. congruence. }
      rewrite Z0. unfold selected. cbn. lia.
Qed.
