From Coq Require Import QArith Lia.
From Verif Require Import Base BaseFacts Sum Loops Sets Flagger FlaggerSpec FlaggerFacts.
Open Scope Z_scope.

Definition is1 (_ : list Z) (x : Z) : Prop := x = 1.
Definition near (window c d : Z) : Prop := d = c \/ (Z.abs (d - c) <= window /\ d <> 0).

Lemma set_if_sets n (b : bool) pos : (b = true -> 0 <= pos < n) -> sets [n] (fun idx => b && idx_eqb [pos] idx) is1 (set_if b pos).
Proof. intro H. unfold set_if. apply sets_if. intro Hb. apply sets_wr; [apply in_shape_1; auto|reflexivity]. Qed.

Section Time.
Context {A : num} (sort_len : forall l : list A, length (nsort l) = length l).
Context {V : Type} (mag : V -> A) (junk : A) (vis : nd V) (alpha thr_mag thr_var thr_broad : A) (step window wmh nt nb nc np : Z).
Context (Hstep : 1 <= step) (Hns : 2 <= nc / step) (Hwmh : 2 <= wmh).
Context (Svis : shape vis = [nt * nb * nc * np]).
Context (b p : Z) (Hb : 0 <= b < nb) (Hp : 0 <= p < np).
Notation P := (at_ nb nc np b p).
Notation m := (magnitude mag vis nb nc np b p).
Notation med := (med step nc m).
Notation n := (nt * nb * nc * np).
Notation ns := (nsamp step nc).

Lemma P_eq t c : t * (nb * nc * np) + b * (nc * np) + c * np + p = P t c.
Proof. unfold at_. ring. Qed.
Lemma P_pos4 t c : P t c = pos4 nb nc np t b c p.
Proof. unfold at_, pos4. ring. Qed.
Lemma P_range t c : 0 <= t < nt -> 0 <= c < nc -> 0 <= P t c < n.
Proof. intros. rewrite P_pos4. now apply pos4_range. Qed.
Lemma ns_eq : cdiv nc step = ns.
Proof. unfold cdiv, nsamp. apply Z.quot_div_nonneg; [|lia]. pose proof (Z.mul_div_le nc step ltac:(lia)). nia. Qed.
Lemma samp_range s : 0 <= s < ns -> 0 <= s * step < nc.
Proof. unfold nsamp. intro H. pose proof (Z.mul_div_le nc step ltac:(lia)). nia. Qed.

Definition inv (t : Z) (sc : scratch) : Prop :=
  shape (samples sc) = [ns] /\ shape (transit_score sc) = [nc] /\ shape (transit_samples sc) = [ns] /\ shape (median_history sc) = [nt] /\
  (forall k, 0 <= k < t -> elem (median_history sc) [k] = med k) /\
  (2 <= t -> forall c, 0 <= c < nc -> elem (transit_score sc) [c] = score alpha m (t - 1) c).

(** The cells that method 1 sets *)
Definition reach (t c : Z) (idx : list Z) : bool :=
  idx_eqb [P t c] idx || own_all 0 window (fun w idx => (c - w - 1 >? 0) && idx_eqb [P t (c - w - 1)] idx || (c + w + 1 <? nc) && idx_eqb [P t (c + w + 1)] idx) idx.
Definition own1 (t : Z) : list Z -> bool := own_all 0 nc (fun c idx => detect_mag thr_mag thr_broad step wmh nc m t c && reach t c idx).
(** and method 2 *)
Definition reach2 (t c : Z) (idx : list Z) : bool :=
  idx_eqb [P t c] idx || (idx_eqb [P (t - 1) c] idx || own_all 0 window (fun w idx =>
    (c - w - 1 >? 0) && idx_eqb [P t (c - w - 1)] idx || ((c - w - 1 >? 0) && idx_eqb [P (t - 1) (c - w - 1)] idx ||
    ((c + w + 1 <? nc) && idx_eqb [P t (c + w + 1)] idx || (c + w + 1 <? nc) && idx_eqb [P (t - 1) (c + w + 1)] idx))) idx).
Definition own2 (t : Z) : list Z -> bool := own_all 0 nc (fun c idx => detect_change alpha thr_var step nc m t c && reach2 t c idx).

Lemma idx_true a i : idx_eqb a i = true <-> i = a.
Proof. destruct (idx_eqb_spec a i); split; intro; subst; auto; discriminate. Qed.

Lemma reach_true t c idx : 0 <= c < nc -> reach t c idx = true <-> exists d, 0 <= d < nc /\ idx = [P t d] /\ near window c d.
Proof.
  intro Hc. unfold reach, near. rewrite orb_true_iff, idx_true, own_all_true. split.
  - intros [->|(w & Hw & H)]; [exists c; auto|]. rewrite orb_true_iff, !andb_true_iff, !idx_true in H.
    destruct H as [[H ->]|[H ->]]; eexists; (split; [|split; [reflexivity|]]); lia.
  - intros (d & Hd & -> & [->|[H1 H2]]); [auto|]. destruct (Z.lt_trichotomy d c) as [L|[->|L]]; [|auto|]; right.
    + exists (c - d - 1). split; [lia|]. replace (c - (c - d - 1) - 1) with d by lia. rewrite orb_true_iff, !andb_true_iff, !idx_true. left. split; [lia|reflexivity].
    + exists (d - c - 1). split; [lia|]. replace (c + (d - c - 1) + 1) with d by lia. rewrite orb_true_iff, !andb_true_iff, !idx_true. right. split; [lia|reflexivity].
Qed.
Lemma reach2_true t c idx : 0 <= c < nc -> reach2 t c idx = true <-> exists d, 0 <= d < nc /\ (idx = [P t d] \/ idx = [P (t - 1) d]) /\ near window c d.
Proof.
  intro Hc. transitivity (reach t c idx = true \/ reach (t - 1) c idx = true).
  - unfold reach, reach2. rewrite !orb_true_iff, !own_all_true. split.
    + intros [H|[H|(w & Hw & H)]]; auto. rewrite !orb_true_iff in H. destruct H as [H|[H|[H|H]]]; [left|right|left|right]; right; exists w; rewrite H, ?orb_true_r; auto.
    + intros [[H|(w & Hw & H)]|[H|(w & Hw & H)]]; auto; right; right; exists w; (split; [exact Hw|]); apply orb_prop in H; destruct H as [H|H]; rewrite H, ?orb_true_r; auto.
  - rewrite !reach_true by auto. split.
    + intros [(d & ? & -> & ?)|(d & ? & -> & ?)]; exists d; auto.
    + intros (d & ? & [->| ->] & ?); [left|right]; exists d; auto.
Qed.

Lemma score_step t c : 2 <= t -> score alpha m t c = nadd (nmul alpha (nabs (nsub (m (t - 1) c) (m t c)))) (nmul (nsub (nq 1) alpha) (score alpha m (t - 1) c)).
Proof.
  intro H. unfold score. replace (Z.to_nat t) with (S (S (Z.to_nat (t - 2)))) by lia. replace (Z.to_nat (t - 1)) with (S (Z.to_nat (t - 2))) by lia.
  cbn [score_nat]. replace (Z.of_nat (S (S (Z.to_nat (t - 2))))) with t by lia. reflexivity.
Qed.

Lemma flag_time_ok t sc flags : 0 <= t < nt -> inv t sc -> shape flags = [n] ->
  exists sc' flags', flag_time mag (Some junk) vis alpha thr_mag thr_var thr_broad step window wmh nb nc np b p t (sc, flags) = Some (sc', flags') /\
    inv (t + 1) sc' /\ shape flags' = [n] /\
    (forall idx, own1 t idx || (0 <? t) && own2 t idx = true -> elem flags' idx = 1) /\
    (forall idx, own1 t idx || (0 <? t) && own2 t idx = false -> elem flags' idx = elem flags idx).
Proof.
  intros Ht (S1 & S2 & S3 & S4 & IH & IS) Sf. unfold flag_time. rewrite ns_eq. cbv zeta.
  assert (Hns' : 2 <= ns) by (unfold nsamp; exact Hns).
  set (mw := Z.min (t + 1) wmh). destruct (@new_array_ok A mw ltac:(lia)) as (ma & -> & Sma). cbn [bind].
  (* samples *)
  match goal with |- context [for_ 0 ns ?f (samples sc)] => destruct (for_set1 ns (fun s _ => m t (s * step)) f 0 ns (samples sc)) as (smp & E & Ssmp & Psmp & _) end; auto; try lia.
  { intros s st Hs Sst. pose proof (samp_range s Hs). rewrite P_eq. rewrite rd_some by (rewrite Svis; apply in_shape_1; now apply P_range). cbn [bind].
    rewrite wr_some by (rewrite Sst; apply in_shape_1; lia). reflexivity. }
  rewrite E. cbn [bind]. clear E. apply arr_is_intro in Psmp; [|lia|exact Ssmp]. change (map _ _) with (samples_at step nc m t) in Psmp.
  assert (Lsmp : ns = Z.of_nat (length (samples_at step nc m t))) by (unfold samples_at; rewrite map_length, zrange_length; lia).
  destruct (qsort_ok sort_len smp _ ns Psmp Lsmp) as (smp' & E & Psmp'). rewrite E. cbn [bind]. clear E.
  rewrite (median_ok sort_len _ _ _ _ Psmp' Lsmp Hns'). cbn [bind]. rewrite (median_dev_ok sort_len _ _ _ _ _ Psmp' Lsmp Hns'). cbn [bind].
  change (median_of (samples_at step nc m t)) with (med t). change (deviation_of _ (med t)) with (dev step nc m t).
  (* history *)
  rewrite wr_some by (rewrite S4; apply in_shape_1; lia). cbn [bind]. set (hist := upd _ _ _).
  assert (Ph : forall k, 0 <= k < t + 1 -> elem hist [k] = med k).
  { intros k Hk. unfold hist. destruct (Z.eq_dec k t) as [->|N]; [now rewrite elem_upd_same|]. rewrite elem_upd_other by congruence. apply IH. lia. }
  assert (Sh : shape hist = [nt]) by (unfold hist; now rewrite shape_upd). clearbody hist.
  match goal with |- context [for_ 0 mw ?f ma] => destruct (for_set1 mw (fun k _ => med (t - k)) f 0 mw ma) as (ma1 & E & Sma1 & Pma & _) end; auto; try lia.
  { intros k st Hk Sst. rewrite rd_some by (rewrite Sh; apply in_shape_1; lia). cbn [bind]. rewrite wr_some by (rewrite Sst; apply in_shape_1; lia). rewrite Ph by lia. reflexivity. }
  rewrite E. cbn [bind]. clear E. apply arr_is_intro in Pma; [|lia|exact Sma1]. change (map _ _) with (history step wmh nc m t) in Pma.
  assert (Lma : mw = Z.of_nat (length (history step wmh nc m t))) by (unfold history; rewrite map_length, zrange_length; lia).
  destruct (qsort_ok sort_len ma1 _ mw Pma Lma) as (ma2 & E & Pma2). rewrite E. cbn [bind]. clear E.
  set (jk := if t =? 0 then Some junk else None).
  assert (B : exists mm md, median_calc jk ma2 mw = Some mm /\ median_dev_calc jk ma2 mw mm = Some md /\
    beyond (modified_zscore mm md (med t)) thr_broad && negb (t =? 0) = broadband thr_broad step wmh nc m t).
  { destruct (Z.eq_dec t 0) as [->|N].
    - assert (E : mw = 1) by lia. change jk with (Some junk). exists junk, junk. split; [|split].
      + rewrite E. apply median_one. destruct Pma2 as [-> _]. rewrite sort_len, <- Lma, E. reflexivity.
      + rewrite E. apply (median_dev_one sort_len _ _ _ _ Pma2). lia.
      + unfold broadband. cbn [Z.eqb negb]. now rewrite !andb_false_r.
    - assert (2 <= mw) by lia. eexists _, _. split; [exact (median_ok sort_len _ _ _ _ Pma2 Lma H)|]. split; [exact (median_dev_ok sort_len _ _ _ _ _ Pma2 Lma H)|]. reflexivity. }
  destruct B as (mm & md & -> & B). cbn [bind]. destruct B as [-> B]. cbn [bind]. rewrite B. clear B.
  (* method 1 *)
  match goal with |- context [for_ 0 nc ?f flags] => assert (X1 : sets [n] (own1 t) is1 (for_ 0 nc f)) end.
  { apply sets_for. intros c Hc.
    assert (Y : sets [n] (reach t c) is1 (fun flags => let* flags := wr flags [P t c] 1 in
        for_ 0 window (fun w flags =>
          let* flags := set_if (c - w - 1 >? 0) (P t (c - w - 1)) flags in
          set_if (c + w + 1 <? nc) (P t (c + w + 1)) flags) flags)).
    { unfold reach. apply (sets_seq _ (idx_eqb [P t c])).
      - apply sets_wr; [apply in_shape_1; now apply P_range|reflexivity].
      - apply sets_for. intros w Hw. apply (sets_seq _ (fun idx => (c - w - 1 >? 0) && idx_eqb [P t (c - w - 1)] idx)).
        + apply set_if_sets. intro. apply P_range; lia.
        + apply set_if_sets. intro. apply P_range; lia. }
    eapply sets_ext; [apply (sets_if _ (reach t c) _ (detect_mag thr_mag thr_broad step wmh nc m t c)); intros _; exact Y|reflexivity|].
    intros st Sst. rewrite P_eq. rewrite rd_some by (rewrite Svis; apply in_shape_1; now apply P_range). cbn [bind].
    change (beyond (modified_zscore (med t) (dev step nc m t) (mag (elem vis [P t c]))) thr_mag || broadband thr_broad step wmh nc m t)
      with (detect_mag thr_mag thr_broad step wmh nc m t c). destruct (detect_mag _ _ _ _ _ _ _ _); [|reflexivity].
    destruct (wr st _ _); [|reflexivity]. cbn [bind]. apply for_ext. intros w x Hw. now rewrite !P_eq. }
  destruct (X1 flags Sf) as (fl1 & E & Sf1 & Q1 & Q2). rewrite E. cbn [bind]. clear E X1.
  destruct (Z.gtb_spec t 0) as [T|T].
  2:{ eexists _, _. split; [reflexivity|]. split.
      - unfold inv. cbn [samples transit_score transit_samples median_history]. rewrite (proj1 Psmp'), sort_len, <- Lsmp. do 4 (split; [assumption || reflexivity|]). split; [exact Ph|]. lia.
      - split; [exact Sf1|]. assert (0 <? t = false) as -> by lia. cbn [andb]. split; intros idx; rewrite orb_false_r; [apply Q1|apply Q2]. }
  (* method 2 *)
  assert (Hnc : 0 <= nc) by (pose proof (Z.mul_div_le nc step ltac:(lia)); nia).
  match goal with |- context [for_ 0 nc ?f (transit_score sc)] =>
    destruct (for_set1 nc (fun c old => if t =? 1 then nabs (nsub (m (t - 1) c) (m t c)) else nadd (nmul alpha (nabs (nsub (m (t - 1) c) (m t c)))) (nmul (nsub (nq 1) alpha) old)) f 0 nc (transit_score sc)) as (ts & E & Sts & Pts & _) end; auto; try lia.
  { intros c st Hc Sst. rewrite !P_eq. rewrite rd_some by (rewrite Svis; apply in_shape_1; now apply P_range). cbn [bind].
    rewrite rd_some by (rewrite Svis; apply in_shape_1; apply P_range; lia). cbn [bind]. destruct (t =? 1).
    - rewrite wr_some by (rewrite Sst; apply in_shape_1; lia). reflexivity.
    - rewrite rd_some by (rewrite Sst; apply in_shape_1; lia). cbn [bind]. rewrite wr_some by (rewrite Sst; apply in_shape_1; lia). reflexivity. }
  rewrite E. cbn [bind]. clear E.
  assert (Pts' : forall c, 0 <= c < nc -> elem ts [c] = score alpha m t c).
  { intros c Hc. rewrite Pts by auto. destruct (Z.eqb_spec t 1) as [->|N]; [reflexivity|]. rewrite IS by lia. symmetry. apply score_step. lia. }
  clear Pts.
  match goal with |- context [for_ 0 ns ?f (transit_samples sc)] => destruct (for_set1 ns (fun s _ => nabs (score alpha m t (s * step))) f 0 ns (transit_samples sc)) as (tsm & E & Stsm & Ptsm & _) end; auto; try lia.
  { intros s st Hs Sst. pose proof (samp_range s Hs). rewrite rd_some by (rewrite Sts; apply in_shape_1; lia). cbn [bind].
    rewrite wr_some by (rewrite Sst; apply in_shape_1; lia). rewrite Pts' by auto. reflexivity. }
  rewrite E. cbn [bind]. clear E. apply arr_is_intro in Ptsm; [|lia|exact Stsm]. change (map _ _) with (scores_at alpha step nc m t) in Ptsm.
  assert (Ltsm : ns = Z.of_nat (length (scores_at alpha step nc m t))) by (unfold scores_at; rewrite map_length, zrange_length; lia).
  destruct (qsort_ok sort_len tsm _ ns Ptsm Ltsm) as (tsm' & E & Ptsm'). rewrite E. cbn [bind]. clear E.
  rewrite (median_ok sort_len _ _ _ _ Ptsm' Ltsm Hns'). cbn [bind]. rewrite (median_dev_ok sort_len _ _ _ _ _ Ptsm' Ltsm Hns'). cbn [bind].
  match goal with |- context [for_ 0 nc ?f fl1] => assert (X2 : sets [n] (own2 t) is1 (for_ 0 nc f)) end.
  { apply sets_for. intros c Hc.
    assert (Y : sets [n] (reach2 t c) is1 (fun flags => let* flags := wr flags [P t c] 1 in let* flags := wr flags [P (t - 1) c] 1 in
        for_ 0 window (fun w flags =>
          let* flags := set_if (c - w - 1 >? 0) (P t (c - w - 1)) flags in
          let* flags := set_if (c - w - 1 >? 0) (P (t - 1) (c - w - 1)) flags in
          let* flags := set_if (c + w + 1 <? nc) (P t (c + w + 1)) flags in
          set_if (c + w + 1 <? nc) (P (t - 1) (c + w + 1)) flags) flags)).
    { unfold reach2. apply (sets_seq _ (idx_eqb [P t c])).
      { apply sets_wr; [apply in_shape_1; now apply P_range|reflexivity]. }
      apply (sets_seq _ (idx_eqb [P (t - 1) c])).
      { apply sets_wr; [apply in_shape_1; apply P_range; lia|reflexivity]. }
      apply sets_for. intros w Hw.
      apply (sets_seq _ (fun idx => (c - w - 1 >? 0) && idx_eqb [P t (c - w - 1)] idx)); [apply set_if_sets; intro; apply P_range; lia|].
      apply (sets_seq _ (fun idx => (c - w - 1 >? 0) && idx_eqb [P (t - 1) (c - w - 1)] idx)); [apply set_if_sets; intro; apply P_range; lia|].
      apply (sets_seq _ (fun idx => (c + w + 1 <? nc) && idx_eqb [P t (c + w + 1)] idx)); apply set_if_sets; intro; apply P_range; lia. }
    eapply sets_ext; [apply (sets_if _ (reach2 t c) _ (detect_change alpha thr_var step nc m t c)); intros _; exact Y|reflexivity|].
    intros st Sst. rewrite rd_some by (rewrite Sts; apply in_shape_1; lia). cbn [bind]. rewrite Pts' by auto. rewrite !P_eq.
    change (beyond _ thr_var) with (detect_change alpha thr_var step nc m t c). destruct (detect_change _ _ _ _ _ _ _); [|reflexivity].
    destruct (wr st _ _) as [x|]; [|reflexivity]. cbn [bind]. destruct (wr x _ _); [|reflexivity]. cbn [bind]. apply for_ext. intros w y Hw. now rewrite !P_eq. }
  destruct (X2 fl1 Sf1) as (fl2 & E & Sf2 & Q3 & Q4). rewrite E. cbn [bind]. clear E X2.
  eexists _, _. split; [reflexivity|]. split.
  - unfold inv. cbn [samples transit_score transit_samples median_history]. rewrite (proj1 Psmp'), (proj1 Ptsm'), !sort_len, <- Lsmp, <- Ltsm. do 4 (split; [assumption || reflexivity|]). split; [exact Ph|]. intros _ c Hc. rewrite Pts' by auto. f_equal. lia.
  - split; [exact Sf2|]. assert (0 <? t = true) as -> by lia. cbn [andb]. split; intros idx H.
    + apply orb_prop in H. destruct (own2 t idx) eqn:O; [now apply Q3|]. rewrite Q4 by auto. apply Q1. now destruct H.
    + apply orb_false_iff in H. rewrite Q4, Q2; tauto.
Qed.
End Time.
