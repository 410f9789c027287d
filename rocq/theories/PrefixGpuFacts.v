(** Facts about the prefix sum on the GPU *)
From Coq Require Import Lia.
From Verif Require Import Base BaseFacts Sum CRing GpuBlock GpuBlockFacts GpuBlockFacts3 PrefixGpu.
From Verif Require SumDiffGpu SumDiffGpuFacts.
Import SumDiffGpu(i32). Import SumDiffGpuFacts(i32_mod, i32_eq, i32_id, add_mod).
Open Scope Z_scope.

Notation M := 4294967296.
Notation zs := (sum Z.add 0).
Lemma loc_eqb_ok x y : loc_eqb x y = true <-> x = y.
Proof. destruct x, y; cbn; try (split; (discriminate || congruence)); rewrite Z.eqb_eq; (split; [intros ->; reflexivity|intro E; inversion E; auto]). Qed.
Notation mem := (loc -> Z).
Notation put := (put (A := Z) loc_eqb).
Notation solo := (solo (A := Z) loc_eqb).
Notation rule := (rule (A := Z) loc_eqb 512).
Definition psame := @put_same loc Z loc_eqb loc_eqb_ok.
Definition pother := @put_other loc Z loc_eqb loc_eqb_ok.

(** One step of the scan *)
Lemma step_rule X j m c k : rule X -> 1 <= j <= 256 ->
  (forall t, 0 <= t < 512 -> c t = Ld (Scr (t + 512 - j)) (fun x => Sync (Ld (Scr (t + 512)) (fun y => St (Scr (t + 512)) (i32 (y + x)) (Sync (k t)))))) ->
  (forall m1 c1, (forall t, 0 <= t < 512 -> c1 t = k t) -> (forall t, 0 <= t < 512 -> m1 (Scr (t + 512)) = i32 (m (Scr (t + 512)) + m (Scr (t + 512 - j)))) ->
    (forall l, (forall t, 0 <= t < 512 -> l <> Scr (t + 512)) -> m1 l = m l) -> X (m1, c1)) -> X (m, c).
Proof.
  intros Hx Hj C K. apply (Hx m c (fun t l => False) (fun t l => l = Scr (t + 512 - j))).
  { intros t Ht. rewrite C by assumption. cbn. auto. }
  { intros; easy. }
  intros m1 c1 (P1 & _ & N1). assert (M1 : forall l, m1 l = m l) by (intro; apply N1; auto).
  apply (Hx m1 c1 (fun t l => l = Scr (t + 512)) (fun t l => l = Scr (t + 512))).
  { intros t Ht. rewrite P1, C by assumption. cbn. auto. }
  { intros t t' l Ht Ht' N ->. split; intro Q; inversion Q; lia. }
  intros m2 c2 (P2 & V2 & N2). apply K.
  - intros t Ht. rewrite P2, P1, C by assumption. reflexivity.
  - intros t Ht. rewrite (V2 t) by auto. rewrite P1, C by assumption. cbn. rewrite psame, M1. reflexivity.
  - intros l Nl. rewrite N2, M1; [reflexivity|]. intros t Ht. auto.
Qed.

Definition inv (w : Z) (v : Z -> Z) (m : mem) : Prop := forall u, -512 <= u < 512 -> m (Scr (u + 512)) mod M = zs (u - w + 1) (u + 1) v mod M.
Lemma inv_step w v m m1 : 1 <= w <= 256 -> (forall u, u < 0 -> v u = 0) -> inv w v m -> (forall t, 0 <= t < 512 -> m1 (Scr (t + 512)) = i32 (m (Scr (t + 512)) + m (Scr (t + 512 - w)))) ->
  (forall l, (forall t, 0 <= t < 512 -> l <> Scr (t + 512)) -> m1 l = m l) -> inv (2 * w) v m1.
Proof.
  intros Hw Hv I V N u Hu. destruct (Z_lt_ge_dec u 0) as [L|L].
  - rewrite N by (intros t Ht Q; inversion Q; lia). rewrite I by lia. rewrite !(sum_none _ _ Zcm) by (intros i Hi; apply Hv; lia). reflexivity.
  - rewrite V, i32_mod by lia. replace (u + 512 - w) with (u - w + 512) by lia. rewrite (add_mod _ _ _ _ (I u ltac:(lia)) (I (u - w) ltac:(lia))). f_equal.
    rewrite (sum_split _ _ Zcm (u - 2 * w + 1) (u - w + 1) (u + 1)) by lia. replace (u - w - w + 1) with (u - 2 * w + 1) by lia. lia.
Qed.
(** The scan of a turn *)
Lemma scan_rule X v m c k : rule X -> (forall u, u < 0 -> v u = 0) -> inv 1 v m -> (forall t, 0 <= t < 512 -> c t = release (scan t (k t))) ->
  (forall m1 c1, (forall t, 0 <= t < 512 -> c1 t = k t) -> (forall t, 0 <= t < 512 -> m1 (Scr (t + 512)) mod M = zs 0 (t + 1) v mod M) ->
    (forall l, (forall i, l <> Scr i) -> m1 l = m l) -> X (m1, c1)) -> X (m, c).
Proof.
  intros Hx Hv I0 C K. unfold scan, scan_step in C. cbn [release] in C.
  eapply (step_rule _ 1); [exact Hx|lia|exact C|]; clear C. intros m1 c1 C1 V1 N1. pose proof (inv_step 1 _ _ _ ltac:(lia) Hv I0 V1 N1) as I1. clear V1.
  eapply (step_rule _ 2); [exact Hx|lia|exact C1|]; clear C1. intros m2 c2 C2 V2 N2. pose proof (inv_step 2 _ _ _ ltac:(lia) Hv I1 V2 N2) as I2. clear V2.
  eapply (step_rule _ 4); [exact Hx|lia|exact C2|]; clear C2. intros m3 c3 C3 V3 N3. pose proof (inv_step 4 _ _ _ ltac:(lia) Hv I2 V3 N3) as I3. clear V3.
  eapply (step_rule _ 8); [exact Hx|lia|exact C3|]; clear C3. intros m4 c4 C4 V4 N4. pose proof (inv_step 8 _ _ _ ltac:(lia) Hv I3 V4 N4) as I4. clear V4.
  eapply (step_rule _ 16); [exact Hx|lia|exact C4|]; clear C4. intros m5 c5 C5 V5 N5. pose proof (inv_step 16 _ _ _ ltac:(lia) Hv I4 V5 N5) as I5. clear V5.
  eapply (step_rule _ 32); [exact Hx|lia|exact C5|]; clear C5. intros m6 c6 C6 V6 N6. pose proof (inv_step 32 _ _ _ ltac:(lia) Hv I5 V6 N6) as I6. clear V6.
  eapply (step_rule _ 64); [exact Hx|lia|exact C6|]; clear C6. intros m7 c7 C7 V7 N7. pose proof (inv_step 64 _ _ _ ltac:(lia) Hv I6 V7 N7) as I7. clear V7.
  eapply (step_rule _ 128); [exact Hx|lia|exact C7|]; clear C7. intros m8 c8 C8 V8 N8. pose proof (inv_step 128 _ _ _ ltac:(lia) Hv I7 V8 N8) as I8. clear V8.
  eapply (step_rule _ 256); [exact Hx|lia|exact C8|]; clear C8. intros m9 c9 C9 V9 N9. pose proof (inv_step 256 _ _ _ ltac:(lia) Hv I8 V9 N9) as I9. clear V9.
  apply K; [exact C9| |].
  - intros t Ht. rewrite I9 by lia. f_equal. destruct (Z.eq_dec t 511) as [->|Nt]; [reflexivity|]. rewrite (sum_split _ _ Zcm _ 0 (t + 1)) by lia. rewrite (sum_none _ _ Zcm) by (intros i Hi; apply Hv; lia). lia.
  - intros l Nl. rewrite N9, N8, N7, N6, N5, N4, N3, N2, N1 by (intros t _; apply Nl). reflexivity.
Qed.

Definition value (n : Z) (idx : Z -> Z) (m : mem) (u : Z) : Z := if (0 <=? u) && (idx u <=? n) && (0 <? idx u) then m (Points (idx u - 1)) else 0.
Lemma inv_one v m : (forall t, 0 <= t < 512 -> m (Scr t) = 0 /\ m (Scr (t + 512)) = v t) -> (forall u, u < 0 -> v u = 0) -> inv 1 v m.
Proof.
  intros H Hv u Hu. replace (u - 1 + 1) with u by lia. rewrite (sum_snoc _ _ Zcm), sum_empty by lia. rewrite Z.add_0_l. destruct (Z_lt_ge_dec u 0).
  - rewrite (proj1 (H (u + 512) ltac:(lia))), Hv by lia. reflexivity.
  - rewrite (proj2 (H u ltac:(lia))). reflexivity.
Qed.
(** A turn of the outer loop that all threads begin together *)
Lemma turn_rule X f n idx run m c : rule X -> (forall t, 0 <= t < 512 -> c t = prefix_loops (S f) n (idx t) (run t) t) ->
  (forall m1 c1, (forall t, 0 <= t < 512 -> c1 t = write n (idx t) (run t) t (fun r => prefix_loops f n (idx t + 512) r t)) ->
    (forall t, 0 <= t < 512 -> m1 (Scr (t + 512)) mod M = zs 0 (t + 1) (value n idx m) mod M) -> (forall l, (forall i, l <> Scr i) -> m1 l = m l) -> X (m1, c1)) -> X (m, c).
Proof.
  intros Hx C K. apply (Hx m c (fun t l => l = Scr t \/ l = Scr (t + 512)) (fun t l => exists i, l = Points i)).
  { intros t Ht. rewrite C by assumption. cbn [prefix_loops]. destruct (_ && _); cbn; eauto 10. }
  { intros t t' l Ht Ht' N W. split; [intros (i & ->); destruct W; discriminate|]. intros W'. destruct W as [-> | ->], W' as [W'|W']; inversion W'; lia. }
  intros m1 c1 (P1 & V1 & N1).
  assert (Hv : forall u, u < 0 -> value n idx m u = 0) by (intros u Hu; unfold value; replace (0 <=? u) with false by lia; reflexivity).
  assert (S1 : forall t, 0 <= t < 512 -> exists v, v = value n idx m t /\ solo m (c t) = (put (put m (Scr t) 0) (Scr (t + 512)) v, scan t (write n (idx t) (run t) t (fun r => prefix_loops f n (idx t + 512) r t)))).
  { intros t Ht. rewrite C by assumption. unfold value. replace (0 <=? t) with true by lia. cbn [prefix_loops andb]. destruct (_ && _); (eexists; split; reflexivity). }
  apply (scan_rule X (value n idx m) m1 c1 (fun t => write n (idx t) (run t) t (fun r => prefix_loops f n (idx t + 512) r t)) Hx Hv).
  - apply inv_one; [|exact Hv]. intros t Ht. destruct (S1 t Ht) as (v & <- & E). rewrite !(V1 t) by auto. rewrite E. cbn [fst]. rewrite psame. rewrite pother by (intro Q; inversion Q; lia). rewrite psame. auto.
  - intros t Ht. destruct (S1 t Ht) as (v & _ & E). rewrite P1, E by assumption. reflexivity.
  - intros m2 c2 C2 V2 N2. apply K; auto. intros l Nl. rewrite N2 by assumption. apply N1. intros t Ht [Q|Q]; eapply Nl; exact Q.
Qed.
