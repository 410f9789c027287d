(** Facts about sdp_gridder_sum_diff on the GPU *)
From Coq Require Import Lia.
From Verif Require Import Base BaseFacts Sum CRing GpuBlock GpuBlockFacts SumDiffGpu.
Open Scope Z_scope.

Notation M := 4294967296.
Notation zs := (sum Z.add 0).
Lemma i32_mod z : i32 z mod M = z mod M.
Proof. unfold i32. rewrite Zminus_mod, Z.mod_mod, <- Zminus_mod by lia. f_equal. lia. Qed.
Lemma i32_eq x y : x mod M = y mod M -> i32 x = i32 y.
Proof. intro E. unfold i32. rewrite (Zplus_mod x), (Zplus_mod y), E. reflexivity. Qed.
Lemma i32_id z : -2147483648 <= z < 2147483648 -> i32 z = z.
Proof. intro H. unfold i32. rewrite Z.mod_small by lia. lia. Qed.
Lemma add_mod a a' b b' : a mod M = a' mod M -> b mod M = b' mod M -> (a + b) mod M = (a' + b') mod M.
Proof. intros E F. rewrite Zplus_mod, E, F, <- Zplus_mod. reflexivity. Qed.
Lemma zs_mod lo hi f g : (forall i, lo <= i < hi -> f i mod M = g i mod M) -> zs lo hi f mod M = zs lo hi g mod M.
Proof.
  intro H. destruct (Z_le_gt_dec hi lo) as [L|L]; [now rewrite !sum_empty by lia|].
  assert (G : forall k, 0 <= k -> lo + k <= hi -> zs lo (lo + k) f mod M = zs lo (lo + k) g mod M).
  { apply (natlike_ind (fun k => lo + k <= hi -> zs lo (lo + k) f mod M = zs lo (lo + k) g mod M)).
    - intros _. now rewrite !sum_empty by lia.
    - intros k Hk IH Q. replace (lo + Z.succ k) with (lo + k + 1) by lia. rewrite !(sum_snoc _ _ Zcm) by lia. apply add_mod; [apply IH|apply H]; lia. }
  specialize (G (hi - lo)). replace (lo + (hi - lo)) with hi in G by lia. apply G; lia.
Qed.

Lemma loc_eqb_ok x y : loc_eqb x y = true <-> x = y.
Proof. destruct x, y; cbn; try (split; (discriminate || congruence)); rewrite ?Bool.andb_true_iff, ?Z.eqb_eq; (split; [intuition; subst; reflexivity|intro E; inversion E; auto]). Qed.
Notation mem := (loc -> Z).
Notation bexec := (bexec (A := Z) loc_eqb).
Notation put := (put (A := Z) loc_eqb).
Notation solo := (solo (A := Z) loc_eqb).
Notation foot := (foot (L := loc) (A := Z)).
Notation foot1 := (foot1 (L := loc) (A := Z)).
Notation syncs := (syncs (L := loc) (A := Z)).
Definition psame := @put_same loc Z loc_eqb loc_eqb_ok.
Definition pother := @put_other loc Z loc_eqb loc_eqb_ok.
Definition fin (s : mem * (Z -> code)) : Prop := forall t, 0 <= t < 512 -> snd s t = Done.
Definition mine (b : Z) (l : loc) : Prop := exists t, 0 <= t < 512 /\ l = Sh b t.

(** The rows of a thread *)
Definition diff (m : mem) (j : Z) : Z := m (RowA j) - m (RowB j).
Definition row_sum (f : Z -> Z) (i e : Z) : Z := zs i e (fun j => if ((j - i) mod 8192 =? 0) || ((j - i) mod 8192 =? 512) then f j else 0).
Lemma row_sum_none f i e : e <= i -> row_sum f i e = 0.
Proof. intro. unfold row_sum. now rewrite sum_empty. Qed.
Lemma row_sum_step f i e : i < e -> row_sum f i e = f i + (if i + 512 <? e then f (i + 512) else 0) + row_sum f (i + 8192) e.
Proof.
  intro H. unfold row_sum. set (mid := Z.min e (i + 8192)). rewrite (sum_split _ _ Zcm i mid e) by lia. f_equal.
  - rewrite (sum_cons _ _ ) by lia. rewrite Z.sub_diag. change (0 mod 8192) with 0. cbn [Z.eqb orb]. f_equal.
    destruct (Z.ltb_spec (i + 512) e) as [L|L].
    + rewrite (sum_one _ _ Zcm _ _ (i + 512)) by (first [lia | intros j Hj Nj; rewrite Z.mod_small by lia; replace (j - i =? 0) with false by lia; replace (j - i =? 512) with false by lia; reflexivity]).
      replace (i + 512 - i) with 512 by lia. reflexivity.
    + apply (sum_none _ _ Zcm). intros j Hj. rewrite Z.mod_small by lia. replace (j - i =? 0) with false by lia. replace (j - i =? 512) with false by lia. reflexivity.
  - destruct (Z_le_gt_dec e (i + 8192)) as [L|L].
    + rewrite !sum_empty by lia. reflexivity.
    + replace mid with (i + 8192) by lia. apply (sum_ext). intros j Hj. replace (j - i) with (j - (i + 8192) + 1 * 8192) by lia. rewrite Z_mod_plus by lia. reflexivity.
Qed.
Lemma solo_add_row m b t i k : solo m (add_row b t i k) = solo (put m (Sh b t) (i32 (m (Sh b t) + i32 (diff m i)))) k.
Proof. reflexivity. Qed.
Lemma diff_put m b t v j : diff (put m (Sh b t) v) j = diff m j.
Proof. unfold diff. now rewrite !pother by discriminate. Qed.
Lemma row_sum_ext f g i e : (forall j, f j = g j) -> row_sum f i e = row_sum g i e.
Proof. intro H. unfold row_sum. apply sum_ext. intros j _. now rewrite H. Qed.
Lemma solo_rows e b t k : forall fuel i m, e - i <= Z.of_nat fuel ->
  exists m1, solo m (rows fuel i e b t (Sync k)) = (m1, Sync k) /\ m1 (Sh b t) mod M = (m (Sh b t) + row_sum (diff m) i e) mod M /\ forall l, l <> Sh b t -> m1 l = m l.
Proof.
  induction fuel as [|f IH]; intros i m Hf.
  - exists m. cbn [rows GpuBlockFacts.solo]. rewrite row_sum_none by lia. rewrite Z.add_0_r. auto.
  - cbn [rows]. destruct (Z.ltb_spec i e) as [L|L].
    + rewrite solo_add_row. set (m2 := put m _ _).
      assert (V2 : m2 (Sh b t) mod M = (m (Sh b t) + diff m i) mod M). { unfold m2. rewrite psame, i32_mod. apply add_mod; [reflexivity|apply i32_mod]. }
      assert (O2 : forall l, l <> Sh b t -> m2 l = m l) by (intros l N; apply pother; congruence).
      assert (D2 : forall j, diff m2 j = diff m j) by (intro; apply diff_put). clearbody m2.
      rewrite (row_sum_step _ i e L). destruct (i + 512 <? e).
      * rewrite solo_add_row. set (m3 := put m2 _ _).
        assert (V3 : m3 (Sh b t) mod M = (m (Sh b t) + diff m i + diff m (i + 512)) mod M). { unfold m3. rewrite psame, i32_mod. apply add_mod; [exact V2|]. rewrite i32_mod. now rewrite D2. }
        assert (O3 : forall l, l <> Sh b t -> m3 l = m l) by (intros l N; unfold m3; rewrite pother by congruence; auto).
        assert (D3 : forall j, diff m3 j = diff m j) by (intro; unfold m3; now rewrite diff_put). clearbody m3.
        destruct (IH (i + 512 * 2 * 8) m3 ltac:(lia)) as (m1 & E1 & V1 & O1). exists m1. split; [exact E1|]. split; [|intros l N; rewrite O1, O3; auto].
        rewrite V1. rewrite (row_sum_ext (diff m3) (diff m)) by exact D3. change (512 * 2 * 8) with 8192. rewrite (add_mod _ _ _ _ V3 eq_refl). f_equal. lia.
      * destruct (IH (i + 512 * 2 * 8) m2 ltac:(lia)) as (m1 & E1 & V1 & O1). exists m1. split; [exact E1|]. split; [|intros l N; rewrite O1, O2; auto].
        rewrite V1. rewrite (row_sum_ext (diff m2) (diff m)) by exact D2. change (512 * 2 * 8) with 8192. rewrite (add_mod _ _ _ _ V2 eq_refl). f_equal. lia.
    + exists m. cbn [GpuBlockFacts.solo]. rewrite row_sum_none by lia. rewrite Z.add_0_r. auto.
Qed.
Lemma foot1_rows (W R : loc -> Prop) e b t k : W (Sh b t) -> R (Sh b t) -> (forall i, R (RowA i) /\ R (RowB i)) -> forall fuel i, foot1 W R (rows fuel i e b t (Sync k)).
Proof.
  intros H1 H2 H3. assert (A : forall i q, foot1 W R q -> foot1 W R (add_row b t i q)). { intros i q F. cbn. destruct (H3 i). auto. }
  induction fuel as [|f IH]; intro i; [exact I|]. cbn [rows]. destruct (i <? e); [|exact I]. apply A. destruct (i + 512 <? e); auto.
Qed.

(** One round *)
Lemma tree_phase b s m c k s' : 0 < s -> 2 * s <= 512 -> (forall t, 0 <= t < 512 -> c t = tree_step s b t (k t)) -> bexec 512 (m, c) s' -> fin s' ->
  exists m1 c1, bexec 512 (m1, c1) s' /\ (forall t, 0 <= t < 512 -> c1 t = k t) /\
    (forall t, 0 <= t < 512 -> m1 (Sh b t) = if t <? s then i32 (m (Sh b t) + m (Sh b (t + s))) else m (Sh b t)) /\ (forall l, ~ mine b l -> m1 l = m l).
Proof.
  intros Hs H2 C E F.
  destruct (phase loc_eqb loc_eqb_ok 512 m c (fun t l => t < s /\ l = Sh b t) (fun t l => t < s /\ (l = Sh b t \/ l = Sh b (t + s))) s') as (m1 & c1 & E1 & P1 & V1 & N1); [| |exact E|exact F|].
  - intros t Ht. rewrite C by assumption. unfold tree_step. destruct (Z.ltb_spec t s); [|exact I]. cbn. auto 10.
  - intros t t' l Ht Ht' N [L ->]. split; intros [L' Q].
    + destruct Q as [Q|Q]; inversion Q; lia.
    + inversion Q; lia.
  - exists m1, c1. split; [exact E1|]. split; [|split].
    + intros t Ht. rewrite P1, C by assumption. unfold tree_step. destruct (t <? s); reflexivity.
    + intros t Ht. destruct (Z.ltb_spec t s).
      * rewrite (V1 t) by auto. rewrite C by assumption. unfold tree_step. rewrite (proj2 (Z.ltb_lt t s)) by assumption. cbn [GpuBlockFacts.solo fst]. now rewrite psame.
      * apply N1. intros t' Ht' [L W]. inversion W. lia.
    + intros l Nl. apply N1. intros t Ht [L W]. apply Nl. exists t. auto.
Qed.
Lemma warp_phase b s m c k s' : 0 < s <= 32 -> (forall t, 0 <= t < 512 -> c t = if t <? 32 then warp_step true s b t (k t) else Done) -> bexec 512 (m, c) s' -> fin s' ->
  exists m1 c1, bexec 512 (m1, c1) s' /\ (forall t, 0 <= t < 512 -> c1 t = if t <? 32 then k t else Done) /\
    (forall t, 0 <= t < 512 -> m1 (Sh b t) = if t <? 32 then i32 (m (Sh b t) + m (Sh b (t + s))) else m (Sh b t)) /\ (forall l, ~ mine b l -> m1 l = m l).
Proof.
  intros Hs C E F. unfold warp_step, lock in C.
  destruct (phase loc_eqb loc_eqb_ok 512 m c (fun t l => False) (fun t l => l = Sh b (t + s)) s') as (m1 & c1 & E1 & P1 & _ & N1); [| |exact E|exact F|].
  { intros t Ht. rewrite C by assumption. destruct (t <? 32); cbn; auto. }
  { intros; easy. }
  assert (M1 : forall l, m1 l = m l) by (intro; apply N1; auto).
  assert (C1 : forall t, 0 <= t < 512 -> c1 t = if t <? 32 then Ld (Sh b t) (fun x => Sync (St (Sh b t) (i32 (x + m (Sh b (t + s)))) (Sync (k t)))) else Done).
  { intros t Ht. rewrite P1, C by assumption. destruct (t <? 32); reflexivity. }
  clear P1 N1 C E c.
  destruct (phase loc_eqb loc_eqb_ok 512 m1 c1 (fun t l => False) (fun t l => l = Sh b t) s') as (m2 & c2 & E2 & P2 & _ & N2); [| |exact E1|exact F|].
  { intros t Ht. rewrite C1 by assumption. destruct (t <? 32); cbn; auto. }
  { intros; easy. }
  assert (M2 : forall l, m2 l = m l) by (intro; rewrite N2 by auto; apply M1).
  assert (C2 : forall t, 0 <= t < 512 -> c2 t = if t <? 32 then St (Sh b t) (i32 (m (Sh b t) + m (Sh b (t + s)))) (Sync (k t)) else Done).
  { intros t Ht. rewrite P2, C1 by assumption. destruct (t <? 32); [|reflexivity]. cbn. now rewrite M1. }
  clear P2 N2 C1 E1 M1 c1 m1.
  destruct (phase loc_eqb loc_eqb_ok 512 m2 c2 (fun t l => t < 32 /\ l = Sh b t) (fun t l => False) s') as (m3 & c3 & E3 & P3 & V3 & N3); [| |exact E2|exact F|].
  { intros t Ht. rewrite C2 by assumption. destruct (Z.ltb_spec t 32); cbn; auto. }
  { intros t t' l Ht Ht' N (L & ->). split; [easy|]. intros (L' & X). inversion X. lia. }
  exists m3, c3. split; [exact E3|]. split; [|split].
  - intros t Ht. rewrite P3, C2 by assumption. destruct (t <? 32); reflexivity.
  - intros t Ht. destruct (Z.ltb_spec t 32).
    + rewrite (V3 t) by auto. rewrite C2 by assumption. rewrite (proj2 (Z.ltb_lt t 32)) by assumption. cbn. now rewrite psame.
    + rewrite N3, M2; [reflexivity|]. intros t' Ht' (L & X). inversion X. lia.
  - intros l Nl. rewrite N3, M2; [reflexivity|]. intros t Ht (_ & ->). apply Nl. exists t. auto.
Qed.

(** The invariant: the first [d] slots add up to the total *)
Definition inv (b total d : Z) (m : mem) : Prop := zs 0 d (fun t => m (Sh b t)) mod M = total mod M.
Lemma halve b total s lim m m1 : 0 < s <= lim -> lim + s <= 512 -> inv b total (2 * s) m ->
  (forall t, 0 <= t < 512 -> m1 (Sh b t) = if t <? lim then i32 (m (Sh b t) + m (Sh b (t + s))) else m (Sh b t)) -> inv b total s m1.
Proof.
  intros Hs Hl I U. unfold inv in *. rewrite <- I. rewrite (zs_mod 0 s _ (fun t => m (Sh b t) + m (Sh b (t + s)))).
  - rewrite (sum_op _ _ Zcm). rewrite (sum_split _ _ Zcm 0 s (2 * s)) by lia. do 2 f_equal.
    rewrite <- (sum_shift Z.add 0 0 s s (fun t => m (Sh b t))). f_equal; lia.
  - intros t Ht. rewrite U by lia. rewrite (proj2 (Z.ltb_lt t lim)) by lia. apply i32_mod.
Qed.
Lemma add_phase b m c s' : (forall t, 0 <= t < 512 -> c t = add_result b t) -> bexec 512 (m, c) s' -> fin s' ->
  fst s' (Added b) = m (Sh b 0) /\ forall l, l <> Added b -> fst s' l = m l.
Proof.
  intros C E F. destruct (phase loc_eqb loc_eqb_ok 512 m c (fun t l => t = 0 /\ l = Added b) (fun t l => t = 0 /\ l = Sh b 0) s') as (m1 & c1 & E1 & P1 & V1 & N1); [| |exact E|exact F|].
  - intros t Ht. rewrite C by assumption. unfold add_result. destruct (Z.eqb_spec t 0); cbn; auto 10.
  - intros t t' l Ht Ht' N [-> W]. split; intros [-> _]; easy.
  - assert (D1 : forall t, 0 <= t < 512 -> c1 t = Done). { intros t Ht. rewrite P1, C by assumption. unfold add_result. destruct (t =? 0); reflexivity. }
    assert (Q : forall s, bexec 512 s s' -> (forall t, 0 <= t < 512 -> snd s t = Done) -> forall l, fst s' l = fst s l).
    { clear. intros s E D. inversion E as [|s0 s1 s2 St E2]; subst; [reflexivity|]. exfalso. inversion St as [m0 c0 t l k Ht Et|m0 c0 t l v k Ht Et|m0 c0 Wa [t [Ht Ba]]]; subst; cbn [snd] in D; rewrite D in *; discriminate || assumption. }
    specialize (Q _ E1 D1). cbn [fst] in Q. rewrite !Q. rewrite !(V1 0) by (auto || lia). rewrite C by lia. unfold add_result. cbn [Z.eqb GpuBlockFacts.solo fst]. rewrite psame. split; [reflexivity|].
    intros l N2. rewrite Q. apply N1. intros t _ [_ X]. auto.
Qed.

Definition thread_sum (m : mem) (lo hi b t : Z) : Z := row_sum (diff m) (b * (512 * 2) + t + lo) hi.
(** The result of a block *)
Lemma block_result b lo hi m c s' : (forall t, 0 <= t < 512 -> c t = sum_diff_thread true lo hi b t) -> bexec 512 (m, c) s' -> fin s' ->
  fst s' (Added b) mod M = zs 0 512 (thread_sum m lo hi b) mod M /\ forall l, ~ mine b l -> l <> Added b -> fst s' l = m l.
Proof.
  intros C E F. set (total := zs 0 512 (thread_sum m lo hi b)).
  destruct (phase loc_eqb loc_eqb_ok 512 m c (fun t l => l = Sh b t) (fun t l => l = Sh b t \/ shared l = false) s') as (m1 & c1 & E1 & P1 & V1 & N1); [| |exact E|exact F|].
  { intros t Ht. rewrite C by assumption. unfold sum_diff_thread. cbn [GpuBlockFacts.foot1]. split; [reflexivity|]. apply foot1_rows; auto. }
  { intros t t' l Ht Ht' N ->. split; [intros [X|X]; [inversion X; lia|discriminate]|]. intro X. inversion X. lia. }
  set (rest := fun t => if t <? 32 then warp_reduce true b t (add_result b t) else add_result b t) in *.
  assert (So : forall t, 0 <= t < 512 -> fst (solo m (c t)) (Sh b t) mod M = thread_sum m lo hi b t mod M /\ snd (solo m (c t)) = Sync (tree_step 256 b t (tree_step 128 b t (tree_step 64 b t (rest t))))).
  { intros t Ht. rewrite C by assumption. unfold sum_diff_thread. cbn [GpuBlockFacts.solo]. fold (rest t).
    destruct (solo_rows hi b t (tree_step 256 b t (tree_step 128 b t (tree_step 64 b t (rest t)))) (Z.to_nat (hi - (b * (512 * 2) + t + lo))) (b * (512 * 2) + t + lo) (put m (Sh b t) 0) ltac:(lia)) as (m2 & E2 & V2 & _).
    cbv zeta. rewrite E2. cbn [fst snd]. split; [|reflexivity]. rewrite V2, psame. unfold thread_sum. rewrite (row_sum_ext (diff (put m (Sh b t) 0)) (diff m)) by (intro; apply diff_put). reflexivity. }
  assert (C1 : forall t, 0 <= t < 512 -> c1 t = tree_step 256 b t (tree_step 128 b t (tree_step 64 b t (rest t)))). { intros t Ht. rewrite P1 by assumption. now rewrite (proj2 (So t Ht)). }
  assert (I1 : inv b total (2 * 256) m1). { unfold inv, total. apply zs_mod. intros t Ht. rewrite (V1 t) by (auto; lia). apply So. lia. }
  assert (K1 : forall l, ~ mine b l -> m1 l = m l). { intros l Nl. apply N1. intros t Ht W. apply Nl. exists t. auto. }
  clear P1 V1 N1 E C So. clearbody total.
  destruct (tree_phase b 256 m1 c1 _ s' ltac:(lia) ltac:(lia) C1 E1 F) as (m2 & c2 & E2 & C2 & U2 & K2).
  pose proof (halve b total 256 256 m1 m2 ltac:(lia) ltac:(lia) I1 U2) as I2.
  destruct (tree_phase b 128 m2 c2 _ s' ltac:(lia) ltac:(lia) C2 E2 F) as (m3 & c3 & E3 & C3 & U3 & K3).
  pose proof (halve b total 128 128 m2 m3 ltac:(lia) ltac:(lia) I2 U3) as I3.
  destruct (tree_phase b 64 m3 c3 _ s' ltac:(lia) ltac:(lia) C3 E3 F) as (m4 & c4 & E4 & C4 & U4 & K4).
  pose proof (halve b total 64 64 m3 m4 ltac:(lia) ltac:(lia) I3 U4) as I4.
  assert (C4' : forall t, 0 <= t < 512 -> c4 t = if t <? 32 then warp_reduce true b t (add_result b t) else Done).
  { intros t Ht. rewrite C4 by assumption. unfold rest. destruct (Z.ltb_spec t 32); [reflexivity|]. unfold add_result. destruct (Z.eqb_spec t 0); [lia|reflexivity]. }
  unfold warp_reduce in C4'.
  destruct (warp_phase b 32 m4 c4 _ s' ltac:(lia) C4' E4 F) as (m5 & c5 & E5 & C5 & U5 & K5). pose proof (halve b total 32 32 m4 m5 ltac:(lia) ltac:(lia) I4 U5) as I5.
  destruct (warp_phase b 16 m5 c5 _ s' ltac:(lia) C5 E5 F) as (m6 & c6 & E6 & C6 & U6 & K6). pose proof (halve b total 16 32 m5 m6 ltac:(lia) ltac:(lia) I5 U6) as I6.
  destruct (warp_phase b 8 m6 c6 _ s' ltac:(lia) C6 E6 F) as (m7 & c7 & E7 & C7 & U7 & K7). pose proof (halve b total 8 32 m6 m7 ltac:(lia) ltac:(lia) I6 U7) as I7.
  destruct (warp_phase b 4 m7 c7 _ s' ltac:(lia) C7 E7 F) as (m8 & c8 & E8 & C8 & U8 & K8). pose proof (halve b total 4 32 m7 m8 ltac:(lia) ltac:(lia) I7 U8) as I8.
  destruct (warp_phase b 2 m8 c8 _ s' ltac:(lia) C8 E8 F) as (m9 & c9 & E9 & C9 & U9 & K9). pose proof (halve b total 2 32 m8 m9 ltac:(lia) ltac:(lia) I8 U9) as I9.
  destruct (warp_phase b 1 m9 c9 _ s' ltac:(lia) C9 E9 F) as (m10 & c10 & E10 & C10 & U10 & K10). pose proof (halve b total 1 32 m9 m10 ltac:(lia) ltac:(lia) I9 U10) as I10.
  destruct (add_phase b m10 c10 s') as (R1 & R2); [|exact E10|exact F|].
  { intros t Ht. rewrite C10 by assumption. destruct (Z.ltb_spec t 32); [reflexivity|]. unfold add_result. destruct (Z.eqb_spec t 0); [lia|reflexivity]. }
  unfold inv in I10. split.
  - rewrite R1. rewrite <- I10. f_equal. symmetry. apply (sum_one _ _ Zcm 0 1 0 (fun t => m10 (Sh b t))); intros; lia.
  - intros l Nl L1. rewrite R2 by assumption. now rewrite K10, K9, K8, K7, K6, K5, K4, K3, K2, K1 by assumption.
Qed.

(** All threads together have every row once *)
Lemma all_rows f lo hi : lo <= hi -> zs 0 8 (fun b => zs 0 512 (fun t => row_sum f (b * (512 * 2) + t + lo) hi)) = zs lo hi f.
Proof.
  intro H.
  assert (Ex : forall b t, 0 <= b < 8 -> 0 <= t < 512 -> row_sum f (b * (512 * 2) + t + lo) hi = zs lo hi (fun j => if ((j - lo) mod 512 =? t) && (((j - lo) / 1024) mod 8 =? b) then f j else 0)).
  { intros b t Hb Ht. unfold row_sum. set (i := b * (512 * 2) + t + lo).
    assert (Q : forall j, lo <= j < hi -> (((j - lo) mod 512 =? t) && (((j - lo) / 1024) mod 8 =? b)) = ((i <=? j) && (((j - i) mod 8192 =? 0) || ((j - i) mod 8192 =? 512)))).
    { intros j Hj. unfold i. clear - Hb Ht Hj. Z.to_euclidean_division_equations. lia. }
    rewrite (sum_ext _ _ lo hi _ (fun j => if (i <=? j) && (((j - i) mod 8192 =? 0) || ((j - i) mod 8192 =? 512)) then f j else 0)) by (intros j Hj; now rewrite Q).
    destruct (Z_le_gt_dec hi i) as [L|L].
    - rewrite sum_empty by lia. symmetry. apply (sum_none _ _ Zcm). intros j Hj. replace (i <=? j) with false by lia. reflexivity.
    - rewrite (sum_split _ _ Zcm lo i hi) by (unfold i in *; lia). rewrite (sum_none _ _ Zcm lo i). 2: { intros j Hj. replace (i <=? j) with false by lia. reflexivity. }
      rewrite Z.add_0_l. apply sum_ext. intros j Hj. replace (i <=? j) with true by lia. reflexivity. }
  rewrite (sum_ext _ _ 0 8 _ (fun b => zs 0 512 (fun t => zs lo hi (fun j => if ((j - lo) mod 512 =? t) && (((j - lo) / 1024) mod 8 =? b) then f j else 0)))).
  2: { intros b Hb. apply sum_ext. intros t Ht. now apply Ex. }
  rewrite (sum_ext _ _ 0 8 _ (fun b => zs lo hi (fun j => zs 0 512 (fun t => if ((j - lo) mod 512 =? t) && (((j - lo) / 1024) mod 8 =? b) then f j else 0)))) by (intros b Hb; apply (sum_swap _ _ Zcm)).
  rewrite (sum_swap _ _ Zcm). apply sum_ext. intros j Hj.
  pose proof (Z.mod_pos_bound (j - lo) 512 ltac:(lia)) as B1. pose proof (Z.mod_pos_bound ((j - lo) / 1024) 8 ltac:(lia)) as B2.
  rewrite (sum_one _ _ Zcm _ _ (((j - lo) / 1024) mod 8)) by (first [exact B2 | intros b Hb Nb; apply (sum_none _ _ Zcm); intros t Ht; replace (((j - lo) / 1024) mod 8 =? b) with false by lia; now rewrite Bool.andb_false_r]).
  rewrite (sum_one _ _ Zcm _ _ ((j - lo) mod 512)) by (first [exact B1 | intros t Ht Nt; replace ((j - lo) mod 512 =? t) with false by lia; reflexivity]).
  now rewrite !Z.eqb_refl.
Qed.

(** What a thread uses *)
Lemma foot_lock W R ls k : foot W R k -> foot W R (lock ls k).
Proof. destruct ls; auto. Qed.
Lemma foot_thread (W R : loc -> Prop) ls lo hi b t : 0 <= t < 512 -> (forall u, 0 <= u < 512 -> W (Sh b u) /\ R (Sh b u)) -> W (Added b) ->
  (forall i, b * (512 * 2) + t + lo <= i < hi -> R (RowA i) /\ R (RowB i)) -> foot W R (sum_diff_thread ls lo hi b t).
Proof.
  intros Ht HS HA HR.
  assert (Wr : foot W R (add_result b t)). { unfold add_result. destruct (t =? 0); cbn; [|exact I]. split; [apply HS; lia|]. auto. }
  assert (Tr : forall s k, 0 < s -> 2 * s <= 512 -> foot W R k -> foot W R (tree_step s b t k)). { intros s k Hs H2 K. unfold tree_step. destruct (Z.ltb_spec t s); [|exact K]. cbn. split; [apply HS; lia|]. intro. split; [apply HS; lia|]. intro. split; [apply HS; lia|exact K]. }
  assert (Wa : forall s k, t < 32 -> 0 < s <= 32 -> foot W R k -> foot W R (warp_step ls s b t k)).
  { intros s k H1 Hs K. unfold warp_step. cbn. split; [apply HS; lia|]. intro. apply foot_lock. cbn. split; [apply HS; lia|]. intro. apply foot_lock. cbn. split; [apply HS; lia|]. now apply foot_lock. }
  unfold sum_diff_thread. cbn [GpuBlockFacts.foot]. split; [now apply HS|].
  match goal with |- foot W R (rows ?n ?i hi b t ?k) => assert (K : foot W R k) end.
  { cbn [GpuBlockFacts.foot]. repeat (apply Tr; [lia|lia|]). destruct (Z.ltb_spec t 32); [|exact Wr]. unfold warp_reduce. repeat (apply Wa; [lia|lia|]). exact Wr. }
  match goal with |- foot W R (rows ?n ?i hi b t ?kk) => revert K; generalize kk; intros k K; clear - K HR HS Ht; generalize n; assert (Hi : b * (512 * 2) + t + lo <= i) by lia; revert Hi; generalize i at 2 3 end. intros i0 Hi0 n. revert i0 Hi0.
  induction n as [|n IH]; intros i Hi; [exact K|]. cbn [rows].
  assert (A : forall j q, i <= j < hi -> foot W R q -> foot W R (add_row b t j q)). { intros j q Hj Q. cbn. split; [apply HR; lia|]. intro. split; [apply HR; lia|]. intro. split; [now apply HS|]. intro. split; [now apply HS|exact Q]. }
  destruct (Z.ltb_spec i hi); [|exact K]. apply A; [lia|]. destruct (Z.ltb_spec (i + 512) hi).
  - apply A; [lia|]. apply IH. lia.
  - apply IH. lia.
Qed.

Lemma syncs_lock ls n (k : code) : syncs n k -> syncs (S n) (lock ls k).
Proof. intro H. destruct ls; cbn; [exact H|]. apply (syncs_up n); auto. Qed.
Lemma syncs_thread ls lo hi b t : syncs 22 (sum_diff_thread ls lo hi b t).
Proof.
  assert (Wr : syncs 0 (add_result b t)) by (unfold add_result; destruct (t =? 0); cbn; auto).
  assert (Tr : forall s n k, syncs n k -> syncs (S n) (tree_step s b t k)). { intros s n k K. unfold tree_step. destruct (t <? s); cbn; auto. }
  assert (Wa : forall s n k, syncs n k -> syncs (3 + n) (warp_step ls s b t k)).
  { intros s n k K. unfold warp_step. cbn [GpuBlockFacts.syncs]. intro. apply (syncs_lock ls (2 + n)). cbn [GpuBlockFacts.syncs]. intro. apply (syncs_lock ls (1 + n)). cbn [GpuBlockFacts.syncs]. now apply (syncs_lock ls n). }
  unfold sum_diff_thread. cbn [GpuBlockFacts.syncs].
  match goal with |- syncs 22 (rows ?n ?i hi b t ?k) => assert (K : syncs 22 k) end.
  { change 22%nat with (S (S (S (S (3 + (3 + (3 + (3 + (3 + (3 + 0)))))))))). cbn [GpuBlockFacts.syncs]. apply Tr, Tr, Tr. destruct (t <? 32); [|eapply syncs_up; [exact Wr|lia]]. unfold warp_reduce. now repeat apply Wa. }
  match goal with |- syncs 22 (rows ?n ?i hi b t ?kk) => revert K; generalize kk; intros k K; generalize n; generalize i end.
  intros i n. revert i. induction n as [|n IH]; intro i; [exact K|]. cbn [rows]. destruct (i <? hi); [|exact K]. cbn. intros. destruct (i + 512 <? hi); cbn; auto.
Qed.

Lemma launch_result lo hi m m' : lo <= hi -> launch loc_eqb 8 512 (sum_diff_thread true lo hi) m m' ->
  zs 0 8 (fun c => m' (Added c)) mod M = zs lo hi (diff m) mod M.
Proof.
  intros H (g & E & F).
  destruct (project loc_eqb loc_eqb_ok 8 512 (fun b l => mine b l \/ l = Added b) (fun b l => mine b l \/ exists i, l = RowA i \/ l = RowB i) m (sum_diff_thread true lo hi) (m', g)) as [P _]; [| |exact E|].
  { intros b t Hb Ht. apply foot_thread; [exact Ht| | |].
    - intros u Hu. split; left; exists u; auto.
    - auto.
    - intros i _. split; right; exists i; auto. }
  { intros b b' l Hb Hb' N W. split.
    - intros [(u & _ & ->)|(i & X)].
      + destruct W as [(v & _ & X)|X]; inversion X; lia.
      + destruct X as [-> | ->]; (destruct W as [(v & _ & X)|X]; discriminate).
    - intros [(u & _ & ->)| ->]; (destruct W as [(v & _ & X)|X]; inversion X; lia). }
  rewrite <- (all_rows (diff m) lo hi H). apply zs_mod. intros b Hb. destruct (P b Hb) as (m1 & E1 & A1). cbn [fst snd] in *. rewrite <- A1 by auto.
  destruct (block_result b lo hi m (sum_diff_thread true lo hi b) (m1, g b)) as [R _]; [auto|exact E1|intros t Ht; now apply F|]. cbn [fst] in R. rewrite R. reflexivity.
Qed.
