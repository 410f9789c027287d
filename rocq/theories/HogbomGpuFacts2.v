(** Facts about the reduction on the GPU: launches *)
From Coq Require Import QArith Lia.
From Verif Require Import Base BaseFacts Hogbom HogbomSpec GpuBlock GpuBlockFacts HogbomGpu HogbomGpuSpec HogbomGpuFacts.
Open Scope Z_scope.

Notation launch := (launch (A := val) loc_eqb).
Notation foot := (foot (L := loc) (A := val)).
Notation safe := (safe (L := loc) (A := val)).
Notation syncs := (syncs (L := loc) (A := val)).

Lemma blocks_for_ok n : 0 <= n -> blocks_for n = (n + 255) / 256.
Proof. intro H. unfold blocks_for, cdiv. rewrite Z.quot_div_nonneg by lia. f_equal. lia. Qed.

(** Footprints *)
Section Foot.
Context (W R : loc -> Prop) (b : Z) (OV : forall t, 0 <= t < 256 -> W (ShV b t) /\ R (ShV b t)) (OI : forall t, 0 <= t < 256 -> W (ShI b t) /\ R (ShI b t)).
Lemma foot_tree_step s t k : 0 < s -> 2 * s <= 256 -> 0 <= t < 256 -> foot W R k -> foot W R (tree_step s b t k).
Proof.
  intros Hs H2 Ht K. unfold tree_step. destruct (Z.ltb_spec t s); [|exact K]. cbn. split; [now apply OV|]. intro x. split; [apply OV; lia|]. intro y. destruct (Qcltb _ _); cbn; [|exact K].
  split; [apply OV; lia|]. intros ?. split; [now apply OV|]. split; [apply OI; lia|]. intros ?. split; [now apply OI|exact K].
Qed.
Lemma foot_lock ls k : foot W R k -> foot W R (lock ls k).
Proof. destruct ls; auto. Qed.
Lemma foot_warp ls s t k : 0 < s <= 16 -> 0 <= t < 16 -> foot W R k -> foot W R (warp_step ls s b t k).
Proof.
  intros Hs Ht K. unfold warp_step. cbn. split; [apply OV; lia|]. intro x. apply foot_lock. cbn. split; [apply OV; lia|]. intro y. apply foot_lock. destruct (Qcltb _ _); cbn; [|now repeat apply foot_lock].
  split; [apply OV; lia|]. intros ?. apply foot_lock. cbn. split; [apply OV; lia|]. apply foot_lock. cbn. split; [apply OI; lia|]. intros ?. apply foot_lock. cbn. split; [apply OI; lia|]. now apply foot_lock.
Qed.
Lemma foot_find ls (input : Z -> loc) init t : 0 <= t < 256 -> W (MaxV b) -> W (MaxI b) -> R (input (b * 256 + t)) -> (init = true -> R (MaxI (b * 256 + t))) -> foot W R (find_maximum_value ls input init b t).
Proof.
  intros Ht Wv Wi Ri Rm.
  assert (Wr : foot W R (write_result b t)). { unfold write_result. destruct (t =? 0); cbn; [|exact I]. split; [apply OV; lia|]. intros ?. split; [exact Wv|]. split; [apply OI; lia|]. intros ?. auto. }
  assert (Re : foot W R (tree 9 (Z.shiftr 256 1) b t (if t <? 16 then warp_reduce ls b t (write_result b t) else write_result b t))).
  { assert (K : foot W R (if t <? 16 then warp_reduce ls b t (write_result b t) else write_result b t)). { destruct (Z.ltb_spec t 16); [|exact Wr]. unfold warp_reduce. repeat (apply foot_warp; [lia|lia|]). exact Wr. }
    change (Z.shiftr 256 1) with 128. cbn [tree]. change (16 <? 128) with true. change (Z.shiftr 128 1) with 64. change (Z.shiftr 64 1) with 32. change (16 <? 64) with true. change (Z.shiftr 32 1) with 16. change (16 <? 32) with true. change (16 <? 16) with false. cbv iota.
    repeat (apply foot_tree_step; [lia|lia|exact Ht|]). exact K. }
  unfold find_maximum_value. cbn [GpuBlockFacts.foot]. split; [now apply OV|]. split; [now apply OI|]. split; [exact Ri|]. intros ?. split; [now apply OV|]. destruct init; cbn [GpuBlockFacts.foot].
  - split; [auto|]. intros ?. split; [now apply OI|exact Re].
  - split; [now apply OI|exact Re].
Qed.
End Foot.

(** A footprint without conditions on values is a safety condition *)
Lemma foot_safe V p : foot V V p -> safe V (fun _ _ => True) p.
Proof. induction p as [|l k IH|l v k IH|k IH]; cbn; intuition. Qed.

(** Barriers *)
Lemma syncs_lock ls n (k : code) : syncs n k -> syncs (S n) (lock ls k).
Proof. intro H. destruct ls; cbn; [exact H|]. apply (syncs_up n); auto. Qed.
Lemma syncs_tree s b t n k : syncs n k -> syncs (S n) (tree_step s b t k).
Proof. intro H. unfold tree_step. destruct (t <? s); cbn; [|exact H]. intros x y. destruct (Qcltb _ _); cbn; auto. Qed.
Lemma syncs_warp ls s b t n k : syncs n k -> syncs (6 + n) (warp_step ls s b t k).
Proof.
  intro H. unfold warp_step. cbn [GpuBlockFacts.syncs]. intro x. apply (syncs_lock ls (5 + n)). cbn [GpuBlockFacts.syncs]. intro y. apply (syncs_lock ls (4 + n)). destruct (Qcltb _ _); cbn [GpuBlockFacts.syncs].
  - intros z. apply (syncs_lock ls (3 + n)). cbn [GpuBlockFacts.syncs]. apply (syncs_lock ls (2 + n)). cbn [GpuBlockFacts.syncs]. intro i. apply (syncs_lock ls (1 + n)). cbn [GpuBlockFacts.syncs]. now apply (syncs_lock ls n).
  - now repeat apply syncs_lock.
Qed.
Lemma syncs_find ls input init b t : syncs 34 (find_maximum_value ls input init b t).
Proof.
  assert (Wr : syncs 0 (write_result b t)) by (unfold write_result; destruct (t =? 0); cbn; auto).
  assert (Re : syncs 33 (tree 9 (Z.shiftr 256 1) b t (if t <? 16 then warp_reduce ls b t (write_result b t) else write_result b t))).
  { change (Z.shiftr 256 1) with 128. cbn [tree]. change (16 <? 128) with true. change (Z.shiftr 128 1) with 64. change (Z.shiftr 64 1) with 32. change (16 <? 64) with true. change (Z.shiftr 32 1) with 16. change (16 <? 32) with true. change (16 <? 16) with false. cbv iota.
    repeat apply syncs_tree. destruct (t <? 16); [|apply (syncs_up 0); [exact Wr|lia]]. unfold warp_reduce. do 5 apply (syncs_warp ls _ b t _). exact Wr. }
  unfold find_maximum_value. cbn [GpuBlockFacts.syncs]. intros ?. destruct init; cbn [GpuBlockFacts.syncs]; auto.
Qed.
Lemma run_ends B first ls m : exists m', run B 256 (level ls first) m m'.
Proof.
  destruct (launch_ends loc_eqb B 256 34 (level ls first) m ltac:(lia)) as (m' & H); [intros; apply syncs_find|]. exists m', m. split; auto.
Qed.
Lemma shrink blocks : 1 < blocks -> 1 <= blocks_for blocks < blocks.
Proof. intro H. rewrite blocks_for_ok by lia. pose proof (Z.div_mod (blocks + 255) 256 ltac:(lia)). pose proof (Z.mod_pos_bound (blocks + 255) 256 ltac:(lia)). lia. Qed.
Lemma reduce_ends ls blocks : 1 <= blocks -> forall first m, exists m', reduce ls blocks first m m'.
Proof.
  intro H. assert (0 <= blocks) by lia. revert H. pattern blocks. apply Z_lt_induction; [|assumption]. clear. intros b IH H first m. destruct (run_ends b first ls m) as (m1 & R1).
  destruct (Z_le_gt_dec b 1) as [Le|Gt]; [exists m1; now apply reduce_last|]. pose proof (shrink b ltac:(lia)). destruct (IH (blocks_for b) ltac:(lia) ltac:(lia) false m1) as (m' & R2). exists m'. eapply reduce_more; eauto. lia.
Qed.

(** The launches *)
Definition owns (b : Z) (l : loc) : Prop := l = MaxV b \/ l = MaxI b \/ exists t, l = ShV b t \/ l = ShI b t.
Lemma level_foot ls (first : bool) b t : 0 <= t < 256 -> foot (owns b) (fun l : loc => if first then (exists i, l = Res i) \/ owns b l else True) (level ls first b t).
Proof.
  intro Ht. apply foot_find; auto.
  - intros u Hu. assert (owns b (ShV b u)) by (right; right; eauto). destruct first; auto.
  - intros u Hu. assert (owns b (ShI b u)) by (right; right; eauto). destruct first; auto.
  - now left.
  - right. now left.
  - destruct first; eauto.
  - intro E. destruct first; [discriminate|exact I].
Qed.

Lemma run_result B (first : bool) m m' : 0 <= B -> (first = true \/ B = 1) -> run B 256 (level true first) m m' ->
  let input := if first then Res else MaxV in let index i := if first then Int i else m (MaxI i) in
  (forall b, 0 <= b < B -> (exists u, 0 <= u < 256 /\ m' (MaxV b) = m (input (b * 256 + u)) /\ m' (MaxI b) = index (b * 256 + u)) /\
    (forall u, 0 <= u < 256 -> (num (m (input (b * 256 + u)%Z)) <= num (m' (MaxV b)))%Qc)) /\
  (forall l, shared l = false -> (forall b, 0 <= b < B -> l <> MaxV b /\ l <> MaxI b) -> m' l = m l).
Proof.
  intros HB Or (m0 & Sh & g & E & Fi) input index.
  destruct (project loc_eqb loc_eqb_ok B 256 owns (fun (b : Z) (l : loc) => if first then (exists i, l = Res i) \/ owns b l else True) m0 (level true first) (m', g)) as [P N]; [| |exact E|].
  - intros b t Hb Ht. now apply level_foot.
  - intros b b' l Hb Hb' Ne O. split.
    + destruct Or as [-> | ->]; [|lia]. intros [(i & ->)|O'].
      * destruct O as [X|[X|(t & [X|X])]]; discriminate.
      * destruct O as [->|[->|(t & [->| ->])]], O' as [X|[X|(t' & [X|X])]]; inversion X; lia.
    + intro O'. destruct O as [->|[->|(t & [->| ->])]], O' as [X|[X|(t' & [X|X])]]; inversion X; lia.
  - cbn [fst snd] in *. split.
    + intros b Hb. destruct (P b Hb) as (m1 & Eb & A1).
      destruct (block_result b input (negb first) m0 (level true first b) (m1, g b)) as ((u & Hu & R1 & R2) & R3 & _); [| |exact Eb| |].
      * unfold input. destruct first; [left|right]; reflexivity.
      * intros t Ht. reflexivity.
      * intros t Ht. apply Fi; assumption.
      * cbn [fst snd] in *. rewrite A1 in R1, R3 by (left; reflexivity). rewrite A1 in R2 by (right; left; reflexivity).
        assert (Si : forall i, m0 (input i) = m (input i)) by (intro; apply Sh; unfold input; destruct first; reflexivity). split.
        -- exists u. split; [exact Hu|]. rewrite R1, R2, Si. split; [reflexivity|]. unfold index. destruct first; cbn [negb]; [reflexivity|]. now apply Sh.
        -- intros u' Hu'. rewrite <- Si. now apply R3.
    + intros l Sl Nl. rewrite N; [now apply Sh|]. intros b Hb [->|[->|(t & [->| ->])]]; try discriminate; destruct (Nl b Hb); congruence.
Qed.

(** The peak, for the sizes for which no launch leaves the arrays *)
Lemma peak_found n m m' : n = 16 \/ n = 256 -> find_peak true n m m' -> exists k, peak_at n m k /\ names m' k (num (m (Res k))) /\ only_max m m'.
Proof.
  intros Hn H. unfold find_peak in H.
  assert (Cl : forall i, clear_max n m (Res i) = m (Res i)) by reflexivity.
  assert (Co : forall l, (forall i, l <> MaxV i /\ l <> MaxI i) -> clear_max n m l = m l). { intros l Nl. destruct l; try reflexivity; destruct (Nl i); congruence. }
  set (m0 := clear_max n m) in *.
  destruct Hn as [-> | ->].
  - change (blocks_for (16 * 16)) with 1 in H. inversion H as [bl f a a' Hb R|bl f a a1 a' Hb]; subst; [|lia].
    apply run_result in R; [|lia|auto]. destruct R as [R N]. destruct (R 0 ltac:(lia)) as [(u & Hu & V & I0) G]. replace (0 * 256 + u) with u in * by lia. exists u. split; [split; [lia|]|split].
    + intros i Hi. specialize (G i ltac:(lia)). rewrite V in G. replace (0 * 256 + i) with i in G by lia. now rewrite !Cl in G.
    + split; [now rewrite I0|]. now rewrite V, Cl.
    + intros l Nl Sl. rewrite N by (intros; auto). now apply Co.
  - change (blocks_for (256 * 256)) with 256 in H. inversion H as [bl f a a' Hb R|bl f a m1 a' Hb R H2]; subst; [lia|]. change (blocks_for 256) with 1 in H2. inversion H2 as [bl f a a' Hb2 R2|bl f a a1 a' Hb2]; subst; [|lia].
    apply run_result in R; [|lia|auto]. destruct R as [R N]. apply run_result in R2; [|lia|auto]. destruct R2 as [R2 N2]. destruct (R2 0 ltac:(lia)) as [(u & Hu & V & I0) G]. replace (0 * 256 + u) with u in * by lia.
    destruct (R u ltac:(lia)) as [(w & Hw & V1 & I1) G1]. exists (u * 256 + w). split; [split; [lia|]|split].
    + intros i Hi. pose proof (Z.div_mod i 256 ltac:(lia)). pose proof (Z.mod_pos_bound i 256 ltac:(lia)). assert (0 <= i / 256 < 256) by (split; [apply Z.div_pos; lia|apply Z.div_lt_upper_bound; lia]).
      destruct (R (i / 256) ltac:(lia)) as [_ G2]. specialize (G2 (i mod 256) ltac:(lia)). replace (i / 256 * 256 + i mod 256) with i in G2 by lia. specialize (G (i / 256) ltac:(lia)). replace (0 * 256 + i / 256) with (i / 256) in G by lia.
      rewrite V, V1 in G. rewrite Cl in G, G2. eapply Qcle_trans; eauto.
    + split; [now rewrite I0, I1|]. now rewrite V, V1, Cl.
    + intros l Nl Sl. rewrite N2 by (intros; auto). rewrite N by (intros; auto). now apply Co.
Qed.

(** Bounds *)
Lemma level_safe n ls (first : bool) B m : 0 <= B <= (n * n + 255) / 256 -> (if first then B * 256 <= n * n else B * 256 <= (n * n + 255) / 256) -> ~ run_oob (valid n) B 256 (level ls first) m.
Proof.
  intros HB Hf (m0 & _ & O). revert O. apply (safe_never loc_eqb loc_eqb_ok B 256 (valid n) (fun _ _ => True)); [|auto]. intros b t Hb Ht. apply foot_safe. apply foot_find; auto.
  - cbn. lia.
  - cbn. lia.
  - destruct first; cbn; lia.
  - intro E. destruct first; [discriminate|]. cbn. lia.
Qed.
Lemma later_safe n ls blocks m : 1 <= n -> 1 <= blocks -> blocks * 256 <= (n * n + 255) / 256 -> ~ reduce_oob (valid n) ls blocks false m.
Proof.
  intros Hn H1 H2 O. remember false as first eqn:F. induction O as [b first m O|b first m m1 Hb R O IH]; subst first.
  - revert O. apply level_safe; lia.
  - pose proof (shrink b Hb). apply IH; [lia|lia|reflexivity].
Qed.
Lemma peak_safe n ls m : n = 16 \/ (1 <= n /\ n mod 256 = 0) -> ~ find_peak_oob (valid n) ls n m.
Proof.
  intros [-> |[Hn Hm]] H; unfold find_peak_oob in H.
  - change (blocks_for (16 * 16)) with 1 in H. inversion H as [bl f a O|bl f a a1 Hb]; subst; [|lia]. revert O. apply level_safe; cbn; lia.
  - pose proof (Z.div_mod n 256 ltac:(lia)) as D. rewrite Hm, Z.add_0_r in D. set (k := n / 256) in *. clearbody k. assert (Hk : 1 <= k) by lia.
    assert (E1 : (n * n + 255) / 256 = 256 * (k * k)). { rewrite D. replace (256 * k * (256 * k) + 255) with (255 + 256 * (k * k) * 256) by ring. rewrite Z.div_add by lia. reflexivity. }
    assert (K1 : 1 <= k * k) by nia.
    assert (E2 : blocks_for (256 * (k * k)) = k * k). { rewrite blocks_for_ok by lia. replace (256 * (k * k) + 255) with (255 + k * k * 256) by ring. rewrite Z.div_add by lia. reflexivity. }
    rewrite blocks_for_ok in H by nia. rewrite E1 in H. inversion H as [bl f a O|bl f a a1 Hb R O]; subst bl f a.
    + revert O. apply level_safe; [lia|]. rewrite D. nia.
    + rewrite E2 in O. revert O. apply later_safe; lia.
Qed.
(** A thread that reads its element *)
Lemma level_reads n ls (first : bool) B b t m : 0 <= b < B -> 0 <= t < 256 -> ~ valid n ((if first then Res else MaxV) (b * 256 + t)) -> run_oob (valid n) B 256 (level ls first) m.
Proof.
  intros Hb Ht Nv. exists m. split; [auto|]. pose (p := level ls first b t). unfold level, find_maximum_value in p.
  match goal with p := St ?l1 ?v1 (St ?l2 ?v2 ?r) |- _ => exists (put (put m l1 v1) l2 v2), (set_block (set_block (level ls first) b (set_thread (level ls first b) t (St l2 v2 r))) b (set_thread (set_thread (level ls first b) t (St l2 v2 r)) t r)), b, t, ((if first then Res else MaxV) (b * 256 + t)) end.
  split.
  - eapply ge_step; [apply g_step with (b := b); [exact Hb|eapply b_store; [exact Ht|reflexivity]]|]. eapply ge_step; [apply g_step with (b := b); [exact Hb|]|apply ge_refl]. rewrite block_same. eapply b_store; [exact Ht|]. now rewrite set_same.
  - split; [exact Hb|]. split; [exact Ht|]. split; [|exact Nv]. rewrite block_same, set_same. reflexivity.
Qed.
Lemma square_256 n : (n * n) mod 256 = 0 -> n mod 16 = 0.
Proof.
  intro H. pose proof (Z.div_mod n 16 ltac:(lia)) as D. pose proof (Z.mod_pos_bound n 16 ltac:(lia)) as B. set (q := n / 16) in *. set (r := n mod 16) in *.
  assert (E : (n * n) mod 16 = 0). { pose proof (Z.div_mod (n * n) 256 ltac:(lia)) as D2. rewrite H in D2. rewrite D2. replace (256 * (n * n / 256) + 0) with (16 * (n * n / 256) * 16) by ring. apply Z_mod_mult. }
  assert (E2 : (n * n) mod 256 = (r * r + 32 * q * r) mod 256). { replace (n * n) with (r * r + 32 * q * r + q * q * 256) by (rewrite D; ring). apply Z_mod_plus_full. }
  assert (E3 : (n * n) mod 16 = (r * r) mod 16). { replace (n * n) with (r * r + (2 * q * r + 16 * q * q) * 16) by (rewrite D; ring). apply Z_mod_plus_full. }
  rewrite E in E3. rewrite H in E2. clearbody q r. clear D E H.
  assert (C : r = 0 \/ r = 4 \/ r = 8 \/ r = 12). { clear - B E3. assert (r = 0 \/ r = 1 \/ r = 2 \/ r = 3 \/ r = 4 \/ r = 5 \/ r = 6 \/ r = 7 \/ r = 8 \/ r = 9 \/ r = 10 \/ r = 11 \/ r = 12 \/ r = 13 \/ r = 14 \/ r = 15) as X by lia.
    repeat (destruct X as [->|X]; [first [exfalso; revert E3; vm_compute; discriminate|auto]|]). subst. exfalso. revert E3. vm_compute. discriminate. }
  symmetry in E2. apply Z.mod_divide in E2; [|lia]. destruct E2 as [z E2]. destruct C as [->|[->|[->| ->]]]; [reflexivity|exfalso|exfalso|exfalso]; lia.
Qed.
Lemma peak_unsafe n ls m : 1 <= n -> n <> 16 -> n mod 256 <> 0 -> find_peak_oob (valid n) ls n m.
Proof.
  intros Hn N16 N256. unfold find_peak_oob. assert (P : 1 <= n * n) by nia. rewrite blocks_for_ok by lia. pose proof (Z.div_mod (n * n + 255) 256 ltac:(lia)) as D. pose proof (Z.mod_pos_bound (n * n + 255) 256 ltac:(lia)) as B. set (E := (n * n + 255) / 256) in *.
  destruct (Z.eq_dec ((n * n) mod 256) 0) as [Z0|NZ].
  - pose proof (Z.div_mod (n * n) 256 ltac:(lia)) as D0. rewrite Z0 in D0. assert (EE : E = n * n / 256) by (unfold E; rewrite D0 at 1; replace (256 * (n * n / 256) + 0 + 255) with (255 + n * n / 256 * 256) by ring; rewrite Z.div_add by lia; reflexivity).
    pose proof (square_256 n Z0) as M16. pose proof (Z.div_mod n 16 ltac:(lia)) as D16. rewrite M16 in D16. set (k := n / 16) in *. assert (Ek : E = k * k). { rewrite EE, D16. replace ((16 * k + 0) * (16 * k + 0)) with (k * k * 256) by ring. apply Z.div_mul. lia. }
    assert (K2 : 2 <= k) by (destruct (Z_le_gt_dec k 1); [exfalso|lia]; assert (k = 0 \/ k = 1 \/ k < 0) by lia; lia). assert (E4 : 4 <= E) by nia.
    destruct (run_ends E true ls (clear_max n m)) as (m1 & R1). apply oob_later with m1; [lia|exact R1|]. apply oob_here.
    assert (NE : E mod 256 <> 0). { intro X. rewrite Ek in X. pose proof (square_256 k X) as Mk. pose proof (Z.div_mod k 16 ltac:(lia)) as Dk. rewrite Mk in Dk. apply N256. rewrite D16, Dk. replace (16 * (16 * (k / 16) + 0) + 0) with (k / 16 * 256) by ring. apply Z_mod_mult. }
    rewrite blocks_for_ok by lia. pose proof (Z.div_mod E 256 ltac:(lia)) as DE. pose proof (Z.mod_pos_bound E 256 ltac:(lia)) as BE. pose proof (Z.div_pos E 256 ltac:(lia) ltac:(lia)).
    assert (X : (E + 255) / 256 = E / 256 + 1). { replace (E + 255) with ((E mod 256 - 1) + (E / 256 + 1) * 256) by lia. rewrite Z.div_add by lia. rewrite (Z.div_small (E mod 256 - 1)) by lia. lia. }
    apply (level_reads n ls false _ (E / 256) (E mod 256)); [lia|lia|]. cbn. fold E. lia.
  - apply oob_here. pose proof (Z.div_mod (n * n) 256 ltac:(lia)) as D0. pose proof (Z.mod_pos_bound (n * n) 256 ltac:(lia)) as B0. pose proof (Z.div_pos (n * n) 256 ltac:(lia) ltac:(lia)).
    assert (X : E = n * n / 256 + 1). { unfold E. replace (n * n + 255) with (((n * n) mod 256 - 1) + (n * n / 256 + 1) * 256) by lia. rewrite Z.div_add by lia. rewrite (Z.div_small ((n * n) mod 256 - 1)) by lia. lia. }
    apply (level_reads n ls true _ (n * n / 256) ((n * n) mod 256)); [lia|lia|]. cbn. lia.
Qed.
