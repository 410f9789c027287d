(** More proofs about channel clamping: adjacency, rows, counting. *)
From Verif Require Import Base BaseFacts Clamp ClampSpec ClampFacts.
From Coq Require Import Lqa Qfield.
Open Scope Z_scope.

Definition dir u df := (0 <= coord_step u df)%Q.

Lemma clamp1_ok u f0 df s e mn mx :
  step_ok u f0 df mn mx ->
  exists r, clamp1 u f0 df s e mn mx = Some r /\ fst r <= snd r /\
  forall c, selected r c <->
    s <= c < e /\ in_range_directed (0 <= coord_step u df)%Q (coord u f0 df c) mn mx.
Proof.
  intros [H|H].
  - assert (NR : ~ step_resolved u f0 df mn mx) by (intro R; apply step_resolved_nz in R; contradiction).
    rewrite clamp1_unresolved by assumption. eexists. split; [reflexivity|].
    assert (HC : forall c, (coord u f0 df c == coord u f0 df 0)%Q).
    { intro c. rewrite coord_affine. rewrite H. ring. }
    destruct (in_range_dec _ _ _) as [[A B]|N]; cbn [fst snd].
    + split; [lia|]. intro c. unfold selected, in_range_directed. cbn [fst snd]. rewrite (HC c). split.
      * intro K. split; [lia|]. left. split; [lra|]. auto.
      * intros [K _]. lia.
    + split; [lia|]. intro c. unfold selected, in_range_directed. cbn [fst snd]. rewrite (HC c). split; [lia|].
      intros [_ [[_ K]|[K _]]]; [contradiction|]. lra.
  - destruct (clamp1_lemma u f0 df s e mn mx H) as (r & A & B & _ & C).
    exists r. split; [exact A|]. split; [exact B|]. intro c. rewrite C.
    pose proof (step_resolved_nz _ _ _ _ _ H) as NZ. unfold in_range_directed.
    assert (E : (0 < coord_step u df)%Q <-> (0 <= coord_step u df)%Q).
    { split; intro; [lra|]. destruct (Qlt_le_dec 0 (coord_step u df)); auto. exfalso. apply NZ. lra. }
    tauto.
Qed.

Lemma clamp2_ok u v f0 df s e mnu mxu mnv mxv :
  step_ok u f0 df mnu mxu -> step_ok v f0 df mnv mxv ->
  exists r, clamp2 u v f0 df s e mnu mxu mnv mxv = Some r /\ fst r <= snd r /\
  forall c, selected r c <->
    s <= c < e /\ in_range_directed (0 <= coord_step u df)%Q (coord u f0 df c) mnu mxu /\
    in_range_directed (0 <= coord_step v df)%Q (coord v f0 df c) mnv mxv.
Proof.
  intros Hu Hv. unfold clamp2. destruct (clamp1_ok u f0 df s e mnu mxu Hu) as ([s1 e1] & A & B & C).
  rewrite A. cbn [bind]. cbn [fst snd] in B.
  destruct (Z.geb_spec s1 e1) as [L|L].
  - eexists. split; [reflexivity|]. split; [exact B|]. intro c. split.
    + unfold selected. cbn. lia.
    + intros (H1 & H2 & _). apply C. auto.
  - destruct (clamp1_ok v f0 df s1 e1 mnv mxv Hv) as (r & A2 & B2 & C2).
    exists r. split; [exact A2|]. split; [exact B2|]. intro c. rewrite C2.
    specialize (C c). unfold selected in C. cbn [fst snd] in C. tauto.
Qed.

(** *** Directed ranges split *)
Lemma directed_split P x a b c : {P} + {~ P} -> (a <= b)%Q -> (b <= c)%Q ->
  (in_range_directed P x a c <-> (in_range_directed P x a b \/ in_range_directed P x b c)) /\
  ~ (in_range_directed P x a b /\ in_range_directed P x b c).
Proof.
  intros D H1 H2. unfold in_range_directed. split; [|intros [[A|A] [B|B]]; try tauto; lra].
  split.
  - destruct (Qlt_le_dec x b), (Qlt_le_dec b x); destruct D as [p|p];
      intros [A|A]; try tauto; try (left; left; (split; [tauto|lra])); try (left; right; (split; [tauto|lra]));
      try (right; left; (split; [tauto|lra])); try (right; right; (split; [tauto|lra])).
  - destruct D as [p|p]; intros [[A|A]|[A|A]]; try tauto;
      try (left; (split; [tauto|lra])); try (right; (split; [tauto|lra])).
Qed.

Lemma dir_dec u df : {(0 <= coord_step u df)%Q} + {~ (0 <= coord_step u df)%Q}.
Proof. destruct (Qlt_le_dec (coord_step u df) 0); [right|left]; lra. Qed.

Lemma adjacent_lemma u f0 df s e a b c :
  (a <= b)%Q -> (b <= c)%Q ->
  step_ok u f0 df a b -> step_ok u f0 df b c -> step_ok u f0 df a c ->
  exists r1 r2 r,
    clamp1 u f0 df s e a b = Some r1 /\ clamp1 u f0 df s e b c = Some r2 /\
    clamp1 u f0 df s e a c = Some r /\
    forall k, (selected r k <-> selected r1 k \/ selected r2 k) /\ ~ (selected r1 k /\ selected r2 k).
Proof.
  intros H1 H2 O1 O2 O3.
  destruct (clamp1_ok u f0 df s e a b O1) as (r1 & A1 & _ & C1).
  destruct (clamp1_ok u f0 df s e b c O2) as (r2 & A2 & _ & C2).
  destruct (clamp1_ok u f0 df s e a c O3) as (r3 & A3 & _ & C3).
  exists r1, r2, r3. split; [exact A1|]. split; [exact A2|]. split; [exact A3|].
  intro k. rewrite C1, C2, C3. destruct (directed_split _ (coord u f0 df k) a b c (dir_dec u df) H1 H2). tauto.
Qed.

(** *** A chain of ranges: every coordinate lies in exactly one cell. *)
Definition mono (b : Z -> Q) := forall i, (b i <= b (i + 1)%Z)%Q.

Lemma mono_le b i j : mono b -> i <= j -> (b i <= b j)%Q.
Proof.
  intros M. revert j. apply (Zlt_lower_bound_ind (fun j => (b i <= b j)%Q)). intros j IH L.
  destruct (Z.eq_dec i j) as [->|N]; [apply Qle_refl|].
  apply Qle_trans with (b (j - 1)); [apply IH; lia|]. replace j with (j - 1 + 1) at 2 by lia. apply M.
Qed.

Lemma chain_cell P x (b : Z -> Q) lo hi : {P} + {~ P} -> mono b -> lo <= hi ->
  in_range_directed P x (b lo) (b hi) ->
  exists i, lo <= i < hi /\ in_range_directed P x (b i) (b (i + 1)) /\
  forall j, lo <= j < hi -> in_range_directed P x (b j) (b (j + 1)) -> j = i.
Proof.
  intros D M L H.
  assert (E : exists i, lo <= i < hi /\ in_range_directed P x (b i) (b (i + 1))).
  { revert hi L H. apply (Zlt_lower_bound_ind (fun hi => in_range_directed P x (b lo) (b hi) ->
       exists i, lo <= i < hi /\ in_range_directed P x (b i) (b (i + 1)))).
    intros hi IH L H. destruct (Z.eq_dec lo hi) as [->|N].
    - exfalso. unfold in_range_directed in H. destruct H as [H|H]; lra.
    - assert (H1 : (b lo <= b (hi - 1)%Z)%Q) by (apply mono_le; auto; lia).
      assert (H2 : (b (hi - 1)%Z <= b hi)%Q) by (apply mono_le; auto; lia).
      apply (proj1 (directed_split P x _ _ _ D H1 H2)) in H. destruct H as [H|H].
      + destruct (IH (hi - 1) ltac:(lia) H) as (i & Hi & Hi2). exists i. split; [lia|auto].
      + exists (hi - 1). split; [lia|]. now replace (hi - 1 + 1) with hi by lia. }
  destruct E as (i & Hi & Hc). exists i. split; [exact Hi|]. split; [exact Hc|].
  intros j Hj Hd. destruct (Z.lt_trichotomy j i) as [T|[T|T]]; auto; exfalso.
  - assert (K : (b (j + 1)%Z <= b i)%Q) by (apply mono_le; auto; lia).
    unfold in_range_directed in *. destruct Hc as [Hc|Hc], Hd as [Hd|Hd]; try tauto; lra.
  - assert (K : (b (i + 1)%Z <= b j)%Q) by (apply mono_le; auto; lia).
    unfold in_range_directed in *. destruct Hc as [Hc|Hc], Hd as [Hd|Hd]; try tauto; lra.
Qed.

Lemma chain_inside P x (b : Z -> Q) lo hi i : mono b -> lo <= i < hi ->
  in_range_directed P x (b i) (b (i + 1)) -> in_range_directed P x (b lo) (b hi).
Proof.
  intros M Hi H. assert (A : (b lo <= b i)%Q) by (apply mono_le; auto; lia).
  assert (B : (b (i + 1)%Z <= b hi)%Q) by (apply mono_le; auto; lia).
  unfold in_range_directed in *. destruct H as [H|H]; [left|right]; (split; [tauto|lra]).
Qed.

Lemma chain_lemma u f0 df s e (b : Z -> Q) lo hi :
  mono b -> lo <= hi ->
  (forall i, lo <= i < hi -> step_ok u f0 df (b i) (b (i + 1))) -> step_ok u f0 df (b lo) (b hi) ->
  exists r, clamp1 u f0 df s e (b lo) (b hi) = Some r /\
  forall k, selected r k <->
    exists! i, lo <= i < hi /\ exists ri, clamp1 u f0 df s e (b i) (b (i + 1)) = Some ri /\ selected ri k.
Proof.
  intros M L O1 O2. destruct (clamp1_ok u f0 df s e _ _ O2) as (r & A & _ & C).
  exists r. split; [exact A|]. intro k. rewrite C. split.
  - intros [Hk H]. destruct (chain_cell _ _ b lo hi (dir_dec u df) M L H) as (i & Hi & Hc & Hu).
    exists i. split.
    + split; [exact Hi|]. destruct (clamp1_ok u f0 df s e _ _ (O1 i Hi)) as (ri & A1 & _ & C1).
      exists ri. split; [exact A1|]. apply C1. auto.
    + intros j [Hj (rj & A1 & S1)]. symmetry. apply Hu; [exact Hj|].
      destruct (clamp1_ok u f0 df s e _ _ (O1 j Hj)) as (rj' & A2 & _ & C2). rewrite A1 in A2.
      injection A2 as <-. apply C2 in S1. tauto.
  - intros (i & [Hi (ri & A1 & S1)] & _).
    destruct (clamp1_ok u f0 df s e _ _ (O1 i Hi)) as (ri' & A2 & _ & C2). rewrite A1 in A2.
    injection A2 as <-. apply C2 in S1. destruct S1 as [S1 S2]. split; [exact S1|].
    eapply chain_inside; eauto.
Qed.

(** *** Arrays of rows *)
Lemma clamp_rows_gen (F : Z -> Z -> Z -> option (Z * Z)) (body : Z -> nd Z * nd Z -> option (nd Z * nd Z))
    (s_in e_in s_out e_out : nd Z) n r0 r1 :
  shape s_in = [n] -> shape e_in = [n] -> shape s_out = [n] -> shape e_out = [n] ->
  0 <= r0 -> r0 <= r1 -> r1 <= n ->
  (forall i st, r0 <= i < r1 -> shape (fst st) = [n] -> shape (snd st) = [n] ->
     body i st = let* (s', e') := F i (elem s_in [i]) (elem e_in [i]) in
                 Some (upd (fst st) [i] s', upd (snd st) [i] e')) ->
  (forall i, r0 <= i < r1 -> exists r, F i (elem s_in [i]) (elem e_in [i]) = Some r) ->
  exists so eo, for_ r0 r1 body (s_out, e_out) = Some (so, eo) /\
    shape so = [n] /\ shape eo = [n] /\
    (forall i, r0 <= i < r1 -> F i (elem s_in [i]) (elem e_in [i]) = Some (elem so [i], elem eo [i])) /\
    (forall i, ~ (r0 <= i < r1) -> elem so [i] = elem s_out [i] /\ elem eo [i] = elem e_out [i]).
Proof.
  intros S1 S2 S3 S4 H0 H1 H2 HB HF.
  destruct (for_inv (fun k st => shape (fst st) = [n] /\ shape (snd st) = [n] /\
      (forall i, r0 <= i < k -> F i (elem s_in [i]) (elem e_in [i]) = Some (elem (fst st) [i], elem (snd st) [i])) /\
      (forall i, ~ (r0 <= i < k) -> elem (fst st) [i] = elem s_out [i] /\ elem (snd st) [i] = elem e_out [i]))
      r0 r1 body (s_out, e_out)) as ((so & eo) & E & P).
  - exact H1.
  - cbn [fst snd]. repeat split; auto; intros; lia.
  - intros k [a c] Hk (Q1 & Q2 & Q3 & Q4). rewrite HB by auto. cbn [fst snd] in *.
    destruct (HF k Hk) as ([s' e'] & EF). rewrite EF. cbn [bind].
    eexists. split; [reflexivity|]. cbn [fst snd]. rewrite !shape_upd. repeat split; auto.
    + intros i Hi. destruct (Z.eq_dec i k) as [->|N].
      * rewrite !elem_upd_same. exact EF.
      * rewrite !elem_upd_other by congruence. apply Q3. lia.
    + rewrite elem_upd_other by (intro X; injection X; lia). apply Q4. lia.
    + rewrite elem_upd_other by (intro X; injection X; lia). apply Q4. lia.
  - exists so, eo. destruct P as (P1 & P2 & P3 & P4). auto.
Qed.

Lemma clamp_single_lemma uvw d f0 df s_in e_in mn mx s_out e_out n r0 r1 :
  shape uvw = [n; 3] -> 0 <= d < 3 ->
  shape s_in = [n] -> shape e_in = [n] -> shape s_out = [n] -> shape e_out = [n] ->
  0 <= r0 -> r0 <= r1 -> r1 <= n ->
  exists so eo, clamp_single uvw d f0 df s_in e_in mn mx s_out e_out r0 r1 = Some (so, eo) /\
    shape so = [n] /\ shape eo = [n] /\
    (forall i, r0 <= i < r1 ->
       clamp1 (elem uvw [i; d]) f0 df (elem s_in [i]) (elem e_in [i]) mn mx = Some (elem so [i], elem eo [i])) /\
    (forall i, ~ (r0 <= i < r1) -> elem so [i] = elem s_out [i] /\ elem eo [i] = elem e_out [i]).
Proof.
  intros SU HD S1 S2 S3 S4 H0 H1 H2. unfold clamp_single.
  replace ((r0 <? 0) || (r1 <? 0)) with false by lia. unfold clamp_rows.
  apply (clamp_rows_gen (fun i s e => clamp1 (elem uvw [i; d]) f0 df s e mn mx)); auto.
  - intros i st Hi A B. rewrite rd_some by (rewrite SU; apply in_shape_2; lia). cbn [bind].
    rewrite rd_some by (rewrite S1; apply in_shape_1; lia). cbn [bind].
    rewrite rd_some by (rewrite S2; apply in_shape_1; lia). cbn [bind].
    destruct (clamp1 _ _ _ _ _ _ _) as [[s' e']|]; [|reflexivity]. cbn [bind].
    rewrite wr_some by (rewrite A; apply in_shape_1; lia). cbn [bind].
    rewrite wr_some by (rewrite B; apply in_shape_1; lia). reflexivity.
  - intros i Hi. destruct (clamp1_defined (elem uvw [i; d]) f0 df (elem s_in [i]) (elem e_in [i]) mn mx) as (r & E & _).
    eauto.
Qed.

Lemma clamp2_defined u v f0 df s e mnu mxu mnv mxv :
  exists r, clamp2 u v f0 df s e mnu mxu mnv mxv = Some r /\ fst r <= snd r.
Proof.
  unfold clamp2. destruct (clamp1_defined u f0 df s e mnu mxu) as ([s1 e1] & E & L). rewrite E. cbn [bind].
  destruct (s1 >=? e1); [eexists; split; [reflexivity|exact L]|]. apply clamp1_defined.
Qed.

Lemma clamp_uv_lemma uvw f0 df s_in e_in mnu mxu mnv mxv s_out e_out n r0 r1 :
  shape uvw = [n; 3] ->
  shape s_in = [n] -> shape e_in = [n] -> shape s_out = [n] -> shape e_out = [n] ->
  0 <= r0 -> r0 <= r1 -> r1 <= n ->
  exists so eo, clamp_uv uvw f0 df s_in e_in mnu mxu mnv mxv s_out e_out r0 r1 = Some (so, eo) /\
    shape so = [n] /\ shape eo = [n] /\
    (forall i, r0 <= i < r1 ->
       clamp2 (elem uvw [i; 0]) (elem uvw [i; 1]) f0 df (elem s_in [i]) (elem e_in [i]) mnu mxu mnv mxv
         = Some (elem so [i], elem eo [i])) /\
    (forall i, ~ (r0 <= i < r1) -> elem so [i] = elem s_out [i] /\ elem eo [i] = elem e_out [i]).
Proof.
  intros SU S1 S2 S3 S4 H0 H1 H2. unfold clamp_uv.
  replace ((r0 <? 0) || (r1 <? 0)) with false by lia.
  apply (clamp_rows_gen (fun i s e => clamp2 (elem uvw [i; 0]) (elem uvw [i; 1]) f0 df s e mnu mxu mnv mxv)); auto.
  - intros i st Hi A B. rewrite rd_some by (rewrite SU; apply in_shape_2; lia). cbn [bind].
    rewrite rd_some by (rewrite SU; apply in_shape_2; lia). cbn [bind].
    rewrite rd_some by (rewrite S1; apply in_shape_1; lia). cbn [bind].
    rewrite rd_some by (rewrite S2; apply in_shape_1; lia). cbn [bind].
    destruct (clamp2 _ _ _ _ _ _ _ _ _ _) as [[s' e']|]; [|reflexivity]. cbn [bind].
    rewrite wr_some by (rewrite A; apply in_shape_1; lia). cbn [bind].
    rewrite wr_some by (rewrite B; apply in_shape_1; lia). reflexivity.
  - intros i Hi. destruct (clamp2_defined (elem uvw [i; 0]) (elem uvw [i; 1]) f0 df (elem s_in [i]) (elem e_in [i]) mnu mxu mnv mxv) as (r & E & _).
    eauto.
Qed.

(** All rows when a bound is negative. *)
Lemma clamp_single_all uvw d f0 df s_in e_in mn mx s_out e_out n r0 r1 :
  shape uvw = [n; 3] -> 0 <= n -> r0 < 0 \/ r1 < 0 ->
  clamp_single uvw d f0 df s_in e_in mn mx s_out e_out r0 r1 =
  clamp_single uvw d f0 df s_in e_in mn mx s_out e_out 0 n.
Proof.
  intros S N H. unfold clamp_single. replace ((r0 <? 0) || (r1 <? 0)) with true by lia.
  replace ((0 <? 0) || (n <? 0)) with false by lia. unfold Base.dim. rewrite S. reflexivity.
Qed.
