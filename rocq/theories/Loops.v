(** Loop rules for array computations (proofs only). *)
From Verif Require Import Base BaseFacts Sum CRing.

(** Iterations that each transform their own set of elements. *)
Lemma for_own {A} sh (own : Z -> list Z -> bool) (T : list Z -> A -> A) body lo hi (a : nd A) :
  lo <= hi -> shape a = sh ->
  (forall i st, lo <= i < hi -> shape st = sh -> exists st', body i st = Some st' /\ shape st' = sh /\
     forall idx, elem st' idx = if own i idx then T idx (elem st idx) else elem st idx) ->
  (forall i j idx, lo <= i < hi -> lo <= j < hi -> own i idx = true -> own j idx = true -> i = j) ->
  exists a', for_ lo hi body a = Some a' /\ shape a' = sh /\
    (forall i idx, lo <= i < hi -> own i idx = true -> elem a' idx = T idx (elem a idx)) /\
    (forall idx, (forall i, lo <= i < hi -> own i idx = false) -> elem a' idx = elem a idx).
Proof.
  intros L S B D.
  destruct (for_inv (fun k st => shape st = sh /\
    (forall i idx, lo <= i < k -> own i idx = true -> elem st idx = T idx (elem a idx)) /\
    (forall idx, (forall i, lo <= i < k -> own i idx = false) -> elem st idx = elem a idx)) lo hi body a L) as (a' & E & P).
  - split; [exact S|]. split; [intros; lia|auto].
  - intros k st Hk (S1 & P1 & P2). destruct (B k st Hk S1) as (st' & E & S2 & X).
    exists st'. split; [exact E|]. split; [exact S2|]. split.
    + intros i idx Hi O. rewrite X. destruct (own k idx) eqn:Ok.
      * f_equal. apply P2. intros j Hj. destruct (own j idx) eqn:Oj; auto.
        assert (j = k) by (apply (D j k idx); auto; lia). lia.
      * destruct (Z.eq_dec i k) as [->|N]; [congruence|]. apply (P1 i); auto. lia.
    + intros idx H. rewrite X. rewrite (H k) by lia. apply P2. intros i Hi. apply H. lia.
  - exists a'. split; [exact E|exact P].
Qed.

Lemma for_set1 {A} n (T : Z -> A -> A) body lo hi (a : nd A) :
  0 <= lo -> lo <= hi -> hi <= n -> shape a = [n] ->
  (forall i st, lo <= i < hi -> shape st = [n] -> body i st = Some (upd st [i] (T i (elem st [i])))) ->
  exists a', for_ lo hi body a = Some a' /\ shape a' = [n] /\
    (forall i, lo <= i < hi -> elem a' [i] = T i (elem a [i])) /\
    (forall idx, (forall i, lo <= i < hi -> idx <> [i]) -> elem a' idx = elem a idx).
Proof.
  intros H0 L H1 S B.
  destruct (for_own [n] (fun i idx => idx_eqb [i] idx) (fun idx x => match idx with [i] => T i x | _ => x end) body lo hi a L S)
    as (a' & E & S' & P & Q).
  - intros i st Hi Ss. exists (upd st [i] (T i (elem st [i]))). split; [now apply B|]. split; [exact Ss|].
    intro idx. cbn [upd elem]. destruct (idx_eqb_spec [i] idx) as [<-|]; reflexivity.
  - intros i j idx _ _ A1 A2. cbn beta in A1, A2.
    destruct (idx_eqb_spec [i] idx) as [E1|]; [|discriminate].
    destruct (idx_eqb_spec [j] idx) as [E2|]; [|discriminate]. congruence.
  - exists a'. split; [exact E|]. split; [exact S'|]. split.
    + intros i Hi. now rewrite (P i [i] Hi (idx_eqb_refl _)).
    + intros idx H. apply Q. intros i Hi. apply idx_eqb_neq. intro K. apply (H i Hi). congruence.
Qed.

Definition in_row (i lo hi : Z) (idx : list Z) : bool :=
  match idx with [x; y] => (x =? i) && (lo <=? y) && (y <? hi) | _ => false end.

Lemma for_set2 {A} n m (T : Z -> Z -> A -> A) body r0 r1 c0 c1 (a : nd A) :
  0 <= r0 -> r0 <= r1 -> r1 <= n -> 0 <= c0 -> c0 <= c1 -> c1 <= m -> shape a = [n; m] ->
  (forall i j st, r0 <= i < r1 -> c0 <= j < c1 -> shape st = [n; m] ->
     body i j st = Some (upd st [i; j] (T i j (elem st [i; j])))) ->
  exists a', for_ r0 r1 (fun i => for_ c0 c1 (body i)) a = Some a' /\ shape a' = [n; m] /\
    (forall i j, r0 <= i < r1 -> c0 <= j < c1 -> elem a' [i; j] = T i j (elem a [i; j])) /\
    (forall idx, (forall i j, r0 <= i < r1 -> c0 <= j < c1 -> idx <> [i; j]) -> elem a' idx = elem a idx).
Proof.
  intros H0 L H1 G0 L' G1 S B.
  pose (TT := fun idx x => match idx with [i; j] => T i j x | _ => x end).
  destruct (for_own [n; m] (fun i idx => in_row i c0 c1 idx) TT (fun i => for_ c0 c1 (body i)) r0 r1 a L S)
    as (a' & E & S' & P & Q).
  - intros i st Hi Ss.
    destruct (for_own [n; m] (fun j idx => idx_eqb [i; j] idx) TT (body i) c0 c1 st L' Ss) as (st' & E & S' & P & Q).
    + intros j st2 Hj S2. exists (upd st2 [i; j] (T i j (elem st2 [i; j]))).
      split; [apply B; auto|]. split; [exact S2|].
      intro idx. cbn [upd elem]. destruct (idx_eqb_spec [i; j] idx) as [<-|]; reflexivity.
    + intros j j' idx _ _ A1 A2. cbn beta in A1, A2.
      destruct (idx_eqb_spec [i; j] idx) as [K1|]; [|discriminate].
      destruct (idx_eqb_spec [i; j'] idx) as [K2|]; [|discriminate]. congruence.
    + exists st'. split; [exact E|]. split; [exact S'|]. intro idx.
      destruct (in_row i c0 c1 idx) eqn:R.
      * unfold in_row in R. destruct idx as [|x [|y [|]]]; try discriminate.
        apply (P y); [lia|]. assert (x = i) as -> by lia. apply idx_eqb_refl.
      * apply Q. intros j Hj. destruct (idx_eqb_spec [i; j] idx) as [<-|]; [|reflexivity].
        unfold in_row in R. lia.
  - intros i j idx _ _ A1 A2. unfold in_row in *. destruct idx as [|x [|y [|]]]; try discriminate. lia.
  - exists a'. split; [exact E|]. split; [exact S'|]. split.
    + intros i j Hi Hj. rewrite (P i [i; j] Hi); [reflexivity|]. unfold in_row. lia.
    + intros idx H. apply Q. intros i Hi. destruct (in_row i c0 c1 idx) eqn:R; auto.
      unfold in_row in R. destruct idx as [|x [|y [|]]]; try discriminate.
      assert (x = i) as -> by lia. exfalso. apply (H i y); auto. lia.
Qed.

(** Iterations that add to elements. *)
Lemma for_adds {A : cring} sh (D : Z -> list Z -> A) body lo hi (a : nd A) :
  lo <= hi -> shape a = sh ->
  (forall i st, lo <= i < hi -> shape st = sh -> exists st', body i st = Some st' /\ shape st' = sh /\
     forall idx, elem st' idx = (elem st idx + D i idx)%cr) ->
  exists a', for_ lo hi body a = Some a' /\ shape a' = sh /\
    forall idx, elem a' idx = (elem a idx + rsum lo hi (fun i => D i idx))%cr.
Proof.
  intros L S B.
  destruct (for_inv (fun k st => shape st = sh /\
    forall idx, elem st idx = (elem a idx + rsum lo k (fun i => D i idx))%cr) lo hi body a L) as (a' & E & P).
  - split; [exact S|]. intro idx. rewrite sum_empty by lia. symmetry. rewrite (Radd_comm (rth A)). apply (Radd_0_l (rth A)).
  - intros k st Hk (S1 & P1). destruct (B k st Hk S1) as (st' & E & S2 & X).
    exists st'. split; [exact E|]. split; [exact S2|]. intro idx. rewrite X, P1, rsum_snoc by lia.
    symmetry. apply (Radd_assoc (rth A)).
  - exists a'. auto.
Qed.

(** Iterations that set their own elements to values fixed beforehand, and may read elements not
    set by earlier iterations. *)
Lemma for_put {A} sh (own : Z -> list Z -> bool) (V : list Z -> A) body lo hi (a : nd A) :
  lo <= hi -> shape a = sh ->
  (forall i st, lo <= i < hi -> shape st = sh ->
     (forall idx, (forall i', lo <= i' < i -> own i' idx = false) -> elem st idx = elem a idx) ->
     exists st', body i st = Some st' /\ shape st' = sh /\
     forall idx, elem st' idx = if own i idx then V idx else elem st idx) ->
  exists a', for_ lo hi body a = Some a' /\ shape a' = sh /\
    (forall i idx, lo <= i < hi -> own i idx = true -> elem a' idx = V idx) /\
    (forall idx, (forall i, lo <= i < hi -> own i idx = false) -> elem a' idx = elem a idx).
Proof.
  intros L S B.
  destruct (for_inv (fun k st => shape st = sh /\
    (forall i idx, lo <= i < k -> own i idx = true -> elem st idx = V idx) /\
    (forall idx, (forall i, lo <= i < k -> own i idx = false) -> elem st idx = elem a idx)) lo hi body a L) as (a' & E & P).
  - split; [exact S|]. split; [intros; lia|auto].
  - intros k st Hk (S1 & P1 & P2). destruct (B k st Hk S1 P2) as (st' & E & S2 & X).
    exists st'. split; [exact E|]. split; [exact S2|]. split.
    + intros i idx Hi O. rewrite X. destruct (own k idx) eqn:Ok; [reflexivity|].
      destruct (Z.eq_dec i k) as [->|N]; [congruence|]. apply (P1 i); auto. lia.
    + intros idx H. rewrite X. rewrite (H k) by lia. apply P2. intros i Hi. apply H. lia.
  - exists a'. split; [exact E|exact P].
Qed.

(** A loop along one row. *)
Lemma for_row {A} n m i (T : Z -> A -> A) body c0 c1 (a : nd A) :
  0 <= i < n -> 0 <= c0 -> c0 <= c1 -> c1 <= m -> shape a = [n; m] ->
  (forall j st, c0 <= j < c1 -> shape st = [n; m] -> body j st = Some (upd st [i; j] (T j (elem st [i; j])))) ->
  exists a', for_ c0 c1 body a = Some a' /\ shape a' = [n; m] /\
    forall idx, elem a' idx = if in_row i c0 c1 idx then T (nth 1 idx 0) (elem a idx) else elem a idx.
Proof.
  intros Hi G0 L' G1 Ss B.
  destruct (for_own [n; m] (fun j idx => idx_eqb [i; j] idx) (fun idx => T (nth 1 idx 0)) body c0 c1 a L' Ss) as (st' & E & S' & P & Q).
  - intros j st2 Hj S2. exists (upd st2 [i; j] (T j (elem st2 [i; j]))).
    split; [apply B; auto|]. split; [exact S2|].
    intro idx. cbn [upd elem]. destruct (idx_eqb_spec [i; j] idx) as [<-|]; reflexivity.
  - intros j j' idx _ _ A1 A2. cbn beta in A1, A2.
    destruct (idx_eqb_spec [i; j] idx) as [K1|]; [|discriminate].
    destruct (idx_eqb_spec [i; j'] idx) as [K2|]; [|discriminate]. congruence.
  - exists st'. split; [exact E|]. split; [exact S'|]. intro idx.
    destruct (in_row i c0 c1 idx) eqn:R.
    + unfold in_row in R. destruct idx as [|x [|y [|]]]; try discriminate.
      apply (P y); [lia|]. assert (x = i) as -> by lia. apply idx_eqb_refl.
    + apply Q. intros j Hj. destruct (idx_eqb_spec [i; j] idx) as [<-|]; [|reflexivity].
      unfold in_row in R. lia.
Qed.
