(** Loops in which every iteration sets the elements it owns. *)
From Verif Require Import Base BaseFacts.
Open Scope Z_scope.

(** [f] gives the elements in [own] a value allowed by [V] and leaves the others as they were. *)
Definition sets {A} (sh : list Z) (own : list Z -> bool) (V : list Z -> A -> Prop) (f : nd A -> option (nd A)) : Prop :=
  forall st, shape st = sh -> exists st', f st = Some st' /\ shape st' = sh /\
    (forall idx, own idx = true -> V idx (elem st' idx)) /\ (forall idx, own idx = false -> elem st' idx = elem st idx).

Definition own_all (lo hi : Z) (own : Z -> list Z -> bool) (idx : list Z) : bool := existsb (fun i => own i idx) (zrange lo hi).

Lemma own_all_true lo hi own idx : own_all lo hi own idx = true <-> exists i, lo <= i < hi /\ own i idx = true.
Proof. unfold own_all. rewrite existsb_exists. split; intros (i & H & E); exists i; split; auto; now apply in_zrange. Qed.

Lemma own_all_false lo hi own idx : own_all lo hi own idx = false <-> forall i, lo <= i < hi -> own i idx = false.
Proof.
  split.
  - intros H i Hi. destruct (own i idx) eqn:E; [|reflexivity].
    assert (X : own_all lo hi own idx = true) by (apply own_all_true; eauto). congruence.
  - intro H. destruct (own_all lo hi own idx) eqn:E; [|reflexivity].
    apply own_all_true in E. destruct E as (i & Hi & E). rewrite H in E; auto.
Qed.

Lemma sets_for {A} sh lo hi own (V : list Z -> A -> Prop) body :
  (forall i, lo <= i < hi -> sets sh (own i) V (body i)) -> sets sh (own_all lo hi own) V (for_ lo hi body).
Proof.
  intros B st S. destruct (Z.le_gt_cases lo hi) as [L|L].
  - destruct (for_inv (fun k s => shape s = sh /\ (forall idx, own_all lo k own idx = true -> V idx (elem s idx)) /\
      (forall idx, own_all lo k own idx = false -> elem s idx = elem st idx)) lo hi body st L) as (st' & E & P).
    + split; [exact S|]. split; [|reflexivity]. intros idx H. apply own_all_true in H. destruct H as (i & Hi & _). lia.
    + intros i s Hi (S1 & P1 & P2). destruct (B i Hi s S1) as (s' & E & S2 & Q1 & Q2). exists s'. split; [exact E|]. split; [exact S2|]. split.
      * intros idx H. destruct (own i idx) eqn:O; [auto|]. rewrite Q2 by auto. apply P1.
        apply own_all_true in H. destruct H as (j & Hj & Oj). apply own_all_true. exists j. split; [|exact Oj].
        assert (j <> i) by congruence. lia.
      * intros idx H. pose proof (proj1 (own_all_false _ _ _ _) H) as H'. rewrite Q2 by (apply H'; lia). apply P2.
        apply own_all_false. intros j Hj. apply H'. lia.
    + exists st'. auto.
  - exists st. split; [apply for_empty; lia|]. split; [exact S|]. split; [|reflexivity].
    intros idx H. apply own_all_true in H. destruct H as (i & Hi & _). lia.
Qed.

Lemma sets_wr {A} sh idx (v : A) (V : list Z -> A -> Prop) : in_shape sh idx = true -> V idx v ->
  sets sh (idx_eqb idx) V (fun st => wr st idx v).
Proof.
  intros I Hv st S. rewrite wr_some by (rewrite S; exact I). eexists. split; [reflexivity|]. split; [exact S|]. split.
  - intros idx'. destruct (idx_eqb_spec idx idx') as [E|]; [|discriminate]. intros _. rewrite <- E. now rewrite elem_upd_same.
  - intros idx'. destruct (idx_eqb_spec idx idx') as [|N]; [discriminate|]. intros _. now apply elem_upd_other.
Qed.

Lemma sets_ext {A} sh own own' (V : list Z -> A -> Prop) f g :
  sets sh own V f -> (forall idx, own idx = own' idx) -> (forall st, shape st = sh -> g st = f st) -> sets sh own' V g.
Proof.
  intros H O E st S. destruct (H st S) as (st' & E' & S' & P & Q). exists st'. rewrite E by auto. split; [exact E'|]. split; [exact S'|].
  split; intros idx; rewrite <- O; auto.
Qed.

(** An execution that ends has run every iteration. *)
Lemma for_some_at {S} lo hi (f : Z -> S -> option S) s s' i :
  for_ lo hi f s = Some s' -> lo <= i < hi -> exists a b, f i a = Some b.
Proof.
  intros E Hi.
  assert (X : i < hi -> exists a b, f i a = Some b).
  { refine (for_inv_partial (fun k _ => i < k -> exists a b, f i a = Some b) lo hi f s s' _ _ _ E); [lia|lia|].
    intros k a b Hk IH F Lt. destruct (Z.eq_dec i k) as [->|N]; [eauto|]. apply IH. lia. }
  apply X. lia.
Qed.

(** Row-major positions of three- and four-dimensional arrays *)
Definition pos3 (n2 n1 i j k : Z) : Z := n1 * (n2 * i + j) + k.
Definition pos4 (n3 n2 n1 i j k l : Z) : Z := n1 * (n2 * (n3 * i + j) + k) + l.

Lemma pos2_inj n i j i' j' : 0 <= j < n -> 0 <= j' < n -> n * i + j = n * i' + j' -> i = i' /\ j = j'.
Proof.
  intros Hj Hj' E. assert (i = i').
  { destruct (Z.lt_trichotomy i i') as [L|[L|L]]; [|exact L|]; exfalso; nia. }
  subst. lia.
Qed.
Lemma pos3_inj n2 n1 i j k i' j' k' : 0 <= j < n2 -> 0 <= k < n1 -> 0 <= j' < n2 -> 0 <= k' < n1 ->
  pos3 n2 n1 i j k = pos3 n2 n1 i' j' k' -> i = i' /\ j = j' /\ k = k'.
Proof.
  unfold pos3. intros H1 H2 H3 H4 E. apply pos2_inj in E; auto. destruct E as [E ->]. apply pos2_inj in E; auto. tauto.
Qed.
Lemma pos4_inj n3 n2 n1 i j k l i' j' k' l' : 0 <= j < n3 -> 0 <= k < n2 -> 0 <= l < n1 -> 0 <= j' < n3 -> 0 <= k' < n2 -> 0 <= l' < n1 ->
  pos4 n3 n2 n1 i j k l = pos4 n3 n2 n1 i' j' k' l' -> i = i' /\ j = j' /\ k = k' /\ l = l'.
Proof.
  unfold pos4. intros H1 H2 H3 H4 H5 H6 E. apply pos2_inj in E; auto. destruct E as [E ->].
  apply pos2_inj in E; auto. destruct E as [E ->]. apply pos2_inj in E; auto. tauto.
Qed.
Lemma pos2_range m n i j : 0 <= i < m -> 0 <= j < n -> 0 <= n * i + j < m * n.
Proof. intros. nia. Qed.
Lemma pos3_range n3 n2 n1 i j k : 0 <= i < n3 -> 0 <= j < n2 -> 0 <= k < n1 -> 0 <= pos3 n2 n1 i j k < n3 * n2 * n1.
Proof. intros H1 H2 H3. unfold pos3. apply pos2_range; auto. now apply pos2_range. Qed.
Lemma pos4_range n4 n3 n2 n1 i j k l : 0 <= i < n4 -> 0 <= j < n3 -> 0 <= k < n2 -> 0 <= l < n1 ->
  0 <= pos4 n3 n2 n1 i j k l < n4 * n3 * n2 * n1.
Proof. intros H1 H2 H3 H4. unfold pos4. apply pos2_range; auto. apply pos2_range; auto. now apply pos2_range. Qed.

(** As [sets], where the new value may depend on the old one; the iterations own different elements. *)
Definition changes {A} (sh : list Z) (own : list Z -> bool) (U : list Z -> A -> A -> Prop) (f : nd A -> option (nd A)) : Prop :=
  forall st, shape st = sh -> exists st', f st = Some st' /\ shape st' = sh /\
    (forall idx, own idx = true -> U idx (elem st idx) (elem st' idx)) /\ (forall idx, own idx = false -> elem st' idx = elem st idx).

Lemma changes_for {A} sh lo hi own (U : list Z -> A -> A -> Prop) body :
  (forall i, lo <= i < hi -> changes sh (own i) U (body i)) ->
  (forall i j idx, lo <= i < hi -> lo <= j < hi -> own i idx = true -> own j idx = true -> i = j) ->
  changes sh (own_all lo hi own) U (for_ lo hi body).
Proof.
  intros B D st S. destruct (Z.le_gt_cases lo hi) as [L|L].
  - destruct (for_inv (fun k s => k <= hi /\ shape s = sh /\ (forall idx, own_all lo k own idx = true -> U idx (elem st idx) (elem s idx)) /\
      (forall idx, own_all lo k own idx = false -> elem s idx = elem st idx)) lo hi body st L) as (st' & E & _ & P).
    + split; [exact L|]. split; [exact S|]. split; [|reflexivity]. intros idx H. apply own_all_true in H. destruct H as (i & Hi & _). lia.
    + intros i s Hi (_ & S1 & P1 & P2). destruct (B i Hi s S1) as (s' & E & S2 & Q1 & Q2). exists s'. split; [exact E|]. split; [lia|]. split; [exact S2|]. split.
      * intros idx H. destruct (own i idx) eqn:O.
        -- assert (F : own_all lo i own idx = false).
           { apply own_all_false. intros j Hj. destruct (own j idx) eqn:Oj; [|reflexivity].
             assert (j = i) by (apply (D j i idx); auto; lia). lia. }
           rewrite <- (P2 idx F). auto.
        -- rewrite Q2 by auto. apply P1.
           apply own_all_true in H. destruct H as (j & Hj & Oj). apply own_all_true. exists j. split; [|exact Oj].
           assert (j <> i) by congruence. lia.
      * intros idx H. pose proof (proj1 (own_all_false _ _ _ _) H) as H'. rewrite Q2 by (apply H'; lia). apply P2.
        apply own_all_false. intros j Hj. apply H'. lia.
    + exists st'. auto.
  - exists st. split; [apply for_empty; lia|]. split; [exact S|]. split; [|reflexivity].
    intros idx H. apply own_all_true in H. destruct H as (i & Hi & _). lia.
Qed.

Lemma changes_ext {A} sh own (U : list Z -> A -> A -> Prop) f g :
  changes sh own U f -> (forall st, shape st = sh -> g st = f st) -> changes sh own U g.
Proof.
  intros H E st S. destruct (H st S) as (st' & E' & S' & P & Q). exists st'. rewrite E by auto. auto.
Qed.

Lemma sets_skip {A} sh (V : list Z -> A -> Prop) : sets sh (fun _ => false) V Some.
Proof. intros st S. exists st. split; [reflexivity|]. split; [exact S|]. split; [discriminate|reflexivity]. Qed.

Lemma sets_seq {A} sh own1 own2 (V : list Z -> A -> Prop) f g :
  sets sh own1 V f -> sets sh own2 V g -> sets sh (fun idx => own1 idx || own2 idx) V (fun st => bind (f st) g).
Proof.
  intros F G st S. destruct (F st S) as (s1 & E1 & S1 & P1 & Q1). destruct (G s1 S1) as (s2 & E2 & S2 & P2 & Q2).
  exists s2. rewrite E1. cbn [bind]. split; [exact E2|]. split; [exact S2|]. split.
  - intros idx H. destruct (own2 idx) eqn:O; [auto|]. rewrite Q2 by auto. apply P1. now rewrite orb_false_r in H.
  - intros idx H. apply orb_false_iff in H. destruct H. now rewrite Q2, Q1.
Qed.

Lemma sets_if {A} sh own (V : list Z -> A -> Prop) (b : bool) f :
  (b = true -> sets sh own V f) -> sets sh (fun idx => b && own idx) V (fun st => if b then f st else Some st).
Proof. intro H. destruct b; [now apply H|apply sets_skip]. Qed.
