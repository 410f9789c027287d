(** Facts about the common definitions (proofs only). *)
From Verif Require Import Base.
From Coq Require FinFun.

Lemma idx_eqb_spec a b : reflect (a = b) (idx_eqb a b).
Proof.
  revert b; induction a as [|x a IH]; intros [|y b]; simpl;
    try (constructor; congruence).
  destruct (Z.eqb_spec x y) as [E|E]; simpl.
  - destruct (IH b) as [E2|E2]; constructor; congruence.
  - constructor; congruence.
Qed.

Lemma idx_eqb_refl a : idx_eqb a a = true.
Proof. destruct (idx_eqb_spec a a); congruence. Qed.

Lemma idx_eqb_neq a b : a <> b -> idx_eqb a b = false.
Proof. destruct (idx_eqb_spec a b); congruence. Qed.

Lemma elem_upd_same {A} (a : nd A) i v : elem (upd a i v) i = v.
Proof. simpl. now rewrite idx_eqb_refl. Qed.

Lemma elem_upd_other {A} (a : nd A) i j v : i <> j -> elem (upd a i v) j = elem a j.
Proof. intro H. simpl. now rewrite idx_eqb_neq. Qed.

Lemma shape_upd {A} (a : nd A) i v : shape (upd a i v) = shape a.
Proof. reflexivity. Qed.

Lemma wr_some {A} (a : nd A) i v :
  in_shape (shape a) i = true -> wr a i v = Some (upd a i v).
Proof. unfold wr. now intros ->. Qed.

Lemma rd_some {A} (a : nd A) i :
  in_shape (shape a) i = true -> rd a i = Some (elem a i).
Proof. unfold rd. now intros ->. Qed.

Lemma wr_inv {A} (a a' : nd A) i v :
  wr a i v = Some a' -> in_shape (shape a) i = true /\ a' = upd a i v.
Proof. unfold wr. destruct in_shape; intro H; inversion H; auto. Qed.

Lemma rd_inv {A} (a : nd A) i v :
  rd a i = Some v -> in_shape (shape a) i = true /\ v = elem a i.
Proof. unfold rd. destruct in_shape; intro H; inversion H; auto. Qed.

Lemma in_shape_1 s0 i : in_shape [s0] [i] = true <-> 0 <= i < s0.
Proof. simpl. lia. Qed.
Lemma in_shape_2 s0 s1 i j :
  in_shape [s0; s1] [i; j] = true <-> 0 <= i < s0 /\ 0 <= j < s1.
Proof. simpl. lia. Qed.
Lemma in_shape_3 s0 s1 s2 i j k :
  in_shape [s0; s1; s2] [i; j; k] = true <-> 0 <= i < s0 /\ 0 <= j < s1 /\ 0 <= k < s2.
Proof. simpl. lia. Qed.

(** *** Loop rule: total correctness with an invariant. *)
Lemma for_nat_inv {S} (P : Z -> S -> Prop) k lo (f : Z -> S -> option S) s :
  P lo s ->
  (forall i s, lo <= i < lo + Z.of_nat k -> P i s ->
     exists s', f i s = Some s' /\ P (i + 1) s') ->
  exists s', for_nat k lo f s = Some s' /\ P (lo + Z.of_nat k) s'.
Proof.
  revert lo s; induction k as [|k IH]; intros lo s H0 Hs.
  - exists s; split; [reflexivity|]. now replace (lo + Z.of_nat 0) with lo by lia.
  - destruct (Hs lo s ltac:(lia) H0) as (s' & E & HP). cbn [for_nat]. rewrite E.
    destruct (IH (lo + 1) s' HP) as (s'' & E' & HP').
    + intros i t Hi. apply Hs. lia.
    + exists s''; split; [exact E'|].
      replace (lo + Z.of_nat (Datatypes.S k)) with (lo + 1 + Z.of_nat k) by lia. exact HP'.
Qed.

Lemma for_inv {S} (P : Z -> S -> Prop) lo hi (f : Z -> S -> option S) s :
  lo <= hi -> P lo s ->
  (forall i s, lo <= i < hi -> P i s -> exists s', f i s = Some s' /\ P (i + 1) s') ->
  exists s', for_ lo hi f s = Some s' /\ P hi s'.
Proof.
  intros Hle H0 Hs. unfold for_.
  destruct (for_nat_inv P (Z.to_nat (hi - lo)) lo f s H0) as (s' & E & HP).
  - intros i t Hi. apply Hs. lia.
  - exists s'; split; [exact E|].
    now replace hi with (lo + Z.of_nat (Z.to_nat (hi - lo))) by lia.
Qed.

(** Partial-correctness version: whatever a successful run yields. *)
Lemma for_nat_inv_partial {S} (P : Z -> S -> Prop) k lo (f : Z -> S -> option S) s s' :
  P lo s ->
  (forall i s s', lo <= i < lo + Z.of_nat k -> P i s -> f i s = Some s' -> P (i + 1) s') ->
  for_nat k lo f s = Some s' -> P (lo + Z.of_nat k) s'.
Proof.
  revert lo s; induction k as [|k IH]; intros lo s H0 Hs E; simpl in E.
  - inversion E; subst. now replace (lo + Z.of_nat 0) with lo by lia.
  - destruct (f lo s) as [t|] eqn:F; [|discriminate].
    replace (lo + Z.of_nat (Datatypes.S k)) with (lo + 1 + Z.of_nat k) by lia.
    apply (IH (lo + 1) t); auto.
    + apply (Hs lo s t); auto. lia.
    + intros i u u' Hi. apply Hs. lia.
Qed.

Lemma for_inv_partial {S} (P : Z -> S -> Prop) lo hi (f : Z -> S -> option S) s s' :
  lo <= hi -> P lo s ->
  (forall i s s', lo <= i < hi -> P i s -> f i s = Some s' -> P (i + 1) s') ->
  for_ lo hi f s = Some s' -> P hi s'.
Proof.
  intros Hle H0 Hs E. unfold for_ in E.
  replace hi with (lo + Z.of_nat (Z.to_nat (hi - lo))) by lia.
  eapply for_nat_inv_partial; eauto.
  intros i t t' Hi. apply Hs. lia.
Qed.

Lemma for_empty {S} lo hi (f : Z -> S -> option S) s : hi <= lo -> for_ lo hi f s = Some s.
Proof. intro H. unfold for_. now replace (Z.to_nat (hi - lo)) with O by lia. Qed.

Lemma for_nat_ext {S} k lo (f g : Z -> S -> option S) s :
  (forall i s, lo <= i < lo + Z.of_nat k -> f i s = g i s) ->
  for_nat k lo f s = for_nat k lo g s.
Proof.
  revert lo s; induction k as [|k IH]; intros lo s H; simpl; [reflexivity|].
  rewrite (H lo s) by lia. destruct (g lo s); [|reflexivity].
  apply IH. intros i t Hi. apply H. lia.
Qed.

Lemma for_ext {S} lo hi (f g : Z -> S -> option S) s :
  (forall i s, lo <= i < hi -> f i s = g i s) ->
  for_ lo hi f s = for_ lo hi g s.
Proof. intro H. apply for_nat_ext. intros i t Hi. apply H. lia. Qed.

(** Peeling the last iteration. *)
Lemma for_nat_snoc {S} k lo (f : Z -> S -> option S) s :
  for_nat (Datatypes.S k) lo f s =
  (let* t := for_nat k lo f s in f (lo + Z.of_nat k) t).
Proof.
  revert lo s; induction k as [|k IH]; intros lo s.
  - simpl. replace (lo + Z.of_nat 0) with lo by lia. destruct (f lo s); reflexivity.
  - cbn [for_nat] in *. destruct (f lo s) as [t|]; [|reflexivity].
    rewrite (IH (lo + 1) t).
    replace (lo + 1 + Z.of_nat k) with (lo + Z.of_nat (Datatypes.S k)) by lia.
    reflexivity.
Qed.

Lemma for_snoc {S} lo hi (f : Z -> S -> option S) s :
  lo <= hi -> for_ lo (hi + 1) f s = (let* t := for_ lo hi f s in f hi t).
Proof.
  intro H. unfold for_.
  replace (Z.to_nat (hi + 1 - lo)) with (Datatypes.S (Z.to_nat (hi - lo))) by lia.
  rewrite for_nat_snoc. do 2 f_equal.
  replace (lo + Z.of_nat (Z.to_nat (hi - lo))) with hi by lia. reflexivity.
Qed.

Lemma in_zrange lo hi x : In x (zrange lo hi) <-> lo <= x < hi.
Proof.
  unfold zrange. rewrite in_map_iff. split.
  - intros (k & <- & H). apply in_seq in H. lia.
  - intro H. exists (Z.to_nat (x - lo)). rewrite in_seq. lia.
Qed.

Lemma NoDup_zrange lo hi : NoDup (zrange lo hi).
Proof.
  unfold zrange. apply FinFun.Injective_map_NoDup; [intros a b; lia|apply seq_NoDup].
Qed.
