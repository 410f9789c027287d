(** Sums over integer ranges in a commutative monoid, used in specifications
    ([sum op e lo hi f] = f lo op .. op f (hi-1)) and the facts about them. *)
From Verif Require Import Base BaseFacts.
From Coq Require Import Permutation.

Definition sum {A} (op : A -> A -> A) (e : A) (lo hi : Z) (f : Z -> A) : A :=
  fold_right op e (map f (zrange lo hi)).

Record cmonoid {A} (op : A -> A -> A) (e : A) : Prop := mk_cmonoid {
  cm_assoc : forall x y z, op x (op y z) = op (op x y) z;
  cm_comm : forall x y, op x y = op y x;
  cm_unit : forall x, op e x = x }.

Lemma zrange_empty lo hi : hi <= lo -> zrange lo hi = [].
Proof. intro H. unfold zrange. now replace (Z.to_nat (hi - lo)) with O by lia. Qed.

Lemma zrange_snoc lo hi : lo <= hi -> zrange lo (hi + 1) = zrange lo hi ++ [hi].
Proof.
  intro H. unfold zrange. replace (Z.to_nat (hi + 1 - lo)) with (Z.to_nat (hi - lo) + 1)%nat by lia.
  rewrite seq_app, map_app. cbn. do 2 f_equal. lia.
Qed.

Lemma zrange_cons lo hi : lo < hi -> zrange lo hi = lo :: zrange (lo + 1) hi.
Proof.
  intro H. unfold zrange. replace (Z.to_nat (hi - lo)) with (S (Z.to_nat (hi - (lo + 1)))) by lia.
  cbn [seq map]. f_equal; [lia|]. rewrite <- seq_shift, map_map. apply map_ext. intro; lia.
Qed.

Lemma zrange_app lo mid hi : lo <= mid -> mid <= hi -> zrange lo hi = zrange lo mid ++ zrange mid hi.
Proof.
  intros H1 H2. unfold zrange. replace (Z.to_nat (hi - lo)) with (Z.to_nat (mid - lo) + Z.to_nat (hi - mid))%nat by lia.
  rewrite seq_app, map_app. f_equal. cbn.
  replace (Z.to_nat (mid - lo)) with (Z.to_nat (mid - lo) + 0)%nat by lia.
  generalize (Z.to_nat (hi - mid)) as n. intro n.
  assert (G : forall a k, map (fun j => lo + Z.of_nat j) (seq (a + k) n) = map (fun j => lo + Z.of_nat a + Z.of_nat j) (seq k n)).
  { intro a. induction n as [|n IH]; intro k; [reflexivity|]. cbn. f_equal; [lia|].
    replace (S (a + k)) with (a + S k)%nat by lia. apply IH. }
  rewrite G. apply map_ext. intro; lia.
Qed.

Lemma zrange_shift lo hi d : zrange (lo + d) (hi + d) = map (fun i => i + d) (zrange lo hi).
Proof.
  unfold zrange. rewrite map_map. replace (hi + d - (lo + d)) with (hi - lo) by lia.
  apply map_ext. intro; lia.
Qed.

Lemma zrange_length lo hi : length (zrange lo hi) = Z.to_nat (hi - lo).
Proof. unfold zrange. now rewrite map_length, seq_length. Qed.

Lemma zrange_perm (s : Z -> Z) lo hi :
  (forall i, lo <= i < hi -> lo <= s i < hi) ->
  (forall i j, lo <= i < hi -> lo <= j < hi -> s i = s j -> i = j) ->
  Permutation (map s (zrange lo hi)) (zrange lo hi).
Proof.
  intros H1 H2. apply NoDup_Permutation_bis.
  - assert (G : forall l, NoDup l -> (forall x, In x l -> lo <= x < hi) -> NoDup (map s l)).
    { induction l as [|x l IH]; intros N I; [constructor|]. cbn. inversion N; subst. constructor.
      - intro K. apply in_map_iff in K. destruct K as (y & E & Hy).
        apply H2 in E; [subst; contradiction| |]; apply I; [now right|now left].
      - apply IH; auto. intros y Hy. apply I. now right. }
    apply G; [apply NoDup_zrange|]. intros x Hx. now apply in_zrange in Hx.
  - rewrite map_length. lia.
  - intros x Hx. apply in_map_iff in Hx. destruct Hx as (y & <- & Hy). apply in_zrange in Hy.
    apply in_zrange. auto.
Qed.

Lemma for_acc {A} (op : A -> A -> A) lo hi (f : Z -> A) a :
  for_ lo hi (fun i acc => Some (op acc (f i))) a =
  Some (fold_left op (map f (zrange lo hi)) a).
Proof.
  destruct (Z.le_gt_cases hi lo) as [L|L].
  - rewrite for_empty, zrange_empty by assumption. reflexivity.
  - assert (G : forall n, for_ lo (lo + Z.of_nat n) (fun i acc => Some (op acc (f i))) a =
      Some (fold_left op (map f (zrange lo (lo + Z.of_nat n))) a)).
    { induction n as [|n IH].
      - rewrite for_empty, zrange_empty by lia. reflexivity.
      - replace (lo + Z.of_nat (S n)) with (lo + Z.of_nat n + 1) by lia.
        rewrite for_snoc by lia. rewrite IH. cbn [bind]. rewrite zrange_snoc by lia.
        rewrite map_app, fold_left_app. reflexivity. }
    replace hi with (lo + Z.of_nat (Z.to_nat (hi - lo))) by lia. apply G.
Qed.

Section Sum.
  Context {A : Type} (op : A -> A -> A) (e : A) (M : cmonoid op e).
  Notation sum := (sum op e).
  Let assoc := cm_assoc _ _ M.
  Let comm := cm_comm _ _ M.
  Let unit := cm_unit _ _ M.

  Lemma unit_r x : op x e = x. Proof. now rewrite comm, unit. Qed.

  Lemma fold_app l1 l2 : fold_right op e (l1 ++ l2) = op (fold_right op e l1) (fold_right op e l2).
  Proof. induction l1 as [|x l IH]; cbn; [now rewrite unit|]. now rewrite IH, assoc. Qed.

  Lemma fold_perm l1 l2 : Permutation l1 l2 -> fold_right op e l1 = fold_right op e l2.
  Proof.
    induction 1; cbn; auto; [congruence| |congruence].
    rewrite !assoc. f_equal. apply comm.
  Qed.

  Lemma fold_left_right l a : fold_left op l a = op a (fold_right op e l).
  Proof.
    revert a; induction l as [|x l IH]; intro a; cbn; [now rewrite unit_r|]. rewrite IH. now rewrite assoc.
  Qed.

  Lemma sum_empty lo hi f : hi <= lo -> sum lo hi f = e.
  Proof. intro H. unfold Sum.sum. now rewrite zrange_empty. Qed.
  Lemma sum_snoc lo hi f : lo <= hi -> sum lo (hi + 1) f = op (sum lo hi f) (f hi).
  Proof. intro H. unfold Sum.sum. rewrite zrange_snoc, map_app, fold_app by assumption. cbn. now rewrite unit_r. Qed.
  Lemma sum_cons lo hi f : lo < hi -> sum lo hi f = op (f lo) (sum (lo + 1) hi f).
  Proof. intro H. unfold Sum.sum. now rewrite zrange_cons. Qed.
  Lemma sum_split lo mid hi f : lo <= mid -> mid <= hi -> sum lo hi f = op (sum lo mid f) (sum mid hi f).
  Proof. intros H1 H2. unfold Sum.sum. now rewrite (zrange_app lo mid hi), map_app, fold_app. Qed.
  Lemma sum_ext lo hi f g : (forall i, lo <= i < hi -> f i = g i) -> sum lo hi f = sum lo hi g.
  Proof.
    intro H. unfold Sum.sum. f_equal. apply map_ext_in. intros i Hi. apply H. now apply in_zrange.
  Qed.
  Lemma sum_unit lo hi : sum lo hi (fun _ => e) = e.
  Proof. unfold Sum.sum. induction (zrange lo hi) as [|x l IH]; cbn; auto. now rewrite unit. Qed.
  Lemma sum_op lo hi f g : sum lo hi (fun i => op (f i) (g i)) = op (sum lo hi f) (sum lo hi g).
  Proof.
    unfold Sum.sum. induction (zrange lo hi) as [|x l IH]; cbn; [now rewrite unit|]. rewrite IH.
    rewrite !assoc. f_equal. rewrite <- !assoc. f_equal. apply comm.
  Qed.
  Lemma sum_swap lo hi lo' hi' f :
    sum lo hi (fun i => sum lo' hi' (fun j => f i j)) = sum lo' hi' (fun j => sum lo hi (fun i => f i j)).
  Proof.
    destruct (Z.le_gt_cases hi lo) as [L|L].
    - rewrite sum_empty by assumption. rewrite (sum_ext lo' hi' _ (fun _ => e)); [now rewrite sum_unit|].
      intros. now apply sum_empty.
    - assert (G : forall n, sum lo (lo + Z.of_nat n) (fun i => sum lo' hi' (fun j => f i j)) =
          sum lo' hi' (fun j => sum lo (lo + Z.of_nat n) (fun i => f i j))).
      { induction n as [|n IH].
        - rewrite sum_empty by lia. rewrite (sum_ext lo' hi' _ (fun _ => e)); [now rewrite sum_unit|].
          intros. apply sum_empty. lia.
        - replace (lo + Z.of_nat (S n)) with (lo + Z.of_nat n + 1) by lia. rewrite sum_snoc by lia.
          rewrite IH, <- sum_op. apply sum_ext. intros j _. now rewrite sum_snoc by lia. }
      replace hi with (lo + Z.of_nat (Z.to_nat (hi - lo))) by lia. apply G.
  Qed.
  Lemma sum_one lo hi k f : lo <= k < hi -> (forall i, lo <= i < hi -> i <> k -> f i = e) -> sum lo hi f = f k.
  Proof.
    intros H1 H2. rewrite (sum_split lo k hi) by lia. rewrite (sum_cons k hi) by lia.
    rewrite (sum_ext lo k _ (fun _ => e)), (sum_ext (k + 1) hi _ (fun _ => e)), !sum_unit, unit, unit_r;
      [reflexivity| |]; intros; apply H2; lia.
  Qed.
  Lemma sum_none lo hi f : (forall i, lo <= i < hi -> f i = e) -> sum lo hi f = e.
  Proof. intro H. rewrite (sum_ext _ _ _ (fun _ => e)) by exact H. apply sum_unit. Qed.
  Lemma sum_shift lo hi d f : sum (lo + d) (hi + d) f = sum lo hi (fun i => f (i + d)).
  Proof. unfold Sum.sum. now rewrite zrange_shift, map_map. Qed.
  Lemma sum_perm (s : Z -> Z) lo hi f :
    (forall i, lo <= i < hi -> lo <= s i < hi) ->
    (forall i j, lo <= i < hi -> lo <= j < hi -> s i = s j -> i = j) ->
    sum lo hi (fun i => f (s i)) = sum lo hi f.
  Proof.
    intros H1 H2. unfold Sum.sum. rewrite <- (map_map s f). apply fold_perm.
    apply Permutation_map. now apply zrange_perm.
  Qed.
  Lemma for_sum lo hi f a : for_ lo hi (fun i acc => Some (op acc (f i))) a = Some (op a (sum lo hi f)).
  Proof. rewrite for_acc, fold_left_right. reflexivity. Qed.
End Sum.

Lemma Zcm : cmonoid Z.add 0.
Proof. constructor; intros; lia. Qed.
