From Coq Require Import Lra Permutation.
From Verif Require Import Base BaseFacts Sum CRing Clamp Cplx Legendre FftSpec Gpu GpuFacts EsKernels EsKernelsSpec.
Open Scope Z_scope.

Lemma rcm : cmonoid Rplus 0%R.
Proof. split; intros; ring. Qed.
Lemma rsumf_ext lo hi f g : (forall i, lo <= i < hi -> f i = g i) -> rsumf lo hi f = rsumf lo hi g.
Proof. apply sum_ext. Qed.
Lemma rsumf_none lo hi f : (forall i, lo <= i < hi -> f i = 0%R) -> rsumf lo hi f = 0%R.
Proof. apply (sum_none _ _ rcm). Qed.
Lemma rsumf_one lo hi k f : lo <= k < hi -> (forall i, lo <= i < hi -> i <> k -> f i = 0%R) -> rsumf lo hi f = f k.
Proof. apply (sum_one _ _ rcm). Qed.
Lemma rsumf_mul_l c lo hi f : (c * rsumf lo hi f = rsumf lo hi (fun i => c * f i))%R.
Proof. exact (rsum_mul_l (A := Rring) c lo hi f). Qed.
Lemma rsumf_mul_r c lo hi f : (rsumf lo hi f * c = rsumf lo hi (fun i => f i * c))%R.
Proof. exact (rsum_mul_r (A := Rring) c lo hi f). Qed.
Lemma rsumf_add lo hi f g : (rsumf lo hi (fun i => f i + g i) = rsumf lo hi f + rsumf lo hi g)%R.
Proof. exact (rsum_add (A := Rring) lo hi f g). Qed.
Lemma rsumf_swap lo hi lo' hi' f : rsumf lo hi (fun i => rsumf lo' hi' (fun j => f i j)) = rsumf lo' hi' (fun j => rsumf lo hi (fun i => f i j)).
Proof. exact (rsum_swap (A := Rring) lo hi lo' hi' f). Qed.
(** Terms outside the range are zero *)
Lemma rsumf_extend lo hi LO HI f : (forall i, lo <= i < hi -> LO <= i < HI) -> (forall i, LO <= i < HI -> ~ (lo <= i < hi) -> f i = 0%R) -> rsumf lo hi f = rsumf LO HI f.
Proof.
  intros Hs Hz. destruct (Z.le_gt_cases hi lo) as [L|L].
  - rewrite (rsumf_none LO HI) by (intros; apply Hz; lia). apply rsumf_none. lia.
  - pose proof (Hs lo ltac:(lia)). pose proof (Hs (hi - 1) ltac:(lia)). unfold rsumf. rewrite (sum_split _ _ rcm LO lo HI), (sum_split _ _ rcm lo hi HI) by lia.
    change (sum Rplus 0%R LO lo f) with (rsumf LO lo f). change (sum Rplus 0%R hi HI f) with (rsumf hi HI f).
    rewrite (rsumf_none LO lo), (rsumf_none hi HI) by (intros; apply Hz; lia). ring.
Qed.

Lemma floorZ_spec x : (IZR (floorZ x) <= x < IZR (floorZ x) + 1)%R.
Proof. unfold floorZ. destruct (base_Int_part x). lra. Qed.
Lemma floorZ_iff x k : k <= floorZ x <-> (IZR k <= x)%R.
Proof.
  pose proof (floorZ_spec x) as [A B]. split; intro H.
  - apply IZR_le in H. lra.
  - assert (IZR k < IZR (floorZ x + 1))%R by (rewrite plus_IZR; lra). apply lt_IZR in H0. lia.
Qed.
Lemma ceilZ_iff x k : ceilZ x <= k <-> (x <= IZR k)%R.
Proof.
  unfold ceilZ. change (Int_part (- x)) with (floorZ (- x)). pose proof (floorZ_iff (- x) (- k)) as H. rewrite opp_IZR in H. split; intro E.
  - assert (X : - k <= floorZ (- x)) by lia. apply H in X. lra.
  - assert (X : (- IZR k <= - x)%R) by lra. apply H in X. lia.
Qed.

Lemma to_int_in z : -2147483648 <= z <= 2147483647 -> to_int z = Some z.
Proof. intro H. unfold to_int. replace ((-2147483648 <=? z) && (z <=? 2147483647)) with true by lia. reflexivity. Qed.

Lemma near_range x s : near x -> 1 <= s <= 16 -> -2147483648 <= ceilZ (x - IZR s / 2) /\ floorZ (x + IZR s / 2) <= 2147483647 /\
  -2147483648 <= floorZ (x + IZR s / 2) /\ ceilZ (x - IZR s / 2) <= 2147483647.
Proof.
  intros N [H1 H2]. apply IZR_le in H1, H2. unfold near in N. assert (B : (-2147483600 <= x <= 2147483600)%R) by (revert N; unfold Rabs; destruct (Rcase_abs x); lra).
  assert (F : forall y k, (y < IZR k)%R -> floorZ y < k) by (intros y k Hy; destruct (Z.lt_ge_cases (floorZ y) k); [auto|]; apply floorZ_iff in H; lra).
  assert (G : forall y k, (IZR k < y)%R -> k < ceilZ y) by (intros y k Hy; destruct (Z.lt_ge_cases k (ceilZ y)); [auto|]; apply ceilZ_iff in H; lra).
  repeat split.
  - apply Z.lt_le_incl, G. lra.
  - apply Z.lt_le_incl, F. lra.
  - apply floorZ_iff. lra.
  - apply ceilZ_iff. lra.
Qed.

Lemma es_code beta s d : 1 <= s -> exp_semicircle beta (d * (1 / (IZR s / 2))) = es beta s d.
Proof.
  intro H. apply IZR_le in H. unfold exp_semicircle, es, Rltb. set (h := (IZR s / 2)%R). assert (Hh : (0 < h)%R) by (unfold h; lra).
  replace (d * (1 / h))%R with (d / h)%R by (field; lra). destruct (Rle_dec (Rabs d) h) as [L|L].
  - destruct (Rlt_dec 1 (d / h * (d / h))) as [K|K]; [exfalso|reflexivity].
    assert (E : (d / h * (d / h) = (Rabs d / h) * (Rabs d / h))%R) by (unfold Rabs; destruct (Rcase_abs d); field; lra).
    rewrite E in K. assert (A : (0 <= Rabs d / h <= 1)%R).
    { split; [apply Rmult_le_pos; [apply Rabs_pos|left; now apply Rinv_0_lt_compat]|]. apply Rmult_le_reg_r with h; [exact Hh|]. field_simplify; lra. }
    nra.
  - destruct (Rlt_dec 1 (d / h * (d / h))) as [K|K]; [reflexivity|exfalso]. apply K.
    assert (E : (d / h * (d / h) = (Rabs d / h) * (Rabs d / h))%R) by (unfold Rabs; destruct (Rcase_abs d); field; lra).
    rewrite E. assert (A : (1 < Rabs d / h)%R) by (apply Rmult_lt_reg_r with h; [exact Hh|]; field_simplify; lra). nra.
Qed.
Lemma es_zero beta s d : (IZR s / 2 < Rabs d)%R -> es beta s d = 0%R.
Proof. intro H. unfold es. destruct (Rle_dec (Rabs d) (IZR s / 2)); [lra|reflexivity]. Qed.
(** Cells outside the computed range get nothing. *)
Lemma es_outside beta s k x : 0 <= s -> k < ceilZ (x - IZR s / 2) \/ floorZ (x + IZR s / 2) < k -> es beta s (IZR k - x) = 0%R.
Proof.
  intro Hs. apply IZR_le in Hs. intros [H|H]; apply es_zero.
  - assert (N : ~ (x - IZR s / 2 <= IZR k)%R) by (intro L; apply ceilZ_iff in L; lia). rewrite Rabs_left1 by lra. lra.
  - assert (N : ~ (IZR k <= x + IZR s / 2)%R) by (intro L; apply floorZ_iff in L; lia). rewrite Rabs_right by lra. lra.
Qed.
Lemma width x s : floorZ (x + IZR s / 2) - ceilZ (x - IZR s / 2) <= s.
Proof.
  set (f := floorZ _). set (c := ceilZ _). assert (A : (IZR f <= x + IZR s / 2)%R) by (apply floorZ_iff; unfold f; lia).
  assert (B : (x - IZR s / 2 <= IZR c)%R) by (apply ceilZ_iff; unfold c; lia). apply le_IZR. rewrite minus_IZR. lra.
Qed.
Lemma width_off x s : off_grid x -> s = 16 -> floorZ (x + IZR s / 2) - ceilZ (x - IZR s / 2) < s.
Proof.
  intros O ->. set (f := floorZ _). set (c := ceilZ _). assert (A : (IZR f <= x + 16 / 2)%R) by (apply floorZ_iff; unfold f; lia).
  assert (B : (x - 16 / 2 <= IZR c)%R) by (apply ceilZ_iff; unfold c; lia).
  assert (A' : (IZR f <> x + 8)%R) by (intro E; apply (O (f - 8)); rewrite minus_IZR; lra). apply lt_IZR. rewrite minus_IZR. lra.
Qed.
