(** Rational bounds of cos and PI *)
From Coq Require Import Reals Lia Lra QArith Qreals.
Open Scope R_scope.

Definition kk (i : nat) : Z := (Z.of_nat (2 * i + 1) * Z.of_nat (2 * i + 2))%Z.
(** 1 - y / (2i+1)(2i+2) (1 - y / (2i+3)(2i+4) (...)), with [n] factors *)
Fixpoint hcos (y : Q) (n i : nat) : Q := match n with O => 1%Q | S n => (1 - y / inject_Z (kk i) * hcos y n (S i))%Q end.
Fixpoint hcosR (y : R) (n i : nat) : R := match n with O => 1 | S n => 1 - y / IZR (kk i) * hcosR y n (S i) end.
Lemma kk_pos i : (0 < kk i)%Z.
Proof. unfold kk. nia. Qed.
Lemma Q2R_Z z : Q2R (inject_Z z) = IZR z.
Proof. unfold Q2R. cbn. field. Qed.
Lemma hcos_R y n i : Q2R (hcos y n i) = hcosR (Q2R y) n i.
Proof.
  revert i. induction n as [|n IH]; intro i; [exact RMicromega.Q2R_1|]. cbn [hcos hcosR]. rewrite Q2R_minus, RMicromega.Q2R_1, Q2R_mult, IH, Q2R_div, Q2R_Z; [reflexivity|].
  pose proof (kk_pos i). intro E. unfold Qeq, inject_Z in E. cbn in E. lia.
Qed.
Lemma fact_2 i : INR (fact (2 * S i)) = IZR (kk i) * INR (fact (2 * i)).
Proof. replace (2 * S i)%nat with (S (S (2 * i))) by lia. change (fact (S (S (2 * i)))) with ((S (S (2 * i))) * ((S (2 * i)) * fact (2 * i)))%nat. rewrite !mult_INR.
  unfold kk. rewrite mult_IZR, <- !INR_IZR_INZ. replace (2 * i + 1)%nat with (S (2 * i)) by lia. replace (2 * i + 2)%nat with (S (S (2 * i))) by lia. ring. Qed.
Lemma hcos_sum a n i : sum_f_R0 (fun j => (-1) ^ j * ((a * a) ^ j / (INR (fact (2 * (i + j))) / INR (fact (2 * i))))) n = hcosR (a * a) n i.
Proof.
  revert i. induction n as [|n IH]; intro i.
  - cbn [sum_f_R0 hcosR]. rewrite Nat.add_0_r. pose proof (INR_fact_neq_0 (2 * i)). cbn [pow]. field. exact H.
  - rewrite decomp_sum by lia. cbn [pred hcosR]. rewrite <- (IH (S i)), Nat.add_0_r. pose proof (INR_fact_neq_0 (2 * i)) as F. cbn [pow].
    replace (1 * (1 / (INR (fact (2 * i)) / INR (fact (2 * i))))) with 1 by (field; exact F). unfold Rminus. f_equal.
    rewrite Ropp_mult_distr_l, scal_sum. apply sum_eq. intros j _. replace (i + S j)%nat with (S i + j)%nat by lia. rewrite (fact_2 i).
    pose proof (INR_fact_neq_0 (2 * (S i + j))). assert (IZR (kk i) <> 0). { apply not_0_IZR. pose proof (kk_pos i). lia. } cbn [pow]. field. tauto.
Qed.
Lemma hcos_approx a n : cos_approx a n = hcosR (a * a) n 0.
Proof.
  rewrite <- hcos_sum. unfold cos_approx. apply sum_eq. intros j _. unfold cos_term. rewrite pow_mult. cbn [Nat.add Nat.mul]. change (INR (fact 0)) with 1. replace (a ^ 2) with (a * a) by ring.
  unfold Rdiv. now rewrite Rinv_1, Rmult_1_r.
Qed.
Definition cos_lo (t : Q) (n : nat) : Q := hcos (t * t) (2 * n + 1) 0.
Definition cos_hi (t : Q) (n : nat) : Q := hcos (t * t) (2 * (n + 1)) 0.
Lemma cos_enclosed t n : -2 <= Q2R t <= 2 -> Q2R (cos_lo t n) <= cos (Q2R t) <= Q2R (cos_hi t n).
Proof. intros [A B]. unfold cos_lo, cos_hi. rewrite !hcos_R, !Q2R_mult, <- !hcos_approx. apply pre_cos_bound; assumption. Qed.

(** PI / 2 *)
Lemma below_half_pi a : 0 <= a <= 2 -> 0 < cos a -> a < PI / 2.
Proof. intros H C. destruct (Rlt_or_le a (PI / 2)); [assumption|]. pose proof PI2_3_2. assert (cos a <= 0); [apply cos_le_0; lra|lra]. Qed.
Lemma above_half_pi a : 0 <= a <= 2 -> cos a < 0 -> PI / 2 < a.
Proof. intros H C. destruct (Rlt_or_le (PI / 2) a); [assumption|]. pose proof PI2_3_2. assert (0 <= cos a); [apply cos_ge_0; lra|lra]. Qed.
(** 2^41 PI is between 6908435304715 and 6908435304716 *)
Lemma pi41 : 6908435304715 / 2199023255552 <= PI <= (6908435304715 + 1) / 2199023255552.
Proof.
  assert (E : forall z, Q2R (z # 4398046511104) = IZR z / 4398046511104) by reflexivity.
  assert (L1 : (0 < cos_lo (6908435304715 # 4398046511104) 5)%Q) by (vm_compute; reflexivity). assert (L2 : (cos_hi (6908435304716 # 4398046511104) 5 < 0)%Q) by (vm_compute; reflexivity).
  apply Qlt_Rlt in L1. apply Qlt_Rlt in L2. rewrite RMicromega.Q2R_0 in *.
  pose proof (cos_enclosed (6908435304715 # 4398046511104) 5 ltac:(rewrite E; lra)) as C1. pose proof (cos_enclosed (6908435304716 # 4398046511104) 5 ltac:(rewrite E; lra)) as C2.
  pose proof (below_half_pi (Q2R (6908435304715 # 4398046511104)) ltac:(rewrite E; lra) (Rlt_le_trans _ _ _ L1 (proj1 C1))) as A1. pose proof (above_half_pi (Q2R (6908435304716 # 4398046511104)) ltac:(rewrite E; lra) (Rle_lt_trans _ _ _ (proj2 C2) L2)) as A2. rewrite E in A1, A2. lra.
Qed.
