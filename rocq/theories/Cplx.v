(** Complex numbers over Coq's reals: exact arithmetic in place of complex<double>. *)
From Verif Require Import Base Sum CRing.
From Coq Require Export Reals.
From Coq Require Import Lra Field_theory Field.
Open Scope Z_scope.

Definition C : Type := (R * R)%type.
Definition re (z : C) : R := fst z.
Definition im (z : C) : R := snd z.
Definition C0 : C := (0, 0)%R.
Definition C1 : C := (1, 0)%R.
Definition RtoC (x : R) : C := (x, 0%R).
Definition Cadd (a b : C) : C := (re a + re b, im a + im b)%R.
Definition Csub (a b : C) : C := (re a - re b, im a - im b)%R.
Definition Copp (a : C) : C := (- re a, - im a)%R.
Definition Cmul (a b : C) : C := (re a * re b - im a * im b, re a * im b + im a * re b)%R.
Definition Cconj (a : C) : C := (re a, - im a)%R.
Definition Cnorm2 (a : C) : R := (re a * re a + im a * im a)%R.
Definition Cinv (a : C) : C := (re a / Cnorm2 a, - im a / Cnorm2 a)%R.
Definition Cdiv (a b : C) : C := Cmul a (Cinv b).
(** e^{i t} *)
Definition cis (t : R) : C := (cos t, sin t).

Lemma C_eq (a b : C) : re a = re b -> im a = im b -> a = b.
Proof. destruct a, b; cbn; intros; subst; reflexivity. Qed.

Ltac csolve := intros; apply C_eq; unfold Cadd, Csub, Copp, Cmul, Cconj, RtoC, C0, C1; cbn [re im fst snd]; try ring.

Lemma C_ring : ring_theory C0 C1 Cadd Cmul Csub Copp eq.
Proof. constructor; csolve. Qed.

Definition Cring : cring := mk_cring C C0 C1 Cadd Cmul Csub Copp C_ring.
Definition Rring : cring := mk_cring R 0%R 1%R Rplus Rmult Rminus Ropp RTheory.

Lemma Cnorm2_pos a : a <> C0 -> (0 < Cnorm2 a)%R.
Proof.
  intro H. unfold Cnorm2. destruct (Req_dec (re a) 0) as [E|E].
  - destruct (Req_dec (im a) 0) as [F|F]; [exfalso; apply H; apply C_eq; auto|]. nra.
  - nra.
Qed.

Lemma Cinv_l a : a <> C0 -> Cmul (Cinv a) a = C1.
Proof.
  intro H. pose proof (Cnorm2_pos a H). apply C_eq; unfold Cmul, Cinv, C1; cbn [re im fst snd];
    unfold Cnorm2 in *; fold (re a) (im a) in *; field; unfold re, im in *; lra.
Qed.

Lemma C1_neq_C0 : C1 <> C0.
Proof. intro H. injection H. apply R1_neq_R0. Qed.

Lemma C_field : field_theory C0 C1 Cadd Cmul Csub Copp Cdiv Cinv eq.
Proof.
  constructor; [exact C_ring|exact C1_neq_C0|reflexivity|exact Cinv_l].
Qed.
Add Field Cfield : C_field.

Lemma cis_0 : cis 0 = C1.
Proof. unfold cis. now rewrite cos_0, sin_0. Qed.
Lemma cis_add a b : cis (a + b) = Cmul (cis a) (cis b).
Proof. apply C_eq; unfold cis, Cmul; cbn [re im fst snd]; [rewrite cos_plus|rewrite sin_plus]; ring. Qed.
Lemma cis_neg a : cis (- a) = Cconj (cis a).
Proof. unfold cis, Cconj. cbn [re im fst snd]. now rewrite cos_neg, sin_neg. Qed.
Lemma cis_inv a : Cmul (cis a) (cis (- a)) = C1.
Proof. rewrite <- cis_add. replace (a + - a)%R with 0%R by ring. apply cis_0. Qed.
Lemma Cnorm2_cis a : Cnorm2 (cis a) = 1%R.
Proof. unfold Cnorm2, cis. cbn [re im fst snd]. pose proof (sin2_cos2 a). unfold Rsqr in *. lra. Qed.
Lemma cis_nz a : cis a <> C0.
Proof. intro H. pose proof (Cnorm2_cis a) as K. rewrite H in K. unfold Cnorm2, C0 in K. cbn in K. lra. Qed.
Lemma Cnorm2_mul a b : Cnorm2 (Cmul a b) = (Cnorm2 a * Cnorm2 b)%R.
Proof. unfold Cnorm2, Cmul. cbn [re im fst snd]. ring. Qed.

Lemma cis_nat a n : cis (INR n * a) = rpow (A := Cring) (cis a) n.
Proof.
  induction n as [|n IH]; [cbn [rpow]; rewrite Rmult_0_l; apply cis_0|].
  rewrite S_INR. replace ((INR n + 1) * a)%R with (a + INR n * a)%R by ring. rewrite cis_add, IH. reflexivity.
Qed.

Lemma cis_2PI_Z k : cis (2 * PI * IZR k) = C1.
Proof.
  assert (N : forall n, cis (2 * PI * INR n) = C1).
  { induction n as [|n IH]; [rewrite Rmult_0_r; apply cis_0|].
    rewrite S_INR. replace (2 * PI * (INR n + 1))%R with (2 * PI * INR n + 2 * PI)%R by ring.
    rewrite cis_add, IH. unfold cis. rewrite cos_2PI, sin_2PI. csolve. }
  destruct (Z.le_gt_cases 0 k).
  - replace k with (Z.of_nat (Z.to_nat k)) by lia. rewrite <- INR_IZR_INZ. apply N.
  - replace k with (- Z.of_nat (Z.to_nat (- k))) by lia. rewrite opp_IZR, <- INR_IZR_INZ.
    replace (2 * PI * - INR (Z.to_nat (- k)))%R with (- (2 * PI * INR (Z.to_nat (- k))))%R by ring.
    rewrite cis_neg, N. unfold Cconj, C1. cbn [re im fst snd]. f_equal. ring.
Qed.
