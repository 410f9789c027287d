(** Bounds of cos in integer arithmetic, and of PI *)
From Coq Require Import Reals Lia Lra ZArith.
From Verif Require Import CosQ.
Open Scope Z_scope.
(** 2^40 *)
Definition S40 := 1099511627776.
Notation s40 := 1099511627776%R.
Lemma div_lo a b : 0 < b -> (IZR (a / b) * IZR b <= IZR a)%R.
Proof. intro H. rewrite <- mult_IZR. apply IZR_le. pose proof (Z.mul_div_le a b H). lia. Qed.
Lemma div_hi a b : 0 < b -> (IZR a <= (IZR (a / b) + 1) * IZR b)%R.
Proof. intro H. rewrite <- plus_IZR, <- mult_IZR. apply IZR_le. pose proof (Z.mul_succ_div_gt a b H). lia. Qed.
Lemma shift_lo a n : 0 <= n -> (IZR (Z.shiftr a n) * IZR (2 ^ n) <= IZR a)%R.
Proof. intro H. rewrite Z.shiftr_div_pow2 by lia. apply div_lo. lia. Qed.
Lemma shift_hi a n : 0 <= n -> (IZR a <= (IZR (Z.shiftr a n) + 1) * IZR (2 ^ n))%R.
Proof. intro H. rewrite Z.shiftr_div_pow2 by lia. apply div_hi. lia. Qed.

(** The series of hcos for y = m2 / 2^62, times 2^40 *)
Fixpoint hz (m2 : Z) (n i : nat) : Z * Z :=
  match n with O => (S40, S40) | S n => let (l, h) := hz m2 n (S i) in (S40 - (Z.shiftr (m2 * h) 62 / kk i + 1), S40 - Z.shiftr (m2 * l) 62 / kk i) end.
Definition cos_start (m : Z) : Z * Z := let m2 := m * m in (fst (hz m2 9 0), snd (hz m2 10 0)).
Lemma kk_R i : (1 < IZR (kk i))%R.
Proof. apply IZR_lt. unfold kk. nia. Qed.
Lemma hz_ok m n : forall i, (IZR (fst (hz (m * m) n i)) <= hcosR (IZR m / 2147483648 * (IZR m / 2147483648)) n i * s40 <= IZR (snd (hz (m * m) n i)))%R.
Proof.
  induction n as [|n IH]; intro i; [cbn [hz hcosR fst snd]; change (IZR S40) with s40; lra|]. cbn [hz hcosR]. specialize (IH (S i)). destruct (hz (m * m) n (S i)) as [l h]. cbn [fst snd] in *.
  set (y := (IZR m / 2147483648 * (IZR m / 2147483648))%R) in *. set (v := hcosR y n (S i)) in *. pose proof (kk_R i) as K. assert (Ki : 0 < kk i) by apply kk_pos.
  assert (Ey : (IZR (m * m) = y * 4611686018427387904)%R) by (rewrite mult_IZR; unfold y; field). assert (Py : (0 <= y)%R) by (unfold y; apply Rle_0_sqr).
  change (IZR S40) with s40. change S40 with 1099511627776. rewrite !minus_IZR, plus_IZR.
  pose proof (shift_hi (m * m * h) 62 ltac:(lia)) as A1. pose proof (div_hi (Z.shiftr (m * m * h) 62) (kk i) Ki) as A2. pose proof (shift_lo (m * m * l) 62 ltac:(lia)) as B1. pose proof (div_lo (Z.shiftr (m * m * l) 62) (kk i) Ki) as B2.
  change (2 ^ 62) with 4611686018427387904 in *. rewrite (mult_IZR (m * m)), Ey in A1, B1. set (a := Z.shiftr (m * m * h) 62) in *. set (b := Z.shiftr (m * m * l) 62) in *.
  (* a better bound: a / k + 1 >= (a + 1) / k because a is an integer *)
  assert (A3 : (IZR a + 1 <= (IZR (a / kk i) + 1) * IZR (kk i))%R). { rewrite <- !plus_IZR, <- mult_IZR. apply IZR_le. pose proof (Z.mul_succ_div_gt a (kk i) Ki). lia. }
  assert (V1 : (y * v * s40 <= IZR a + 1)%R) by nra. assert (V2 : (IZR b <= y * v * s40)%R) by nra.
  assert (V : (y / IZR (kk i) * v * s40 * IZR (kk i) = y * v * s40)%R) by (field; lra).
  split; apply Rmult_le_reg_r with (IZR (kk i)); try lra; nra.
Qed.
Lemma cos_start_ok m : 0 <= m <= 2 ^ 32 -> (IZR (fst (cos_start m)) <= cos (IZR m / 2147483648) * s40 <= IZR (snd (cos_start m)))%R.
Proof.
  intros [H1 H2]. unfold cos_start. cbn [fst snd]. apply IZR_le in H1, H2. change (2 ^ 32) with 4294967296 in H2. set (t := (IZR m / 2147483648)%R).
  destruct (pre_cos_bound t 4) as [A B]; [unfold t; lra|unfold t; lra|]. rewrite !hcos_approx in *. pose proof (hz_ok m 9 0) as C1. pose proof (hz_ok m 10 0) as C2. fold t in C1, C2. change (2 * 4 + 1)%nat with 9%nat in A. change (2 * (4 + 1))%nat with 10%nat in B. lra.
Qed.
