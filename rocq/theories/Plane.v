(** Recurrences for Legendre polynomials and for cos (j a): how rounding errors add up *)
From Coq Require Import Reals Lra Lia.
Open Scope R_scope.

Lemma vadd v1 v2 w1 w2 A B : 0 <= A -> 0 <= B -> v1 * v1 + v2 * v2 <= A * A -> w1 * w1 + w2 * w2 <= B * B -> (v1 + w1) * (v1 + w1) + (v2 + w2) * (v2 + w2) <= (A + B) * (A + B).
Proof.
  intros HA HB V W. assert (D : v1 * w1 + v2 * w2 <= A * B); [|lra].
  destruct (Rle_or_lt (v1 * w1 + v2 * w2) (A * B)) as [|L]; [assumption|exfalso].
  assert (P : 0 <= A * B) by (apply Rmult_le_pos; assumption). set (d := v1 * w1 + v2 * w2) in *.
  assert (L2 : (A * B) * (A * B) < d * d) by nra.
  assert (C : d * d <= (v1 * v1 + v2 * v2) * (w1 * w1 + w2 * w2)). { assert (0 <= (v1 * w2 - v2 * w1) * (v1 * w2 - v2 * w1)) by apply Rle_0_sqr. unfold d. lra. }
  assert (C2 : (v1 * v1 + v2 * v2) * (w1 * w1 + w2 * w2) <= (A * A) * (B * B)) by (apply Rmult_le_compat; nra). lra.
Qed.
(** The same for a rotated vector *)
Lemma rotated x c q a d A B : x * x + c * c = 1 -> 0 <= A -> 0 <= B -> q * q + a * a <= A * A -> d * d <= B * B ->
  (x * q + c * a + c * d) * (x * q + c * a + c * d) + (x * a - c * q + x * d) * (x * a - c * q + x * d) <= (A + B) * (A + B).
Proof.
  intros E HA HB V W. apply vadd; [assumption|assumption| |].
  - replace ((x * q + c * a) * (x * q + c * a) + (x * a - c * q) * (x * a - c * q)) with ((x * x + c * c) * (q * q + a * a)) by ring. rewrite E. lra.
  - replace (c * d * (c * d) + x * d * (x * d)) with ((x * x + c * c) * (d * d)) by ring. rewrite E. lra.
Qed.
Lemma sq_le d B : 0 <= B -> Rabs d <= B -> d * d <= B * B.
Proof. intros HB H. replace (d * d) with (Rabs d * Rabs d) by (rewrite <- Rabs_mult; apply Rabs_right; apply Rle_ge, Rle_0_sqr). apply Rmult_le_compat; (assumption || apply Rabs_pos). Qed.
Lemma sq_abs d B : 0 <= B -> d * d <= B * B -> Rabs d <= B.
Proof. intros HB H. apply Rabs_le. split; nra. Qed.

Section Legendre.
Context (x c eps : R) (e : nat -> R) (E : x * x + c * c = 1) (Hc : 0 <= c) (He : 0 <= eps) (E0 : e 0%nat = 0) (E1 : e 1%nat = 0)
  (Rec : forall k, exists d, Rabs d <= eps /\ (INR k + 2) * e (S (S k)) = (2 * INR k + 3) * x * e (S k) - (INR k + 1) * e k + (INR k + 2) * d).
Lemma legendre_energy j : let K := INR j + 1 in (K * c * e (S j)) * (K * c * e (S j)) + (K * (x * e (S j) - e j)) * (K * (x * e (S j) - e j)) <= (K * (INR j * eps)) * (K * (INR j * eps)).
Proof.
  induction j as [|j IH]; cbv zeta in *.
  - rewrite E0, E1. cbn [INR]. lra.
  - destruct (Rec j) as (d & Hd & R). rewrite S_INR. pose proof (pos_INR j) as P. set (K := INR j + 1) in *. replace (INR j + 2) with (K + 1) in R by (unfold K; ring). replace (2 * INR j + 3) with (2 * K + 1) in R by (unfold K; ring). fold K in R.
    set (u := e j) in *. set (v := e (S j)) in *. set (w := e (S (S j))) in *. set (B := INR j * eps) in *. assert (HK : 1 <= K) by (unfold K; lra).
    assert (HB : 0 <= B) by (unfold B; apply Rmult_le_pos; assumption). replace (K * eps) with (B + eps) by (unfold K, B; ring). set (a := K * (x * v - u)) in *. set (q := (K + 1) * c * v).
    assert (W : (K + 1) * w = (K + 1) * x * v + a + (K + 1) * d) by (unfold a; lra).
    assert (A1 : (K + 1) * c * w = x * q + c * a + c * ((K + 1) * d)). { replace ((K + 1) * c * w) with (c * ((K + 1) * w)) by ring. rewrite W. unfold q. ring. }
    assert (A2 : (K + 1) * (x * w - v) = x * a - c * q + x * ((K + 1) * d)). { replace ((K + 1) * (x * w - v)) with (x * ((K + 1) * w) - (K + 1) * v) by ring. rewrite W. unfold q. replace (c * ((K + 1) * c * v)) with ((c * c) * ((K + 1) * v)) by ring. replace (c * c) with (1 - x * x) by lra. ring. }
    rewrite A1, A2. replace ((K + 1) * (B + eps)) with ((K + 1) * B + (K + 1) * eps) by ring. apply rotated; [exact E|apply Rmult_le_pos; lra|apply Rmult_le_pos; lra| |].
    + unfold q. assert (Q : (K + 1) * c * v * ((K + 1) * c * v) * (K * K) + a * a * (K * K) <= (K + 1) * B * ((K + 1) * B) * (K * K)).
      { assert (T : K * c * v * (K * c * v) + a * a <= K * B * (K * B)) by exact IH. assert (T2 : (K + 1) * (K + 1) * (K * c * v * (K * c * v) + a * a) <= (K + 1) * (K + 1) * (K * B * (K * B))) by (apply Rmult_le_compat_l; [nra|exact T]).
        assert (T3 : a * a * (K * K) <= a * a * ((K + 1) * (K + 1))) by (apply Rmult_le_compat_l; [apply Rle_0_sqr|nra]). lra. }
      apply Rmult_le_reg_r with (K * K); [nra|]. lra.
    + apply sq_le; [apply Rmult_le_pos; lra|]. rewrite Rabs_mult, Rabs_right by lra. apply Rmult_le_compat_l; lra.
Qed.
Lemma legendre_error j : c * Rabs (e (S j)) <= INR j * eps.
Proof.
  pose proof (legendre_energy j) as L. cbv zeta in L. pose proof (pos_INR j) as P. set (K := INR j + 1) in *. assert (HK : 1 <= K) by (unfold K; lra). set (B := INR j * eps) in *. assert (HB : 0 <= B) by (unfold B; apply Rmult_le_pos; assumption).
  assert (L2 : K * (c * e (S j)) * (K * (c * e (S j))) <= K * B * (K * B)). { assert (0 <= K * (x * e (S j) - e j) * (K * (x * e (S j) - e j))) by apply Rle_0_sqr. lra. }
  apply sq_abs in L2; [|apply Rmult_le_pos; lra]. rewrite !Rabs_mult, (Rabs_right K), (Rabs_right c) in L2 by lra. apply Rmult_le_reg_l with K; lra.
Qed.
End Legendre.

Section Cosines.
Context (x c eps : R) (e : nat -> R) (E : x * x + c * c = 1) (Hc : 0 <= c) (He : 0 <= eps) (E0 : e 0%nat = 0) (E1 : Rabs (e 1%nat) <= eps)
  (Rec : forall k, exists d, Rabs d <= eps /\ e (S (S k)) = 2 * x * e (S k) - e k + d).
Lemma cosine_energy j : let K := INR j + 1 in (c * e (S j)) * (c * e (S j)) + (x * e (S j) - e j) * (x * e (S j) - e j) <= (K * eps) * (K * eps).
Proof.
  induction j as [|j IH]; cbv zeta in *.
  - rewrite E0. cbn [INR]. apply sq_le in E1; [|exact He]. replace (c * e 1%nat * (c * e 1%nat) + (x * e 1%nat - 0) * (x * e 1%nat - 0)) with ((x * x + c * c) * (e 1%nat * e 1%nat)) by ring. rewrite E. lra.
  - destruct (Rec j) as (d & Hd & R). rewrite S_INR. pose proof (pos_INR j) as P. set (K := INR j + 1) in *.
    set (u := e j) in *. set (v := e (S j)) in *. set (w := e (S (S j))) in *. set (a := x * v - u) in *. set (q := c * v) in *.
    assert (A1 : c * w = x * q + c * a + c * d) by (rewrite R; unfold q, a; ring).
    assert (A2 : x * w - v = x * a - c * q + x * d). { rewrite R. unfold q, a. replace (c * (c * v)) with ((c * c) * v) by ring. replace (c * c) with (1 - x * x) by lra. ring. }
    rewrite A1, A2. replace ((K + 1) * eps) with (K * eps + eps) by ring. apply rotated; [exact E|apply Rmult_le_pos; unfold K; lra|exact He|exact IH|]. apply sq_le; assumption.
Qed.
Lemma cosine_error j : c * Rabs (e (S j)) <= (INR j + 1) * eps.
Proof.
  pose proof (cosine_energy j) as L. cbv zeta in L. pose proof (pos_INR j) as P. set (K := INR j + 1) in *.
  assert (L2 : (c * e (S j)) * (c * e (S j)) <= K * eps * (K * eps)). { assert (0 <= (x * e (S j) - e j) * (x * e (S j) - e j)) by apply Rle_0_sqr. lra. }
  apply sq_abs in L2; [|apply Rmult_le_pos; unfold K; lra]. rewrite !Rabs_mult, (Rabs_right c) in L2 by lra. exact L2.
Qed.
End Cosines.
