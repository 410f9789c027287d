(** C78: Legendre polynomials and Gauss-Legendre nodes of the gridder, over the real numbers *)
From Coq Require Import Reals Lia Lra.
From Verif Require Import Base Legendre LegendreSpec LegendreFacts.
Open Scope R_scope.

(** The function computes the Legendre polynomial of degree n, and stores its derivative whenever -1 < x < 1. *)
Theorem C78_polynomial n : (0 <= n)%Z -> exists P dP, is_legendre n P dP /\
  forall x, exists d, get_legendre x n = Some (P x, d) /\ (-1 < x < 1 -> d = Some (dP x)).
Proof.
  intro H. rewrite <- (Z2Nat.id n H). set (k := Z.to_nat n). exists (leg k), (dleg k). split; [apply leg_is_legendre|].
  intro x. eexists. split; [apply get_ok|]. intro L. destruct k as [|[|k]]; [reflexivity|reflexivity|].
  unfold Rltb. destruct (Rlt_dec (-1) x); [|lra]. destruct (Rlt_dec x 1); [|lra]. reflexivity.
Qed.
Print Assumptions C78_polynomial.

(** The recursion of the Legendre polynomials *)
Theorem C78_recursion n x a b c : (0 <= n)%Z -> get_legendre x n = Some a -> get_legendre x (n + 1) = Some b -> get_legendre x (n + 2) = Some c ->
  (IZR n + 2) * fst c = (2 * IZR n + 3) * x * fst b - (IZR n + 1) * fst a.
Proof.
  intros H. rewrite <- (Z2Nat.id n H). set (k := Z.to_nat n). replace (Z.of_nat k + 1)%Z with (Z.of_nat (S k)) by lia. replace (Z.of_nat k + 2)%Z with (Z.of_nat (S (S k))) by lia.
  rewrite !get_ok. intros E1 E2 E3. injection E1 as <-. injection E2 as <-. injection E3 as <-. cbn [fst]. rewrite <- INR_IZR_INZ. apply bonnet.
Qed.
Print Assumptions C78_recursion.

(** The weight is the Gauss-Legendre weight 2 / ((1 - x^2) P'(x)^2) of the returned node when the node is inside (-1, 1). *)
Theorem C78_weight i n accuracy x w : (1 <= n)%Z -> calculate_legendre_root i n accuracy = Some (x, w) -> -1 < x < 1 ->
  exists P dP, is_legendre n P dP /\ w = 2 / ((1 - x * x) * dP x * dP x).
Proof.
  intros H E L. destruct (C78_polynomial n ltac:(lia)) as (P & dP & I & G). exists P, dP. split; [exact I|]. unfold calculate_legendre_root in E.
  destruct (newton _ _ _ _ _) as [[[a b] d]|]; cbn [bind] in E; [|discriminate]. destruct (G b) as (d' & Eg & Ed). rewrite Eg in E. cbn [bind snd] in E. injection E as <- <-.
  now rewrite (Ed L).
Qed.
Print Assumptions C78_weight.

Lemma cos_3pi10 : exists s, 30901 / 100000 < s < 30902 / 100000 /\ cos (PI * 3 / 10) * cos (PI * 3 / 10) = (1 - s) / 2 /\ 0 < cos (PI * 3 / 10).
Proof.
  set (t := PI / 10). pose proof PI_RGT_0 as P. assert (C : 0 < cos t) by (apply cos_gt_0; unfold t; lra). assert (S : 0 < sin t) by (apply sin_gt_0; unfold t; lra).
  assert (E1 : cos (PI * 3 / 10) = 2 * sin t * cos t). { replace (PI * 3 / 10) with (PI / 2 - 2 * t) by (unfold t; field). rewrite cos_shift. apply sin_2a. }
  assert (E2 : cos (PI * 3 / 10) = (1 - 4 * (sin t * sin t)) * cos t).
  { replace (PI * 3 / 10) with (2 * t + t) by (unfold t; field). rewrite cos_plus, cos_2a_sin, sin_2a. ring. }
  pose proof (sin2_cos2 t) as T. unfold Rsqr in T. assert (Q : 1 - 4 * (sin t * sin t) = 2 * sin t) by (apply Rmult_eq_reg_r with (cos t); lra).
  exists (sin t). split; [split; nra|]. split; [|rewrite E1; assert (0 < sin t * cos t) by (apply Rmult_lt_0_compat; assumption); lra].
  rewrite E1. replace (2 * sin t * cos t * (2 * sin t * cos t)) with (4 * (sin t * sin t) * (cos t * cos t)) by ring. replace (cos t * cos t) with (1 - sin t * sin t) by lra.
  replace (4 * (sin t * sin t)) with (1 - 2 * sin t) by lra. replace (sin t * sin t) with ((1 - 2 * sin t) / 4) by lra.
  replace ((1 - 2 * sin t) * (1 - (1 - 2 * sin t) / 4)) with ((3 - 4 * sin t - 4 * (sin t * sin t)) / 4) by field. replace (4 * (sin t * sin t)) with (1 - 2 * sin t) by lra. field.
Qed.

(** "until the specified accuracy is reached": the loop compares fdim (positive difference) with the accuracy and stops after the first step
    towards smaller values.  For degree 2 the first node is off by far more than any requested accuracy: the polynomial is not zero there. *)
Theorem C78_accuracy_refuted accuracy : 0 <= accuracy -> exists x w v d, calculate_legendre_root 1 2 accuracy = Some (x, w) /\
  get_legendre x 2 = Some (v, d) /\ 2 / 1000000 < v.
Proof.
  intro Ha. destruct cos_3pi10 as (s & Hs & Cc & Cp). set (x0 := get_approx_legendre_root 1 2).
  assert (X0 : x0 = 63 / 64 * cos (PI * 3 / 10)). { unfold x0, get_approx_legendre_root. replace (PI * (4 * 1 - 1) / (4 * 2 + 2)) with (PI * 3 / 10) by field. field. }
  assert (Y : x0 * x0 = 3969 / 4096 * ((1 - s) / 2)) by (rewrite X0, <- Cc; field). assert (Yb : 33477 / 100000 < x0 * x0 < 33479 / 100000) by lra.
  assert (Xp : 0 < x0) by (rewrite X0; lra). assert (X1 : x0 < 1) by nra.
  assert (G : forall x, get_legendre x 2 = Some (leg 2 x, if Rltb (-1) x && Rltb x 1 then Some (dleg 2 x) else None)) by (intro x; exact (get_ok x 2)).
  assert (L2 : forall x, leg 2 x = (3 * (x * x) - 1) / 2) by (intro x; unfold leg; cbn; field).
  assert (D2 : forall x, dleg 2 x = 3 * x) by (intro x; unfold dleg; cbn; unfold leg; cbn; field).
  set (x1 := x0 - leg 2 x0 / dleg 2 x0).
  assert (Lt : x1 < x0). { unfold x1. rewrite L2, D2. assert (0 < (3 * (x0 * x0) - 1) / 2 / (3 * x0)); [|lra]. apply Rdiv_lt_0_compat; lra. }
  assert (N : newton (MAX_NEWTON_RAPHSON_ITERATIONS - 1) 2 accuracy x0 1 = Some (x0, x1, dleg 2 x0)).
  { generalize (eq_refl (MAX_NEWTON_RAPHSON_ITERATIONS - 1)%nat). generalize (MAX_NEWTON_RAPHSON_ITERATIONS - 1)%nat at 2 3. intros [|k] Ek; [discriminate|]. clear Ek. cbn [newton]. rewrite G. cbn [bind fst snd].
    replace (Rltb (-1) x0 && Rltb x0 1) with true. 2:{ unfold Rltb. destruct (Rlt_dec (-1) x0); [|lra]. destruct (Rlt_dec x0 1); [reflexivity|lra]. }
    fold x1. replace (Rltb accuracy (fdim x1 x0)) with false; [reflexivity|]. unfold Rltb, fdim, Rltb. destruct (Rlt_dec x0 x1); [lra|]. destruct (Rlt_dec accuracy 0); [lra|reflexivity]. }
  unfold calculate_legendre_root. fold x0. rewrite N. cbn [bind]. rewrite G. cbn [bind fst snd]. eexists _, _, _, _. split; [reflexivity|]. split; [apply G|].
  rewrite L2. assert (E : (3 * (x1 * x1) - 1) / 2 = (3 * (x0 * x0) - 1) * (3 * (x0 * x0) - 1) / (24 * (x0 * x0))). { unfold x1. rewrite L2, D2. field. lra. }
  rewrite E. set (y := x0 * x0) in *. apply Rmult_lt_reg_r with (24 * y); [lra|]. unfold Rdiv at 2. rewrite Rmult_assoc, Rinv_l, Rmult_1_r by lra. nra.
Qed.
Print Assumptions C78_accuracy_refuted.

Example C78_hyps : exists d, get_legendre (1 / 2) 2 = Some (-1 / 8, Some d) /\ d = 3 / 2.
Proof.
  pose proof (get_ok (1 / 2) 2) as G. change (Z.of_nat 2) with 2%Z in G. rewrite G. clear G. replace (Rltb (-1) (1 / 2) && Rltb (1 / 2) 1) with true.
  2:{ unfold Rltb. destruct (Rlt_dec (-1) (1 / 2)); [|lra]. destruct (Rlt_dec (1 / 2) 1); [|lra]. reflexivity. }
  exists (dleg 2 (1 / 2)). split; [|unfold dleg; cbn; unfold leg; cbn; field]. apply f_equal. apply f_equal2; [unfold leg; cbn; field|reflexivity].
Qed.
