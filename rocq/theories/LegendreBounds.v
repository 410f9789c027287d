(** Bounds on Legendre polynomials and on Newton's method for their zeros *)
From Coq Require Import Reals Lia Lra.
From Verif Require Import Base BaseFacts Legendre LegendreSpec LegendreFacts.
Open Scope R_scope.

Fixpoint ddleg (n : nat) (x : R) : R := match n with O => 0 | S k => (1 * dleg k x + x * ddleg k x) + (INR k + 1) * dleg k x end.
Lemma dleg_deriv n x : derivable_pt_lim (dleg n) x (ddleg n x).
Proof.
  induction n as [|n IH]; [exact (dl_const 0 x)|]. apply (dl_ext (fun y => y * dleg n y + (INR n + 1) * leg n y)); [intro y; symmetry; apply AB|].
  cbn [ddleg]. apply dl_add; [apply dl_mul; [apply dl_id|exact IH]|]. apply dl_scal. apply leg_deriv.
Qed.
Lemma ode n x : (1 - x * x) * ddleg n x - 2 * x * dleg n x + INR n * (INR n + 1) * leg n x = 0.
Proof.
  destruct (leg_is_legendre n) as (_ & _ & D). specialize (D x). rewrite <- INR_IZR_INZ in D.
  assert (D' : derivable_pt_lim (fun y => (1 - y * y) * dleg n y) x ((0 - (1 * x + x * 1)) * dleg n x + (1 - x * x) * ddleg n x)).
  { apply (dl_mul (fun y => 1 - y * y) (dleg n)); [|apply dleg_deriv]. apply (dl_sub (fun _ => 1) (fun y => y * y)); [apply dl_const|]. apply (dl_mul (fun y => y) (fun y => y)); apply dl_id. }
  pose proof (uniqueness_limite _ _ _ _ D D'). lra.
Qed.

Lemma energy n x : 0 <= x <= 1 -> INR n * (INR n + 1) * (leg n x * leg n x) + (1 - x * x) * (dleg n x * dleg n x) <= INR n * (INR n + 1).
Proof.
  intros [H0 H1]. set (f := fun y => INR n * (INR n + 1) * (leg n y * leg n y) + (1 - y * y) * (dleg n y * dleg n y)).
  assert (F1 : f 1 = INR n * (INR n + 1)). { unfold f. destruct (leg_at_1 n) as [E _]. rewrite E. ring. }
  assert (Fd : forall y, derivable_pt_lim f y (2 * y * (dleg n y * dleg n y))).
  { intro y. eapply dl_val; [|apply (dl_add (fun y => INR n * (INR n + 1) * (leg n y * leg n y)) (fun y => (1 - y * y) * (dleg n y * dleg n y)));
      [apply (dl_scal _ (fun y => leg n y * leg n y)); apply dl_mul; apply leg_deriv|apply (dl_mul (fun y => 1 - y * y) (fun y => dleg n y * dleg n y));
        [apply (dl_sub (fun _ => 1) (fun y => y * y)); [apply dl_const|apply (dl_mul (fun y => y) (fun y => y)); apply dl_id]|apply dl_mul; apply dleg_deriv]]].
    pose proof (ode n y) as O. replace (INR n * (INR n + 1) * (dleg n y * leg n y + leg n y * dleg n y)) with (2 * dleg n y * (INR n * (INR n + 1) * leg n y)) by ring.
    replace (INR n * (INR n + 1) * leg n y) with (2 * y * dleg n y - (1 - y * y) * ddleg n y) by lra. ring. }
  change (f x <= INR n * (INR n + 1)). rewrite <- F1. destruct (Req_dec x 1) as [->|N]; [lra|].
  destruct (MVT_cor2 f (fun y => 2 * y * (dleg n y * dleg n y)) x 1) as (c & E & Hc); [lra|intros c _; apply Fd|].
  assert (0 <= 2 * c * (dleg n c * dleg n c) * (1 - x)); [|lra]. apply Rmult_le_pos; [|lra]. apply Rmult_le_pos; [lra|]. nra.
Qed.
Lemma leg_le1 n x : 0 <= x <= 1 -> Rabs (leg n x) <= 1.
Proof.
  intro H. destruct n as [|n]; [rewrite leg_0, Rabs_R1; lra|]. pose proof (energy (S n) x H) as E. rewrite S_INR in E. pose proof (pos_INR n) as P.
  assert (Q : 0 <= (1 - x * x) * (dleg (S n) x * dleg (S n) x)) by (apply Rmult_le_pos; nra).
  set (k := (INR n + 1) * (INR n + 1 + 1)) in *. assert (0 < k) by (unfold k; nra). assert (leg (S n) x * leg (S n) x <= 1) by nra.
  apply Rabs_le. nra.
Qed.

Lemma dleg_step n x : dleg (S (S n)) x = dleg n x + (2 * INR n + 3) * leg (S n) x.
Proof. destruct (AB (S n) x) as [A _]. destruct (AB n x) as [_ B]. rewrite A, S_INR. replace (x * dleg (S n) x) with (dleg n x + (INR n + 1) * leg (S n) x) by lra. ring. Qed.
Lemma ddleg_step n x : ddleg (S (S n)) x = ddleg n x + (2 * INR n + 3) * dleg (S n) x.
Proof.
  assert (D : derivable_pt_lim (dleg (S (S n))) x (ddleg n x + (2 * INR n + 3) * dleg (S n) x)).
  { apply (dl_ext (fun y => dleg n y + (2 * INR n + 3) * leg (S n) y)); [intro y; symmetry; apply dleg_step|]. apply dl_add; [apply dleg_deriv|]. apply dl_scal. apply leg_deriv. }
  exact (uniqueness_limite _ _ _ _ (dleg_deriv _ _) D).
Qed.
Lemma dleg_le n x : 0 <= x <= 1 -> Rabs (dleg n x) <= INR n * (INR n + 1) / 2 /\ Rabs (dleg (S n) x) <= (INR n + 1) * (INR n + 2) / 2.
Proof.
  intro H. induction n as [|n [I1 I2]].
  - split; [unfold dleg; cbn; rewrite Rabs_R0; lra|]. unfold dleg; cbn. rewrite Rabs_R1. lra.
  - rewrite S_INR. replace (INR n + 1 + 1) with (INR n + 2) by ring. split; [exact I2|]. rewrite dleg_step. pose proof (pos_INR n). pose proof (leg_le1 (S n) x H).
    eapply Rle_trans; [apply Rabs_triang|]. rewrite Rabs_mult, (Rabs_right (2 * INR n + 3)) by lra.
    assert ((2 * INR n + 3) * Rabs (leg (S n) x) <= 2 * INR n + 3) by nra. nra.
Qed.
Definition d2max (n : nat) : R := (INR n - 1) * INR n * (INR n + 1) * (INR n + 2) / 8.
Lemma ddleg_le n x : 0 <= x <= 1 -> Rabs (ddleg n x) <= d2max n /\ Rabs (ddleg (S n) x) <= d2max (S n).
Proof.
  intro H. induction n as [|n [I1 I2]].
  - split; unfold d2max; cbn [ddleg INR]; unfold dleg; cbn [dleg2 fst].
    + rewrite Rabs_R0. lra.
    + replace (1 * 0 + x * 0 + (0 + 1) * 0) with 0 by ring. rewrite Rabs_R0. lra.
  - split; [exact I2|]. rewrite ddleg_step. pose proof (pos_INR n). destruct (dleg_le n x H) as [_ D].
    eapply Rle_trans; [apply Rabs_triang|]. rewrite Rabs_mult, (Rabs_right (2 * INR n + 3)) by lra. unfold d2max in *. rewrite !S_INR.
    assert ((2 * INR n + 3) * Rabs (dleg (S n) x) <= (2 * INR n + 3) * ((INR n + 1) * (INR n + 2) / 2)) by (apply Rmult_le_compat_l; lra). lra.
Qed.

(** Mean values *)
Lemma mean f f' a b : (forall t, derivable_pt_lim f t (f' t)) -> exists t, f b - f a = f' t * (b - a) /\ Rmin a b <= t <= Rmax a b.
Proof.
  intro D. destruct (Rtotal_order a b) as [L|[->|L]].
  - destruct (MVT_cor2 f f' a b L) as (t & E & H); [intros; apply D|]. exists t. split; [exact E|]. rewrite Rmin_left, Rmax_right by lra. lra.
  - exists b. split; [ring|]. rewrite Rmin_left, Rmax_right by lra. lra.
  - destruct (MVT_cor2 f f' b a L) as (t & E & H); [intros; apply D|]. exists t. split; [lra|]. rewrite Rmin_right, Rmax_left by lra. lra.
Qed.
Lemma dleg_lip n M a b : (forall x, 0 <= x <= 1 -> Rabs (ddleg n x) <= M) -> 0 <= a <= 1 -> 0 <= b <= 1 -> Rabs (dleg n b - dleg n a) <= M * Rabs (b - a).
Proof.
  intros HM Ha Hb. destruct (mean (dleg n) (ddleg n) a b (dleg_deriv n)) as (t & -> & Ht). rewrite Rabs_mult. apply Rmult_le_compat_r; [apply Rabs_pos|]. apply HM.
  split; [apply Rle_trans with (Rmin a b); [apply Rmin_glb|]|apply Rle_trans with (Rmax a b); [|apply Rmax_lub]]; lra.
Qed.
Lemma rabs_in x a : Rabs x <= a -> - a <= x <= a.
Proof. unfold Rabs. destruct (Rcase_abs x); lra. Qed.
Lemma leg_taylor n M x c : (forall x, 0 <= x <= 1 -> Rabs (ddleg n x) <= M) -> 0 <= x <= 1 -> 0 <= c <= 1 -> Rabs (leg n c - leg n x - (c - x) * dleg n x) <= M / 2 * (Rabs (c - x) * Rabs (c - x)).
Proof.
  intros HM Hx Hc. assert (Sq : Rabs (c - x) * Rabs (c - x) = (c - x) * (c - x)) by (rewrite <- Rabs_mult; apply Rabs_right; apply Rle_ge; apply Rle_0_sqr). rewrite Sq.
  assert (K : forall s, s = 1 \/ s = -1 -> 0 <= M / 2 * ((c - x) * (c - x)) + s * (leg n c - leg n x - (c - x) * dleg n x)).
  { intros s Hs. set (h := fun t => M / 2 * ((t - x) * (t - x)) + s * (leg n t - leg n x - (t - x) * dleg n x)).
    assert (Dx : forall t, derivable_pt_lim (fun t => t - x) t 1). { intro t. eapply dl_val; [|apply (dl_sub (fun t => t) (fun _ => x)); [apply dl_id|apply dl_const]]. ring. }
    assert (D : forall t, derivable_pt_lim h t (M * (t - x) + s * (dleg n t - dleg n x))).
    { intro t. eapply dl_val; [|apply (dl_add (fun t => M / 2 * ((t - x) * (t - x))) (fun t => s * (leg n t - leg n x - (t - x) * dleg n x)));
        [apply (dl_scal _ (fun t => (t - x) * (t - x))); apply (dl_mul (fun t => t - x) (fun t => t - x)); apply Dx|
         apply (dl_scal _ (fun t => leg n t - leg n x - (t - x) * dleg n x)); apply (dl_sub (fun t => leg n t - leg n x) (fun t => (t - x) * dleg n x));
           [apply (dl_sub (leg n) (fun _ => leg n x)); [apply leg_deriv|apply dl_const]|apply (dl_mul (fun t => t - x) (fun _ => dleg n x)); [apply Dx|apply dl_const]]]]. cbv beta. field. }
    destruct (mean h (fun t => M * (t - x) + s * (dleg n t - dleg n x)) x c D) as (t & Et & Ht). assert (H0 : h x = 0) by (unfold h; ring). change (0 <= h c).
    assert (T : 0 <= t <= 1). { split; [apply Rle_trans with (Rmin x c); [apply Rmin_glb|]|apply Rle_trans with (Rmax x c); [|apply Rmax_lub]]; lra. }
    pose proof (dleg_lip n M x t HM Hx T) as L. assert (0 <= (M * (t - x) + s * (dleg n t - dleg n x)) * (c - x)); [|lra].
    unfold Rmin, Rmax in Ht. destruct (Rle_dec x c) as [Le|Le].
    - rewrite (Rabs_right (t - x)) in L by lra. apply rabs_in in L. apply Rmult_le_pos; [|lra]. destruct Hs as [-> | ->]; lra.
    - rewrite (Rabs_left1 (t - x)) in L by lra. apply rabs_in in L. replace ((M * (t - x) + s * (dleg n t - dleg n x)) * (c - x)) with ((- (M * (t - x) + s * (dleg n t - dleg n x))) * (x - c)) by ring.
      apply Rmult_le_pos; [|lra]. destruct Hs as [-> | ->]; lra. }
  pose proof (K 1 ltac:(auto)). pose proof (K (-1) ltac:(auto)). apply Rabs_le. lra.
Qed.


Section Newton.
Context (n : nat) (c r e d rho M : R) (Hn : (2 <= n)%nat) (Hlo : 0 < c - r) (Hhi : c + r < 1) (He : Rabs (leg n c) <= e) (Hd : d <= Rabs (dleg n c)).
Context (HM : forall x, 0 <= x <= 1 -> Rabs (ddleg n x) <= M) (Hrho : e + M / 2 * (r * r) <= rho * (d - M * r)) (Hdr : M * r < d) (Hr : rho <= r).

Lemma M_pos : 0 <= M.
Proof. eapply Rle_trans; [apply Rabs_pos|apply (HM 1); lra]. Qed.
Lemma slope x : Rabs (x - c) <= r -> d - M * r <= Rabs (dleg n x).
Proof.
  intro H. assert (Hx : -r <= x - c <= r) by (apply rabs_in in H; lra). pose proof (dleg_lip n M x c HM ltac:(lra) ltac:(lra)) as L. rewrite Rabs_minus_sym in H. pose proof M_pos.
  assert (M * Rabs (c - x) <= M * r) by (apply Rmult_le_compat_l; assumption). pose proof (Rabs_triang_inv (dleg n c) (dleg n x)). lra.
Qed.
Lemma newton_step x : Rabs (x - c) <= r -> dleg n x <> 0 /\ Rabs (x - leg n x / dleg n x - c) <= rho.
Proof.
  intro H. assert (Hx : -r <= x - c <= r) by (apply rabs_in in H; lra). pose proof (slope x H) as S. assert (Q : dleg n x <> 0) by (intro Z; rewrite Z, Rabs_R0 in S; lra). split; [exact Q|].
  replace (x - leg n x / dleg n x - c) with ((- leg n c + (leg n c - leg n x - (c - x) * dleg n x)) / dleg n x) by (field; exact Q).
  unfold Rdiv. rewrite Rabs_mult, Rabs_inv. pose proof (leg_taylor n M x c HM ltac:(lra) ltac:(lra)) as T. rewrite Rabs_minus_sym in H.
  assert (B : Rabs (- leg n c + (leg n c - leg n x - (c - x) * dleg n x)) <= e + M / 2 * (r * r)).
  { eapply Rle_trans; [apply Rabs_triang|]. rewrite Rabs_Ropp. apply Rplus_le_compat; [exact He|]. eapply Rle_trans; [exact T|]. apply Rmult_le_compat_l; [pose proof M_pos; lra|].
    apply Rmult_le_compat; (apply Rabs_pos || assumption). }
  assert (P : 0 < Rabs (dleg n x)) by lra. apply Rmult_le_reg_r with (Rabs (dleg n x)); [exact P|]. rewrite Rmult_assoc, Rinv_l, Rmult_1_r by lra.
  assert (0 <= rho). { pose proof M_pos. pose proof (Rabs_pos (leg n c)). assert (0 <= M * (r * r)) by (apply Rmult_le_pos; [assumption|nra]). assert (0 <= e + M / 2 * (r * r)) by lra. assert (0 <= rho * (d - M * r)) by lra.
    destruct (Rlt_or_le rho 0); [exfalso; nra|assumption]. }
  assert (rho * (d - M * r) <= rho * Rabs (dleg n x)) by (apply Rmult_le_compat_l; assumption). lra.
Qed.
Lemma inside x : Rabs (x - c) <= r -> get_legendre x (Z.of_nat n) = Some (leg n x, Some (dleg n x)).
Proof.
  intro H. apply rabs_in in H. rewrite get_ok. destruct n as [|[|k]]; [lia|lia|]. unfold Rltb. destruct (Rlt_dec (-1) x); [|lra]. destruct (Rlt_dec x 1); [reflexivity|lra].
Qed.
Lemma newton_in k acc : forall x d0 a b D, Rabs (x - c) <= r -> newton k (Z.of_nat n) acc x d0 = Some (a, b, D) -> Rabs (a - c) <= r /\ b = a - leg n a / dleg n a.
Proof.
  induction k as [|k IH]; intros x d0 a b D H E; cbn [newton] in E; rewrite inside in E by exact H; cbn [bind fst snd] in E.
  - injection E as <- <- _. auto.
  - destruct (Rltb _ _).
    + apply IH in E; [exact E|]. apply Rle_trans with rho; [apply newton_step; exact H|exact Hr].
    + injection E as <- <- _. auto.
Qed.
Lemma root_in i acc x w : Rabs (get_approx_legendre_root i (Z.of_nat n) - c) <= r -> calculate_legendre_root i (Z.of_nat n) acc = Some (x, w) ->
  Rabs (x - c) <= rho /\ w = 2 / ((1 - x * x) * dleg n x * dleg n x).
Proof.
  intros H E. unfold calculate_legendre_root in E. destruct (newton _ _ _ _ _) as [[[a b] D]|] eqn:N; cbn [bind] in E; [|discriminate]. apply newton_in in N; [|exact H].
  destruct N as [A B]. assert (Bn : Rabs (b - c) <= rho) by (rewrite B; now apply newton_step). rewrite inside in E by lra. cbn [bind snd] in E. injection E as <- <-. auto.
Qed.
Lemma true_root : 0 < e -> 0 < M -> exists z, leg n z = 0 /\ Rabs (z - c) <= rho.
Proof.
  intros Ep Ms. pose proof M_pos as Mp. assert (R0 : 0 <= r). { destruct (Rlt_or_le r 0); [|assumption]. exfalso. assert (0 < d - M * r) by nra. nra. }
  assert (Q0 : 0 < rho). { assert (0 < rho * (d - M * r)) by nra. destruct (Rlt_or_le 0 rho); [assumption|exfalso; nra]. }
  assert (G : forall s, (s = 1 \/ s = -1) -> 0 < s * dleg n c -> 0 < s * leg n (c + rho) /\ s * leg n (c - rho) < 0).
  { intros s Hs Sp. assert (K : e < d * rho - M / 2 * (rho * rho)). { assert (M * (rho * rho) <= M * (r * rho)) by (apply Rmult_le_compat_l; [assumption|nra]). assert (0 < M * (r * r)) by (apply Rmult_lt_0_compat; [assumption|]; apply Rmult_lt_0_compat; lra). nra. }
    assert (Dp : d <= s * dleg n c). { destruct Hs as [-> | ->]; [rewrite Rabs_right in Hd by lra|rewrite Rabs_left1 in Hd by lra]; lra. }
    assert (Pe : - e <= s * leg n c <= e) by (apply rabs_in in He; destruct Hs as [-> | ->]; lra).
    assert (DR : d * rho <= s * dleg n c * rho) by (apply Rmult_le_compat_r; lra).
    pose proof (leg_taylor n M c (c + rho) HM ltac:(lra) ltac:(lra)) as T1. pose proof (leg_taylor n M c (c - rho) HM ltac:(lra) ltac:(lra)) as T2.
    replace (c + rho - c) with rho in T1 by ring. replace (c - rho - c) with (- rho) in T2 by ring. rewrite Rabs_Ropp in T2. rewrite (Rabs_right rho) in T1, T2 by lra.
    apply rabs_in in T1. apply rabs_in in T2. destruct Hs as [-> | ->]; lra. }
  assert (Ct : continuity (leg n)). { intro x. apply derivable_continuous_pt. exists (dleg n x). apply leg_deriv. }
  destruct (Rtotal_order (dleg n c) 0) as [N|[Z|N]].
  - destruct (G (-1) ltac:(auto) ltac:(lra)) as [G1 G2]. destruct (IVT (- leg n)%F (c - rho) (c + rho)) as (z & Hz & E); unfold opp_fct in *; [apply continuity_opp; exact Ct|lra|lra|lra|].
    exists z. split; [lra|]. apply Rabs_le. lra.
  - exfalso. rewrite Z, Rabs_R0 in Hd. assert (0 <= M * r) by nra. lra.
  - destruct (G 1 ltac:(auto) ltac:(lra)) as [G1 G2]. destruct (IVT (leg n) (c - rho) (c + rho)) as (z & Hz & E); [exact Ct|lra|lra|lra|]. exists z. split; [exact E|]. apply Rabs_le. lra.
Qed.
(** When the first step goes up, another one follows. *)
Lemma newton_two k acc x d0 a b D : 0 <= acc -> Rabs (x - c) <= r -> x + rho + acc < c -> newton (S k) (Z.of_nat n) acc x d0 = Some (a, b, D) -> Rabs (a - c) <= rho /\ b = a - leg n a / dleg n a.
Proof.
  intros Ha Hx Hu E. cbn [newton] in E. rewrite inside in E by exact Hx. cbn [bind fst snd] in E. destruct (newton_step x Hx) as [_ Sx]. set (y := x - leg n x / dleg n x) in *.
  assert (U : Rltb acc (fdim y x) = true).
  { apply rabs_in in Sx. unfold fdim, Rltb. destruct (Rlt_dec x y) as [L|L]; [|lra]. destruct (Rlt_dec acc (y - x)); [reflexivity|lra]. }
  rewrite U in E. clear Hu U.
  assert (G : forall k y d0, Rabs (y - c) <= rho -> newton k (Z.of_nat n) acc y d0 = Some (a, b, D) -> Rabs (a - c) <= rho /\ b = a - leg n a / dleg n a).
  { clear - He Hd HM Hrho Hdr Hr Hn Hlo Hhi. intro k. induction k as [|k IH]; intros y d0 Hy E; cbn [newton] in E; rewrite inside in E by lra; cbn [bind fst snd] in E.
    - injection E as <- <- _. auto.
    - destruct (Rltb _ _); [|injection E as <- <- _; auto]. apply IH in E; [exact E|]. apply newton_step. lra. }
  exact (G _ _ _ Sx E).
Qed.
End Newton.
