From Coq Require Import Reals Lia Lra.
From Verif Require Import Base BaseFacts Legendre LegendreSpec.
Open Scope R_scope.

Fixpoint leg2 (n : nat) (x : R) : R * R :=
  match n with
  | O => (1, x)
  | S k => let (a, b) := leg2 k x in (b, x * b + ((INR n + 1 - 1) / (INR n + 1)) * (x * b - a))
  end.
Definition leg (n : nat) (x : R) : R := fst (leg2 n x).
Lemma leg2_snd n x : snd (leg2 n x) = leg (S n) x.
Proof. unfold leg. cbn [leg2]. destruct (leg2 n x). reflexivity. Qed.
Lemma leg_0 x : leg 0 x = 1. Proof. reflexivity. Qed.
Lemma leg_1 x : leg 1 x = x. Proof. reflexivity. Qed.
Lemma leg_SS n x : leg (S (S n)) x = x * leg (S n) x + ((INR (S n) + 1 - 1) / (INR (S n) + 1)) * (x * leg (S n) x - leg n x).
Proof.
  rewrite <- leg2_snd. cbn [leg2]. rewrite <- leg2_snd. unfold leg. destruct (leg2 n x) as [a b]. reflexivity.
Qed.
Lemma pos n : 0 < INR n + 1.
Proof. pose proof (pos_INR n). lra. Qed.
Lemma bonnet n x : (INR n + 2) * leg (S (S n)) x = (2 * INR n + 3) * x * leg (S n) x - (INR n + 1) * leg n x.
Proof. rewrite leg_SS, S_INR. pose proof (pos n). field. lra. Qed.

(** Derivatives *)
Fixpoint dleg2 (n : nat) (x : R) : R * R :=
  match n with
  | O => (0, 1)
  | S k => let (a, b) := dleg2 k x in (b, (1 * leg n x + x * b) + ((INR n + 1 - 1) / (INR n + 1)) * ((1 * leg n x + x * b) - a))
  end.
Definition dleg (n : nat) (x : R) : R := fst (dleg2 n x).
Lemma dleg2_snd n x : snd (dleg2 n x) = dleg (S n) x.
Proof. unfold dleg. cbn [dleg2]. destruct (dleg2 n x). reflexivity. Qed.
Lemma dleg_SS n x : dleg (S (S n)) x = (1 * leg (S n) x + x * dleg (S n) x) + ((INR (S n) + 1 - 1) / (INR (S n) + 1)) * ((1 * leg (S n) x + x * dleg (S n) x) - dleg n x).
Proof. rewrite <- dleg2_snd. cbn [dleg2]. rewrite <- dleg2_snd. unfold dleg. destruct (dleg2 n x) as [a b]. reflexivity. Qed.

Lemma dl_ext f g x l : (forall y, f y = g y) -> derivable_pt_lim f x l -> derivable_pt_lim g x l.
Proof. intros E H eps He. destruct (H eps He) as [d D]. exists d. intros h. rewrite <- !E. apply D. Qed.
Lemma dl_val f x l l' : l = l' -> derivable_pt_lim f x l -> derivable_pt_lim f x l'.
Proof. now intros ->. Qed.
Lemma dl_mul f g x a b : derivable_pt_lim f x a -> derivable_pt_lim g x b -> derivable_pt_lim (fun y => f y * g y) x (a * g x + f x * b).
Proof. exact (derivable_pt_lim_mult f g x a b). Qed.
Lemma dl_add f g x a b : derivable_pt_lim f x a -> derivable_pt_lim g x b -> derivable_pt_lim (fun y => f y + g y) x (a + b).
Proof. exact (derivable_pt_lim_plus f g x a b). Qed.
Lemma dl_sub f g x a b : derivable_pt_lim f x a -> derivable_pt_lim g x b -> derivable_pt_lim (fun y => f y - g y) x (a - b).
Proof. exact (derivable_pt_lim_minus f g x a b). Qed.
Lemma dl_const c x : derivable_pt_lim (fun _ => c) x 0.
Proof. exact (derivable_pt_lim_const c x). Qed.
Lemma dl_id x : derivable_pt_lim (fun y => y) x 1.
Proof. exact (derivable_pt_lim_id x). Qed.
Lemma dl_scal c f x a : derivable_pt_lim f x a -> derivable_pt_lim (fun y => c * f y) x (c * a).
Proof. exact (derivable_pt_lim_scal f c x a). Qed.

Lemma leg_deriv n x : derivable_pt_lim (leg n) x (dleg n x) /\ derivable_pt_lim (leg (S n)) x (dleg (S n) x).
Proof.
  induction n as [|n [IH1 IH2]]; [split; [exact (dl_const 1 x)|exact (dl_id x)]|]. split; [exact IH2|].
  eapply dl_ext; [intro y; symmetry; apply leg_SS|]. rewrite dleg_SS.
  assert (M : derivable_pt_lim (fun y => y * leg (S n) y) x (1 * leg (S n) x + x * dleg (S n) x)) by (apply dl_mul; [apply dl_id|exact IH2]).
  apply dl_add; [exact M|]. apply dl_scal. apply dl_sub; [exact M|exact IH1].
Qed.
Lemma leg_at_1 n : leg n 1 = 1 /\ leg (S n) 1 = 1.
Proof. induction n as [|n [I1 I2]]; [split; reflexivity|]. split; [exact I2|]. rewrite leg_SS, I1, I2. ring. Qed.

Lemma AB n x : dleg (S n) x = x * dleg n x + (INR n + 1) * leg n x /\ x * dleg (S n) x - dleg n x = (INR n + 1) * leg (S n) x.
Proof.
  induction n as [|n [A B]].
  - unfold dleg, leg. cbn. lra.
  - pose proof (pos n) as P. pose proof (bonnet n x) as R.
    assert (D : (INR n + 2) * dleg (S (S n)) x = (2 * INR n + 3) * (leg (S n) x + x * dleg (S n) x) - (INR n + 1) * dleg n x).
    { rewrite dleg_SS, S_INR. field. lra. }
    assert (A' : dleg (S (S n)) x = x * dleg (S n) x + (INR (S n) + 1) * leg (S n) x).
    { apply Rmult_eq_reg_l with (INR n + 2); [|lra]. rewrite D. replace (dleg n x) with (x * dleg (S n) x - (INR n + 1) * leg (S n) x) by lra. rewrite S_INR. ring. }
    split; [exact A'|]. rewrite A', S_INR. apply Rmult_eq_reg_l with 1; [|lra].
    assert (E : dleg (S n) x - x * (x * dleg (S n) x) = (INR n + 1) * leg n x - (INR n + 1) * x * leg (S n) x).
    { replace (x * dleg (S n) x) with (dleg n x + (INR n + 1) * leg (S n) x) by lra. rewrite A. ring. }
    replace (INR n + 1 + 1) with (INR n + 2) by ring. rewrite R. replace (x * (x * dleg (S n) x + (INR n + 2) * leg (S n) x) - dleg (S n) x) with
      (- (dleg (S n) x - x * (x * dleg (S n) x)) + (INR n + 2) * x * leg (S n) x) by ring. rewrite E. ring.
Qed.
(** The derivative formula *)
Lemma dleg_formula n x : (1 - x * x) * dleg (S n) x = (INR n + 1) * (leg n x - x * leg (S n) x).
Proof.
  destruct (AB n x) as [A B]. replace ((1 - x * x) * dleg (S n) x) with (dleg (S n) x - x * (x * dleg (S n) x)) by ring.
  replace (x * dleg (S n) x) with (dleg n x + (INR n + 1) * leg (S n) x) by lra. rewrite A. ring.
Qed.
Lemma leg_is_legendre n : is_legendre (Z.of_nat n) (leg n) (dleg n).
Proof.
  split; [intro x; now apply leg_deriv|]. split; [now apply leg_at_1|]. intro x. rewrite <- INR_IZR_INZ. destruct n as [|n].
  - apply (dl_ext (fun _ => 0)); [intro y; unfold dleg; cbn; ring|]. eapply dl_val; [|apply dl_const]. cbn. ring.
  - apply (dl_ext (fun y => (INR n + 1) * (leg n y - y * leg (S n) y))); [intro y; symmetry; apply dleg_formula|].
    eapply dl_val; [|apply dl_scal; apply dl_sub; [apply leg_deriv|apply dl_mul; [apply dl_id|apply leg_deriv]]].
    destruct (AB n x) as [_ B]. replace (dleg n x) with (x * dleg (S n) x - (INR n + 1) * leg (S n) x) by lra. rewrite S_INR. ring.
Qed.

(** The code *)
Lemma get_ok x (n : nat) : get_legendre x (Z.of_nat n) =
  Some (leg n x, match n with O => Some 0 | S O => Some 1 | S k => if Rltb (-1) x && Rltb x 1 then Some (dleg n x) else None end).
Proof.
  destruct n as [|[|n]]; [reflexivity|reflexivity|]. unfold get_legendre. replace (Z.of_nat (S (S n)) =? 0)%Z with false by lia. replace (Z.of_nat (S (S n)) =? 1)%Z with false by lia.
  match goal with |- context [for_ 2 ?hi ?body ?init] =>
    destruct (for_inv (fun k (s : R * R * R) => let '(a, b, c) := s in exists j : nat, k = (Z.of_nat j + 2)%Z /\ a = leg j x /\ b = leg (S j) x /\ (j <> 0%nat -> c = b))
      2 hi body init) as ([[a b] c] & E & j & Ej & -> & -> & Ec) end.
  - lia.
  - exists 0%nat. split; [reflexivity|]. split; [reflexivity|]. split; [reflexivity|]. congruence.
  - intros i [[a b] c] Hi (j & -> & -> & -> & _). eexists. split; [reflexivity|]. exists (S j). split; [lia|]. split; [reflexivity|]. split; [|reflexivity].
    rewrite leg_SS. replace (IZR (Z.of_nat j + 2)) with (INR (S j) + 1); [reflexivity|]. rewrite plus_IZR, <- INR_IZR_INZ, S_INR. ring.
  - rewrite E. cbn [bind]. assert (j = S n) as -> by lia. rewrite Ec by discriminate. f_equal. f_equal.
    destruct (Rltb (-1) x && Rltb x 1) eqn:L; [|reflexivity]. f_equal. unfold Rltb in L. destruct (Rlt_dec (-1) x); [|discriminate]. destruct (Rlt_dec x 1); [|discriminate].
    rewrite <- INR_IZR_INZ. assert (1 - x * x <> 0) by nra. apply Rmult_eq_reg_l with (1 - x * x); [|assumption]. rewrite dleg_formula, (S_INR (S n)). field. assumption.
Qed.
