From Coq Require Import Lia.
From Verif Require Import Base Clamp GoodSize GoodSizeSpec.
Open Scope Z_scope.

Notation pw b n := (b ^ Z.of_nat n).
Lemma pw_pos b n : 0 < b -> 0 < pw b n.
Proof. intro H. apply Z.pow_pos_nonneg; lia. Qed.
Lemma pw_S b n : pw b (S n) = b * pw b n.
Proof. rewrite Nat2Z.inj_succ. apply Z.pow_succ_r. lia. Qed.
Lemma pw_mono b n m : 1 <= b -> (n <= m)%nat -> pw b n <= pw b m.
Proof. intros H L. apply Z.pow_le_mono_r; lia. Qed.
Lemma to_int_ok z : -2147483648 <= z <= 2147483647 -> to_int z = Some z.
Proof. unfold to_int. intro H. replace (_ && _) with true by lia. reflexivity. Qed.

Section Fix.
Context (n : Z) (Hn : 12 < n) (Hb : 22 * n <= 2147483647).

Lemma double_ok f fuel x (a : nat) : 1 <= f -> x = f * pw 2 a -> (a = 0%nat \/ x < 2 * n) -> n <= x * pw 2 fuel ->
  exists a' : nat, double_up (S fuel) n x = Some (f * pw 2 a') /\ n <= f * pw 2 a' /\ (a' = 0%nat \/ f * pw 2 a' < 2 * n).
Proof.
  intros Hf. revert x a. induction fuel as [|k IH]; intros x a E Ha F.
  - change (pw 2 0) with 1 in F. exists a. cbn [double_up]. rewrite <- E. replace (x <? n) with false by lia. split; [reflexivity|]. lia.
  - cbn [double_up]. destruct (x <? n) eqn:L.
    + pose proof (pw_pos 2 a ltac:(lia)). rewrite to_int_ok by nia. cbn [bind]. apply (IH (x * 2) (S a)).
      * rewrite pw_S, E. ring.
      * right. lia.
      * rewrite pw_S in F. lia.
    + exists a. rewrite <- E. split; [reflexivity|]. lia.
Qed.

Definition good (r : Z) : Prop := smooth r /\ n <= r.
Definition improves (best best' : Z) : Prop := n < best' <= best /\ (best' = best \/ good best').
(** What the inner parts do for the family [Fam] of numbers *)
Definition covers (Fam : Z -> Prop) (best : Z) (r : option (Z + Z)) : Prop :=
  (r = Some (inr n) /\ smooth n) \/ (exists best', r = Some (inl best') /\ improves best best' /\ forall y, Fam y -> n <= y -> best' <= y).

Lemma trade_ok f B : 1 <= f -> Z.odd f = true -> (forall a b : nat, smooth (f * pw 2 a * pw 3 b)) -> n <= pw 3 B ->
  forall fuel (a b : nat) best, (b <= B)%nat -> (a + (B - b) < fuel)%nat -> n < best ->
  covers (fun y => exists a' b' : nat, (a' <= a)%nat /\ (b <= b')%nat /\ y = f * pw 2 a' * pw 3 b') best (trade fuel n best (f * pw 2 a * pw 3 b)).
Proof.
  intros Hf Of Sm HB. induction fuel as [|k IH]; intros a b best Lb Lf Nb; [lia|]. cbn [trade]. set (x := f * pw 2 a * pw 3 b).
  pose proof (pw_pos 2 a ltac:(lia)) as P2. pose proof (pw_pos 3 b ltac:(lia)) as P3. assert (Px : 0 < f * pw 2 a) by nia.
  destruct (x <? n) eqn:L.
  - assert (b < B)%nat. { destruct (Nat.eq_dec b B) as [->|]; [|lia]. exfalso. unfold x in L. nia. }
    rewrite to_int_ok by lia. cbn [bind]. replace (x * 3) with (f * pw 2 a * pw 3 (S b)) by (rewrite pw_S; unfold x; ring).
    destruct (IH a (S b) best ltac:(lia) ltac:(lia) Nb) as [R|(best' & E & I & C)]; [left; exact R|right]. exists best'. split; [exact E|]. split; [exact I|].
    intros y (a' & b' & La & Lb' & ->) Ny. destruct (Nat.eq_dec b' b) as [->|N].
    + exfalso. pose proof (pw_mono 2 a' a ltac:(lia) La). unfold x in L. pose proof (pw_pos 2 a' ltac:(lia)).
      assert (f * pw 2 a' * pw 3 b <= f * pw 2 a * pw 3 b) by (apply Z.mul_le_mono_nonneg_r; [lia|]; apply Z.mul_le_mono_nonneg_l; lia). lia.
    + apply C; [|exact Ny]. exists a', b'. split; [lia|]. split; [lia|reflexivity].
  - destruct (x >? n) eqn:G.
    2:{ left. assert (n = x) as Enx by lia. split; [reflexivity|]. rewrite Enx. apply Sm. }
    set (b1 := if x <? best then x else best).
    assert (I1 : improves best b1). { unfold improves, b1, good. destruct (x <? best) eqn:Lx; [split; [lia|]; right; split; [apply Sm|unfold x in *; lia]|split; [lia|now left]]. }
    assert (B1 : b1 <= x) by (unfold b1; destruct (x <? best) eqn:Lx; lia).
    destruct a as [|a].
    + replace (Z.odd x) with true. 2:{ unfold x. change (pw 2 0) with 1. rewrite Z.mul_1_r. rewrite Z.odd_mul, Of. cbn [andb]. symmetry. destruct b as [|b]; [reflexivity|].
        rewrite Z.odd_pow by lia. reflexivity. }
      right. exists b1. split; [reflexivity|]. split; [exact I1|]. intros y (a' & b' & La & Lb' & ->) Ny. assert (a' = 0%nat) as -> by lia.
      pose proof (pw_mono 3 b b' ltac:(lia) Lb'). assert (f * pw 2 0 * pw 3 b <= f * pw 2 0 * pw 3 b') by (apply Z.mul_le_mono_nonneg_l; lia). unfold x in B1. lia.
    + assert (Ex : x = 2 * (f * pw 2 a * pw 3 b)) by (unfold x; rewrite pw_S; ring).
      replace (Z.odd x) with false by (rewrite Ex, Z.odd_mul; reflexivity).
      replace (Z.shiftr x 1) with (f * pw 2 a * pw 3 b). 2:{ rewrite Z.shiftr_div_pow2 by lia. change (2 ^ 1) with 2. rewrite Ex, (Z.mul_comm 2 (f * pw 2 a * pw 3 b)), Z.div_mul by lia. reflexivity. }
      destruct I1 as [I1 I2]. destruct (IH a b b1 ltac:(lia) ltac:(lia) ltac:(lia)) as [R|(best' & E & I & C)]; [left; exact R|right].
      exists best'. split; [exact E|]. destruct I as [Ia Ib]. split.
      * split; [lia|]. destruct Ib as [->|Ib]; [exact I2|now right].
      * intros y (a' & b' & La & Lb' & ->) Ny. destruct (Nat.eq_dec a' (S a)) as [->|N].
        -- pose proof (pw_mono 3 b b' ltac:(lia) Lb'). assert (f * pw 2 (S a) * pw 3 b <= f * pw 2 (S a) * pw 3 b') by (apply Z.mul_le_mono_nonneg_l; lia). unfold x in B1. lia.
        -- apply C; [|exact Ny]. exists a', b'. split; [lia|]. split; [lia|reflexivity].
Qed.

(** All numbers f 2^a 3^b *)
Definition inner (f best : Z) : option (Z + Z) := let* x := double_up fuel_bound n f in trade fuel_bound n best x.
Lemma inner_ok f best : 1 <= f -> Z.odd f = true -> (forall a b : nat, smooth (f * pw 2 a * pw 3 b)) -> n < best ->
  covers (fun y => exists a b : nat, y = f * pw 2 a * pw 3 b) best (inner f best).
Proof.
  intros Hf Of Sm Nb. unfold inner.
  assert (P28 : 2 ^ 28 = 268435456) by reflexivity. assert (P18 : pw 3 18 = 387420489) by reflexivity.
  destruct (double_ok f 63 f 0 Hf) as (a & E & Na & Sa); [now rewrite Z.mul_1_r|now left| |].
  { change (pw 2 63) with 9223372036854775808. nia. }
  change fuel_bound with (S 63) at 1. rewrite E. cbn [bind].
  assert (La : (a <= 28)%nat). { destruct Sa as [->|Sa]; [lia|]. destruct (Nat.le_gt_cases a 28) as [|G]; [auto|]. exfalso.
    pose proof (pw_mono 2 29 a ltac:(lia) ltac:(lia)) as M. change (pw 2 29) with 536870912 in M. nia. }
  replace (f * pw 2 a) with (f * pw 2 a * pw 3 0) by (change (pw 3 0) with 1; ring).
  destruct (trade_ok f 18 Hf Of Sm ltac:(lia) fuel_bound a 0 best ltac:(lia) ltac:(unfold fuel_bound; lia) Nb) as [R|(best' & E' & I & C)]; [left; exact R|right].
  exists best'. split; [exact E'|]. split; [exact I|]. intros y (a' & b' & ->) Ny. destruct (Nat.le_gt_cases a' a) as [L|L].
  - apply C; [|exact Ny]. exists a', b'. split; [lia|]. split; [lia|reflexivity].
  - assert (X : best' <= f * pw 2 a * pw 3 0) by (apply C; [exists a, 0%nat; split; [lia|]; split; [lia|reflexivity]|change (pw 3 0) with 1; lia]).
    change (pw 3 0) with 1 in X. pose proof (pw_mono 2 a a' ltac:(lia) ltac:(lia)). pose proof (pw_pos 3 b' ltac:(lia)). pose proof (pw_pos 2 a ltac:(lia)).
    assert (f * pw 2 a <= f * pw 2 a') by (apply Z.mul_le_mono_nonneg_l; lia). nia.
Qed.

(** One more prime *)
Lemma mul_loop_ok m (ok : Z -> Prop) (Fam : Z -> Z -> Prop) body : 2 <= m <= 11 ->
  (forall f, ok f -> 1 <= f /\ ok (f * m)) -> (forall f y, ok f -> Fam f y -> f <= y) ->
  (forall f best, ok f -> n < best <= 2 * n -> covers (Fam f) best (body f best)) ->
  forall fuel f best, ok f -> n < best <= 2 * n -> 2 * n <= f * pw 2 fuel ->
  covers (fun y => exists k : nat, Fam (f * pw m k) y) best (mul_loop (S fuel) m body f best).
Proof.
  intros Hm Ok Low Body. induction fuel as [|k IH]; intros f best Of Nb F.
  - change (pw 2 0) with 1 in F. cbn [mul_loop]. replace (f <? best) with false by lia. right. exists best. split; [reflexivity|]. split; [split; [lia|now left]|].
    intros y (j & Y) Ny. assert (ok (f * pw m j)) as Oj by (clear - Ok Of; induction j as [|j IHj]; [now rewrite Z.mul_1_r|rewrite pw_S; replace (f * (m * pw m j)) with (f * pw m j * m) by ring; now apply Ok]).
    pose proof (Low _ _ Oj Y). pose proof (pw_pos m j ltac:(lia)). pose proof (proj1 (Ok f Of)). nia.
  - cbn [mul_loop]. destruct (f <? best) eqn:L.
    + destruct (Body f best Of Nb) as [[-> S]|(b1 & -> & I1 & C1)]; cbn [bind]; [now left|]. destruct I1 as [I1a I1b]. destruct (Ok f Of) as [Pf Ofm].
      rewrite to_int_ok by nia. cbn [bind].
      destruct (IH (f * m) b1 Ofm ltac:(lia)) as [R|(b2 & E & I2 & C2)].
      * rewrite pw_S in F. pose proof (pw_pos 2 k ltac:(lia)). nia.
      * left. exact R.
      * right. exists b2. split; [exact E|]. destruct I2 as [I2a I2b]. split.
        -- split; [lia|]. destruct I2b as [->|I2b]; [exact I1b|now right].
        -- intros y (j & Y) Ny. destruct j as [|j].
           ++ rewrite Z.mul_1_r in Y. specialize (C1 y Y Ny). lia.
           ++ apply C2; [|exact Ny]. exists j. replace (f * m * pw m j) with (f * pw m (S j)) by (rewrite pw_S; ring). exact Y.
    + right. exists best. split; [reflexivity|]. split; [split; [lia|now left]|].
      intros y (j & Y) Ny. assert (ok (f * pw m j)) as Oj by (clear - Ok Of; induction j as [|j IHj]; [now rewrite Z.mul_1_r|rewrite pw_S; replace (f * (m * pw m j)) with (f * pw m j * m) by ring; now apply Ok]).
      pose proof (Low _ _ Oj Y). pose proof (pw_pos m j ltac:(lia)). pose proof (proj1 (Ok f Of)). nia.
Qed.

Definition odd_smooth (f : Z) : Prop := exists c d e : nat, f = pw 5 c * pw 7 d * pw 11 e.
Lemma odd_smooth_pos f : odd_smooth f -> 1 <= f.
Proof. intros (c & d & e & ->). pose proof (pw_pos 5 c ltac:(lia)). pose proof (pw_pos 7 d ltac:(lia)). pose proof (pw_pos 11 e ltac:(lia)). nia. Qed.
Lemma odd_pw b k : Z.odd b = true -> Z.odd (pw b k) = true.
Proof. intro H. destruct k as [|k]; [reflexivity|]. rewrite Z.odd_pow by lia. exact H. Qed.
Lemma odd_smooth_odd f : odd_smooth f -> Z.odd f = true.
Proof. intros (c & d & e & ->). rewrite !Z.odd_mul, !odd_pw; reflexivity. Qed.
Lemma odd_smooth_smooth f (a b : nat) : odd_smooth f -> smooth (f * pw 2 a * pw 3 b).
Proof. intros (c & d & e & ->). exists a, b, c, d, e. ring. Qed.
Lemma odd_smooth_mul f m : odd_smooth f -> m = 5 \/ m = 7 \/ m = 11 -> odd_smooth (f * m).
Proof.
  intros (c & d & e & ->) [-> |[-> | ->]]; [exists (S c), d, e|exists c, (S d), e|exists c, d, (S e)]; rewrite pw_S; ring.
Qed.
Lemma fam_low f (a b : nat) : 1 <= f -> f <= f * pw 2 a * pw 3 b.
Proof. intro H. pose proof (pw_pos 2 a ltac:(lia)). pose proof (pw_pos 3 b ltac:(lia)). assert (f <= f * pw 2 a) by nia. nia. Qed.

Lemma good_size_ok : exists r, good_size_complex n = Some r /\ least_smooth n r.
Proof.
  unfold good_size_complex. replace (n <=? 12) with false by lia. rewrite to_int_ok by lia. cbn [bind]. fold inner.
  set (Fam2 := fun f y => exists a b : nat, y = f * pw 2 a * pw 3 b).
  set (Fam5 := fun f y => exists k : nat, Fam2 (f * pw 5 k) y). set (Fam7 := fun f y => exists k : nat, Fam5 (f * pw 7 k) y).
  assert (big : forall f, odd_smooth f -> 2 * n <= f * pw 2 63) by (intros f H; apply odd_smooth_pos in H; change (pw 2 63) with 9223372036854775808; nia).
  assert (L2 : forall f y, odd_smooth f -> Fam2 f y -> f <= y) by (intros f y H (a & b & ->); apply fam_low; now apply odd_smooth_pos).
  assert (step : forall (Fam : Z -> Z -> Prop) (m : Z), m = 5 \/ m = 7 \/ m = 11 -> (forall f y, odd_smooth f -> Fam f y -> f <= y) -> forall f y, odd_smooth f -> (exists k : nat, Fam (f * pw m k) y) -> f <= y).
  { intros Fam m Hm LF f y H (k & Y). assert (odd_smooth (f * pw m k)) as Oj. { clear Y. induction k as [|k IHk]; [now rewrite Z.mul_1_r|]. rewrite pw_S. replace (f * (m * pw m k)) with (f * pw m k * m) by ring. now apply odd_smooth_mul. }
    specialize (LF _ _ Oj Y). apply odd_smooth_pos in H. pose proof (pw_pos m k ltac:(lia)). nia. }
  assert (C2 : forall f best, odd_smooth f -> n < best <= 2 * n -> covers (Fam2 f) best (inner f best)).
  { intros f best H Nb. apply inner_ok; [now apply odd_smooth_pos|now apply odd_smooth_odd|intros; now apply odd_smooth_smooth|lia]. }
  assert (C5 : forall f best, odd_smooth f -> n < best <= 2 * n -> covers (Fam5 f) best (mul_loop fuel_bound 5 inner f best)).
  { intros f best H Nb. apply (mul_loop_ok 5 odd_smooth Fam2 inner ltac:(lia)); auto. intros g Hg. split; [now apply odd_smooth_pos|apply odd_smooth_mul; auto]. }
  assert (C7 : forall f best, odd_smooth f -> n < best <= 2 * n -> covers (Fam7 f) best (mul_loop fuel_bound 7 (mul_loop fuel_bound 5 inner) f best)).
  { intros f best H Nb. apply (mul_loop_ok 7 odd_smooth Fam5 (mul_loop fuel_bound 5 inner) ltac:(lia)); auto; [|intros g y; apply (step Fam2); auto]. intros g Hg. split; [now apply odd_smooth_pos|apply odd_smooth_mul; auto]. }
  assert (O1 : odd_smooth 1) by (now exists 0%nat, 0%nat, 0%nat).
  destruct (mul_loop_ok 11 odd_smooth Fam7 (mul_loop fuel_bound 7 (mul_loop fuel_bound 5 inner)) ltac:(lia)) with (fuel := 63%nat) (f := 1) (best := 2 * n) as [[E Sn]|(b & E & I & C)]; auto; try lia.
  - intros g Hg. split; [now apply odd_smooth_pos|apply odd_smooth_mul; auto].
  - intros g y. apply (step Fam5); auto. intros g' y'. apply (step Fam2); auto.
  - change fuel_bound with (S 63) at 1. rewrite E. cbn [bind]. exists n. split; [reflexivity|]. split; [exact Sn|]. split; [lia|]. auto.
  - change fuel_bound with (S 63) at 1. rewrite E. cbn [bind]. exists b. split; [reflexivity|].
    assert (All : forall y, smooth y -> n <= y -> b <= y).
    { intros y (a1 & b1 & c1 & d1 & e1 & ->) Ny. apply C; [|exact Ny]. exists e1, d1, c1, a1, b1. ring. }
    destruct I as [I1 [->|[Sb _]]]; [|split; [exact Sb|]; split; [lia|exact All]].
    (* a power of two lies below 2 n *)
    exfalso. destruct (double_ok 1 63 1 0 ltac:(lia) eq_refl (or_introl eq_refl)) as (a & _ & Na & [->|Sa]).
    + change (pw 2 63) with 9223372036854775808. lia.
    + change (pw 2 0) with 1 in Na. lia.
    + specialize (All (1 * pw 2 a)). assert (smooth (1 * pw 2 a)) as X by (exists a, 0%nat, 0%nat, 0%nat, 0%nat; change (pw 3 0) with 1; change (pw 5 0) with 1; change (pw 7 0) with 1; change (pw 11 0) with 1; ring).
      specialize (All X Na). lia.
Qed.
End Fix.

Lemma good_size_small n : 1 <= n <= 12 -> exists r, good_size_complex n = Some r /\ least_smooth n r.
Proof.
  intro H. unfold good_size_complex. replace (n <=? 12) with true by lia. exists n. split; [reflexivity|]. split; [|split; [lia|auto]].
  assert (n = 1 \/ n = 2 \/ n = 3 \/ n = 4 \/ n = 5 \/ n = 6 \/ n = 7 \/ n = 8 \/ n = 9 \/ n = 10 \/ n = 11 \/ n = 12) as X by lia.
  repeat (destruct X as [-> |X]); [..|subst n].
  - now exists 0%nat, 0%nat, 0%nat, 0%nat, 0%nat.
  - now exists 1%nat, 0%nat, 0%nat, 0%nat, 0%nat.
  - now exists 0%nat, 1%nat, 0%nat, 0%nat, 0%nat.
  - now exists 2%nat, 0%nat, 0%nat, 0%nat, 0%nat.
  - now exists 0%nat, 0%nat, 1%nat, 0%nat, 0%nat.
  - now exists 1%nat, 1%nat, 0%nat, 0%nat, 0%nat.
  - now exists 0%nat, 0%nat, 0%nat, 1%nat, 0%nat.
  - now exists 3%nat, 0%nat, 0%nat, 0%nat, 0%nat.
  - now exists 0%nat, 2%nat, 0%nat, 0%nat, 0%nat.
  - now exists 1%nat, 0%nat, 1%nat, 0%nat, 0%nat.
  - now exists 0%nat, 0%nat, 0%nat, 0%nat, 1%nat.
  - now exists 2%nat, 1%nat, 0%nat, 0%nat, 0%nat.
Qed.

Lemma good_size_least n : 1 <= n -> 22 * n <= 2147483647 -> exists r, good_size_complex n = Some r /\ least_smooth n r.
Proof. intros H B. destruct (Z.le_gt_cases n 12); [apply good_size_small; lia|apply good_size_ok; lia]. Qed.
