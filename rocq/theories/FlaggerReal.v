(** Exact arithmetic for the flagger: real numbers with an ordered insertion sort, and rational numbers for executing examples. *)
From Coq Require Import Reals QArith Qabs Qreals Lra Lia.
From Verif Require Import Base Sum Cplx Flagger FlaggerSpec.
Open Scope Z_scope.

Fixpoint insert {A} (le : A -> A -> bool) (x : A) (l : list A) : list A :=
  match l with [] => [x] | y :: l' => if le x y then x :: l else y :: insert le x l' end.
Definition isort {A} (le : A -> A -> bool) (l : list A) : list A := fold_right (insert le) [] l.

Definition Rlt_b (x y : R) : bool := if Rlt_dec x y then true else false.
Definition Rle_b (x y : R) : bool := if Rle_dec x y then true else false.
Definition Req_b (x y : R) : bool := if Req_EM_T x y then true else false.
Definition real_num : num := mk_num R Q2R Rplus Rminus Rmult Rdiv Ropp Rabs Rlt_b Req_b (isort Rle_b).
Definition rat_num : num := mk_num Q (fun q => q) Qplus Qminus Qmult Qdiv Qopp Qabs (fun x y => negb (Qle_bool y x)) Qeq_bool (isort Qle_bool).
(** Magnitude of a complex number *)
Definition Cmag (z : C) : R := sqrt (Cnorm2 z).

Lemma insert_length {A} le (x : A) l : length (insert le x l) = S (length l).
Proof. induction l as [|y l IH]; [reflexivity|]. cbn [insert]. destruct (le x y); cbn [length]; congruence. Qed.
Lemma isort_length {A} le (l : list A) : length (isort le l) = length l.
Proof. induction l as [|x l IH]; [reflexivity|]. unfold isort in *. cbn [fold_right length]. now rewrite insert_length, IH. Qed.

Section Scale.
Context (k : R) (Hk : (0 < k)%R).
Notation sc := (Rmult k).

Lemma insert_scale x l : insert Rle_b (sc x) (map sc l) = map sc (insert Rle_b x l).
Proof.
  induction l as [|y l IH]; [reflexivity|]. cbn [insert map]. unfold Rle_b at 1 3.
  destruct (Rle_dec x y) as [H|H], (Rle_dec (sc x) (sc y)) as [G|G]; cbn [map]; try reflexivity.
  - exfalso. apply G. now apply Rmult_le_compat_l; [lra|].
  - exfalso. apply H. now apply Rmult_le_reg_l in G.
  - now rewrite IH.
Qed.
Lemma sort_scale (l : list R) : nsort (n := real_num) (map sc l) = map sc (nsort (n := real_num) l).
Proof. cbn [nsort real_num]. induction l as [|x l IH]; [reflexivity|]. unfold isort in *. cbn [fold_right map]. now rewrite IH, insert_scale. Qed.

Lemma mid_scale (l : list R) j : nth j (map sc l) 0%R = sc (nth j l 0%R).
Proof. rewrite <- (Rmult_0_r k) at 1. apply map_nth. Qed.
Lemma q0 : Q2R 0 = 0%R.
Proof. unfold Q2R. cbn. lra. Qed.
Lemma median_scale (l : list R) : median_of (A := real_num) (map sc l) = sc (median_of (A := real_num) l).
Proof. unfold median_of. rewrite sort_scale, map_length. change (@nq real_num 0) with (Q2R 0). rewrite q0. apply mid_scale. Qed.
Lemma abs_scale x y : Rabs (sc x - sc y) = sc (Rabs (x - y)).
Proof. replace (sc x - sc y)%R with (k * (x - y))%R by ring. rewrite Rabs_mult, (Rabs_pos_eq k) by lra. reflexivity. Qed.
Lemma deviation_scale (l : list R) c : deviation_of (A := real_num) (map sc l) (sc c) = sc (deviation_of (A := real_num) l c).
Proof.
  unfold deviation_of. rewrite sort_scale, map_map. rewrite <- median_scale, map_map. f_equal. apply map_ext. intro x. cbn [nabs nsub real_num]. apply abs_scale.
Qed.
Lemma eq_scale x y : Req_b (sc x) (sc y) = Req_b x y.
Proof. unfold Req_b. destruct (Req_EM_T x y) as [->|N], (Req_EM_T (sc _) (sc _)) as [E|E]; try reflexivity; try congruence. apply Rmult_eq_reg_l in E; [congruence|lra]. Qed.
Lemma zscore_scale a d v : modified_zscore (A := real_num) (sc a) (sc d) (sc v) = modified_zscore (A := real_num) a d v.
Proof.
  unfold modified_zscore. cbn [neqb nq ndiv nmul nsub real_num]. rewrite q0. assert (Z0 : Req_b (sc d) 0 = Req_b d 0) by (rewrite <- (Rmult_0_r k) at 1; apply eq_scale). rewrite Z0, !eq_scale.
  destruct (Req_b d 0) eqn:D.
  - cbn [andb]. destruct (Req_b v a); reflexivity.
  - cbn [andb]. unfold Req_b in D. destruct (Req_EM_T d 0) as [|D0]; [discriminate|]. change (@eq (N real_num)) with (@eq R). field. split; lra.
Qed.

Context (alpha thr_mag thr_var thr_broad : R) (step window wmh nt nc : Z) (m m' : Z -> Z -> R) (Hm : forall t c, m' t c = sc (m t c)).

Lemma samples_scale t : samples_at (A := real_num) step nc m' t = map sc (samples_at (A := real_num) step nc m t).
Proof. unfold samples_at. rewrite map_map. apply map_ext. auto. Qed.
Lemma med_scale t : med (A := real_num) step nc m' t = sc (med (A := real_num) step nc m t).
Proof. unfold med. rewrite samples_scale. apply median_scale. Qed.
Lemma dev_scale t : dev (A := real_num) step nc m' t = sc (dev (A := real_num) step nc m t).
Proof. unfold dev. rewrite med_scale, samples_scale. apply deviation_scale. Qed.
Lemma history_scale t : history (A := real_num) step wmh nc m' t = map sc (history (A := real_num) step wmh nc m t).
Proof. unfold history. rewrite map_map. apply map_ext. intro. apply med_scale. Qed.
Lemma mag_scale t c : detect_mag (A := real_num) thr_mag thr_broad step wmh nc m' t c = detect_mag (A := real_num) thr_mag thr_broad step wmh nc m t c.
Proof.
  unfold detect_mag, broadband. rewrite history_scale, median_scale, deviation_scale, med_scale, dev_scale, Hm, !zscore_scale. reflexivity.
Qed.
Lemma score_scale t c : score (A := real_num) alpha m' t c = sc (score (A := real_num) alpha m t c).
Proof.
  unfold score. induction (Z.to_nat t) as [|j IH]; [cbn [score_nat nq real_num]; rewrite q0; lra|].
  destruct j as [|j]; [cbn [score_nat nabs nsub real_num]; rewrite !Hm; apply abs_scale|].
  set (u := S j) in *. change (score_nat (A := real_num) alpha m' (S u) c) with
    (alpha * Rabs (m' (Z.of_nat (S u) - 1) c - m' (Z.of_nat (S u)) c) + (Q2R 1 - alpha) * score_nat (A := real_num) alpha m' u c)%R.
  change (score_nat (A := real_num) alpha m (S u) c) with
    (alpha * Rabs (m (Z.of_nat (S u) - 1) c - m (Z.of_nat (S u)) c) + (Q2R 1 - alpha) * score_nat (A := real_num) alpha m u c)%R.
  rewrite IH, !Hm, abs_scale. change (@eq (N real_num)) with (@eq R). ring.
Qed.
Lemma scores_scale t : scores_at (A := real_num) alpha step nc m' t = map sc (scores_at (A := real_num) alpha step nc m t).
Proof.
  unfold scores_at. rewrite map_map. apply map_ext. intro s. rewrite score_scale. cbn [nabs real_num]. rewrite Rabs_mult, (Rabs_pos_eq k) by lra. reflexivity.
Qed.
Lemma change_scale t c : detect_change (A := real_num) alpha thr_var step nc m' t c = detect_change (A := real_num) alpha thr_var step nc m t c.
Proof.
  unfold detect_change. rewrite scores_scale, median_scale, med_scale, deviation_scale, score_scale.
  cbn [nabs real_num]. rewrite Rabs_mult, (Rabs_pos_eq k) by lra. now rewrite zscore_scale.
Qed.
Lemma flagged_scale t c : flagged (A := real_num) alpha thr_mag thr_var thr_broad step window wmh nt nc m' t c <->
  flagged (A := real_num) alpha thr_mag thr_var thr_broad step window wmh nt nc m t c.
Proof.
  unfold flagged, detected. split; intros (d & Hd & D & N); exists d; (split; [exact Hd|]); (split; [|exact N]).
  - rewrite mag_scale, !change_scale in D. exact D.
  - rewrite mag_scale, !change_scale. exact D.
Qed.
End Scale.

Lemma Cmag_mul a z : Cmag (Cmul a z) = (Cmag a * Cmag z)%R.
Proof.
  unfold Cmag. rewrite <- sqrt_mult_alt.
  - f_equal. unfold Cnorm2, Cmul. cbn [re im fst snd]. ring.
  - unfold Cnorm2. nra.
Qed.
Lemma Cmag_pos a : a <> C0 -> (0 < Cmag a)%R.
Proof. intro H. unfold Cmag. apply sqrt_lt_R0. now apply Cnorm2_pos. Qed.
