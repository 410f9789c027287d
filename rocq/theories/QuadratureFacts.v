(** Soundness of the bounds of QuadratureCells.v *)
From Coq Require Import Reals Lia Lra.
From Verif Require Import Base BaseFacts Legendre LegendreFacts LegendreBounds CosZ LegendreZ QuadratureCells.
Open Scope Z_scope.

Section Boxes.
Context (m : nat) (acc : R) (Hm : (2 <= m)%nat) (Ha : (0 <= acc <= 1 / 10 ^ 13)%R).
Notation n := (S m).
(** [l] holds the nodes and weights from index [i] on *)
Fixpoint computed (i : Z) (l : list (R * R)) : Prop := match l with [] => True | xw :: l => calculate_legendre_root i (Z.of_nat n) acc = Some xw /\ computed (i + 1) l end.
Definition enclosed (b : cell) (xw : R * R) : Prop :=
  (64 * IZR (cz b) - IZR (crho b) <= fst xw * r50 <= 64 * IZR (cz b) + IZR (crho b) /\ IZR (cwl b) <= snd xw * r40 <= IZR (cwh b))%R /\ 0 < cwl b /\ (0 < fst xw < 1)%R /\ 0 <= 64 * cz b - crho b /\
  exists y, leg n y = 0%R /\ (Rabs (fst xw - y) <= 1 / 10 ^ 11)%R.
Lemma one_sound i C x w : leqs (facts m i C) && (200000000000 * crho C <=? z50) = true -> calculate_legendre_root i (Z.of_nat n) acc = Some (x, w) -> enclosed C (x, w).
Proof.
  intros H E. apply andb_prop in H. destruct H as [H1 Hw]. apply Z.leb_le in Hw. destruct (cell_sound m i C Hm H1 acc x w Ha E) as (X & (W1 & W2) & I & Wp & _). destruct (cell_root m i C Hm H1) as (y & Ey & Y).
  destruct (sound_range m i C H1) as (_ & R2 & _ & R4 & _ & _ & _ & _ & _ & R10). apply rabs_in in X. apply rabs_in in Y. unfold ctr in *. apply IZR_le in Hw. rewrite mult_IZR in Hw. unfold enclosed. cbn [fst snd].
  split; [lra|]. split; [apply lt_IZR; lra|]. split; [exact I|]. split; [apply le_IZR; rewrite minus_IZR, mult_IZR; lra|]. exists y. split; [exact Ey|]. apply Rabs_le. cbn [pow]. lra.
Qed.
Lemma boxes_sound cs : forall i l, length l = length cs -> cells_ok m i cs = true -> computed i l -> Forall2 enclosed cs l.
Proof.
  induction cs as [|C cs IH]; intros i l Hl H K; destruct l as [|[x w] l]; try discriminate; [constructor|]. cbn [cells_ok] in H. apply andb_prop in H. destruct H as [H1 H2]. destruct K as [K1 K2].
  constructor; [|apply (IH (i + 1)); (assumption || (cbn in Hl; congruence))]. exact (one_sound i C x w H1 K1).
Qed.
Lemma decreasing_sound bs : forall l, decreasing bs = true -> Forall2 enclosed bs l -> forall j, (S j < length l)%nat -> (fst (nth (S j) l (0, 0)) < fst (nth j l (0, 0)))%R.
Proof.
  induction bs as [|b bs IH]; intros l D F j Hj; inversion F as [|? xw ? l' E F' E1 E2]; subst; cbn [length] in Hj; [lia|]. destruct bs as [|b' bs].
  - inversion F'. subst. cbn in Hj. lia.
  - cbn [decreasing] in D. apply andb_prop in D. destruct D as [D1 D2]. destruct j as [|j].
    + inversion F' as [|? xw' ? l'' E' F'' E3 E4]. subst. cbn [nth]. destruct E as ((E & _) & _). destruct E' as ((E' & _) & _). apply Z.ltb_lt in D1. apply IZR_lt in D1. rewrite plus_IZR, minus_IZR, !mult_IZR in D1. lra.
    + change (nth (S (S j)) (xw :: l') (0, 0))%R with (nth (S j) l' (0, 0))%R. change (nth (S j) (xw :: l') (0, 0))%R with (nth j l' (0, 0))%R. apply IH; [exact D2|exact F'|lia].
Qed.
(** Entries that enclose x^2 and w x^(2 k) *)
Definition pw (k : nat) (e : entry) (xw : R * R) : Prop := let '(ul, uh, yl, yh) := e in
  (IZR ul <= fst xw * fst xw * r40 <= IZR uh /\ IZR yl <= snd xw * fst xw ^ (2 * k) * r40 <= IZR yh)%R /\ 0 <= ul /\ 0 <= yl /\ (0 < fst xw < 1 /\ 0 < snd xw)%R.
Lemma start_sound C xw : enclosed C xw -> pw 0 (start C) xw.
Proof.
  destruct xw as [x w]. intros ((X & W) & Wp & I & P & _). unfold start, pw. cbv zeta. cbn [fst snd] in *. change (2 * 0)%nat with O. cbn [pow]. rewrite Rmult_1_r. set (a := 64 * cz C - crho C) in *. set (b := 64 * cz C + crho C).
  pose proof (shift_lo (a * a) 60 ltac:(lia)) as L. pose proof (shift_hi (b * b) 60 ltac:(lia)) as G. change (2 ^ 60) with z60 in *. rewrite mult_IZR in L, G. rewrite plus_IZR.
  assert (A : (IZR a <= x * r50)%R) by (unfold a; rewrite minus_IZR, mult_IZR; lra). assert (B : (x * r50 <= IZR b)%R) by (unfold b; rewrite plus_IZR, mult_IZR; lra).
  assert (Pa : (0 <= IZR a)%R) by (apply IZR_le; exact P).
  assert (A2 : (IZR a * IZR a <= (x * r50) * (x * r50))%R) by (apply Rmult_le_compat; lra). assert (B2 : ((x * r50) * (x * r50) <= IZR b * IZR b)%R) by (apply Rmult_le_compat; lra).
  split; [|split; [|split; [lia|]]].
  - split; split; lra.
  - apply Z.shiftr_nonneg. nia.
  - apply IZR_lt in Wp. split; lra.
Qed.
Lemma next_sound k e xw : pw k e xw -> pw (S k) (next e) xw.
Proof.
  destruct e as [[[ul uh] yl] yh]. unfold pw, next. intros (((U1 & U2) & L & H) & P1 & P2 & I & Wp). set (x := fst xw) in *. set (w := snd xw) in *. 
  assert (Ey : (w * x ^ (2 * S k) = w * x ^ (2 * k) * (x * x))%R). { replace (2 * S k)%nat with (S (S (2 * k))) by lia. cbn [pow]. ring. } rewrite Ey. set (y := (w * x ^ (2 * k))%R) in *.
  assert (Yp : (0 <= y)%R) by (unfold y; apply Rmult_le_pos; [lra|apply pow_le; lra]). set (u := (x * x)%R) in *. assert (Up : (0 <= u)%R) by (unfold u; nra).
  pose proof (shift_lo (yl * ul) 40 ltac:(lia)) as A. pose proof (shift_hi (yh * uh) 40 ltac:(lia)) as B. change (2 ^ 40) with 1099511627776 in *. rewrite mult_IZR in A, B. rewrite plus_IZR.
  assert (Q1 : (0 <= IZR ul)%R) by (now apply IZR_le). assert (Q2 : (0 <= IZR yl)%R) by (now apply IZR_le).
  assert (A2 : (IZR yl * IZR ul <= (y * r40) * (u * r40))%R) by (apply Rmult_le_compat; lra). assert (B2 : ((y * r40) * (u * r40) <= IZR yh * IZR uh)%R) by (apply Rmult_le_compat; lra).
  split; [split; split; lra|]. split; [exact P1|]. split; [apply Z.shiftr_nonneg; nia|]. split; assumption.
Qed.
Definition msum (k : nat) (l : list (R * R)) : R := fold_right (fun xw a => (snd xw * fst xw ^ (2 * k) + a)%R) 0%R l.
Lemma sums_sound k es l : Forall2 (pw k) es l -> (IZR (lows es) <= msum k l * r40 <= IZR (highs es))%R.
Proof.
  induction 1 as [|[[[ul uh] yl] yh] [x w] es l ((_ & L & H) & _) F IH]; [cbn; lra|]. cbn [lows highs msum fold_right]. fold (msum k l). rewrite !plus_IZR. cbn [fst snd] in *. lra.
Qed.
Lemma next_all k es l : Forall2 (pw k) es l -> Forall2 (pw (S k)) (map next es) l.
Proof. induction 1; constructor; [now apply next_sound|assumption]. Qed.
Lemma moments_sound f : forall k es l, moments f (Z.of_nat k) es = true -> Forall2 (pw k) es l -> forall j, (k <= j < k + f)%nat -> (Rabs (msum j l - 1 / (2 * INR j + 1)) <= 2 / 10 ^ 8)%R.
Proof.
  induction f as [|f IH]; intros k es l M F j Hj; [lia|]. cbn [moments] in M. apply andb_prop in M. destruct M as [M1 M2].
  destruct (Nat.eq_dec j k) as [->|N].
  - apply andb_prop in M1. destruct M1 as [L H]. apply Z.leb_le in L. apply Z.leb_le in H. destruct (sums_sound _ _ _ F) as [S1 S2]. apply IZR_le in L. apply IZR_le in H.
    assert (Eq : IZR (2 * Z.of_nat k + 1) = (2 * INR k + 1)%R) by (rewrite plus_IZR, mult_IZR, <- INR_IZR_INZ; reflexivity). rewrite !mult_IZR in L, H. rewrite minus_IZR, mult_IZR, Eq in L. rewrite (plus_IZR 1000000000), !mult_IZR, Eq in H. unfold tol in L, H.
    set (v := msum k l) in *. set (q := (2 * INR k + 1)%R) in *. assert (Q : (1 <= q)%R) by (unfold q; pose proof (pos_INR k); lra).
    assert (G1 : ((1000000000 - 20 * q) * r40 <= v * r40 * (1000000000 * q))%R) by (eapply Rle_trans; [exact L|]; apply Rmult_le_compat_r; lra).
    assert (G2 : (v * r40 * (1000000000 * q) <= (1000000000 + 20 * q) * r40)%R) by (eapply Rle_trans; [|exact H]; apply Rmult_le_compat_r; lra).
    assert (H1 : (1000000000 - 20 * q <= v * (1000000000 * q))%R) by lra. assert (H2 : (v * (1000000000 * q) <= 1000000000 + 20 * q)%R) by lra.
    assert (E : (v - 1 / q = (v * (1000000000 * q) - 1000000000) / (1000000000 * q))%R) by (field; lra). rewrite E. cbn [pow]. apply Rabs_le.
    set (Z0 := (v * (1000000000 * q) - 1000000000)%R) in *. assert (B : (Z0 / (1000000000 * q) * (1000000000 * q) = Z0)%R) by (field; lra).
    split; apply Rmult_le_reg_r with (1000000000 * q)%R; try rewrite B; unfold Z0; lra.
  - apply (IH (S k) (map next es) l); [|now apply next_all|lia]. replace (Z.of_nat (S k)) with (Z.of_nat k + 1) by lia. exact M2.
Qed.
End Boxes.
