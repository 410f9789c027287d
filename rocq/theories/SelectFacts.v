(** Proofs about bounds, planes and visibility counts. *)
From Verif Require Import Base BaseFacts Sum Clamp ClampSpec ClampFacts ClampFacts2 Select SelectSpec.
From Coq Require Import Lqa Qfield Permutation.
Open Scope Z_scope.

Notation zs := (sum Z.add 0).

(** *** Bounds *)
Definition row_used (s_in e_in : nd Z) (i : Z) : Prop := elem s_in [i] < elem e_in [i].

Lemma Qltb_cases a b : (Qltb a b = true /\ (a < b)%Q) \/ (Qltb a b = false /\ (b <= a)%Q).
Proof.
  destruct (Qltb a b) eqn:E; [left|right]; split; auto; [now apply Qltb_lt|now apply Qltb_ge].
Qed.

(** Accumulating a minimum: a bound on everything so far and one of the values seen. *)

Lemma is_min_step (P P' : Q -> Prop) m a :
  is_min P m -> (exists x, P' x /\ (x == a)%Q) -> (forall x, P' x -> P x \/ (a <= x)%Q) ->
  (forall x, P x -> P' x) -> is_min P' (std_min a m).
Proof.
  intros H Ha HP HI. destruct m as [m|]; cbn in *.
  - destruct H as [(x & Hx & Ex) H]. destruct (Qltb_cases m a) as [[-> L]|[-> L]].
    + split; [exists x; auto|]. intros y Hy. destruct (HP y Hy) as [K|K]; [apply H; exact K|lra].
    + split; [exact Ha|]. intros y Hy. destruct (HP y Hy) as [K|K]; [apply H in K; lra|exact K].
  - split; [exact Ha|]. intros y Hy. destruct (HP y Hy) as [K|K]; [now apply H in K|exact K].
Qed.
Lemma is_max_step (P P' : Q -> Prop) m a :
  is_max P m -> (exists x, P' x /\ (x == a)%Q) -> (forall x, P' x -> P x \/ (x <= a)%Q) ->
  (forall x, P x -> P' x) -> is_max P' (std_max a m).
Proof.
  intros H Ha HP HI. destruct m as [m|]; cbn in *.
  - destruct H as [(x & Hx & Ex) H]. destruct (Qltb_cases a m) as [[-> L]|[-> L]].
    + split; [exists x; auto|]. intros y Hy. destruct (HP y Hy) as [K|K]; [apply H; exact K|lra].
    + split; [exact Ha|]. intros y Hy. destruct (HP y Hy) as [K|K]; [apply H in K; lra|exact K].
  - split; [exact Ha|]. intros y Hy. destruct (HP y Hy) as [K|K]; [now apply H in K|exact K].
Qed.

(** Coordinates of component [j] in rows below [k]. *)

Lemma coord_code u f0 df c : (f0 * u / C_0 + inject_Z c * (df * u / C_0) == coord u f0 df c)%Q.
Proof. unfold coord. field. discriminate. Qed.

Lemma coord_mono u f0 df c c' : (0 <= df)%Q -> c <= c' ->
  ((0 <= u)%Q -> (coord u f0 df c <= coord u f0 df c')%Q) /\
  ((u <= 0)%Q -> (coord u f0 df c' <= coord u f0 df c)%Q).
Proof.
  intros Hd Hc. rewrite (coord_affine u f0 df c), (coord_affine u f0 df c').
  assert (Hcc : (inject_Z c <= inject_Z c')%Q) by (now rewrite <- Zle_Qle).
  assert (S : (coord_step u df == u * df * / C_0)%Q) by reflexivity.
  split; intro Hu.
  - assert (0 <= coord_step u df)%Q.
    { rewrite S. apply Qmult_le_0_compat; [apply Qmult_le_0_compat; assumption|discriminate]. }
    nra.
  - assert (coord_step u df <= 0)%Q.
    { rewrite S. assert (0 <= (- u) * df)%Q by (apply Qmult_le_0_compat; lra).
      assert (0 <= (- u) * df * / C_0)%Q by (apply Qmult_le_0_compat; [assumption|discriminate]). lra. }
    nra.
Qed.

Lemma bounds_row_lemma uvw f0 df s_in e_in n i st :
  (0 <= df)%Q -> shape uvw = [n; 3] -> shape s_in = [n] -> shape e_in = [n] -> 0 <= i < n ->
  shape (fst st) = [3] -> shape (snd st) = [3] ->
  (forall j, 0 <= j < 3 -> is_min (coords uvw f0 df s_in e_in j i) (elem (fst st) [j]) /\
                           is_max (coords uvw f0 df s_in e_in j i) (elem (snd st) [j])) ->
  exists st', bounds_row uvw f0 df s_in e_in i st = Some st' /\
  shape (fst st') = [3] /\ shape (snd st') = [3] /\
  (forall j, 0 <= j < 3 -> is_min (coords uvw f0 df s_in e_in j (i + 1)) (elem (fst st') [j]) /\
                           is_max (coords uvw f0 df s_in e_in j (i + 1)) (elem (snd st') [j])).
Proof.
  intros Hd SU SS SE Hi S1 S2 H. unfold bounds_row.
  rewrite rd_some by (rewrite SS; apply in_shape_1; lia). cbn [bind].
  rewrite rd_some by (rewrite SE; apply in_shape_1; lia). cbn [bind].
  set (s := elem s_in [i]). set (e := elem e_in [i]).
  destruct (Z.geb_spec s e) as [L|L].
  - exists st. repeat split; auto; apply H in H0; destruct H0 as [A B].
    + destruct (elem (fst st) [j]) as [m|]; cbn in *.
      * destruct A as [(x & (i0 & c & X1 & X2 & X3) & E) A]. split.
        -- exists x. split; [|exact E]. exists i0, c. repeat split; auto; lia.
        -- intros y (i1 & c1 & Y1 & Y2 & Y3). apply A. exists i1, c1. repeat split; auto; try lia.
           destruct (Z.eq_dec i1 i); [subst i1; unfold s, e in L; lia|lia].
      * intros y (i1 & c1 & Y1 & Y2 & Y3). apply (A y). exists i1, c1. repeat split; auto; try lia.
        destruct (Z.eq_dec i1 i); [subst i1; unfold s, e in L; lia|lia].
    + destruct (elem (snd st) [j]) as [m|]; cbn in *.
      * destruct B as [(x & (i0 & c & X1 & X2 & X3) & E) B]. split.
        -- exists x. split; [|exact E]. exists i0, c. repeat split; auto; lia.
        -- intros y (i1 & c1 & Y1 & Y2 & Y3). apply B. exists i1, c1. repeat split; auto; try lia.
           destruct (Z.eq_dec i1 i); [subst i1; unfold s, e in L; lia|lia].
      * intros y (i1 & c1 & Y1 & Y2 & Y3). apply (B y). exists i1, c1. repeat split; auto; try lia.
        destruct (Z.eq_dec i1 i); [subst i1; unfold s, e in L; lia|lia].
  - match goal with |- exists st', for_ 0 3 ?f st = _ /\ _ => set (body := f) end.
    destruct (for_inv (fun k t => shape (fst t) = [3] /\ shape (snd t) = [3] /\
        (forall j, 0 <= j < k -> is_min (coords uvw f0 df s_in e_in j (i + 1)) (elem (fst t) [j]) /\
                           is_max (coords uvw f0 df s_in e_in j (i + 1)) (elem (snd t) [j])) /\
        (forall j, k <= j < 3 -> is_min (coords uvw f0 df s_in e_in j i) (elem (fst t) [j]) /\
                           is_max (coords uvw f0 df s_in e_in j i) (elem (snd t) [j])))
       0 3 body st) as (st' & E & P1 & P2 & P3 & _).
    + lia.
    + split; [auto|]. split; [auto|]. split; [intros; lia|exact H].
    + intros j [a b] Hj (Q1 & Q2 & Q3 & Q4). cbn [fst snd] in *. unfold body. cbn [fst snd].
      rewrite rd_some by (rewrite SU; apply in_shape_2; lia). cbn [bind].
      rewrite rd_some by (rewrite Q1; apply in_shape_1; lia). cbn [bind].
      rewrite rd_some by (rewrite Q2; apply in_shape_1; lia). cbn [bind].
      set (u := elem uvw [i; j]).
      set (first := (f0 * u / C_0 + inject_Z s * (df * u / C_0))%Q).
      set (last := (f0 * u / C_0 + inject_Z (e - 1) * (df * u / C_0))%Q).
      assert (E1 : (coord u f0 df s == first)%Q) by (symmetry; apply coord_code).
      assert (E2 : (coord u f0 df (e - 1) == last)%Q) by (symmetry; apply coord_code).
      assert (exists lo hi, (if Qle_bool 0 u then (first, last) else (last, first)) = (lo, hi) /\
        (exists x, coords uvw f0 df s_in e_in j (i + 1) x /\ (x == lo)%Q) /\
        (exists x, coords uvw f0 df s_in e_in j (i + 1) x /\ (x == hi)%Q) /\
        forall c, s <= c < e -> (lo <= coord u f0 df c)%Q /\ (coord u f0 df c <= hi)%Q)
        as (lo & hi & EL & X1 & X2 & X3).
      { assert (F1 : coords uvw f0 df s_in e_in j (i + 1) (coord u f0 df s)).
        { exists i, s. split; [lia|]. split; [|reflexivity]. change (s <= s < e). lia. }
        assert (F2 : coords uvw f0 df s_in e_in j (i + 1) (coord u f0 df (e - 1))).
        { exists i, (e - 1). split; [lia|]. split; [|reflexivity]. change (s <= e - 1 < e). lia. }
        destruct (Qle_bool 0 u) eqn:EU.
        - apply Qle_bool_iff in EU. exists first, last. split; [reflexivity|].
          split; [eexists; split; [exact F1|exact E1]|]. split; [eexists; split; [exact F2|exact E2]|].
          intros c Hc. rewrite <- E1, <- E2.
          split; [apply (proj1 (coord_mono u f0 df s c Hd ltac:(lia)) EU)|apply (proj1 (coord_mono u f0 df c (e - 1) Hd ltac:(lia)) EU)].
        - assert (EU' : (u <= 0)%Q).
          { destruct (Qlt_le_dec 0 u) as [K|K]; [|exact K]. apply Qlt_le_weak in K.
            apply Qle_bool_iff in K. congruence. }
          exists last, first. split; [reflexivity|].
          split; [eexists; split; [exact F2|exact E2]|]. split; [eexists; split; [exact F1|exact E1]|].
          intros c Hc. rewrite <- E1, <- E2.
          split; [apply (proj2 (coord_mono u f0 df c (e - 1) Hd ltac:(lia)) EU')|apply (proj2 (coord_mono u f0 df s c Hd ltac:(lia)) EU')]. }
      rewrite EL. rewrite wr_some by (rewrite Q1; apply in_shape_1; lia). cbn [bind].
      rewrite wr_some by (rewrite Q2; apply in_shape_1; lia). cbn [bind].
      eexists. split; [reflexivity|]. cbn [fst snd]. rewrite !shape_upd.
      split; [auto|]. split; [auto|].
      assert (INC : forall x, coords uvw f0 df s_in e_in j i x -> coords uvw f0 df s_in e_in j (i + 1) x).
      { intros x (i1 & c1 & Y1 & Y2 & Y3). exists i1, c1. repeat split; auto; lia. }
      assert (NEW : forall x, coords uvw f0 df s_in e_in j (i + 1) x -> coords uvw f0 df s_in e_in j i x \/
                 (exists c, s <= c < e /\ x = coord u f0 df c)).
      { intros x (i1 & c1 & Y1 & Y2 & Y3). destruct (Z.eq_dec i1 i) as [->|N].
        - right. exists c1. auto.
        - left. exists i1, c1. repeat split; auto; lia. }
      destruct (Q4 j ltac:(lia)) as [M1 M2]. split.
      * intros j' Hj'. destruct (Z.eq_dec j' j) as [->|N].
        -- rewrite !elem_upd_same. split.
           ++ eapply is_min_step; eauto. intros x Hx. destruct (NEW x Hx) as [K|(c & Hc & ->)]; [now left|right; now apply X3].
           ++ eapply is_max_step; eauto. intros x Hx. destruct (NEW x Hx) as [K|(c & Hc & ->)]; [now left|right; now apply X3].
        -- rewrite !elem_upd_other by congruence. apply Q3. lia.
      * intros j' Hj'. rewrite !elem_upd_other by (intro X; injection X; lia). apply Q4. lia.
    + exists st'. split; [exact E|]. split; [auto|]. split; [auto|]. exact P3.
Qed.

Lemma uvw_bounds_lemma uvw f0 df s_in e_in n :
  (0 <= df)%Q -> 0 <= n -> shape uvw = [n; 3] -> shape s_in = [n] -> shape e_in = [n] ->
  exists mn mx, uvw_bounds uvw f0 df s_in e_in = Some (mn, mx) /\ shape mn = [3] /\ shape mx = [3] /\
  forall j, 0 <= j < 3 ->
    is_min (coords uvw f0 df s_in e_in j n) (elem mn [j]) /\
    is_max (coords uvw f0 df s_in e_in j n) (elem mx [j]).
Proof.
  intros Hd Hn SU SS SE. unfold uvw_bounds, dim. rewrite SU. cbn [nth].
  destruct (for_inv (fun k t => shape (fst t) = [3] /\ shape (snd t) = [3] /\
        (forall j, 0 <= j < 3 -> is_min (coords uvw f0 df s_in e_in j k) (elem (fst t) [j]) /\
                           is_max (coords uvw f0 df s_in e_in j k) (elem (snd t) [j])))
       0 n (bounds_row uvw f0 df s_in e_in) (mk_nd [3] (fun _ => None), mk_nd [3] (fun _ => None)))
    as ([mn mx] & E & P1 & P2 & P3).
  - exact Hn.
  - cbn. split; [auto|]. split; [auto|]. intros j Hj. split; intros x (i & c & K & _); lia.
  - intros i st Hi (A & B & C). destruct (bounds_row_lemma uvw f0 df s_in e_in n i st) as (st' & X); auto. exists st'. tauto.
  - exists mn, mx. auto.
Qed.

(** *** Planes cover *)
Lemma floor_le x : (inject_Z (Qfloor x) <= x)%Q. Proof. apply Qfloor_le. Qed.
Lemma floor_lt x : (x < inject_Z (Qfloor x + 1))%Q. Proof. apply Qlt_floor. Qed.
Lemma floor_ge x c : c <= Qfloor x <-> (inject_Z c <= x)%Q.
Proof.
  split; intro H.
  - apply Qle_trans with (inject_Z (Qfloor x)); [now rewrite <- Zle_Qle|apply Qfloor_le].
  - rewrite <- (Qfloor_Z c). now apply Qfloor_resp_le.
Qed.

Lemma cells_cover P lo hi d x : {P} + {~ P} -> (0 < d)%Q -> (lo <= x)%Q -> (x <= hi)%Q ->
  in_range_directed P x (cell_min d (first_cell lo d)) (cell_max d (last_cell hi d)).
Proof.
  intros D Hd H1 H2.
  assert (A : (cell_min d (first_cell lo d) < x)%Q).
  { unfold cell_min, first_cell. set (f := Qfloor _).
    assert (F : (inject_Z f <= lo / d + (1 # 2) - eta)%Q) by apply Qfloor_le.
    assert (G : (inject_Z f * d <= (lo / d + (1 # 2) - eta) * d)%Q) by (apply Qmult_le_compat_r; lra).
    assert (K : ((lo / d + (1 # 2) - eta) * d == lo + d / 2 - eta * d)%Q) by (field; lra).
    assert (0 < eta * d)%Q by (unfold eta; lra).
    rewrite K in G. lra. }
  assert (B : (x < cell_max d (last_cell hi d))%Q).
  { unfold cell_max, last_cell. set (f := Qfloor _).
    assert (F : (hi / d + (1 # 2) + eta < inject_Z (f + 1))%Q) by apply Qlt_floor.
    assert (G : ((hi / d + (1 # 2) + eta) * d < inject_Z (f + 1) * d)%Q) by (apply Qmult_lt_compat_r; lra).
    assert (K : ((hi / d + (1 # 2) + eta) * d == hi + d / 2 + eta * d)%Q) by (field; lra).
    assert (0 < eta * d)%Q by (unfold eta; lra).
    rewrite K in G. lra. }
  destruct D as [p|p]; [left|right]; (split; [auto|lra]).
Qed.

Lemma cells_order lo hi d : (0 < d)%Q -> (lo <= hi)%Q -> first_cell lo d <= last_cell hi d.
Proof.
  intros Hd H. unfold first_cell, last_cell. apply Qfloor_resp_le.
  assert (lo / d <= hi / d)%Q by (apply Qle_shift_div_l; [auto|]; setoid_replace (lo / d * d)%Q with lo by (field; lra); auto).
  unfold eta. lra.
Qed.

Lemma cell_mono d : (0 < d)%Q -> mono (cell_min d).
Proof.
  intros Hd i. unfold cell_min. rewrite inject_Z_plus. change (inject_Z 1) with 1%Q. lra.
Qed.

Lemma plane_mono w off : (0 < w)%Q -> mono (plane_min w off).
Proof.
  intros Hd i. unfold plane_min. replace (i + 1 + off - 1) with (i + off - 1 + 1) by lia.
  rewrite inject_Z_plus. change (inject_Z 1) with 1%Q. lra.
Qed.

Lemma planes_cover P lo hi w off x : {P} + {~ P} -> (0 < w)%Q -> (lo <= x)%Q -> (x <= hi)%Q ->
  in_range_directed P x (plane_min w off (first_w_plane lo w off)) (plane_max w off (last_w_plane hi w off)).
Proof.
  intros D Hw H1 H2.
  assert (A : (plane_min w off (first_w_plane lo w off) < x)%Q).
  { unfold plane_min, first_w_plane. set (f := Qfloor _).
    assert (F : (inject_Z f <= lo / w - eta)%Q) by apply Qfloor_le.
    assert (G : (inject_Z f * w <= (lo / w - eta) * w)%Q) by (apply Qmult_le_compat_r; lra).
    assert (K : ((lo / w - eta) * w == lo - eta * w)%Q) by (field; lra).
    assert (0 < eta * w)%Q by (unfold eta; lra).
    replace (f - off + off - 1) with (f + -1) by lia. rewrite inject_Z_plus. change (inject_Z (-1)) with (-1)%Q.
    rewrite K in G. lra. }
  assert (B : (x < plane_max w off (last_w_plane hi w off))%Q).
  { unfold plane_max, last_w_plane. set (f := Qceiling _).
    assert (F : (hi / w + eta <= inject_Z f)%Q) by apply Qle_ceiling.
    assert (G : ((hi / w + eta) * w <= inject_Z f * w)%Q) by (apply Qmult_le_compat_r; lra).
    assert (K : ((hi / w + eta) * w == hi + eta * w)%Q) by (field; lra).
    assert (0 < eta * w)%Q by (unfold eta; lra).
    replace (f - off + 1 + off) with (f + 1) by lia. rewrite inject_Z_plus. change (inject_Z 1) with 1%Q.
    rewrite K in G. lra. }
  destruct D as [p|p]; [left|right]; (split; [auto|lra]).
Qed.

Lemma planes_order lo hi w off : (0 < w)%Q -> (lo <= hi)%Q -> first_w_plane lo w off <= last_w_plane hi w off.
Proof.
  intros Hd H. unfold first_w_plane, last_w_plane.
  assert (L : (lo / w <= hi / w)%Q)
    by (apply Qle_shift_div_l; [auto|]; setoid_replace (lo / w * w)%Q with lo by (field; lra); auto).
  assert (Qfloor (lo / w - eta) <= Qceiling (hi / w + eta)); [|lia].
  pose proof (Qfloor_le (lo / w - eta)). pose proof (Qle_ceiling (hi / w + eta)).
  rewrite Zle_Qle. unfold eta in *. lra.
Qed.
