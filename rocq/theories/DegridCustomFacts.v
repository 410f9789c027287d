From Coq Require Import QArith Lia.
From Verif Require Import Base BaseFacts Sum CRing QNum Clamp Sets DegridCustom DegridCustomSpec.
Open Scope Z_scope.

Lemma int_of_id z : in_int z -> int_of z = z.
Proof. unfold in_int, int_of. intro H. rewrite Z.mod_small; lia. Qed.
Lemma to_int_id z : in_int z -> to_int z = Some z.
Proof. unfold in_int, to_int. intro H. replace (_ && _) with true by lia. reflexivity. Qed.

Lemma fraction_range os k : 1 <= os -> 0 <= fraction os k < os.
Proof. intro H. unfold fraction. apply Z.mod_pos_bound. lia. Qed.
Lemma fraction_code os k m : 1 <= os -> os - 1 - (k + m * os + os - 1) mod os = fraction os k.
Proof.
  intro H. unfold fraction. replace (k + m * os + os - 1) with (k - 1 + (m + 1) * os) by ring. rewrite Z.mod_add by lia.
  pose proof (Z.div_mod (k - 1) os ltac:(lia)). pose proof (Z.mod_pos_bound (k - 1) os ltac:(lia)).
  apply Z.mod_unique_pos with (q := - ((k - 1) / os) - 1); lia.
Qed.
Lemma point_code size os k : 1 <= os -> (k + (size / 2 + 1) * os - 1) / os = point size os k.
Proof.
  intro H. unfold point. replace (k + (size / 2 + 1) * os - 1) with ((k + os - 1) + size / 2 * os) by ring. rewrite Z.div_add by lia. lia.
Qed.
(** The grid point and the fraction give the position. *)
Lemma point_fraction size os k : 1 <= os -> point size os k * os - fraction os k = size / 2 * os + k.
Proof.
  intro H. rewrite <- (fraction_code os k (size / 2)) by lia. rewrite <- point_code by lia.
  replace (k + size / 2 * os + os - 1) with (k + (size / 2 + 1) * os - 1) by ring.
  pose proof (Z.div_mod (k + (size / 2 + 1) * os - 1) os ltac:(lia)). lia.
Qed.

Lemma coordinate_ok (rnd : Q -> Z) size os o : 0 <= size -> 1 <= os -> in_int (rnd o) -> in_int (rnd o + (size / 2 + 1) * os - 1) ->
  exists h f, coordinate rnd size os o = Some (h, f) /\ 0 <= f <= 2 * os /\
    ((h = point size os (rnd o) /\ f = fraction os (rnd o)) \/ (h <= 0 /\ point size os (rnd o) <= 0)).
Proof.
  intros Hs Ho I1 I2. unfold coordinate. rewrite to_int_id by auto. cbn [bind]. cbv zeta.
  unfold cdiv. rewrite (Z.quot_div_nonneg size 2). 2: exact Hs. 2:reflexivity.
  set (i := rnd o + (size / 2 + 1) * os - 1) in *. rewrite int_of_id by auto. replace (os =? 0) with false by lia.
  eexists. eexists. split; [reflexivity|]. unfold cmod. destruct (Z.le_gt_cases 0 i) as [L|L].
  - rewrite Z.quot_div_nonneg, Z.rem_mod_nonneg by lia.
    assert (F : os - 1 - i mod os = fraction os (rnd o)).
    { rewrite <- (fraction_code os (rnd o) (size / 2)) by lia. f_equal. f_equal. unfold i. ring. }
    rewrite F. pose proof (fraction_range os (rnd o) ltac:(lia)). split; [lia|]. left. split; [|reflexivity]. now apply point_code.
  - pose proof (Z.rem_bound_pos_neg i os ltac:(lia) ltac:(lia)). pose proof (Z.quot_rem i os ltac:(lia)). split; [lia|]. right. split; [nia|].
    rewrite <- point_code by lia. fold i. pose proof (Z.div_lt_upper_bound i os 0 ltac:(lia) ltac:(lia)). lia.
Qed.

Section Sums.
Context {A : cring}.
Add Ring Aring : (rth A).
Lemma for_sum lo hi (F : Z -> A) body : lo <= hi -> (forall i x, lo <= i < hi -> body i x = Some (x + F i)%cr) ->
  for_ lo hi body r0 = Some (rsum lo hi F).
Proof.
  intros L B. rewrite (for_ext lo hi body (fun i x => Some (x + F i)%cr)) by (intros; auto). rewrite for_rsum. f_equal. ring.
Qed.
End Sums.

Section Facts.
Context (rnd : Q -> Z) {A : cring} (conj : A -> A) (ks wks xs ys zs nt nb nc np os osw : Z) (grid : nd A) (uvw : nd Q) (uvk wk : nd A) (theta wstep f0 df : Q) (conjugate : bool).
Context (G : geometry ks wks xs ys zs nt nb nc np os osw wstep) (Su : shape uvw = [nt * nb * 3]).
Context (Gu : shape uvk = [os * ks]) (Gw : shape wk = [osw * wks]) (Gg : shape grid = [nc * zs * ys * xs * np]).
Context (P : positions_ok rnd xs nt nb nc os osw uvw theta wstep f0 df).
Notation gx := (gx rnd xs nb os uvw theta f0 df).
Notation gy := (gy rnd xs nb os uvw theta f0 df).
Notation inside := (inside rnd ks xs ys nb os uvw theta f0 df).
Notation steps_x := (steps_x rnd nb os uvw theta f0 df).
Notation steps_y := (steps_y rnd nb os uvw theta f0 df).
Notation steps_z := (steps_z rnd nb osw uvw wstep f0 df).
Notation val := (degridded rnd conj ks wks xs ys zs nb np os osw grid uvw uvk wk theta wstep f0 df conjugate).
Notation wl := (wavelengths nb uvw f0 df).

Lemma coords_ok t b c : 0 <= t < nt -> 0 <= b < nb -> 0 <= c < nc ->
  exists sx sy sz hx hy, calculate_coordinates rnd xs (int_of ks) (int_of os) (int_of wks) (int_of osw) theta wstep (wl t b c 0) (wl t b c 1) (wl t b c 2) =
    Some (sx, sy, sz, hx, hy) /\
    ((hx >? ks / 2) && (hx <? xs - ks / 2) && (hy >? ks / 2) && (hy <? ys - ks / 2)) = inside t b c /\
    (inside t b c = true -> sx = ks * fraction os (steps_x t b c) /\ sy = ks * fraction os (steps_y t b c) /\
      sz = wks * fraction osw (steps_z t b c) /\ hx = gx t b c /\ hy = gy t b c).
Proof.
  intros Ht Hb Hc. destruct (P t b c Ht Hb Hc) as (Pxy & Z1 & Z2 & Z3). destruct (Pxy _ (or_introl eq_refl)) as (X1 & X2). destruct (Pxy _ (or_intror eq_refl)) as (Y1 & Y2).
  destruct G as [Gs Go Gd Gst Gi]. unfold calculate_coordinates. rewrite !(int_of_id _) by (unfold in_int; lia).
  destruct (coordinate_ok rnd xs os (theta * wl t b c 0 * inject_Z os) ltac:(lia) ltac:(lia) X1 X2) as (hx & fx & Ex & Rx & Cx).
  destruct (coordinate_ok rnd xs os (theta * wl t b c 1 * inject_Z os) ltac:(lia) ltac:(lia) Y1 Y2) as (hy & fy & Ey & Ry & Cy).
  rewrite Ex. cbn [bind]. rewrite Ey. cbn [bind]. destruct (Qeq_bool wstep 0) eqn:E; [apply Qeq_bool_iff in E; contradiction|].
  fold (steps_z t b c). rewrite to_int_id by exact Z1. cbn [bind]. rewrite to_int_id by exact Z2. cbn [bind].
  rewrite to_int_id by (unfold in_int in *; lia). cbn [bind]. replace (osw =? 0) with false by lia. cbv zeta.
  assert (Fz : osw - 1 - cmod (steps_z t b c + osw - 1) osw = fraction osw (steps_z t b c)).
  { unfold cmod. rewrite Z.rem_mod_nonneg by lia. rewrite <- (fraction_code osw _ 0) by lia. f_equal. f_equal. lia. }
  rewrite Fz. pose proof (fraction_range osw (steps_z t b c) ltac:(lia)) as Rz.
  assert (0 <= ks * fx <= 2 * ks * os) by nia. assert (0 <= ks * fy <= 2 * ks * os) by nia.
  assert (0 <= wks * fraction osw (steps_z t b c) <= wks * osw) by nia.
  rewrite !to_int_id by (unfold in_int; lia). cbn [bind]. eexists _, _, _, _, _. split; [reflexivity|].
  change (point xs os (rnd (theta * wl t b c 0 * inject_Z os))) with (gx t b c) in Cx.
  change (point xs os (rnd (theta * wl t b c 1 * inject_Z os))) with (gy t b c) in Cy.
  change (rnd (theta * wl t b c 0 * inject_Z os)) with (steps_x t b c) in Cx. change (rnd (theta * wl t b c 1 * inject_Z os)) with (steps_y t b c) in Cy.
  pose proof (Z.div_pos ks 2 ltac:(lia) ltac:(lia)). unfold DegridCustomSpec.inside. split.
  - lia.
  - intro I. assert (0 < gx t b c /\ 0 < gy t b c) by lia. destruct Cx as [[-> ->]|]; [|lia]. destruct Cy as [[-> ->]|]; [|lia]. auto.
Qed.

Lemma grid_index c z y x p : 0 <= c < nc -> 0 <= z < zs -> 0 <= y < ys -> 0 <= x < xs -> 0 <= p < np ->
  0 <= np * (xs * (ys * (zs * c + z) + y) + x) + p < nc * zs * ys * xs * np.
Proof.
  intros. pose proof (pos2_range nc zs c z ltac:(auto) ltac:(auto)). pose proof (pos2_range (nc * zs) ys (zs * c + z) y ltac:(auto) ltac:(auto)).
  pose proof (pos2_range (nc * zs * ys) xs (ys * (zs * c + z) + y) x ltac:(auto) ltac:(auto)). now apply pos2_range.
Qed.

Lemma pol_ok t b c p : 0 <= t < nt -> 0 <= b < nb -> 0 <= c < nc -> 0 <= p < np -> inside t b c = true ->
  degrid_pol ks wks xs ys zs np grid uvk wk c p (ks * fraction os (steps_x t b c)) (ks * fraction os (steps_y t b c)) (wks * fraction osw (steps_z t b c)) (gx t b c) (gy t b c) =
  Some (interpolate rnd ks wks xs ys zs nb np os osw grid uvw uvk wk theta wstep f0 df t b c p).
Proof.
  intros Ht Hb Hc Hp I. destruct G as [Gs Go Gd _ _]. unfold degrid_pol. cbv zeta. unfold cdiv. rewrite Z.quot_div_nonneg by lia.
  pose proof (Z.div_mod ks 2 ltac:(lia)). pose proof (Z.mod_pos_bound ks 2 ltac:(lia)). unfold DegridCustomSpec.inside in I.
  pose proof (fraction_range os (steps_x t b c) ltac:(lia)). pose proof (fraction_range os (steps_y t b c) ltac:(lia)). pose proof (fraction_range osw (steps_z t b c) ltac:(lia)).
  unfold interpolate. apply for_sum; [lia|]. intros z vl Hz.
  rewrite (for_sum 0 ks (fun y => kernel uvk ks (fraction os (steps_y t b c)) y * rsum 0 ks (fun x => kernel uvk ks (fraction os (steps_x t b c)) x *
    grid_value xs ys zs np grid c z (gy t b c + y - ks / 2)%Z (gx t b c + x - ks / 2)%Z p))%cr); [|lia|].
  - cbn [bind]. rewrite rd_some by (rewrite Gw; apply in_shape_1; nia). reflexivity.
  - intros y vz Hy. rewrite (for_sum 0 ks (fun x => kernel uvk ks (fraction os (steps_x t b c)) x *
      grid_value xs ys zs np grid c z (gy t b c + y - ks / 2)%Z (gx t b c + x - ks / 2)%Z p)%cr); [|lia|].
    + cbn [bind]. rewrite rd_some by (rewrite Gu; apply in_shape_1; nia). reflexivity.
    + intros x vy Hx. rewrite rd_some by (rewrite Gg; apply in_shape_1; apply grid_index; lia). cbn [bind].
      rewrite rd_some by (rewrite Gu; apply in_shape_1; nia). reflexivity.
Qed.

Definition written (idx : list Z) : bool :=
  own_all 0 nt (fun t => own_all 0 nb (fun b => own_all 0 nc (fun c idx => inside t b c && own_all 0 np (fun p => idx_eqb [pos4 nb nc np t b c p]) idx))) idx.

Lemma written_at t b c p : 0 <= t < nt -> 0 <= b < nb -> 0 <= c < nc -> 0 <= p < np -> written [pos4 nb nc np t b c p] = inside t b c.
Proof.
  intros Ht Hb Hc Hp. destruct (inside t b c) eqn:O.
  - apply own_all_true. exists t. split; [exact Ht|]. apply own_all_true. exists b. split; [exact Hb|]. apply own_all_true. exists c. split; [exact Hc|].
    rewrite O. cbn [andb]. apply own_all_true. exists p. split; [exact Hp|]. apply idx_eqb_refl.
  - apply own_all_false. intros t' Ht'. apply own_all_false. intros b' Hb'. apply own_all_false. intros c' Hc'.
    destruct (inside t' b' c') eqn:O'; [|reflexivity]. cbn [andb]. apply own_all_false. intros p' Hp'. apply idx_eqb_neq. intro X. injection X as X.
    apply pos4_inj in X; auto. destruct X as (-> & -> & -> & _). congruence.
Qed.

Lemma degrid_ok (Er : rnd = qround) (vis : nd A) : shape vis = [nt * nb * nc * np] ->
  exists r, degrid_uvw_custom conj ks wks xs ys zs nt nb nc np grid uvw uvk wk os osw theta wstep f0 df conjugate vis = Some r /\ shape r = [nt * nb * nc * np] /\
    forall t b c p, 0 <= t < nt -> 0 <= b < nb -> 0 <= c < nc -> 0 <= p < np ->
      vis_at nb nc np r t b c p = if inside t b c then val t b c p else vis_at nb nc np vis t b c p.
Proof.
  intro Sv. unfold degrid_uvw_custom. cbv zeta.
  pose (V := fun (idx : list Z) (x : A) => forall t b c p, 0 <= t < nt -> 0 <= b < nb -> 0 <= c < nc -> 0 <= p < np -> idx = [pos4 nb nc np t b c p] -> x = val t b c p).
  enough (X : sets [nt * nb * nc * np] written V (degrid_uvw_custom conj ks wks xs ys zs nt nb nc np grid uvw uvk wk os osw theta wstep f0 df conjugate)).
  { destruct (X vis Sv) as (r & E & Sr & P1 & P2). exists r. split; [exact E|]. split; [exact Sr|]. intros t b c p Ht Hb Hc Hp.
    pose proof (written_at t b c p Ht Hb Hc Hp) as W. unfold vis_at. destruct (inside t b c); [|now apply P2]. now apply (P1 _ W). }
  unfold degrid_uvw_custom. cbv zeta. rewrite <- Er. unfold written. apply sets_for. intros t Ht. apply sets_for. intros b Hb.
  change (INDEX_3D nb 3 t b 0) with (pos3 nb 3 t b 0).
  pose proof (pos3_range nt nb 3 t b 0 Ht Hb ltac:(lia)). pose proof (pos3_range nt nb 3 t b 1 Ht Hb ltac:(lia)). pose proof (pos3_range nt nb 3 t b 2 Ht Hb ltac:(lia)).
  replace (pos3 nb 3 t b 0 + 1) with (pos3 nb 3 t b 1) by (unfold pos3; lia). replace (pos3 nb 3 t b 0 + 2) with (pos3 nb 3 t b 2) by (unfold pos3; lia).
  rewrite !rd_some by (rewrite Su; apply in_shape_1; lia). cbn [bind]. apply sets_for. intros c Hc.
  destruct (coords_ok t b c Ht Hb Hc) as (sx & sy & sz & hx & hy & E & I & Val).
  unfold wavelengths in E. rewrite E. cbn [bind]. unfold cdiv. destruct G as [Gs _ _ _ _]. rewrite Z.quot_div_nonneg by lia. rewrite I.
  destruct (inside t b c) eqn:O; cbn [negb andb].
  2:{ eapply sets_ext; [apply sets_skip|reflexivity|reflexivity]. }
  destruct (Val eq_refl) as (-> & -> & -> & -> & ->).
  eapply sets_ext; [|reflexivity|reflexivity]. apply sets_for. intros p Hp. rewrite pol_ok by auto. cbn [bind].
  change (INDEX_4D nb nc np t b c p) with (pos4 nb nc np t b c p). apply sets_wr.
  - apply in_shape_1. now apply pos4_range.
  - intros t' b' c' p' Ht' Hb' Hc' Hp' Eq. injection Eq as Eq. apply pos4_inj in Eq; auto. now destruct Eq as (-> & -> & -> & ->).
Qed.
End Facts.
