From Verif Require Import Base BaseFacts Sum CRing Loops Clamp ClampSpec ClampFacts ClampFacts2 QNum WTower WTowerSpec WTowerFacts.
From Coq Require Import Lqa Lia.
Open Scope Z_scope.

Lemma qround_compat a b : (a == b)%Q -> qround a = qround b.
Proof. intro H. apply Z.le_antisymm; apply qround_mono; lra. Qed.

Lemma floor_lt_neg h x : (Qfloor x <? h) = negb (Qle_bool (inject_Z h) x).
Proof.
  destruct (Qfloor x <? h) eqn:E.
  - destruct (Qle_bool (inject_Z h) x) eqn:F; [|reflexivity]. apply Qle_bool_iff in F.
    apply Qfloor_resp_le in F. rewrite Qfloor_Z in F. lia.
  - destruct (Qle_bool (inject_Z h) x) eqn:F; [reflexivity|]. exfalso.
    assert (~ (inject_Z h <= x)%Q) by (intro Q; apply Qle_bool_iff in Q; congruence).
    pose proof (Qfloor_le x). assert (inject_Z h <= inject_Z (Qfloor x))%Q by (rewrite <- Zle_Qle; lia). lra.
Qed.
Lemma ceil_ge h x : (Qceiling x >=? h) = negb (Qle_bool x (inject_Z h - 1)).
Proof.
  destruct (Qceiling x >=? h) eqn:E.
  - destruct (Qle_bool x (inject_Z h - 1)) eqn:F; [|reflexivity]. apply Qle_bool_iff in F.
    apply Qceiling_resp_le in F. replace (Qceiling (inject_Z h - 1)) with (h - 1) in F; [lia|].
    rewrite <- (Qceiling_Z (h - 1)). apply Qceiling_comp. unfold Z.sub. rewrite inject_Z_plus. reflexivity.
  - destruct (Qle_bool x (inject_Z h - 1)) eqn:F; [reflexivity|]. exfalso.
    assert (~ (x <= inject_Z h - 1)%Q) by (intro Q; apply Qle_bool_iff in Q; congruence).
    pose proof (Qle_ceiling x). assert (inject_Z (Qceiling x) <= inject_Z (h - 1))%Q by (rewrite <- Zle_Qle; lia).
    unfold Z.sub in H1. rewrite inject_Z_plus in H1. change (inject_Z (- (1))) with (- (1))%Q in H1. lra.
Qed.

Lemma Qle_bool_comp a b c d : (a == b)%Q -> (c == d)%Q -> Qle_bool a c = Qle_bool b d.
Proof.
  intros H H'. destruct (Qle_bool a c) eqn:E, (Qle_bool b d) eqn:F; auto.
  - apply Qle_bool_iff in E. assert (G : (b <= d)%Q) by lra. apply Qle_bool_iff in G. congruence.
  - apply Qle_bool_iff in F. assert (G : (a <= c)%Q) by lra. apply Qle_bool_iff in G. congruence.
Qed.

Section Ok.
  Context {A : cring} (plan : wplan A) (w_plane off_u off_v off_w : Z) (f0 df : Q)
    (start_row end_row : Z) (uvws : nd Q) (scs ecs : nd Z).
  Add Ring Ar2 : (rth A).

  Definition rng (i : Z) : Z * Z :=
    plane_channels plan w_plane off_w f0 df (elem uvws [i; 2]) (elem scs [i]) (elem ecs [i]).
  Definition pu (i c : Z) : Q := pos plan (elem uvws [i; 0]) f0 df c off_u.
  Definition pv (i c : Z) : Q := pos plan (elem uvws [i; 1]) f0 df c off_v.
  Definition pw (i c : Z) : Q := wpos plan (elem uvws [i; 2]) f0 df c w_plane off_w.
  Definition passb (i : Z) : bool :=
    let half := inject_Z (subgrid_size plan / 2) in
    Qle_bool (- half) (pu i (fst (rng i))) && Qle_bool (pu i (snd (rng i) - 1)) (half - 1) &&
    Qle_bool (- half) (pv i (fst (rng i))) && Qle_bool (pv i (snd (rng i) - 1)) (half - 1).
  Definition keptb (i : Z) : bool :=
    (elem scs [i] <? elem ecs [i]) && (fst (rng i) <? snd (rng i)) && passb i.
  Definition procb (i c : Z) : bool := keptb i && (fst (rng i) <=? c) && (c <? snd (rng i)).

  Lemma procb_spec i c : procb i c = true <-> processed plan w_plane off_u off_v off_w f0 df uvws scs ecs i c.
  Proof.
    unfold procb, keptb, passb, processed, passes. fold (rng i). cbv zeta. fold (pu i (fst (rng i))). fold (pv i (fst (rng i))).
    fold (pu i (snd (rng i) - 1)). fold (pv i (snd (rng i) - 1)).
    rewrite !Bool.andb_true_iff, !Z.ltb_lt, Z.leb_le, !Qle_bool_iff. intuition lia.
  Qed.

  (** The simplified control flow. *)
  Definition skel2 {S} (act : Z -> Z -> Z -> Z -> Z -> Z -> Z -> S -> option S) (st : S) : option S :=
    for_ start_row end_row (fun i st =>
      if keptb i then for_ (fst (rng i)) (snd (rng i)) (fun c st =>
        act i c (corner plan (pu i c)) (corner plan (pv i c))
          (krow plan (pu i c) * support plan) (krow plan (pv i c) * support plan)
          (wrow plan (pw i c) * w_support plan) st) st
      else Some st) st.

  Context (n m : Z) (POK : plan_ok plan) (ROK : rows_ok uvws scs ecs n m start_row end_row)
    (SAFE : forall i, start_row <= i < end_row -> row_safe plan w_plane off_u off_v off_w f0 df uvws scs ecs i).

  Lemma coord_pos x off c : (0 < theta plan)%Q ->
    (theta plan * (x * (f0 / C_0) - inject_Z off / theta plan + inject_Z c * (x * (df / C_0))) == pos plan x f0 df c off)%Q.
  Proof. clear SAFE ROK.
    intro T. unfold pos, coord. assert (K : ~ (C_0 == 0)%Q) by (unfold C_0; discriminate).
    field. split; [exact K|lra].
  Qed.
  Lemma coord_wpos x c : (0 < w_step plan)%Q ->
    ((x * (f0 / C_0) - inject_Z (off_w + w_plane - 1) * w_step plan + inject_Z c * (x * (df / C_0))) *
       (1 / w_step plan * inject_Z (w_oversampling plan)) ==
     wpos plan x f0 df c w_plane off_w * inject_Z (w_oversampling plan))%Q.
  Proof. clear SAFE ROK.
    intro T. unfold wpos, coord. assert (K : ~ (C_0 == 0)%Q) by (unfold C_0; discriminate).
    replace (off_w + w_plane - 1) with (w_plane + off_w - 1) by lia.
    field. repeat split; first [exact K|lra].
  Qed.

  (** Rounded position of a visibility that fits. *)
  Lemma fits_q x : fits plan x ->
    let q := qround (x * inject_Z (oversampling plan)) in
    (support plan / 2 - 1 - subgrid_size plan / 2) * oversampling plan <= q /\
    q < (subgrid_size plan / 2 - (support plan - support plan / 2)) * oversampling plan.
  Proof. clear SAFE ROK.
    destruct POK as (P1 & P2 & P3 & P3' & P4 & P5 & P6 & P7 & P8 & P9 & P10 & P11).
    unfold fits. cbv zeta. set (os := oversampling plan) in *.
    set (L := support plan / 2 - 1 - subgrid_size plan / 2). set (U := subgrid_size plan / 2 - (support plan - support plan / 2)).
    clearbody L U. intros [H1 H2].
    assert (O : (0 < inject_Z os)%Q) by (change 0%Q with (inject_Z 0); rewrite <- Zlt_Qlt; lia).
    split.
    - rewrite <- (qround_Z (L * os)). apply qround_mono. rewrite inject_Z_mult. nra.
    - pose proof (qround_near (x * inject_Z os)) as [N _].
      assert (H3 : (x * inject_Z os < inject_Z (U * os) - (1 # 2))%Q).
      { rewrite inject_Z_mult.
        assert ((inject_Z U - 1 / (2 * inject_Z os)) * inject_Z os == inject_Z U * inject_Z os - (1 # 2))%Q.
        { field. lra. }
        rewrite <- H. apply Qmult_lt_compat_r; assumption. }
      assert (H4 : (inject_Z (qround (x * inject_Z os)) < inject_Z (U * os))%Q) by lra.
      rewrite <- Zlt_Qlt in H4. exact H4.
  Qed.

  Lemma fits_corner x : fits plan x ->
    let q := qround (x * inject_Z (oversampling plan)) in
    let a := q + (cdiv (subgrid_size plan) 2 - cdiv (support plan) 2 + 1) * oversampling plan in
    to_int q = Some q /\ cdiv a (oversampling plan) = corner plan x /\ cmod a (oversampling plan) = krow plan x /\
    0 <= corner plan x /\ corner plan x + support plan <= subgrid_size plan /\ 0 <= krow plan x < oversampling plan.
  Proof. clear SAFE ROK.
    intro F. pose proof (fits_q x F) as H. cbv zeta in H |- *.
    destruct POK as (P1 & P2 & P3 & P3' & P4 & P5 & P6 & P7 & P8 & P9 & P10 & P11).
    unfold corner, krow. set (q := qround _) in *. clearbody q. clear F.
    unfold cdiv, cmod. rewrite (Z.quot_div_nonneg (subgrid_size plan) 2), (Z.quot_div_nonneg (support plan) 2) by lia.
    assert (D1 : subgrid_size plan = 2 * (subgrid_size plan / 2)) by (rewrite (Z.div_mod (subgrid_size plan) 2) at 1; lia).
    assert (D2 : 0 <= support plan / 2) by (apply Z.div_pos; lia).
    assert (D3 : support plan / 2 <= support plan) by (apply Z.div_le_upper_bound; lia).
    set (h := subgrid_size plan / 2) in *. set (k := support plan / 2) in *. clearbody h k.
    set (os := oversampling plan) in *. set (sup := support plan) in *. rewrite D1 in *. clearbody os sup.
    assert (NN : 0 <= q + (h - k + 1) * os) by nia.
    rewrite (Z.quot_div_nonneg _ _ NN) by lia. rewrite (Z.rem_mod_nonneg _ _ NN) by lia.
    rewrite Z_div_plus by lia. rewrite Z_mod_plus by lia.
    assert (B1 : k - 1 - h <= q / os) by (apply Z.div_le_lower_bound; nia).
    assert (B2 : q / os < h - (sup - k)) by (apply Z.div_lt_upper_bound; nia).
    split; [|repeat split; try lia; apply Z.mod_pos_bound; lia].
    unfold to_int. destruct (-2147483648 <=? q) eqn:E1, (q <=? 2147483647) eqn:E2; cbn; auto; exfalso; nia.
  Qed.

  Lemma wpos_range i c : start_row <= i < end_row -> elem scs [i] < elem ecs [i] -> fst (rng i) <= c < snd (rng i) ->
    elem scs [i] <= c < elem ecs [i] /\ (0 <= pw i c)%Q /\ (pw i c <= 1)%Q.
  Proof.
    intros Hi Hse Hc. destruct (SAFE i Hi) as [SO _].
    destruct (clamp_inline_lemma (elem uvws [i; 2]) f0 df (elem scs [i]) (elem ecs [i])
      (inject_Z (w_plane + off_w - 1) * w_step plan)%Q (inject_Z (w_plane + off_w) * w_step plan)%Q) as (r & E & S).
    destruct (clamp1_ok _ _ _ (elem scs [i]) (elem ecs [i]) _ _ SO) as (r' & E' & _ & X). rewrite E in E'. injection E' as <-.
    assert (Hs : selected (rng i) c) by exact Hc. unfold rng, plane_channels in Hs. apply S, X in Hs.
    destruct Hs as [H1 H2]. split; [exact H1|].
    destruct POK as (P1 & P2 & P3 & P3' & P4 & P5 & P6 & P7 & P8 & P9 & P10 & P11).
    unfold pw, wpos. set (x := coord _ _ _ c) in *.
    assert (H3 : (inject_Z (w_plane + off_w - 1) * w_step plan <= x <= inject_Z (w_plane + off_w) * w_step plan)%Q).
    { destruct H2 as [(_ & H2)|(_ & H2)]; lra. }
    assert (H4 : (x == x / w_step plan * w_step plan)%Q) by (field; lra).
    replace (inject_Z (w_plane + off_w)) with (inject_Z ((w_plane + off_w - 1) + 1)) in H3 by (f_equal; lia).
    rewrite inject_Z_plus in H3. change (inject_Z 1) with 1%Q in H3.
    set (y := (x / w_step plan)%Q) in *. set (z := inject_Z (w_plane + off_w - 1)) in *. clearbody x y z.
    split; nra.
  Qed.

  Lemma skel_simpl {S} (act : Z -> Z -> Z -> Z -> Z -> Z -> Z -> S -> option S) st :
    skel plan w_plane off_u off_v off_w f0 df start_row end_row uvws scs ecs act st = skel2 act st.
  Proof.
    destruct POK as (P1 & P2 & P3 & P3' & P4 & P5 & P6 & P7 & P8 & P9 & P10 & P11).
    destruct ROK as (R1 & R2 & R3 & R4 & R5 & R6 & R7).
    unfold skel, skel2. cbv zeta. apply for_ext. intros i s Hi.
    rewrite (rd_some scs [i]) by (rewrite R2; apply in_shape_1; lia).
    rewrite (rd_some ecs [i]) by (rewrite R3; apply in_shape_1; lia). cbn [bind].
    unfold keptb. rewrite Z.geb_leb.
    destruct (elem ecs [i] <=? elem scs [i]) eqn:Ese.
    { replace (elem scs [i] <? elem ecs [i]) with false by lia. reflexivity. }
    replace (elem scs [i] <? elem ecs [i]) with true by lia. cbn [andb].
    rewrite (rd_some uvws [i; 0]) by (rewrite R1; apply in_shape_2; lia).
    rewrite (rd_some uvws [i; 1]) by (rewrite R1; apply in_shape_2; lia).
    rewrite (rd_some uvws [i; 2]) by (rewrite R1; apply in_shape_2; lia). cbn [bind].
    fold (plane_channels plan w_plane off_w f0 df (elem uvws [i; 2]) (elem scs [i]) (elem ecs [i])). fold (rng i).
    destruct (rng i) as [s1 e1] eqn:Er. rewrite Z.geb_leb. cbn [fst snd].
    destruct (e1 <=? s1) eqn:E1.
    { replace (s1 <? e1) with false by lia. reflexivity. }
    replace (s1 <? e1) with true by lia. cbn [andb].
    unfold cdiv at 1 2 3 4. rewrite (Z.quot_div_nonneg (subgrid_size plan) 2) by lia.
    rewrite !floor_lt_neg, !ceil_ge.
    assert (PB : passb i = negb (
       negb (Qle_bool (inject_Z (- (subgrid_size plan / 2)))
        (theta plan * (elem uvws [i; 0%Z] * (f0 / C_0) - inject_Z off_u / theta plan + inject_Z s1 * (elem uvws [i; 0%Z] * (df / C_0)))))
       || negb (Qle_bool (theta plan * (elem uvws [i; 0%Z] * (f0 / C_0) - inject_Z off_u / theta plan + inject_Z (e1 - 1) * (elem uvws [i; 0%Z] * (df / C_0))))
         (inject_Z (subgrid_size plan / 2) - 1))
       || negb (Qle_bool (inject_Z (- (subgrid_size plan / 2)))
        (theta plan * (elem uvws [i; 1%Z] * (f0 / C_0) - inject_Z off_v / theta plan + inject_Z s1 * (elem uvws [i; 1%Z] * (df / C_0)))))
       || negb (Qle_bool (theta plan * (elem uvws [i; 1%Z] * (f0 / C_0) - inject_Z off_v / theta plan + inject_Z (e1 - 1) * (elem uvws [i; 1%Z] * (df / C_0))))
         (inject_Z (subgrid_size plan / 2) - 1)))).
    { unfold passb, pu, pv. rewrite Er. cbn [fst snd]. rewrite !Bool.negb_orb, !Bool.negb_involutive.
      rewrite !(Qle_bool_comp (- inject_Z (subgrid_size plan / 2)) (inject_Z (- (subgrid_size plan / 2))) _ _ ltac:(rewrite inject_Z_opp; reflexivity) (Qeq_refl _)).
      f_equal; [f_equal; [f_equal|]|]; apply Qle_bool_comp; try reflexivity; symmetry; apply coord_pos; assumption. }
    destruct (_ || _ || _ || _).
    { replace (passb i) with false by (rewrite PB; reflexivity). reflexivity. }
    assert (PT : passb i = true) by (rewrite PB; reflexivity). rewrite PT. clear PB.
    apply for_ext. intros c s' Hc.
    assert (FT : fits plan (pu i c) /\ fits plan (pv i c)).
    { destruct (SAFE i Hi) as [_ FT]. cbv zeta in FT. fold (rng i) in FT. apply FT; [|rewrite Er; cbn; lia].
      assert (PC : procb i c = true) by (unfold procb, keptb; rewrite PT, Er; cbn [fst snd]; rewrite !Bool.andb_true_iff, !Z.ltb_lt, Z.leb_le; repeat split; lia).
      apply procb_spec in PC. apply PC. }
    destruct FT as [FU FV].
    destruct (fits_corner _ FU) as (T1 & C1 & M1 & _). destruct (fits_corner _ FV) as (T2 & C2 & M2 & _).
    destruct (wpos_range i c Hi ltac:(lia) ltac:(rewrite Er; cbn; lia)) as (_ & W0 & W1).
    rewrite (qround_compat ((elem uvws [i; 0%Z] * (f0 / C_0) - inject_Z off_u / theta plan + inject_Z c * (elem uvws [i; 0%Z] * (df / C_0))) *
      (theta plan * inject_Z (oversampling plan)))%Q (pu i c * inject_Z (oversampling plan))%Q).
    2:{ unfold pu. rewrite <- coord_pos by assumption. ring. }
    rewrite (qround_compat ((elem uvws [i; 1%Z] * (f0 / C_0) - inject_Z off_v / theta plan + inject_Z c * (elem uvws [i; 1%Z] * (df / C_0))) *
      (theta plan * inject_Z (oversampling plan)))%Q (pv i c * inject_Z (oversampling plan))%Q).
    2:{ unfold pv. rewrite <- coord_pos by assumption. ring. }
    rewrite (qround_compat _ (pw i c * inject_Z (w_oversampling plan))%Q (coord_wpos _ _ P9)).
    rewrite T1, T2. cbn [bind].
    unfold cdiv at 2 in C1. unfold cdiv at 2 in C2. unfold cdiv at 2 in M1. unfold cdiv at 2 in M2.
    assert (OW : (0 < inject_Z (w_oversampling plan))%Q) by (change 0%Q with (inject_Z 0); rewrite <- Zlt_Qlt; lia).
    assert (Q0 : 0 <= qround (pw i c * inject_Z (w_oversampling plan))).
    { rewrite <- (qround_Z 0). apply qround_mono. change (inject_Z 0) with 0%Q. nra. }
    assert (Q1 : qround (pw i c * inject_Z (w_oversampling plan)) <= w_oversampling plan).
    { rewrite <- (qround_Z (w_oversampling plan)) at 2. apply qround_mono. nra. }
    assert (TW : to_int (qround (pw i c * inject_Z (w_oversampling plan))) = Some (qround (pw i c * inject_Z (w_oversampling plan)))).
    { clear - Q0 Q1 P6. unfold to_int. revert Q0 Q1. generalize (qround (pw i c * inject_Z (w_oversampling plan))). intros q Q0 Q1.
      destruct (-2147483648 <=? q) eqn:EE1, (q <=? 2147483647) eqn:EE2; cbn; auto; exfalso; lia. }
    rewrite TW. cbn [bind].
    unfold cdiv in C1, C2, M1, M2 |- *. repeat rewrite (Z.quot_div_nonneg (subgrid_size plan) 2) in C1, C2, M1, M2 |- * by lia.
    rewrite C1, C2, M1, M2. unfold wrow, cmod. rewrite (Z.rem_mod_nonneg _ (w_oversampling plan)) by lia. reflexivity.
  Qed.
End Ok.
