From Verif Require Import Base BaseFacts Sum CRing Cplx Loops Clamp ClampSpec ClampFacts ClampFacts2 QNum WTower WTowerSpec WTowerFacts WTowerFacts2 WTowerFacts3.
From Coq Require Import Lqa Lia.
Open Scope Z_scope.

Section Final.
  Context {A : cring} (plan : wplan A) (w_plane off_u off_v off_w : Z) (f0 df : Q)
    (start_row end_row : Z) (uvws : nd Q) (scs ecs : nd Z) (n m : Z).
  Add Ring Ar5 : (rth A).
  Context (POK : plan_ok plan) (ROK : rows_ok uvws scs ecs n m start_row end_row)
    (SAFE : forall i, start_row <= i < end_row -> row_safe plan w_plane off_u off_v off_w f0 df uvws scs ecs i).

  Lemma degrid_formula sg vis :
    shape sg = [w_support plan; subgrid_size plan; subgrid_size plan] -> shape vis = [n; m] ->
    exists vis', degrid plan w_plane off_u off_v off_w f0 df start_row end_row uvws scs ecs sg vis = Some vis' /\
      shape vis' = [n; m] /\
      forall i c, start_row <= i < end_row -> 0 <= c < m ->
        let xu := pos plan (elem uvws [i; 0]) f0 df c off_u in
        let xv := pos plan (elem uvws [i; 1]) f0 df c off_v in
        let xw := wpos plan (elem uvws [i; 2]) f0 df c w_plane off_w in
        (processed plan w_plane off_u off_v off_w f0 df uvws scs ecs i c ->
           elem vis' [i; c] = (elem vis [i; c] +
             interp plan (corner plan xu) (krow plan xu) (corner plan xv) (krow plan xv)
               (wrow plan xw) (fun a b d => elem sg [a; b; d]))%cr) /\
        (~ processed plan w_plane off_u off_v off_w f0 df uvws scs ecs i c -> elem vis' [i; c] = elem vis [i; c]).
  Proof.
    intros Ss Sv. destruct (degrid_lemma plan w_plane off_u off_v off_w f0 df start_row end_row uvws scs ecs n m POK ROK SAFE sg vis Ss Sv)
      as (v' & E & S & V). exists v'. split; [exact E|]. split; [exact S|]. intros i c Hi Hc. cbv zeta.
    destruct (V i c) as [V1 V2]. split; intro P.
    - apply V1. split; [exact Hi|]. now apply procb_spec.
    - apply V2. intros [_ Q]. apply P. now apply procb_spec in Q.
  Qed.

  Lemma degrid_rows_kept sg vis vis' :
    shape sg = [w_support plan; subgrid_size plan; subgrid_size plan] -> shape vis = [n; m] ->
    degrid plan w_plane off_u off_v off_w f0 df start_row end_row uvws scs ecs sg vis = Some vis' ->
    forall i c, ~ (start_row <= i < end_row) -> elem vis' [i; c] = elem vis [i; c].
  Proof.
    intros Ss Sv E i c Hi. destruct (degrid_lemma plan w_plane off_u off_v off_w f0 df start_row end_row uvws scs ecs n m POK ROK SAFE sg vis Ss Sv)
      as (v' & E' & S & V). rewrite E in E'. injection E' as <-. apply V. tauto.
  Qed.

  Lemma grid_formula vis sg :
    shape sg = [w_support plan; subgrid_size plan; subgrid_size plan] -> shape vis = [n; m] ->
    exists sg' p, grid plan w_plane off_u off_v off_w f0 df start_row end_row uvws scs ecs vis sg = Some sg' /\
      shape sg' = [w_support plan; subgrid_size plan; subgrid_size plan] /\
      (forall i c, p i c = true <-> processed plan w_plane off_u off_v off_w f0 df uvws scs ecs i c) /\
      forall a x y, 0 <= a < w_support plan -> 0 <= x < subgrid_size plan -> 0 <= y < subgrid_size plan ->
        elem sg' [a; x; y] = (elem sg [a; x; y] +
          rsum start_row end_row (fun i => rsum 0 m (fun c => if p i c then
            let xu := pos plan (elem uvws [i; 0%Z]) f0 df c off_u in
            let xv := pos plan (elem uvws [i; 1%Z]) f0 df c off_v in
            let xw := wpos plan (elem uvws [i; 2%Z]) f0 df c w_plane off_w in
            elem vis [i; c] * interp plan (corner plan xu) (krow plan xu) (corner plan xv) (krow plan xv) (wrow plan xw)
              (fun a' x' y' => if (a' =? a)%Z && (x' =? x)%Z && (y' =? y)%Z then r1 else r0)
            else r0)))%cr.
  Proof.
    intros Ss Sv. destruct (grid_lemma plan w_plane off_u off_v off_w f0 df start_row end_row uvws scs ecs n m POK ROK SAFE vis sg Ss Sv)
      as (g' & E & S & V).
    exists g', (procb plan w_plane off_u off_v off_w f0 df uvws scs ecs). split; [exact E|]. split; [exact S|].
    split; [intros; apply procb_spec|]. intros a x y Ha Hx Hy.
    specialize (V (fun a' x' y' => if (a' =? a)%Z && (x' =? x)%Z && (y' =? y)%Z then r1 else r0)).
    assert (D : forall g : nd A, total3 (w_support plan) (subgrid_size plan) (subgrid_size plan)
      (fun a0 x0 y0 => elem g [a0; x0; y0] * (if (a0 =? a)%Z && (x0 =? x)%Z && (y0 =? y)%Z then r1 else r0))%cr = elem g [a; x; y]).
    { intro g. unfold total3. rewrite (rsum_one _ _ a _ Ha), (rsum_one _ _ x _ Hx), (rsum_one _ _ y _ Hy).
      - rewrite !Z.eqb_refl. cbn. ring.
      - intros k Hk N. replace (k =? y) with false by lia. rewrite Bool.andb_false_r. ring.
      - intros k Hk N. apply rsum_none. intros l Hl. replace (k =? x) with false by lia. rewrite Bool.andb_false_r. cbn. ring.
      - intros k Hk N. apply rsum_none. intros l Hl. apply rsum_none. intros l' Hl'. replace (k =? a) with false by lia. cbn. ring. }
    rewrite !D in V. exact V.
  Qed.
End Final.

(** The rounded position is the closest one. *)
Lemma qround_nearest x z : (Qabs (inject_Z (qround x) - x) <= Qabs (inject_Z z - x))%Q.
Proof.
  pose proof (qround_near x) as [H1 H2].
  destruct (Z.eq_dec z (qround x)) as [->|N]; [apply Qle_refl|].
  apply Qle_trans with (1 # 2).
  - apply Qabs_Qle_condition. split; lra.
  - destruct (Z_lt_le_dec z (qround x)).
    + assert (inject_Z z <= inject_Z (qround x - 1))%Q by (rewrite <- Zle_Qle; lia).
      unfold Z.sub in H. rewrite inject_Z_plus in H. change (inject_Z (- (1))) with (- (1))%Q in H.
      rewrite <- Qabs_opp. eapply Qle_trans; [|apply Qle_Qabs]. lra.
    + assert (inject_Z (qround x + 1) <= inject_Z z)%Q by (rewrite <- Zle_Qle; lia).
      rewrite inject_Z_plus in H. change (inject_Z 1) with 1%Q in H.
      eapply Qle_trans; [|apply Qle_Qabs]. lra.
Qed.

Lemma wrow_nearest {A : cring} (plan : wplan A) x :
  1 <= w_oversampling plan -> (0 <= x)%Q -> (x < 1 - 1 / (2 * inject_Z (w_oversampling plan)))%Q ->
  0 <= wrow plan x <= w_oversampling plan /\
  forall r, 0 <= r <= w_oversampling plan ->
    (Qabs (inject_Z (wrow plan x) / inject_Z (w_oversampling plan) - x) <= Qabs (inject_Z r / inject_Z (w_oversampling plan) - x))%Q.
Proof.
  intros O H0 H1. set (os := w_oversampling plan) in *.
  assert (OW : (0 < inject_Z os)%Q) by (change 0%Q with (inject_Z 0); rewrite <- Zlt_Qlt; lia).
  assert (Q0 : 0 <= qround (x * inject_Z os)).
  { rewrite <- (qround_Z 0). apply qround_mono. change (inject_Z 0) with 0%Q. nra. }
  assert (Q1 : qround (x * inject_Z os) < os).
  { pose proof (qround_near (x * inject_Z os)) as [N _].
    assert (H3 : (x * inject_Z os < inject_Z os - (1 # 2))%Q).
    { assert (K : ((1 - 1 / (2 * inject_Z os)) * inject_Z os == inject_Z os - (1 # 2))%Q) by (field; lra).
      rewrite <- K. apply Qmult_lt_compat_r; assumption. }
    assert (H4 : (inject_Z (qround (x * inject_Z os)) < inject_Z os)%Q) by lra.
    rewrite <- Zlt_Qlt in H4. exact H4. }
  unfold wrow. fold os. rewrite Z.mod_small by lia. split; [lia|]. intros r Hr.
  assert (SC : forall z, (Qabs (inject_Z z / inject_Z os - x) == Qabs (inject_Z z - x * inject_Z os) / inject_Z os)%Q).
  { intro z. transitivity (Qabs ((inject_Z z - x * inject_Z os) / inject_Z os)).
    - apply Qabs_wd. field. lra.
    - unfold Qdiv. rewrite Qabs_Qmult. rewrite (Qabs_pos (/ inject_Z os)); [reflexivity|].
      apply Qlt_le_weak. apply Qinv_lt_0_compat. exact OW. }
  rewrite !SC. apply Qmult_le_compat_r; [apply qround_nearest|]. apply Qlt_le_weak. apply Qinv_lt_0_compat. exact OW.
Qed.

(** The kernel position (first pixel plus half the support minus the row fraction) is within half
    an oversampled pixel of the visibility. *)
Lemma corner_near {A : cring} (plan : wplan A) x :
  1 <= oversampling plan ->
  0 <= krow plan x < oversampling plan /\
  (Qabs (inject_Z (corner plan x - (subgrid_size plan / 2 - support plan / 2 + 1)) + inject_Z (krow plan x) / inject_Z (oversampling plan) - x)
     <= 1 / (2 * inject_Z (oversampling plan)))%Q.
Proof.
  intro O. set (os := oversampling plan) in *.
  assert (OW : (0 < inject_Z os)%Q) by (change 0%Q with (inject_Z 0); rewrite <- Zlt_Qlt; lia).
  unfold corner, krow. fold os. set (q := qround (x * inject_Z os)).
  split; [apply Z.mod_pos_bound; lia|].
  replace (q / os + (subgrid_size plan / 2 - support plan / 2 + 1) - (subgrid_size plan / 2 - support plan / 2 + 1)) with (q / os) by lia.
  assert (E : (inject_Z (q / os) + inject_Z (q mod os) / inject_Z os - x == (inject_Z q - x * inject_Z os) / inject_Z os)%Q).
  { rewrite (Z.div_mod q os) at 3 by lia. rewrite inject_Z_plus, inject_Z_mult. field. lra. }
  rewrite E. pose proof (qround_near (x * inject_Z os)) as [N1 N2]. fold q in N1, N2.
  unfold Qdiv at 1. rewrite Qabs_Qmult. rewrite (Qabs_pos (/ inject_Z os)) by (apply Qlt_le_weak, Qinv_lt_0_compat, OW).
  assert (K : (1 / (2 * inject_Z os) == (1 # 2) * / inject_Z os)%Q) by (field; lra). rewrite K.
  apply Qmult_le_compat_r; [|apply Qlt_le_weak, Qinv_lt_0_compat, OW].
  apply Qabs_Qle_condition. split; lra.
Qed.

(** On every plane the channels selected are those with w between the planes. *)
Lemma plane_selected {A : cring} (plan : wplan A) p off_w f0 df w s e c :
  step_ok w f0 df (inject_Z (p + off_w - 1) * w_step plan)%Q (inject_Z (p + off_w) * w_step plan)%Q ->
  (selected (plane_channels plan p off_w f0 df w s e) c <->
   s <= c < e /\ in_range_directed (0 <= coord_step w df)%Q (coord w f0 df c)
     (inject_Z (p + off_w - 1) * w_step plan) (inject_Z (p + off_w) * w_step plan)).
Proof.
  intro SO. destruct (clamp_inline_lemma w f0 df s e
      (inject_Z (p + off_w - 1) * w_step plan)%Q (inject_Z (p + off_w) * w_step plan)%Q) as (r & E & S).
  destruct (clamp1_ok _ _ _ s e _ _ SO) as (r' & E' & _ & X). rewrite E in E'. injection E' as <-.
  unfold plane_channels. rewrite S. apply X.
Qed.
