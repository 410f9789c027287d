From Coq Require Import Lia Reals.
From Verif Require Import Base BaseFacts Sum CRing Cplx Loops Clamp ClampSpec Select QNum Fft FftSpec FftFacts FftFacts2 FftFacts3
  GridUtils GridUtilsFacts Subgrid SubgridFacts WTower WTowerSpec WTowerFacts WTowerFacts2 WTowerFacts3 WTowerFacts4 WTowerDrv WTowerDrvSpec WTowerDrvFacts WTowerDrvFacts2.
Open Scope Z_scope.

Lemma driver_rows_used uvws n k s e r0 r1 : shape uvws = [n; k] -> rows_used n s e r0 r1 -> driver_rows uvws s e = (r0, r1).
Proof.
  intros S [A B]. unfold driver_rows, dim. rewrite S. cbn [nth].
  destruct (s <? 0) eqn:E1; cbn [orb]; [destruct A as [-> ->]; [lia|reflexivity]|].
  destruct (e <? 0) eqn:E2; [destruct A as [-> ->]; [lia|reflexivity]|]. destruct B as [-> ->]; [lia|lia|reflexivity].
Qed.
Lemma width_used_dfreq df df' : width_used df df' -> driver_dfreq df = df'.
Proof.
  intros [A B]. unfold driver_dfreq. destruct (Qeq_bool df 0) eqn:E.
  - symmetry. apply A. now apply Qeq_bool_iff.
  - symmetry. apply B. intro H. apply Qeq_bool_iff in H. congruence.
Qed.

Lemma total3_ext (n m k : Z) (f g : Z -> Z -> Z -> C) : (forall i j l, 0 <= i < n -> 0 <= j < m -> 0 <= l < k -> f i j l = g i j l) ->
  total3 (A := Cring) n m k f = total3 (A := Cring) n m k g.
Proof. intro H. rewrite !total3_csum. apply csum_ext; intros. apply csum_ext; intros. apply csum_ext; intros. auto. Qed.
Lemma total2_ext (n m : Z) (f g : Z -> Z -> C) : (forall i j, 0 <= i < n -> 0 <= j < m -> f i j = g i j) ->
  total2 (A := Cring) n m f = total2 (A := Cring) n m g.
Proof. intro H. rewrite !total2_csum. apply csum_ext; intros. apply csum_ext; intros. auto. Qed.
Lemma total2_add (n m : Z) (f g : Z -> Z -> C) :
  total2 (A := Cring) n m (fun i j => Cadd (f i j) (g i j)) = Cadd (total2 (A := Cring) n m f) (total2 (A := Cring) n m g).
Proof. rewrite !total2_csum. rewrite <- csum_add. apply csum_ext; intros. rewrite <- csum_add. reflexivity. Qed.
Lemma total2_zero (n m : Z) (f : Z -> Z -> C) : (forall i j, 0 <= i < n -> 0 <= j < m -> f i j = C0) -> total2 (A := Cring) n m f = C0.
Proof.
  intro H. rewrite (total2_ext n m f (fun _ _ => C0)) by exact H. rewrite total2_csum.
  assert (Z : forall k, csum 0 k (fun _ => C0) = C0).
  { intro k. destruct (Z.le_gt_cases 0 k); [rewrite csum_const by lia; csolve|apply csum_empty; lia]. }
  rewrite (csum_ext _ _ _ (fun _ => C0)); [apply Z|]. intros. apply Z.
Qed.

Lemma corner_fits {A : cring} (plan : wplan A) : plan_ok plan -> forall x, fits plan x -> 0 <= corner plan x /\ corner plan x + support plan <= subgrid_size plan.
Proof. intros POK x F. destruct (fits_corner plan POK x F) as (_ & _ & _ & H1 & H2 & _). auto. Qed.

Lemma adjoint_herm (plan : wplan Cring) w_plane off_u off_v off_w f0 df start_row end_row uvws scs ecs
    (vis vis0 vis1 sg sg0 sg1 : nd Cring) n m n0 n1 n2 :
  (forall idx, im (elem (uv_kernel plan) idx) = 0%R) -> (forall idx, im (elem (w_kernel plan) idx) = 0%R) ->
  shape vis0 = [n; m] -> shape sg0 = [n0; n1; n2] ->
  grid plan w_plane off_u off_v off_w f0 df start_row end_row uvws scs ecs vis sg0 = Some sg1 ->
  degrid plan w_plane off_u off_v off_w f0 df start_row end_row uvws scs ecs sg vis0 = Some vis1 ->
  total3 n0 n1 n2 (fun a x y => (elem sg1 [a; x; y] - elem sg0 [a; x; y]) * Cconj (elem sg [a; x; y]))%cr =
  total2 n m (fun i c => elem vis [i; c] * Cconj (elem vis1 [i; c] - elem vis0 [i; c])%cr)%cr.
Proof.
  intros Ku Kw Sv Ss Eg Ed.
  apply (adjoint_lemma (A := Cring) Cconj plan w_plane off_u off_v off_w f0 df start_row end_row uvws scs ecs vis vis0 vis1 sg sg0 sg1 n m n0 n1 n2); try assumption.
  - cbn. csolve.
  - cbn. csolve.
  - cbn. csolve.
  - intro idx. specialize (Ku idx). destruct (elem (uv_kernel plan) idx) as [a b]. unfold Cconj, re, im in *. cbn [fst snd] in *. subst. now rewrite Ropp_0.
  - intro idx. specialize (Kw idx). destruct (elem (w_kernel plan) idx) as [a b]. unfold Cconj, re, im in *. cbn [fst snd] in *. subst. now rewrite Ropp_0.
Qed.

Section Drivers.
  Context (plan : wplan Cring) (pattern temp : nd C) (phi : Z -> Z -> R) (T : Z) (off_u off_v off_w : Z) (f0 df df' : Q)
    (uvws : nd Q) (scs ecs : nd Z) (n m start_row end_row r0 r1 first last : Z).
  Context (POK : plan_ok plan) (ROK : rows_ok uvws scs ecs n m r0 r1) (ROWS : rows_used n start_row end_row r0 r1) (DF : width_used df df')
    (PL : w_planes plan uvws f0 df' scs ecs off_w = Some (first, last))
    (SAFE : forall p i, first <= p <= last -> r0 <= i < r1 -> row_safe plan p off_u off_v off_w f0 df' uvws scs ecs i)
    (PO : pattern_ok (subgrid_size plan) pattern phi)
    (ST : shape temp = [T]) (HT : subgrid_size plan * subgrid_size plan <= T).
  Notation S := (subgrid_size plan). Notation ws := (w_support plan). Notation h := (w_support plan / 2).

  Lemma h_div : cdiv ws 2 = h.
  Proof. destruct POK as (_ & _ & _ & _ & _ & P5 & _). unfold cdiv. apply Z.quot_div_nonneg; lia. Qed.

  Definition dstep (w_plane : Z) (st : nd C * nd C * nd C) : option (nd C * nd C * nd C) :=
    let '(w_image, subgrids, vis) := st in
    let* (w_image, subgrids) :=
      if negb (w_plane =? first) then D_advance ws pattern temp (w_image, subgrids) else Some (w_image, subgrids) in
    let* vis := degrid plan w_plane off_u off_v off_w f0 df' r0 r1 uvws scs ecs subgrids vis in
    Some (w_image, subgrids, vis).
  Definition gstep (vis : nd C) (w_plane : Z) (st : nd C * nd C) : option (nd C * nd C) :=
    let* (w_image, subgrids) := if negb (w_plane =? first) then G_advance S ws pattern temp st else Some st in
    let* subgrids := grid plan w_plane off_u off_v off_w f0 df' r0 r1 uvws scs ecs vis subgrids in
    Some (w_image, subgrids).

  Lemma degrid_driver_eq image vis w_image subgrids :
    degrid_driver plan pattern image off_u off_v off_w f0 df uvws scs ecs vis start_row end_row w_image subgrids temp =
    let* w_image := scale_inv_array w_image image pattern (first - h) in
    let* (w_image, subgrids) := fill ws pattern temp (w_image, subgrids) in
    let* (_, _, vis) := for_ first (last + 1) dstep (w_image, subgrids, vis) in Some vis.
  Proof.
    unfold degrid_driver. rewrite (width_used_dfreq _ _ DF).
    destruct ROK as (R1 & _). rewrite (driver_rows_used uvws n 3 start_row end_row r0 r1 R1 ROWS). cbv zeta. rewrite PL. cbn [bind].
    rewrite h_div. destruct (scale_inv_array w_image image pattern (first - h)) as [w|]; [|reflexivity]. cbn [bind].
    unfold fill. destruct (for_ 0 ws _ (w, subgrids)) as [[w1 sg1]|]; [|reflexivity]. cbn [bind].
    rewrite (for_ext first (last + 1) _ dstep); [reflexivity|].
    intros i [[w2 s2] v2] Hi. unfold dstep, D_advance. cbn [fst snd]. reflexivity.
  Qed.
  Lemma grid_driver_eq image vis :
    grid_driver plan pattern vis uvws scs ecs f0 df image off_u off_v off_w start_row end_row temp =
    let* (w_image, subgrids) := for_ first (last + 1) (gstep vis) (mk_nd [S; S] (fun _ => C0), mk_nd [ws; S; S] (fun _ => C0)) in
    G_finish S ws h pattern temp last image w_image subgrids.
  Proof.
    unfold grid_driver. rewrite (width_used_dfreq _ _ DF).
    destruct ROK as (R1 & _). rewrite (driver_rows_used uvws n 3 start_row end_row r0 r1 R1 ROWS). cbv zeta. rewrite PL. cbn [bind].
    rewrite h_div. rewrite (for_ext first (last + 1) _ (gstep vis)); [reflexivity|].
    intros i [w2 s2] Hi. unfold gstep, G_advance. reflexivity.
  Qed.

  (** The start of degridding *)
  Lemma D_start (img : Z -> Z -> C) image w_image subgrids :
    shape image = [S; S] -> shape w_image = [S; S] -> shape subgrids = [ws; S; S] ->
    (forall x y, 0 <= x < S -> 0 <= y < S -> elem image [x; y] = img x y) ->
    exists w sg, (let* w_image := scale_inv_array w_image image pattern (first - h) in fill ws pattern temp (w_image, subgrids)) = Some (w, sg) /\
      D_img S ws h phi img first w /\ D_stack S ws h phi img first sg.
  Proof.
    intros S1 S2 S3 V. destruct POK as (P1 & P2 & P3 & P3' & P4 & P5 & P6).
    destruct (scale1 S pattern phi P1 PO image (first - h) w_image S1 S2) as (w & E & Sw & Vw). rewrite E. cbn [bind].
    apply (fill_ok S ws h T pattern temp phi P1 P2 P5 ST HT PO img first w subgrids); auto.
    intros x y Hx Hy. rewrite Vw, V by assumption. reflexivity.
  Qed.

  Notation term img p i c := (interp plan (corner plan (pos plan (elem uvws [i; 0]) f0 df' c off_u)) (krow plan (pos plan (elem uvws [i; 0]) f0 df' c off_u))
      (corner plan (pos plan (elem uvws [i; 1]) f0 df' c off_v)) (krow plan (pos plan (elem uvws [i; 1]) f0 df' c off_v))
      (wrow plan (wpos plan (elem uvws [i; 2]) f0 df' c p off_w)) (fun a x y => w_subgrid S phi img (p - h + a) x y)).

  (** Closed form of the degridding driver *)
  Lemma degrid_driver_formula (image vis w_image subgrids : nd C) :
    shape image = [S; S] -> shape w_image = [S; S] -> shape subgrids = [ws; S; S] -> shape vis = [n; m] ->
    exists vis', degrid_driver plan pattern image off_u off_v off_w f0 df uvws scs ecs vis start_row end_row w_image subgrids temp = Some vis' /\
      shape vis' = [n; m] /\ forall i c, r0 <= i < r1 -> 0 <= c < m ->
        elem vis' [i; c] = Cadd (elem vis [i; c]) (csum first (last + 1) (fun p =>
          if procb plan p off_u off_v off_w f0 df' uvws scs ecs i c then term (fun x y => elem image [x; y]) p i c else C0)).
  Proof.
    intros S1 S2 S3 Sv. rewrite degrid_driver_eq.
    set (img := fun x y => elem image [x; y]).
    destruct (D_start img image w_image subgrids S1 S2 S3 (fun _ _ _ _ => eq_refl)) as (w & sg & E & DI & DS).
    destruct (scale_inv_array w_image image pattern (first - h)) as [w0|]; [|discriminate]. cbn [bind] in E |- *. rewrite E. cbn [bind].
    destruct (Z.le_gt_cases (last + 1) first) as [EM|NE].
    { rewrite for_empty by lia. cbn [bind]. exists vis. split; [reflexivity|]. split; [exact Sv|]. intros. rewrite csum_empty by lia. csolve. }
    destruct (for_inv (fun i (st : nd C * nd C * nd C) => D_img S ws h phi img (Z.max first (i - 1)) (fst (fst st)) /\
       D_stack S ws h phi img (Z.max first (i - 1)) (snd (fst st)) /\ shape (snd st) = [n; m] /\ forall r c, r0 <= r < r1 -> 0 <= c < m ->
        elem (snd st) [r; c] = Cadd (elem vis [r; c]) (csum first i (fun p =>
          if procb plan p off_u off_v off_w f0 df' uvws scs ecs r c then term img p r c else C0))) first (last + 1) dstep (w, sg, vis))
      as ([[w' sg'] v'] & EF & _ & _ & F1 & F2).
    - lia.
    - cbn [fst snd]. replace (Z.max first (first - 1)) with first by lia. repeat split; try apply DI; try apply DS; auto.
      intros r c Hr Hc. rewrite csum_empty by lia. csolve.
    - intros p [[w1 sg1] v1] Hp (A1 & A2 & A3 & A4). cbn [fst snd] in *. unfold dstep.
      destruct POK as (P1 & P2 & P3 & P3' & P4 & P5 & P6).
      assert (K : exists w2 sg2, (if negb (p =? first) then D_advance ws pattern temp (w1, sg1) else Some (w1, sg1)) = Some (w2, sg2) /\
        D_img S ws h phi img p w2 /\ D_stack S ws h phi img p sg2).
      { destruct (Z.eq_dec p first) as [->|N].
        - rewrite Z.eqb_refl. cbn [negb]. replace (Z.max first (first - 1)) with first in * by lia. eauto.
        - replace (p =? first) with false by lia. cbn [negb]. replace (Z.max first (p - 1)) with (p - 1) in * by lia.
          destruct (D_advance_ok S ws h T pattern temp phi P1 P2 P5 ST HT PO img (p - 1) w1 sg1 A1 A2) as (w2 & sg2 & E2 & B1 & B2).
          replace (p - 1 + 1) with p in * by lia. eauto. }
      destruct K as (w2 & sg2 & E2 & B1 & B2). rewrite E2. cbn [bind].
      destruct (degrid_lemma plan p off_u off_v off_w f0 df' r0 r1 uvws scs ecs n m POK ROK (fun i Hi => SAFE p i ltac:(lia) Hi) sg2 v1 (proj1 B2) A3)
        as (v2 & E3 & S3' & V3). rewrite E3. cbn [bind].
      eexists. split; [reflexivity|]. cbn [fst snd]. replace (Z.max first (p + 1 - 1)) with p by lia.
      split; [exact B1|]. split; [exact B2|]. split; [exact S3'|]. intros r c Hr Hc.
      rewrite csum_snoc by lia. destruct (V3 r c) as [V3a V3b].
      destruct (procb plan p off_u off_v off_w f0 df' uvws scs ecs r c) eqn:EP.
      + etransitivity; [apply V3a; auto|]. 
        change (Cadd (elem v1 [r; c]) (interp plan (corner plan (pos plan (elem uvws [r; 0]) f0 df' c off_u)) (krow plan (pos plan (elem uvws [r; 0]) f0 df' c off_u))
          (corner plan (pos plan (elem uvws [r; 1]) f0 df' c off_v)) (krow plan (pos plan (elem uvws [r; 1]) f0 df' c off_v))
          (wrow plan (wpos plan (elem uvws [r; 2]) f0 df' c p off_w)) (fun a b d => elem sg2 [a; b; d])) = 
          Cadd (elem vis [r; c]) (Cadd (csum first p (fun p => if procb plan p off_u off_v off_w f0 df' uvws scs ecs r c then term img p r c else C0)) (term img p r c))).
        rewrite A4 by assumption.
        replace (interp plan _ _ _ _ _ (fun a b d => elem sg2 [a; b; d])) with (term img p r c).
        * set (X := csum first p _). set (Y := term img p r c). generalize (elem vis [r; c]), X, Y. clear. cbn. csolve.
        * symmetry. assert (Pr : processed plan p off_u off_v off_w f0 df' uvws scs ecs r c) by now apply procb_spec.
          destruct Pr as (_ & Hcc & Ps). destruct (SAFE p r ltac:(lia) Hr) as [_ FF]. cbv zeta in FF, Hcc, Ps.
          destruct (FF Ps c Hcc) as [Fu Fv].
          destruct (corner_fits plan POK _ Fu) as [U1 U2]. destruct (corner_fits plan POK _ Fv) as [W1 W2].
          unfold interp. destruct B2 as [_ B2].
          apply (rsum_ext (A := Cring)). intros a Ha. f_equal. apply (rsum_ext (A := Cring)). intros b Hb. f_equal. apply (rsum_ext (A := Cring)).
          intros d Hd. f_equal. apply B2; lia.
      + etransitivity; [apply V3b; intros [_ Q]; congruence|]. rewrite A4 by assumption. generalize (elem vis [r; c]). csolve.
    - rewrite EF. cbn [bind]. exists v'. split; [reflexivity|]. split; [exact F1|]. exact F2.
  Qed.
  (** The two drivers in lockstep *)
  Lemma driver_adjoint (img2 : Z -> Z -> C) (image vis0 vis w_image subgrids image0 : nd C) :
    (forall idx, im (elem (uv_kernel plan) idx) = 0%R) -> (forall idx, im (elem (w_kernel plan) idx) = 0%R) ->
    shape image = [S; S] -> shape image0 = [S; S] -> shape w_image = [S; S] -> shape subgrids = [ws; S; S] -> shape vis = [n; m] -> shape vis0 = [n; m] ->
    (forall x y, 0 <= x < S -> 0 <= y < S -> elem image [x; y] = Cmul (img2 x y) (cis (IZR (ws - 2 * h) * phi x y))) ->
    exists image1 vis1,
      grid_driver plan pattern vis uvws scs ecs f0 df image0 off_u off_v off_w start_row end_row temp = Some image1 /\
      degrid_driver plan pattern image off_u off_v off_w f0 df uvws scs ecs vis0 start_row end_row w_image subgrids temp = Some vis1 /\
      shape image1 = [S; S] /\ shape vis1 = [n; m] /\
      herm2 S S (fun x y => Csub (elem image1 [x; y]) (elem image0 [x; y])) img2 =
      herm2 n m (fun i c => elem vis [i; c]) (fun i c => Csub (elem vis1 [i; c]) (elem vis0 [i; c])).
  Proof.
    intros KU KW S1 S0 S2 S3 Sv Sv0 HI. destruct POK as (P1 & P2 & P3 & P3' & P4 & P5 & P6).
    set (img := fun x y => elem image [x; y]).
    rewrite degrid_driver_eq, grid_driver_eq.
    destruct (D_start img image w_image subgrids S1 S2 S3 (fun _ _ _ _ => eq_refl)) as (w & sg & E & DI & DS).
    destruct (scale_inv_array w_image image pattern (first - h)) as [w0|]; [|discriminate]. cbn [bind] in E |- *. rewrite E. cbn [bind].
    set (z1 := mk_nd [S; S] (fun _ => C0)). set (z2 := mk_nd [ws; S; S] (fun _ => C0)).
    assert (GZ : forall q x y, G_img S ws h phi q z1 z2 x y = C0).
    { intros q x y. unfold G_img, z1, z2. cbn [elem]. rewrite (csum_ext _ _ _ (fun _ => C0)); [rewrite csum_const by (clear - P1 P5; lia); csolve|].
      intros a Ha. replace (centred2 true S S (fun _ _ => C0) x y) with C0; [csolve|].
      symmetry. unfold centred2. rewrite (csum_ext _ _ _ (fun _ => C0)); [rewrite csum_const by (clear - P1 P5; lia); csolve|].
      intros s Hs. rewrite (csum_ext _ _ _ (fun _ => C0)) by (intros; csolve). rewrite csum_const by (clear - P1; lia). csolve. }
    destruct (Z.le_gt_cases (last + 1) first) as [EM|NE].
    { rewrite !for_empty by lia. cbn [bind].
      destruct (G_finish_ok S ws h T pattern temp phi P1 P2 P5 ST HT PO img last image0 z1 z2 eq_refl eq_refl S0) as (i1 & E1 & Si & V1).
      exists i1, vis0. split; [exact E1|]. split; [reflexivity|]. split; [exact Si|]. split; [exact Sv0|].
      unfold herm2. rewrite !total2_zero; [reflexivity| |].
      - intros. generalize (elem vis [i; j]), (elem vis0 [i; j]). csolve.
      - intros i j Hi Hj. rewrite V1, GZ by assumption. generalize (elem image0 [i; j]), (img2 i j). csolve. }
    destruct (for_rel2 (fun i (st : nd C * nd C * nd C) (st2 : nd C * nd C) => D_img S ws h phi img (Z.max first (i - 1)) (fst (fst st)) /\
       D_stack S ws h phi img (Z.max first (i - 1)) (snd (fst st)) /\ shape (snd st) = [n; m] /\
       shape (fst st2) = [S; S] /\ shape (snd st2) = [ws; S; S] /\
       herm2 S S (G_img S ws h phi (Z.max first (i - 1)) (fst st2) (snd st2)) img2 =
       herm2 n m (fun i c => elem vis [i; c]) (fun i c => Csub (elem (snd st) [i; c]) (elem vis0 [i; c])))
       first (last + 1) dstep (gstep vis) (w, sg, vis0) (z1, z2)) as ([[w' sg'] v'] & [wg sgg] & EF & EG & F1 & F2 & F3 & F4 & F5 & F6).
    - lia.
    - cbn [fst snd]. replace (Z.max first (first - 1)) with first by lia. split; [exact DI|]. split; [exact DS|]. split; [exact Sv0|].
      split; [reflexivity|]. split; [reflexivity|]. unfold herm2. rewrite !total2_zero; [reflexivity| |].
      + intros. generalize (elem vis [i; j]), (elem vis0 [i; j]). csolve.
      + intros. rewrite GZ. generalize (img2 i j). csolve.
    - intros p [[w1 sg1] v1] [wg1 sgg1] Hp (A1 & A2 & A3 & A4 & A5 & A6). cbn [fst snd] in *. unfold dstep, gstep.
      assert (K : exists w2 sg2, (if negb (p =? first) then D_advance ws pattern temp (w1, sg1) else Some (w1, sg1)) = Some (w2, sg2) /\
        D_img S ws h phi img p w2 /\ D_stack S ws h phi img p sg2).
      { destruct (Z.eq_dec p first) as [->|N].
        - rewrite Z.eqb_refl. cbn [negb]. replace (Z.max first (first - 1)) with first in * by lia. eauto.
        - replace (p =? first) with false by lia. cbn [negb]. replace (Z.max first (p - 1)) with (p - 1) in * by lia.
          destruct (D_advance_ok S ws h T pattern temp phi P1 P2 P5 ST HT PO img (p - 1) w1 sg1 A1 A2) as (w2 & sg2 & E2 & B1 & B2).
          replace (p - 1 + 1) with p in * by lia. eauto. }
      assert (K2 : exists w2 sg2, (if negb (p =? first) then G_advance S ws pattern temp (wg1, sgg1) else Some (wg1, sgg1)) = Some (w2, sg2) /\
        shape w2 = [S; S] /\ shape sg2 = [ws; S; S] /\
        forall x y, 0 <= x < S -> 0 <= y < S -> G_img S ws h phi p w2 sg2 x y = G_img S ws h phi (Z.max first (p - 1)) wg1 sgg1 x y).
      { destruct (Z.eq_dec p first) as [->|N].
        - rewrite Z.eqb_refl. cbn [negb]. replace (Z.max first (first - 1)) with first in * by lia. eauto 6.
        - replace (p =? first) with false by lia. cbn [negb]. replace (Z.max first (p - 1)) with (p - 1) in * by lia.
          destruct (G_advance_ok S ws h T pattern temp phi P1 P2 P5 ST HT PO img (p - 1) wg1 sgg1 A4 A5) as (w2 & sg2 & E2 & B1 & B2 & B3).
          replace (p - 1 + 1) with p in * by lia. eauto 6. }
      destruct K as (w2 & sg2 & E2 & B1 & B2). rewrite E2. cbn [bind].
      destruct K2 as (wg2 & sgg2 & E2' & C1' & C2' & C3'). rewrite E2'. cbn [bind].
      destruct (degrid_lemma plan p off_u off_v off_w f0 df' r0 r1 uvws scs ecs n m POK ROK (fun i Hi => SAFE p i ltac:(lia) Hi) sg2 v1 (proj1 B2) A3)
        as (v2 & E3 & S3' & _). rewrite E3. cbn [bind].
      destruct (grid_lemma plan p off_u off_v off_w f0 df' r0 r1 uvws scs ecs n m POK ROK (fun i Hi => SAFE p i ltac:(lia) Hi) vis sgg2 C2' Sv)
        as (sgg3 & E4 & S4 & _). rewrite E4. cbn [bind].
      pose proof (adjoint_herm plan p off_u off_v off_w f0 df' r0 r1 uvws scs ecs vis v1 v2 sg2 sgg2 sgg3 n m ws S S KU KW A3 C2' E4 E3) as AD.
      eexists _, _. split; [reflexivity|]. split; [reflexivity|]. cbn [fst snd]. replace (Z.max first (p + 1 - 1)) with p by lia.
      split; [exact B1|]. split; [exact B2|]. split; [exact S3'|]. split; [exact C1'|]. split; [exact S4|].
      transitivity (Cadd (herm2 S S (fun x y => Csub (G_img S ws h phi p wg2 sgg3 x y) (G_img S ws h phi p wg2 sgg2 x y)) img2)
        (herm2 S S (G_img S ws h phi p wg2 sgg2) img2)).
      { unfold herm2. rewrite <- total2_add. apply total2_ext. intros x y _ _.
        generalize (G_img S ws h phi p wg2 sgg3 x y), (G_img S ws h phi p wg2 sgg2 x y), (img2 x y). csolve. }
      rewrite (G_img_herm S ws h phi img p wg2 sgg2 sgg3 img2 HI).
      replace (herm2 S S (G_img S ws h phi p wg2 sgg2) img2) with (herm2 S S (G_img S ws h phi (Z.max first (p - 1)) wg1 sgg1) img2)
        by (unfold herm2; apply total2_ext; intros; rewrite C3' by assumption; reflexivity).
      rewrite A6.
      transitivity (Cadd (total2 (A := Cring) n m (fun i c => Cmul (elem vis [i; c]) (Cconj (Csub (elem v2 [i; c]) (elem v1 [i; c])))))
        (herm2 n m (fun i c => elem vis [i; c]) (fun i c => Csub (elem v1 [i; c]) (elem vis0 [i; c])))).
      + f_equal. etransitivity; [|exact AD]. apply total3_ext. intros a k l Ha Hk Hl. rewrite <- (proj2 B2) by assumption. reflexivity.
      + unfold herm2. rewrite <- total2_add. apply total2_ext. intros i c _ _.
        assert (XX : forall a b d e : C, Cadd (Cmul a (Cconj (Csub d b))) (Cmul a (Cconj (Csub b e))) = Cmul a (Cconj (Csub d e))) by csolve.
        apply XX.
    - rewrite EF, EG. cbn [bind fst snd] in *. replace (Z.max first (last + 1 - 1)) with last in * by lia.
      destruct (G_finish_ok S ws h T pattern temp phi P1 P2 P5 ST HT PO img last image0 wg sgg F4 F5 S0) as (i1 & E1 & Si & V1).
      exists i1, v'. split; [exact E1|]. split; [reflexivity|]. split; [exact Si|]. split; [exact F3|]. rewrite <- F6.
      unfold herm2. apply total2_ext. intros x y Hx Hy. rewrite V1 by assumption. f_equal.
      generalize (elem image0 [x; y]), (G_img S ws h phi last wg sgg x y). csolve.
  Qed.
End Drivers.
