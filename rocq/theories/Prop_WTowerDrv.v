(** C69: the w-towers drivers. *)
From Coq Require Import Lia Reals Lra.
From Verif Require Import Base BaseFacts Sum CRing Cplx Clamp ClampSpec Select QNum Fft FftSpec FftFacts GridUtils GridUtilsFacts WTower WTowerSpec WTowerFacts2 WTowerDrv WTowerDrvSpec
  WTowerDrvFacts WTowerDrvFacts3.
Open Scope Z_scope.

(** What the inputs of both drivers must satisfy: a usable plan, rows and channels inside the
    arrays, kernels that fit in the sub-grid for every visibility that passes the checks on any of
    the planes [first .. last], and work arrays of the right size. *)
Definition inputs_ok (plan : wplan Cring) (pattern temp : nd C) (phi : Z -> Z -> R) (off_u off_v off_w : Z) (f0 df df' : Q)
    (uvws : nd Q) (scs ecs : nd Z) (n m start_row end_row r0 r1 first last : Z) : Prop :=
  plan_ok plan /\ rows_ok uvws scs ecs n m r0 r1 /\ rows_used n start_row end_row r0 r1 /\ width_used df df' /\
  w_planes plan uvws f0 df' scs ecs off_w = Some (first, last) /\
  (forall p i, first <= p <= last -> r0 <= i < r1 -> row_safe plan p off_u off_v off_w f0 df' uvws scs ecs i) /\
  pattern_ok (subgrid_size plan) pattern phi /\
  exists T, shape temp = [T] /\ subgrid_size plan * subgrid_size plan <= T.

(** Degridding adds to every visibility, for each plane p on which it is processed, the
    interpolation of the stack whose a-th plane is the transform of the image taken to distance
    p - w_support / 2 + a. *)
Theorem C69_degrid_driver : forall plan pattern temp phi off_u off_v off_w f0 df df' uvws scs ecs n m start_row end_row r0 r1 first last
    (image vis w_image subgrids : nd C),
  inputs_ok plan pattern temp phi off_u off_v off_w f0 df df' uvws scs ecs n m start_row end_row r0 r1 first last ->
  let S := subgrid_size plan in
  shape image = [S; S] -> shape w_image = [S; S] -> shape subgrids = [w_support plan; S; S] -> shape vis = [n; m] ->
  exists (proc : Z -> Z -> Z -> bool) vis',
    degrid_driver plan pattern image off_u off_v off_w f0 df uvws scs ecs vis start_row end_row w_image subgrids temp = Some vis' /\
    shape vis' = [n; m] /\
    (forall p i c, proc p i c = true <-> processed plan p off_u off_v off_w f0 df' uvws scs ecs i c) /\
    forall i c, r0 <= i < r1 -> 0 <= c < m ->
      elem vis' [i; c] = Cadd (elem vis [i; c]) (csum first (last + 1) (fun p =>
        if proc p i c then
          let xu := pos plan (elem uvws [i; 0]) f0 df' c off_u in
          let xv := pos plan (elem uvws [i; 1]) f0 df' c off_v in
          let xw := wpos plan (elem uvws [i; 2]) f0 df' c p off_w in
          interp plan (corner plan xu) (krow plan xu) (corner plan xv) (krow plan xv) (wrow plan xw)
            (fun a x y => w_subgrid S phi (fun s t => elem image [s; t]) (p - w_support plan / 2 + a) x y)
        else C0)).
Proof.
  intros plan pattern temp phi off_u off_v off_w f0 df df' uvws scs ecs n m start_row end_row r0 r1 first last
    image vis w_image subgrids (POK & ROK & ROWS & DF & PL & SAFE & PO & T & ST & HT) S S1 S2 S3 Sv.
  destruct (degrid_driver_formula plan pattern temp phi T off_u off_v off_w f0 df df' uvws scs ecs n m start_row end_row r0 r1 first last
    POK ROK ROWS DF PL SAFE PO ST HT image vis w_image subgrids S1 S2 S3 Sv) as (v & E & Sv' & V).
  exists (fun p i c => procb plan p off_u off_v off_w f0 df' uvws scs ecs i c), v. split; [exact E|]. split; [exact Sv'|].
  split; [intros; apply procb_spec|]. exact V.
Qed.
Print Assumptions C69_degrid_driver.

(** For an even w-support, gridding is the adjoint of degridding: <G vis, image> = <vis, D image>
    for the Hermitian products, all real kernels, all images and visibilities. *)
Theorem C69_adjoint_partial : forall plan pattern temp phi off_u off_v off_w f0 df df' uvws scs ecs n m start_row end_row r0 r1 first last
    (image vis0 vis w_image subgrids image0 : nd C),
  inputs_ok plan pattern temp phi off_u off_v off_w f0 df df' uvws scs ecs n m start_row end_row r0 r1 first last ->
  let S := subgrid_size plan in
  (forall idx, im (elem (uv_kernel plan) idx) = 0%R) -> (forall idx, im (elem (w_kernel plan) idx) = 0%R) ->
  shape image = [S; S] -> shape image0 = [S; S] -> shape w_image = [S; S] -> shape subgrids = [w_support plan; S; S] ->
  shape vis = [n; m] -> shape vis0 = [n; m] ->
  w_support plan mod 2 = 0 ->
  exists image1 vis1,
    grid_driver plan pattern vis uvws scs ecs f0 df image0 off_u off_v off_w start_row end_row temp = Some image1 /\
    degrid_driver plan pattern image off_u off_v off_w f0 df uvws scs ecs vis0 start_row end_row w_image subgrids temp = Some vis1 /\
    shape image1 = [S; S] /\ shape vis1 = [n; m] /\
    herm2 S S (fun x y => Csub (elem image1 [x; y]) (elem image0 [x; y])) (fun x y => elem image [x; y]) =
    herm2 n m (fun i c => elem vis [i; c]) (fun i c => Csub (elem vis1 [i; c]) (elem vis0 [i; c])).
Proof.
  intros plan pattern temp phi off_u off_v off_w f0 df df' uvws scs ecs n m start_row end_row r0 r1 first last
    image vis0 vis w_image subgrids image0 (POK & ROK & ROWS & DF & PL & SAFE & PO & T & ST & HT) S KU KW S1 S0 S2 S3 Sv Sv0 EV.
  apply (driver_adjoint plan pattern temp phi T off_u off_v off_w f0 df df' uvws scs ecs n m start_row end_row r0 r1 first last
    POK ROK ROWS DF PL SAFE PO ST HT (fun x y => elem image [x; y])); auto.
  intros x y _ _. pose proof (Z.div_mod (w_support plan) 2 ltac:(lia)) as D.
  replace (w_support plan - 2 * (w_support plan / 2)) with 0 by (clear - D EV; lia). rewrite Rmult_0_l, cis_0.
  generalize (elem image [x; y]). csolve.
Qed.
Print Assumptions C69_adjoint_partial.

(** For an odd w-support, gridding is the adjoint of degridding the image taken one w-step
    further: the two drivers place the stack half a step to either side of the centre. *)
Theorem C69_adjoint_odd : forall plan pattern temp phi off_u off_v off_w f0 df df' uvws scs ecs n m start_row end_row r0 r1 first last
    (image vis0 vis w_image subgrids image0 : nd C) (img : Z -> Z -> C),
  inputs_ok plan pattern temp phi off_u off_v off_w f0 df df' uvws scs ecs n m start_row end_row r0 r1 first last ->
  let S := subgrid_size plan in
  (forall idx, im (elem (uv_kernel plan) idx) = 0%R) -> (forall idx, im (elem (w_kernel plan) idx) = 0%R) ->
  shape image = [S; S] -> shape image0 = [S; S] -> shape w_image = [S; S] -> shape subgrids = [w_support plan; S; S] ->
  shape vis = [n; m] -> shape vis0 = [n; m] ->
  w_support plan mod 2 = 1 ->
  (forall x y, 0 <= x < S -> 0 <= y < S -> elem image [x; y] = Cmul (img x y) (elem pattern [x; y])) ->
  exists image1 vis1,
    grid_driver plan pattern vis uvws scs ecs f0 df image0 off_u off_v off_w start_row end_row temp = Some image1 /\
    degrid_driver plan pattern image off_u off_v off_w f0 df uvws scs ecs vis0 start_row end_row w_image subgrids temp = Some vis1 /\
    shape image1 = [S; S] /\ shape vis1 = [n; m] /\
    herm2 S S (fun x y => Csub (elem image1 [x; y]) (elem image0 [x; y])) img =
    herm2 n m (fun i c => elem vis [i; c]) (fun i c => Csub (elem vis1 [i; c]) (elem vis0 [i; c])).
Proof.
  intros plan pattern temp phi off_u off_v off_w f0 df df' uvws scs ecs n m start_row end_row r0 r1 first last
    image vis0 vis w_image subgrids image0 img (POK & ROK & ROWS & DF & PL & SAFE & PO & T & ST & HT) S KU KW S1 S0 S2 S3 Sv Sv0 OD HI.
  apply (driver_adjoint plan pattern temp phi T off_u off_v off_w f0 df df' uvws scs ecs n m start_row end_row r0 r1 first last
    POK ROK ROWS DF PL SAFE PO ST HT img); auto.
  intros x y Hx Hy. pose proof (Z.div_mod (w_support plan) 2 ltac:(lia)) as D.
  replace (w_support plan - 2 * (w_support plan / 2)) with 1 by (clear - D OD; lia). rewrite HI by assumption.
  rewrite (proj2 PO) by assumption. rewrite Rmult_1_l. reflexivity.
Qed.
Print Assumptions C69_adjoint_odd.

(** A 4 x 4 sub-grid, kernels of ones, one visibility at (0, 0, 1/8). *)
Definition ex_plan (ws : Z) : wplan Cring := mk_wplan Cring 4 (1 # 1) (1 # 1) 2 1 ws 1
  (mk_nd [4] (fun _ => C1)) (mk_nd [2 * ws] (fun _ => C1)).
Definition ex_uvw : nd Q := mk_nd [1; 3] (fun idx => nth (Z.to_nat (nth 1 idx 0)) [0; 0; 1 # 8]%Q 0%Q).
Definition ex_ch (k : Z) : nd Z := mk_nd [1] (fun _ => k).
Definition ex_const (sh : list Z) (c : C) : nd C := mk_nd sh (fun _ => c).

Lemma ex_inputs ws : 1 <= ws -> inputs_ok (ex_plan ws) (ex_const [4; 4] (cis (PI / 2))) (ex_const [16] C0) (fun _ _ => (PI / 2)%R)
  0 0 0 C_0 C_0 C_0 ex_uvw (ex_ch 0) (ex_ch 1) 1 1 (-1) (-1) 0 1 0 2.
Proof.
  intro W. split; [repeat split; try reflexivity; cbn; lia|]. split; [repeat split; cbn; auto; lia|].
  split; [split; intros; lia|]. split; [split; [intro H; vm_compute in H; discriminate|reflexivity]|].
  split; [vm_compute; reflexivity|].
  split.
  - intros p i Hp Hi. replace i with 0 by lia. assert (p = 0 \/ p = 1 \/ p = 2) as [-> | [-> | ->]] by lia.
    all: split; [right; split; vm_compute; reflexivity|].
    all: intros _ c; match goal with |- context [plane_channels ?a ?b ?d ?e ?f ?g ?h ?i] =>
        replace (plane_channels a b d e f g h i) with (if b =? 1 then (0, 1) else (0, 0)) by (vm_compute; reflexivity) end; cbn [fst snd Z.eqb Pos.eqb]; intro Hc.
    + lia.
    + assert (c = 0) as -> by lia. repeat split; vm_compute; intuition congruence.
    + lia.
  - split; [split; [reflexivity|intros; reflexivity]|]. exists 16. split; [reflexivity|cbn; lia].
Qed.

Example C69_hyps : inputs_ok (ex_plan 2) (ex_const [4; 4] (cis (PI / 2))) (ex_const [16] C0) (fun _ _ => (PI / 2)%R)
    0 0 0 C_0 C_0 C_0 ex_uvw (ex_ch 0) (ex_ch 1) 1 1 (-1) (-1) 0 1 0 2 /\
  w_support (ex_plan 2) mod 2 = 0 /\ (forall idx, im (elem (uv_kernel (ex_plan 2)) idx) = 0%R).
Proof. split; [apply ex_inputs; lia|]. split; [reflexivity|]. reflexivity. Qed.

Lemma csum_one i lo hi (f : Z -> C) : lo <= i < hi -> (forall j, lo <= j < hi -> j <> i -> f j = C0) -> csum lo hi f = f i.
Proof. intros. apply (sum_one _ _ (Rcm (A := Cring))); auto. Qed.
Lemma csum_zero lo hi (f : Z -> C) : (forall j, lo <= j < hi -> f j = C0) -> csum lo hi f = C0.
Proof. intros. apply (sum_none _ _ (Rcm (A := Cring))); auto. Qed.

(** The drivers are not adjoint for an odd w-support. *)
Theorem C69_odd_refuted :
  exists plan pattern temp phi off_u off_v off_w f0 df df' uvws scs ecs n m start_row end_row r0 r1 first last image image0 w_image subgrids vis vis0 image1 vis1,
  inputs_ok plan pattern temp phi off_u off_v off_w f0 df df' uvws scs ecs n m start_row end_row r0 r1 first last /\
  (let S := subgrid_size plan in
  (forall idx, im (elem (uv_kernel plan) idx) = 0%R) /\ (forall idx, im (elem (w_kernel plan) idx) = 0%R) /\
  shape image = [S; S] /\ shape image0 = [S; S] /\ shape w_image = [S; S] /\ shape subgrids = [w_support plan; S; S] /\
  shape vis = [n; m] /\ shape vis0 = [n; m] /\
  grid_driver plan pattern vis uvws scs ecs f0 df image0 off_u off_v off_w start_row end_row temp = Some image1 /\
  degrid_driver plan pattern image off_u off_v off_w f0 df uvws scs ecs vis0 start_row end_row w_image subgrids temp = Some vis1 /\
  herm2 S S (fun x y => Csub (elem image1 [x; y]) (elem image0 [x; y])) (fun x y => elem image [x; y]) <>
  herm2 n m (fun i c => elem vis [i; c]) (fun i c => Csub (elem vis1 [i; c]) (elem vis0 [i; c]))).
Proof.
  set (pt := ex_const [4; 4] (cis (PI / 2))). set (tp := ex_const [16] C0).
  set (delta := mk_nd [4; 4] (fun idx => if (nth 0 idx 0 =? 2) && (nth 1 idx 0 =? 2) then C1 else C0)).
  set (vis := ex_const [1; 1] C1). set (vis0 := ex_const [1; 1] C0). set (z2 := ex_const [4; 4] C0). set (z3 := ex_const [1; 4; 4] C0).
  pose proof (ex_inputs 1 ltac:(lia)) as IO. fold pt tp in IO.
  destruct (C69_degrid_driver (ex_plan 1) pt tp (fun _ _ => (PI / 2)%R) 0 0 0 C_0 C_0 C_0 ex_uvw (ex_ch 0) (ex_ch 1) 1 1 (-1) (-1) 0 1 0 2
    delta vis0 z2 z3 IO eq_refl eq_refl eq_refl eq_refl) as (proc & v1 & ED & Sv1 & PR & V1).
  destruct (C69_adjoint_odd (ex_plan 1) pt tp (fun _ _ => (PI / 2)%R) 0 0 0 C_0 C_0 C_0 ex_uvw (ex_ch 0) (ex_ch 1) 1 1 (-1) (-1) 0 1 0 2
    delta vis0 vis z2 z3 z2 (fun x y => Cmul (elem delta [x; y]) (cis (- (PI / 2)))) IO (fun _ => eq_refl) (fun _ => eq_refl) eq_refl eq_refl eq_refl eq_refl eq_refl eq_refl eq_refl)
    as (i1 & v2 & EG & ED2 & Si & _ & AD).
  { intros x y _ _. unfold pt, ex_const. cbn [elem]. generalize (elem delta [x; y]). intro d.
    transitivity (Cmul d (Cmul (cis (PI / 2)) (cis (- (PI / 2))))); [rewrite cis_inv|]; csolve. }
  rewrite ED in ED2. injection ED2 as <-.
  exists (ex_plan 1), pt, tp, (fun _ _ => (PI / 2)%R), 0, 0, 0, C_0, C_0, C_0, ex_uvw, (ex_ch 0), (ex_ch 1), 1, 1, (-1), (-1), 0, 1, 0, 2,
    delta, z2, z2, z3, vis, vis0, i1, v1.
  split; [exact IO|]. cbv zeta. repeat (split; [reflexivity || exact EG || exact ED|]).
  (* the value of the degridded visibility *)
  assert (P1 : forall p, 0 <= p < 3 -> proc p 0 0 = (p =? 1)).
  { intros p Hp. assert (B : forall b : bool, (proc p 0 0 = true <-> b = true) -> proc p 0 0 = b) by (intros [] H; destruct (proc p 0 0); intuition congruence).
    apply B. rewrite PR. rewrite <- procb_spec. assert (p = 0 \/ p = 1 \/ p = 2) as [-> | [-> | ->]] by lia; vm_compute; tauto. }
  specialize (V1 0 0 ltac:(lia) ltac:(lia)).
  assert (W : forall z k l, w_subgrid 4 (fun _ _ => (PI / 2)%R) (fun s t => elem delta [s; t]) z k l = cis (- (IZR z * (PI / 2)))).
  { intros z k l. unfold w_subgrid, centred2. change (4 / 2) with 2.
    rewrite (csum_one 2) by (lia || intros s Hs Ns; apply csum_zero; intros t Ht; cbn [elem delta nth]; replace (s =? 2) with false by lia; cbn [andb]; csolve).
    rewrite (csum_one 2) by (lia || intros t Ht Nt; cbn [elem delta nth]; replace (t =? 2) with false by lia; cbn [andb Z.eqb Pos.eqb]; csolve).
    replace ((k - 2) * (2 - 2)) with 0 by lia. replace ((l - 2) * (2 - 2)) with 0 by lia. rewrite W_0. cbn [elem delta nth Z.eqb Pos.eqb andb].
    generalize (cis (- (IZR z * (PI / 2)))). csolve. }
  assert (VV : elem v1 [0; 0] = Cmul (RtoC 4) (cis (- (IZR 1 * (PI / 2))))).
  { rewrite V1. rewrite (csum_one 1); [|lia|intros p Hp Np; rewrite P1 by lia; replace (p =? 1) with false by lia; reflexivity].
    rewrite P1 by lia. cbn [Z.eqb Pos.eqb]. cbv zeta. unfold interp.
    rewrite (csum_one 0 0 (w_support (ex_plan 1))) by (cbn; lia). change (1 - w_support (ex_plan 1) / 2 + 0) with 1.
    change (support (ex_plan 1)) with 2.
    assert (T2 : forall f : Z -> C, sum (@radd Cring) (@r0 Cring) 0 2 f = Cadd (f 0) (f 1)).
    { intro f. change (sum (@radd Cring) (@r0 Cring) 0 2 f) with (csum 0 2 f). change 2 with (0 + 1 + 1). rewrite !csum_snoc, csum_empty by lia. change (0 + 1) with 1. generalize (f 0), (f 1). csolve. }
    rewrite !T2. change (subgrid_size (ex_plan 1)) with 4. rewrite !W. cbn [elem uv_kernel w_kernel ex_plan vis0 ex_const rmul Cring].
    generalize (cis (- (IZR 1 * (PI / 2)))). csolve. }
  replace (elem v1 [0; 0]) with (elem v1 [0; 0]) in AD by reflexivity.
  set (A := herm2 (subgrid_size (ex_plan 1)) (subgrid_size (ex_plan 1)) (fun x y => Csub (elem i1 [x; y]) (elem z2 [x; y])) (fun x y => elem delta [x; y])) in *.
  assert (HA : herm2 (subgrid_size (ex_plan 1)) (subgrid_size (ex_plan 1)) (fun x y => Csub (elem i1 [x; y]) (elem z2 [x; y]))
     (fun x y => Cmul (elem delta [x; y]) (cis (- (PI / 2)))) = Cmul A (cis (PI / 2))).
  { unfold A, herm2. rewrite !total2_csum, csum_mul_r. apply csum_ext; intros x Hx. rewrite csum_mul_r. apply csum_ext; intros y Hy.
    rewrite Cconj_mul, <- cis_neg, Ropp_involutive. generalize (elem delta [x; y]), (elem i1 [x; y]), (elem z2 [x; y]), (cis (PI / 2)). csolve. }
  rewrite HA in AD. intro EQ. change (herm2 1 1 (fun i c => elem vis [i; c]) (fun i c => Csub (elem v1 [i; c]) (elem vis0 [i; c]))) with
    (csum 0 1 (fun i => csum 0 1 (fun j => Cmul (elem vis [i; j]) (Cconj (Csub (elem v1 [i; j]) (elem vis0 [i; j])))))) in AD, EQ.
  rewrite (csum_one 0), (csum_one 0) in AD, EQ by lia.
  rewrite VV in AD, EQ. rewrite EQ in AD. cbn [elem vis vis0 ex_const] in AD. clear - AD.
  assert (H1 : cis (- (IZR 1 * (PI / 2))) = (0, -1)%R) by (rewrite Rmult_1_l, cis_neg; unfold cis, Cconj; cbn [re im fst snd]; now rewrite cos_PI2, sin_PI2).
  assert (H2 : cis (PI / 2) = (0, 1)%R) by (unfold cis; now rewrite cos_PI2, sin_PI2).
  rewrite H1, H2 in AD. unfold Cmul, Cconj, Csub, Cadd, Copp, C0, C1, RtoC in AD. cbn [re im fst snd] in AD. injection AD. intros. lra.
Qed.
Print Assumptions C69_odd_refuted.
