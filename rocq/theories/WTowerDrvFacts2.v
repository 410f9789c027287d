From Verif Require Import Base BaseFacts Sum CRing Cplx Loops Clamp ClampSpec Select QNum Fft FftSpec FftFacts FftFacts2 FftFacts3
  GridUtils GridUtilsFacts Subgrid SubgridFacts WTower WTowerSpec WTowerFacts WTowerFacts2 WTowerFacts3 WTowerFacts4 WTowerDrv WTowerDrvSpec WTowerDrvFacts.
From Coq Require Import Lia.
Open Scope Z_scope.

Section Drv.
  Context (S ws h T : Z) (pattern temp : nd C) (phi : Z -> Z -> R).
  Context (HS : 0 < S) (EV : S mod 2 = 0) (WS : 1 <= ws) (ST : shape temp = [T]) (HT : S * S <= T)
    (PO : pattern_ok S pattern phi).

  Lemma scale1 w e o0 : shape w = [S; S] -> shape o0 = [S; S] ->
    exists w', scale_inv_array o0 w pattern e = Some w' /\ shape w' = [S; S] /\
      forall x y, 0 <= x < S -> 0 <= y < S -> elem w' [x; y] = Cmul (elem w [x; y]) (cis (- (IZR e * phi x y))).
  Proof.
    destruct PO as [SP EP]. intros Sw So.
    destruct (scale_inv_lemma o0 w pattern e S S) as (w' & E & S' & P); auto; try lia.
    exists w'. split; [exact E|]. split; [exact S'|]. intros x y Hx Hy. rewrite P, EP, Cdiv_cis' by assumption. reflexivity.
  Qed.

  (** ** Degridding: image and stack at plane q *)
  Context (img : Z -> Z -> C).
  Definition D_img (q : Z) (w : nd C) : Prop := shape w = [S; S] /\
    forall x y, 0 <= x < S -> 0 <= y < S -> elem w [x; y] = Cmul (img x y) (cis (- (IZR (q - h + ws) * phi x y))).
  Definition D_stack (q : Z) (sg : nd C) : Prop := shape sg = [ws; S; S] /\
    forall a k l, 0 <= a < ws -> 0 <= k < S -> 0 <= l < S -> elem sg [a; k; l] = w_subgrid S phi img (q - h + a) k l.

  Definition fill (st : nd C * nd C) := for_ 0 ws (fun i st =>
    let* d := plane_fft 1 (fst st) temp in
    let* w_image := scale_inv_array (fst st) (fst st) pattern 1 in
    Some (w_image, set_plane (snd st) i d)) st.

  Lemma fill_ok q w sg : shape w = [S; S] -> shape sg = [ws; S; S] ->
    (forall x y, 0 <= x < S -> 0 <= y < S -> elem w [x; y] = Cmul (img x y) (cis (- (IZR (q - h) * phi x y)))) ->
    exists w' sg', fill (w, sg) = Some (w', sg') /\ D_img q w' /\ D_stack q sg'.
  Proof.
    intros Sw Ss Vw. unfold fill.
    match goal with |- context [for_ 0 ws ?b _] => destruct (for_inv (fun i (st : nd C * nd C) => shape (fst st) = [S; S] /\ shape (snd st) = [ws; S; S] /\
      (forall x y, 0 <= x < S -> 0 <= y < S -> elem (fst st) [x; y] = Cmul (img x y) (cis (- (IZR (q - h + i) * phi x y)))) /\
      (forall a k l, 0 <= a < i -> 0 <= k < S -> 0 <= l < S -> elem (snd st) [a; k; l] = w_subgrid S phi img (q - h + a) k l))
      0 ws b (w, sg)) as ([w' sg'] & E & P1 & P2 & P3 & P4) end.
    - lia.
    - cbn [fst snd]. repeat split; auto.
      + intros x y Hx Hy. rewrite Vw by assumption. replace (q - h + 0) with (q - h) by lia. reflexivity.
      + intros; lia.
    - intros i [w1 sg1] Hi (A1 & A2 & A3 & A4). cbn [fst snd] in *.
      destruct (plane_fft_ok 1 w1 temp S T HS EV A1 ST HT) as (d & Ed & Sd & Vd). rewrite Ed. cbn [bind].
      destruct (scale1 w1 1 w1 A1 A1) as (w2 & E2 & S2 & V2). rewrite E2. cbn [bind].
      eexists. split; [reflexivity|]. cbn [fst snd]. split; [exact S2|]. split; [exact A2|]. split.
      + intros x y Hx Hy. rewrite V2, A3 by assumption.
        transitivity (Cmul (img x y) (Cmul (cis (- (IZR (q - h + i) * phi x y))) (cis (- (1 * phi x y))))); [generalize (img x y); csolve|].
        rewrite <- cis_add. do 2 f_equal. replace (q - h + (i + 1)) with (q - h + i + 1) by lia. rewrite (plus_IZR (q - h + i) 1). ring.
      + intros a k l Ha Hk Hl. rewrite elem_set_plane. destruct (a =? i) eqn:Ea.
        * rewrite Vd by assumption. replace a with i by lia. unfold w_subgrid. apply centred2_ext. intros; now apply A3.
        * apply A4; lia.
    - exists w', sg'. split; [exact E|]. cbn [fst snd] in *. split; split; auto.
  Qed.

  Definition D_advance (st : nd C * nd C) : option (nd C * nd C) :=
        let* subgrids := shift_subgrids (A := Cring) (snd st) in
        let* d := plane_fft 1 (fst st) temp in
        let* w_image := scale_inv_array (fst st) (fst st) pattern 1 in
        Some (w_image, set_plane subgrids (ws - 1) d).
  Lemma D_advance_ok q w sg : D_img q w -> D_stack q sg ->
    exists w' sg', D_advance (w, sg) = Some (w', sg') /\ D_img (q + 1) w' /\ D_stack (q + 1) sg'.
  Proof.
    intros [Sw Vw] [Ss Vs]. unfold D_advance. cbn [fst snd].
    destruct (shift_lemma (A := Cring) sg ws S) as (s1 & E1 & S1 & V1); auto; try lia. rewrite E1. cbn [bind].
    destruct (plane_fft_ok 1 w temp S T HS EV Sw ST HT) as (d & Ed & Sd & Vd). rewrite Ed. cbn [bind].
    destruct (scale1 w 1 w Sw Sw) as (w2 & E2 & S2 & V2). rewrite E2. cbn [bind].
    eexists _, _. split; [reflexivity|]. split; split.
    - exact S2.
    - intros x y Hx Hy. rewrite V2, Vw by assumption.
      transitivity (Cmul (img x y) (Cmul (cis (- (IZR (q - h + ws) * phi x y))) (cis (- (1 * phi x y))))); [generalize (img x y); csolve|].
      rewrite <- cis_add. do 2 f_equal. replace (q + 1 - h + ws) with (q - h + ws + 1) by lia. rewrite (plus_IZR (q - h + ws) 1). ring.
    - exact S1.
    - intros a k l Ha Hk Hl. rewrite elem_set_plane. destruct (a =? ws - 1) eqn:Ea.
      + rewrite Vd by assumption. replace (q + 1 - h + a) with (q - h + ws) by lia. unfold w_subgrid. apply centred2_ext. intros; now apply Vw.
      + rewrite V1 by lia. rewrite Ea. rewrite Vs by lia. f_equal. lia.
  Qed.

  (** ** Gridding: the image that a state (image, stack) at plane q stands for *)
  Definition G_img (q : Z) (w sg : nd C) (x y : Z) : C :=
    Cadd (Cmul (elem w [x; y]) (cis (IZR (q - 1 - (ws - h)) * phi x y)))
      (csum 0 ws (fun a => Cmul (centred2 true S S (fun k l => elem sg [a; k; l]) x y) (cis (IZR (q + a - (ws - h)) * phi x y)))).
  Definition G_advance (st : nd C * nd C) : option (nd C * nd C) :=
        let* w_image := scale_inv_array (fst st) (fst st) pattern 1 in
        let* d := plane_fft 0 (plane (snd st) 0 S) temp in
        let* w_image := accum_scale_array w_image d None 0 in
        let* subgrids := shift_subgrids (A := Cring) (snd st) in
        Some (w_image, set_plane subgrids (ws - 1) (mk_nd [S; S] (fun _ => C0))).

  Lemma G_step w sg i : shape w = [S; S] -> shape sg = [ws; S; S] -> 0 <= i < ws ->
    exists w', (let* w_image := scale_inv_array w w pattern 1 in
      let* d := plane_fft 0 (plane sg i S) temp in accum_scale_array w_image d None 0) = Some w' /\ shape w' = [S; S] /\
      forall x y, 0 <= x < S -> 0 <= y < S -> elem w' [x; y] =
        Cadd (Cmul (elem w [x; y]) (cis (- phi x y))) (centred2 true S S (fun k l => elem sg [i; k; l]) x y).
  Proof.
    intros Sw Ss Hi. destruct (scale1 w 1 w Sw Sw) as (w2 & E2 & S2 & V2). rewrite E2. cbn [bind].
    destruct (plane_fft_ok 0 (plane sg i S) temp S T HS EV eq_refl ST HT) as (d & Ed & Sd & Vd). rewrite Ed. cbn [bind].
    destruct (accum_lemma w2 d None 0 S S S2 Sd) as (w3 & E3 & S3 & V3); try lia; [discriminate|].
    exists w3. split; [exact E3|]. split; [exact S3|]. intros x y Hx Hy. rewrite V3, V2, Vd by assumption. cbn [inverse_of Z.eqb negb].
    replace (- (1 * phi x y))%R with (- phi x y)%R by ring. cbn [plane elem].
    unfold scale_of. change (inverse_of 0) with true. generalize (centred2 true S S (fun s t => elem sg [i; s; t]) x y). csolve.
  Qed.

  Lemma G_advance_ok q w sg : shape w = [S; S] -> shape sg = [ws; S; S] ->
    exists w' sg', G_advance (w, sg) = Some (w', sg') /\ shape w' = [S; S] /\ shape sg' = [ws; S; S] /\
      forall x y, 0 <= x < S -> 0 <= y < S -> G_img (q + 1) w' sg' x y = G_img q w sg x y.
  Proof.
    intros Sw Ss. unfold G_advance. cbn [fst snd].
    destruct (G_step w sg 0 Sw Ss ltac:(lia)) as (w' & E & S' & V).
    destruct (scale_inv_array w w pattern 1) as [w1|]; [|discriminate]. cbn [bind] in E |- *.
    destruct (plane_fft 0 (plane sg 0 S) temp) as [d|]; [|discriminate]. cbn [bind] in E |- *. rewrite E. cbn [bind].
    destruct (shift_lemma (A := Cring) sg ws S) as (s1 & E1 & S1 & V1); auto; try lia. rewrite E1. cbn [bind].
    eexists _, _. split; [reflexivity|]. split; [exact S'|]. split; [exact S1|]. intros x y Hx Hy.
    unfold G_img. rewrite V by assumption.
    set (f := fun a => Cmul (centred2 true S S (fun k l => elem sg [a; k; l]) x y) (cis (IZR (q + a - (ws - h)) * phi x y))).
    set (g := fun a => Cmul (centred2 true S S (fun k l => elem (set_plane s1 (ws - 1) (mk_nd [S; S] (fun _ => C0))) [a; k; l]) x y) _).
    assert (Z0 : g (ws - 1) = C0).
    { unfold g. rewrite (centred2_ext true S S _ (fun _ _ => C0)).
      2:{ intros s t _ _. rewrite elem_set_plane, Z.eqb_refl. reflexivity. }
      replace (centred2 true S S (fun _ _ => C0) x y) with C0; [csolve|].
      symmetry. unfold centred2. rewrite (csum_ext _ _ _ (fun _ => C0)).
      - rewrite csum_const by lia. csolve.
      - intros s Hs. rewrite (csum_ext _ _ _ (fun _ => C0)) by (intros; csolve). rewrite csum_const by lia. csolve. }
    assert (Zg : csum 0 ws g = csum 0 (ws - 1) (fun a => f (a + 1))).
    { replace ws with ((ws - 1) + 1) at 1 by lia. rewrite csum_snoc, Z0 by lia.
      rewrite (csum_ext 0 (ws - 1) g (fun a => f (a + 1))).
      - generalize (csum 0 (ws - 1) (fun a => f (a + 1))). csolve.
      - intros a Ha. unfold g, f. rewrite (centred2_ext true S S _ (fun k l => elem sg [a + 1; k; l])).
        + replace (q + 1 + a - (ws - h)) with (q + (a + 1) - (ws - h)) by lia. reflexivity.
        + intros s t Hs Ht. rewrite elem_set_plane. replace (a =? ws - 1) with false by lia. rewrite V1 by lia.
          replace (a =? ws - 1) with false by lia. reflexivity. }
    assert (Zf : csum 0 ws f = Cadd (f 0) (csum 0 (ws - 1) (fun a => f (a + 1)))).
    { replace ws with ((ws - 1) + 1) at 1 by lia. rewrite csum_snoc, <- (csum_shift1 (ws - 1) f) by lia.
      generalize (csum 0 (ws - 1) (fun a => f (a + 1))), (f 0). csolve. }
    rewrite Zg, Zf.
    replace (f 0) with (Cmul (centred2 true S S (fun k l => elem sg [0; k; l]) x y) (cis (IZR (q - (ws - h)) * phi x y))).
    2:{ unfold f. do 4 f_equal. lia. }
    replace (q + 1 - 1 - (ws - h)) with (q - (ws - h)) by lia.
    transitivity (Cadd (Cmul (elem w [x; y]) (Cmul (cis (- phi x y)) (cis (IZR (q - (ws - h)) * phi x y))))
      (Cadd (Cmul (centred2 true S S (fun k l => elem sg [0; k; l]) x y) (cis (IZR (q - (ws - h)) * phi x y))) (csum 0 (ws - 1) (fun a => f (a + 1))))).
    - generalize (csum 0 (ws - 1) (fun a => f (a + 1))), (centred2 true S S (fun k l => elem sg [0; k; l]) x y). csolve.
    - rewrite <- cis_add. do 3 f_equal. replace (q - 1 - (ws - h)) with (q - (ws - h) - 1) by lia. rewrite (minus_IZR (q - (ws - h)) 1). ring.
  Qed.

  (** The last loop and the final scaling *)
  Definition G_finish (last : Z) (subgrid_image w sg : nd C) : option (nd C) :=
    let* w_image := for_ 0 ws (fun i w_image =>
      let* w_image := scale_inv_array w_image w_image pattern 1 in
      let* d := plane_fft 0 (plane sg i S) temp in
      accum_scale_array w_image d None 0) w in
    accum_scale_array subgrid_image w_image (Some pattern) (last + h - 1).
  Lemma G_finish_ok last image w sg : shape w = [S; S] -> shape sg = [ws; S; S] -> shape image = [S; S] ->
    exists im', G_finish last image w sg = Some im' /\ shape im' = [S; S] /\
      forall x y, 0 <= x < S -> 0 <= y < S -> elem im' [x; y] = Cadd (elem image [x; y]) (G_img last w sg x y).
  Proof.
    intros Sw Ss Si. unfold G_finish. destruct PO as [SP EP].
    set (f := fun x y a => Cmul (centred2 true S S (fun k l => elem sg [a; k; l]) x y) (cis (IZR (last + a - (ws - h)) * phi x y))).
    match goal with |- context [for_ 0 ws ?b _] => destruct (for_inv (fun i w' => shape w' = [S; S] /\
      forall x y, 0 <= x < S -> 0 <= y < S ->
        Cmul (elem w' [x; y]) (cis (IZR (last + i - 1 - (ws - h)) * phi x y)) =
        Cadd (Cmul (elem w [x; y]) (cis (IZR (last - 1 - (ws - h)) * phi x y))) (csum 0 i (f x y))) 0 ws b w) as (w' & E & S' & V) end.
    - lia.
    - split; [exact Sw|]. intros x y Hx Hy. rewrite csum_empty by lia. replace (last + 0 - 1 - (ws - h)) with (last - 1 - (ws - h)) by lia. csolve.
    - intros i w1 Hi [S1 V1]. destruct (G_step w1 sg i S1 Ss Hi) as (w2 & E2 & S2 & V2). exists w2. split; [exact E2|]. split; [exact S2|].
      intros x y Hx Hy. rewrite V2, csum_snoc by lia.
      transitivity (Cadd (Cadd (Cmul (elem w [x; y]) (cis (IZR (last - 1 - (ws - h)) * phi x y))) (csum 0 i (f x y))) (f x y i)); [|csolve].
      rewrite <- V1 by assumption. unfold f.
      replace (last + (i + 1) - 1 - (ws - h)) with (last + i - (ws - h)) by lia.
      transitivity (Cadd (Cmul (elem w1 [x; y]) (Cmul (cis (- phi x y)) (cis (IZR (last + i - (ws - h)) * phi x y))))
        (Cmul (centred2 true S S (fun k l => elem sg [i; k; l]) x y) (cis (IZR (last + i - (ws - h)) * phi x y)))).
      + generalize (centred2 true S S (fun k l => elem sg [i; k; l]) x y). csolve.
      + rewrite <- cis_add. do 3 f_equal. replace (last + i - 1 - (ws - h)) with (last + i - (ws - h) - 1) by lia.
        rewrite (minus_IZR (last + i - (ws - h)) 1). ring.
    - rewrite E. cbn [bind].
      destruct (accum_lemma image w' (Some pattern) (last + h - 1) S S Si S') as (im & Ei & Si' & Vi); try lia; [intros b [= <-]; exact SP|].
      exists im. split; [exact Ei|]. split; [exact Si'|]. intros x y Hx Hy. rewrite Vi by assumption. unfold scale_of. rewrite EP, Cpowz_cis by assumption.
      unfold G_img. rewrite <- V by assumption. do 4 f_equal. f_equal. lia.
  Qed.

  (** Gridding a plane changes the image by the transforms of what was added to the stack. *)
  Lemma G_img_herm q w sg0 sg1 (img2 : Z -> Z -> C) :
    (forall x y, 0 <= x < S -> 0 <= y < S -> img x y = Cmul (img2 x y) (cis (IZR (ws - 2 * h) * phi x y))) ->
    herm2 S S (fun x y => Csub (G_img q w sg1 x y) (G_img q w sg0 x y)) img2 =
    total3 (A := Cring) ws S S (fun a k l => Cmul (Csub (elem sg1 [a; k; l]) (elem sg0 [a; k; l])) (Cconj (w_subgrid S phi img (q - h + a) k l))).
  Proof.
    intro HI. rewrite total3_csum.
    transitivity (csum 0 ws (fun a => herm2 S S (centred2 true S S (fun k l => Csub (elem sg1 [a; k; l]) (elem sg0 [a; k; l])))
      (fun x y => Cmul (img2 x y) (cis (- (IZR (q + a - (ws - h)) * phi x y)))))).
    - unfold herm2. rewrite !total2_csum.
      transitivity (csum 0 S (fun x => csum 0 ws (fun a => csum 0 S (fun y => 
         Cmul (centred2 true S S (fun k l => Csub (elem sg1 [a; k; l]) (elem sg0 [a; k; l])) x y)
           (Cconj (Cmul (img2 x y) (cis (- (IZR (q + a - (ws - h)) * phi x y)))))))));
      [|now rewrite csum_swap].
      apply csum_ext; intros x Hx. rewrite csum_swap. apply csum_ext; intros y Hy.
      unfold G_img.
      transitivity (Cmul (csum 0 ws (fun a => Cmul (centred2 true S S (fun k l => Csub (elem sg1 [a; k; l]) (elem sg0 [a; k; l])) x y) (cis (IZR (q + a - (ws - h)) * phi x y)))) (Cconj (img2 x y))).
      + f_equal. 
        set (F1 := csum 0 ws (fun a => Cmul (centred2 true S S (fun k l => elem sg1 [a; k; l]) x y) (cis (IZR (q + a - (ws - h)) * phi x y)))).
        set (F0 := csum 0 ws (fun a => Cmul (centred2 true S S (fun k l => elem sg0 [a; k; l]) x y) (cis (IZR (q + a - (ws - h)) * phi x y)))).
        set (F2 := csum 0 ws _).
        assert (H : F1 = Cadd F2 F0).
        { unfold F1, F0, F2. rewrite <- csum_add. apply csum_ext; intros a Ha.
          replace (centred2 true S S (fun k l => elem sg1 [a; k; l]) x y) with
            (Cadd (centred2 true S S (fun k l => Csub (elem sg1 [a; k; l]) (elem sg0 [a; k; l])) x y) (centred2 true S S (fun k l => elem sg0 [a; k; l]) x y)).
          - generalize (centred2 true S S (fun k l => Csub (elem sg1 [a; k; l]) (elem sg0 [a; k; l])) x y), (centred2 true S S (fun k l => elem sg0 [a; k; l]) x y). csolve.
          - unfold centred2. rewrite <- csum_add. apply csum_ext; intros s Hs. rewrite <- csum_add. apply csum_ext; intros t Ht.
            generalize (root true S ((x - S / 2) * (s - S / 2))), (root true S ((y - S / 2) * (t - S / 2))). csolve. }
        rewrite H. generalize F2, F0, (Cmul (elem w [x; y]) (cis (IZR (q - 1 - (ws - h)) * phi x y))). csolve.
      + rewrite csum_mul_r. apply csum_ext; intros a Ha. rewrite Cconj_mul, <- cis_neg, Ropp_involutive.
        generalize (centred2 true S S (fun k l => Csub (elem sg1 [a; k; l]) (elem sg0 [a; k; l])) x y), (Cconj (img2 x y)). csolve.
    - apply csum_ext; intros a Ha. rewrite centred2_adjoint. unfold herm2. rewrite total2_csum.
      apply csum_ext; intros k Hk. apply csum_ext; intros l Hl. do 2 f_equal.
      unfold w_subgrid. apply centred2_ext. intros x y Hx Hy. rewrite HI by assumption.
      transitivity (Cmul (img2 x y) (Cmul (cis (IZR (ws - 2 * h) * phi x y)) (cis (- (IZR (q - h + a) * phi x y))))); [|csolve].
      rewrite <- cis_add. do 2 f_equal. rewrite !minus_IZR, !plus_IZR, !minus_IZR, !mult_IZR. ring.
  Qed.
End Drv.
