From Verif Require Import Base BaseFacts Sum CRing Loops Clamp ClampSpec ClampFacts ClampFacts2 QNum WTower WTowerSpec.
From Coq Require Import Lqa Lia.
Open Scope Z_scope.

(** The common control flow of the two kernels. *)
Section Skel.
  Context {A : cring} (plan : wplan A) (w_plane off_u off_v off_w : Z) (freq0_hz dfreq_hz : Q)
    (start_row end_row : Z) (uvws : nd Q) (start_chs end_chs : nd Z).

  Definition skel {S} (act : Z -> Z -> Z -> Z -> Z -> Z -> Z -> S -> option S) (st : S) : option S :=
    let half_subgrid := cdiv (subgrid_size plan) 2 in
    let oversample := oversampling plan in
    let w_oversample := w_oversampling plan in
    let theta_ov := (theta plan * inject_Z oversample)%Q in
    let w_step_ov := (1 / w_step plan * inject_Z w_oversample)%Q in
    let half_sg_size_ov := (half_subgrid - cdiv (support plan) 2 + 1) * oversample in
    for_ start_row end_row (fun i_row vis =>
      let* start_ch := rd start_chs [i_row] in
      let* end_ch := rd end_chs [i_row] in
      if start_ch >=? end_ch then Some vis else
      let* uvw_0 := rd uvws [i_row; 0] in
      let* uvw_1 := rd uvws [i_row; 1] in
      let* uvw_2 := rd uvws [i_row; 2] in
      let min_w := (inject_Z (w_plane + off_w - 1) * w_step plan)%Q in
      let max_w := (inject_Z (w_plane + off_w) * w_step plan)%Q in
      let (start_ch, end_ch) := clamp_inline uvw_2 freq0_hz dfreq_hz start_ch end_ch min_w max_w in
      if start_ch >=? end_ch then Some vis else
      let s_uvw0 := (freq0_hz / C_0)%Q in
      let s_duvw := (dfreq_hz / C_0)%Q in
      let uvw0_0 := (uvw_0 * s_uvw0 - inject_Z off_u / theta plan)%Q in
      let uvw0_1 := (uvw_1 * s_uvw0 - inject_Z off_v / theta plan)%Q in
      let uvw0_2 := (uvw_2 * s_uvw0 - inject_Z (off_w + w_plane - 1) * w_step plan)%Q in
      let duvw_0 := (uvw_0 * s_duvw)%Q in
      let duvw_1 := (uvw_1 * s_duvw)%Q in
      let duvw_2 := (uvw_2 * s_duvw)%Q in
      let u_min := Qfloor (theta plan * (uvw0_0 + inject_Z start_ch * duvw_0)) in
      let u_max := Qceiling (theta plan * (uvw0_0 + inject_Z (end_ch - 1) * duvw_0)) in
      let v_min := Qfloor (theta plan * (uvw0_1 + inject_Z start_ch * duvw_1)) in
      let v_max := Qceiling (theta plan * (uvw0_1 + inject_Z (end_ch - 1) * duvw_1)) in
      if (u_min <? - half_subgrid) || (u_max >=? half_subgrid) ||
         (v_min <? - half_subgrid) || (v_max >=? half_subgrid) then Some vis else
      for_ start_ch end_ch (fun c vis =>
        let u := (uvw0_0 + inject_Z c * duvw_0)%Q in
        let v := (uvw0_1 + inject_Z c * duvw_1)%Q in
        let w := (uvw0_2 + inject_Z c * duvw_2)%Q in
        let* ru := to_int (qround (u * theta_ov)) in
        let* rv := to_int (qround (v * theta_ov)) in
        let* iw0_ov := to_int (qround (w * w_step_ov)) in
        let iu0_ov := ru + half_sg_size_ov in
        let iv0_ov := rv + half_sg_size_ov in
        act i_row c (cdiv iu0_ov oversample) (cdiv iv0_ov oversample)
          (cmod iu0_ov oversample * support plan) (cmod iv0_ov oversample * support plan)
          (cmod iw0_ov w_oversample * w_support plan) vis) vis) st.

  Definition degrid_act (subgrids : nd A) (i_row c iu0 iv0 u_off v_off w_off : Z) (vis : nd A) : option (nd A) :=
        let* local_vis := for_ 0 (w_support plan) (fun iw local_vis =>
          let* local_vis_u := for_ 0 (support plan) (fun iu local_vis_u =>
            let ix_u := iu0 + iu in
            let* local_vis_v := for_ 0 (support plan) (fun iv local_vis_v =>
              let ix_v := iv0 + iv in
              let* k := rd (uv_kernel plan) [v_off + iv] in
              let* s := rd subgrids [iw; ix_u; ix_v] in
              Some (local_vis_v + k * s)%cr) r0 in
            let* k := rd (uv_kernel plan) [u_off + iu] in
            Some (local_vis_u + k * local_vis_v)%cr) r0 in
          let* k := rd (w_kernel plan) [w_off + iw] in
          Some (local_vis + k * local_vis_u)%cr) r0 in
        let* x := rd vis [i_row; c] in
        wr vis [i_row; c] (x + local_vis)%cr.

  Definition grid_act (vis : nd A) (i_row c iu0 iv0 u_off v_off w_off : Z) (subgrids : nd A) : option (nd A) :=
        let* local_vis := rd vis [i_row; c] in
        for_ 0 (w_support plan) (fun iw subgrids =>
          let* k := rd (w_kernel plan) [w_off + iw] in
          let local_vis_w := (k * local_vis)%cr in
          for_ 0 (support plan) (fun iu subgrids =>
            let* k := rd (uv_kernel plan) [u_off + iu] in
            let local_vis_u := (k * local_vis_w)%cr in
            let ix_u := iu0 + iu in
            for_ 0 (support plan) (fun iv subgrids =>
              let ix_v := iv0 + iv in
              let* k := rd (uv_kernel plan) [v_off + iv] in
              let* s := rd subgrids [iw; ix_u; ix_v] in
              wr subgrids [iw; ix_u; ix_v] (s + k * local_vis_u)%cr) subgrids) subgrids) subgrids.

  Lemma degrid_skel sg vis :
    degrid plan w_plane off_u off_v off_w freq0_hz dfreq_hz start_row end_row uvws start_chs end_chs sg vis =
    skel (degrid_act sg) vis.
  Proof. reflexivity. Qed.
  Lemma grid_skel vis sg :
    grid plan w_plane off_u off_v off_w freq0_hz dfreq_hz start_row end_row uvws start_chs end_chs vis sg =
    skel (grid_act vis) sg.
  Proof. reflexivity. Qed.

  (** Two successful runs in lockstep. *)
  Lemma skel_rel {S T} (R : S -> T -> Prop) f g s t s' t' :
    (forall i c a b u v w x y x' y', R x y -> f i c a b u v w x = Some x' -> g i c a b u v w y = Some y' -> R x' y') ->
    R s t -> skel f s = Some s' -> skel g t = Some t' -> R s' t'.
  Proof.
    intros H H0. unfold skel. cbv zeta. 
    assert (FR : forall {S T} (R : S -> T -> Prop) lo hi F G s t s' t',
      (forall i x y x' y', lo <= i < hi -> R x y -> F i x = Some x' -> G i y = Some y' -> R x' y') ->
      R s t -> for_ lo hi F s = Some s' -> for_ lo hi G t = Some t' -> R s' t').
    { clear. intros S T R lo hi F G s t s' t' HR R0. unfold for_.
      assert (B : forall k l, lo <= l -> l + Z.of_nat k <= hi -> forall s t, R s t ->
        for_nat k l F s = Some s' -> for_nat k l G t = Some t' -> R s' t').
      { induction k as [|k IH]; intros l L1 L2 x y Rxy E1 E2; cbn in E1, E2.
        - injection E1 as <-; injection E2 as <-; exact Rxy.
        - destruct (F l x) as [x1|] eqn:E3; [|discriminate]. destruct (G l y) as [y1|] eqn:E4; [|discriminate].
          cbn in E1, E2. apply (IH (l + 1)) with x1 y1; auto; try lia. apply (HR l x y); auto; lia. }
      destruct (Z_le_gt_dec lo hi).
      - apply (B _ lo); auto; lia.
      - replace (Z.to_nat (hi - lo)) with 0%nat by lia. intros E1 E2; cbn in E1, E2.
        injection E1 as <-; injection E2 as <-; exact R0. }
    apply (FR S T R); [|exact H0]. clear H0 s t s' t'.
    intros i x y x' y' Hi Rxy.
    destruct (rd start_chs [i]) as [s0|]; [|discriminate]. destruct (rd end_chs [i]) as [e0|]; [|discriminate]. cbn [bind].
    destruct (s0 >=? e0); [intros [= <-] [= <-]; exact Rxy|].
    destruct (rd uvws [i; 0]) as [u0|]; [|discriminate]. destruct (rd uvws [i; 1]) as [u1|]; [|discriminate].
    destruct (rd uvws [i; 2]) as [u2|]; [|discriminate]. cbn [bind].
    destruct (clamp_inline _ _ _ _ _ _ _) as [s1 e1].
    destruct (s1 >=? e1); [intros [= <-] [= <-]; exact Rxy|].
    destruct (_ || _); [intros [= <-] [= <-]; exact Rxy|].
    apply (FR S T R); [|exact Rxy]. clear x y x' y' Rxy. intros c x y x' y' Hc Rxy.
    do 3 (destruct (to_int _); cbn [bind]; [|discriminate]).
    apply H. exact Rxy.
  Qed.
End Skel.

Section Adjoint.
  Context {A : cring}.
  Add Ring Ar : (rth A).

(** A loop in which every iteration adds to a functional of the state. *)
Lemma for_func {S} (P : S -> Prop) (phi : S -> A) (F : Z -> A) lo hi body s s' :
  (forall i x x', lo <= i < hi -> P x -> body i x = Some x' -> P x' /\ phi x' = (phi x + F i)%cr) ->
  P s -> for_ lo hi body s = Some s' -> P s' /\ phi s' = (phi s + rsum lo hi F)%cr.
Proof.
  intros H P0 E. destruct (Z_le_gt_dec lo hi) as [L|L].
  - refine (for_inv_partial (fun i x => P x /\ phi x = (phi s + rsum lo i F)%cr) lo hi body s s' L _ _ E).
    + split; [exact P0|]. rewrite (sum_empty radd r0 lo lo) by lia. ring.
    + intros i x x' Hi [Px Ex] Eb. destruct (H i x x' Hi Px Eb) as [P' E'].
      split; [exact P'|]. rewrite E', Ex, rsum_snoc by lia. ring.
  - rewrite for_empty in E by lia. injection E as <-. split; [exact P0|].
    rewrite (sum_empty radd r0 lo hi) by lia. ring.
Qed.

(** Weighted totals change by weight times increment when one entry is updated. *)
Lemma total3_upd n0 n1 n2 (sg : nd A) (S : Z -> Z -> Z -> A) a b d x :
  0 <= a < n0 -> 0 <= b < n1 -> 0 <= d < n2 ->
  total3 n0 n1 n2 (fun i j k => elem (upd sg [a; b; d] (elem sg [a; b; d] + x)%cr) [i; j; k] * S i j k)%cr =
  (total3 n0 n1 n2 (fun i j k => elem sg [i; j; k] * S i j k) + x * S a b d)%cr.
Proof.
  intros Ha Hb Hd. unfold total3.
  transitivity (rsum 0 n0 (fun i => rsum 0 n1 (fun j => rsum 0 n2 (fun k =>
    elem sg [i; j; k] * S i j k + (if idx_eqb [a; b; d] [i; j; k] then x * S a b d else r0)))))%cr.
  { apply rsum_ext; intros i Hi. apply rsum_ext; intros j Hj. apply rsum_ext; intros k Hk.
    destruct (idx_eqb_spec [a; b; d] [i; j; k]) as [E|E].
    - injection E as <- <- <-. rewrite elem_upd_same. ring.
    - rewrite elem_upd_other by congruence. ring. }
  rewrite (rsum_ext _ _ _ (fun i => rsum 0 n1 (fun j => rsum 0 n2 (fun k => (elem sg [i; j; k] * S i j k)%cr)) +
     rsum 0 n1 (fun j => rsum 0 n2 (fun k => if idx_eqb [a; b; d] [i; j; k] then x * S a b d else r0)))%cr).
  2:{ intros i Hi. rewrite <- rsum_add. apply rsum_ext; intros j Hj. rewrite <- rsum_add. reflexivity. }
  rewrite rsum_add. f_equal.
  rewrite (rsum_one 0 n0 a _ Ha), (rsum_one 0 n1 b _ Hb), (rsum_one 0 n2 d _ Hd), idx_eqb_refl; [reflexivity|..].
  - intros k Hk N. rewrite idx_eqb_neq; [reflexivity|congruence].
  - intros k Hk N. apply rsum_none. intros l Hl. rewrite idx_eqb_neq; [reflexivity|congruence].
  - intros k Hk N. apply rsum_none. intros l Hl. apply rsum_none. intros l' Hl'. rewrite idx_eqb_neq; [reflexivity|congruence].
Qed.
Lemma total2_upd n0 n1 (sg : nd A) (g : A -> A) (S : Z -> Z -> A) a b x :
  (forall p q, g (p + q) = g p + g q)%cr ->
  0 <= a < n0 -> 0 <= b < n1 ->
  total2 n0 n1 (fun i j => S i j * g (elem (upd sg [a; b] (elem sg [a; b] + x)%cr) [i; j]))%cr =
  (total2 n0 n1 (fun i j => S i j * g (elem sg [i; j])) + S a b * g x)%cr.
Proof.
  intros G Ha Hb. unfold total2.
  transitivity (rsum 0 n0 (fun i => rsum 0 n1 (fun j =>
    S i j * g (elem sg [i; j]) + (if idx_eqb [a; b] [i; j] then S a b * g x else r0))))%cr.
  { apply rsum_ext; intros i Hi. apply rsum_ext; intros j Hj.
    destruct (idx_eqb_spec [a; b] [i; j]) as [E|E].
    - injection E as <- <-. rewrite elem_upd_same, G. ring.
    - rewrite elem_upd_other by congruence. ring. }
  rewrite (rsum_ext _ _ _ (fun i => rsum 0 n1 (fun j => (S i j * g (elem sg [i; j]))%cr) +
     rsum 0 n1 (fun j => if idx_eqb [a; b] [i; j] then S a b * g x else r0))%cr).
  2:{ intros i Hi. rewrite <- rsum_add. reflexivity. }
  rewrite rsum_add. f_equal.
  rewrite (rsum_one 0 n0 a _ Ha), (rsum_one 0 n1 b _ Hb), idx_eqb_refl; [reflexivity|..].
  - intros k Hk N. rewrite idx_eqb_neq; [reflexivity|congruence].
  - intros k Hk N. apply rsum_none. intros l Hl. rewrite idx_eqb_neq; [reflexivity|congruence].
Qed.

(** Interpolation with kernel offsets. *)
Definition interp_off (plan : wplan A) (iu0 iv0 u_off v_off w_off : Z) (s : Z -> Z -> Z -> A) : A :=
  rsum 0 (w_support plan) (fun a => elem (w_kernel plan) [(w_off + a)%Z] *
    rsum 0 (support plan) (fun b => elem (uv_kernel plan) [(u_off + b)%Z] *
      rsum 0 (support plan) (fun d => elem (uv_kernel plan) [(v_off + d)%Z] * s a (iu0 + b)%Z (iv0 + d)%Z)))%cr.

Lemma degrid_act_partial (plan : wplan A) sg i c iu0 iv0 u_off v_off w_off vis vis' :
  degrid_act plan sg i c iu0 iv0 u_off v_off w_off vis = Some vis' ->
  in_shape (shape vis) [i; c] = true /\
  vis' = upd vis [i; c] (elem vis [i; c] + interp_off plan iu0 iv0 u_off v_off w_off (fun a b d => elem sg [a; b; d]))%cr.
Proof.
  unfold degrid_act. cbv zeta. intro E.
  match type of E with bind ?L _ = _ => destruct L as [lv|] eqn:EL; [|discriminate] end. cbn [bind] in E.
  destruct (rd vis [i; c]) as [x|] eqn:Ex; [|discriminate]. cbn [bind] in E.
  apply rd_inv in Ex. destruct Ex as [IS ->]. apply wr_inv in E. destruct E as [_ ->]. split; [exact IS|].
  do 2 f_equal.
  apply (for_func (fun _ => True) (fun x => x) (fun a => elem (w_kernel plan) [(w_off + a)%Z] *
    rsum 0 (support plan) (fun b => elem (uv_kernel plan) [(u_off + b)%Z] *
      rsum 0 (support plan) (fun d => elem (uv_kernel plan) [(v_off + d)%Z] * elem sg [a; (iu0 + b)%Z; (iv0 + d)%Z])))%cr) in EL;
    [destruct EL as [_ EL]; rewrite EL; unfold interp_off; ring| |exact I].
  clear. intros a x x' Ha _ E. split; [exact I|].
  match type of E with bind ?L _ = _ => destruct L as [lv|] eqn:EL; [|discriminate] end. cbn [bind] in E.
  destruct (rd (w_kernel plan) _) as [k|] eqn:Ek; [|discriminate]. apply rd_inv in Ek. destruct Ek as [_ ->].
  cbn [bind] in E. injection E as <-. f_equal. f_equal.
  apply (for_func (fun _ => True) (fun x => x) (fun b => elem (uv_kernel plan) [(u_off + b)%Z] *
      rsum 0 (support plan) (fun d => elem (uv_kernel plan) [(v_off + d)%Z] * elem sg [a; (iu0 + b)%Z; (iv0 + d)%Z]))%cr) in EL;
    [destruct EL as [_ EL]; rewrite EL; ring| |exact I].
  clear. intros b x x' Hb _ E. split; [exact I|].
  match type of E with bind ?L _ = _ => destruct L as [lv|] eqn:EL; [|discriminate] end. cbn [bind] in E.
  destruct (rd (uv_kernel plan) _) as [k|] eqn:Ek; [|discriminate]. apply rd_inv in Ek. destruct Ek as [_ ->].
  cbn [bind] in E. injection E as <-. f_equal. f_equal.
  apply (for_func (fun _ => True) (fun x => x) (fun d => elem (uv_kernel plan) [(v_off + d)%Z] * elem sg [a; (iu0 + b)%Z; (iv0 + d)%Z])%cr) in EL;
    [destruct EL as [_ EL]; rewrite EL; ring| |exact I].
  clear. intros d x x' Hd _ E. split; [exact I|].
  destruct (rd (uv_kernel plan) _) as [k|] eqn:Ek; [|discriminate]. apply rd_inv in Ek. destruct Ek as [_ ->].
  cbn [bind] in E. destruct (rd sg _) as [k|] eqn:Ek; [|discriminate]. apply rd_inv in Ek. destruct Ek as [_ ->].
  cbn [bind] in E. injection E as <-. reflexivity.
Qed.

Lemma grid_act_partial (plan : wplan A) vis i c iu0 iv0 u_off v_off w_off n0 n1 n2 (S : Z -> Z -> Z -> A) sg sg' :
  shape sg = [n0; n1; n2] ->
  grid_act plan vis i c iu0 iv0 u_off v_off w_off sg = Some sg' ->
  shape sg' = [n0; n1; n2] /\
  total3 n0 n1 n2 (fun i j k => elem sg' [i; j; k] * S i j k)%cr =
  (total3 n0 n1 n2 (fun i j k => elem sg [i; j; k] * S i j k) + elem vis [i; c] * interp_off plan iu0 iv0 u_off v_off w_off S)%cr.
Proof.
  unfold grid_act. cbv zeta. intros Sh E.
  destruct (rd vis [i; c]) as [x|] eqn:Ex; [|discriminate]. cbn [bind] in E.
  apply rd_inv in Ex. destruct Ex as [_ ->].
  set (phi := fun g : nd A => total3 n0 n1 n2 (fun i j k => elem g [i; j; k] * S i j k)%cr).
  change (shape sg' = [n0; n1; n2] /\ phi sg' = (phi sg + elem vis [i; c] * interp_off plan iu0 iv0 u_off v_off w_off S)%cr).
  unfold interp_off. rewrite rsum_mul_l.
  refine (for_func (fun g => shape g = [n0; n1; n2]) phi _ _ _ _ _ _ _ Sh E).
  clear. intros a g g' Ha Sh E.
  destruct (rd (w_kernel plan) _) as [k|] eqn:Ek; [|discriminate]. apply rd_inv in Ek. destruct Ek as [_ ->].
  cbn [bind] in E. rewrite !rsum_mul_l.
  refine (for_func (fun g => shape g = [n0; n1; n2]) phi _ _ _ _ _ _ _ Sh E).
  clear - Ha. intros b g g' Hb Sh E.
  destruct (rd (uv_kernel plan) _) as [k|] eqn:Ek; [|discriminate]. apply rd_inv in Ek. destruct Ek as [_ ->].
  cbn [bind] in E. rewrite !rsum_mul_l.
  refine (for_func (fun g => shape g = [n0; n1; n2]) phi _ _ _ _ _ _ _ Sh E).
  clear - Ha Hb. intros d g g' Hd Sh E.
  destruct (rd (uv_kernel plan) _) as [k|] eqn:Ek; [|discriminate]. apply rd_inv in Ek. destruct Ek as [_ ->].
  cbn [bind] in E. destruct (rd g _) as [s|] eqn:Es; [|discriminate]. apply rd_inv in Es. destruct Es as [_ ->].
  cbn [bind] in E. apply wr_inv in E. destruct E as [I ->]. rewrite Sh in I. apply in_shape_3 in I.
  split; [rewrite shape_upd; exact Sh|]. unfold phi. rewrite total3_upd by tauto. ring.
Qed.

(** [g]: a ring endomorphism (identity, or complex conjugation) fixing the kernels. *)
Lemma interp_hom (plan : wplan A) (g : A -> A) iu0 iv0 u_off v_off w_off s :
  (forall p q, g (p + q) = g p + g q)%cr -> (forall p q, g (p * q) = g p * g q)%cr -> g r0 = r0 ->
  (forall idx, g (elem (uv_kernel plan) idx) = elem (uv_kernel plan) idx) ->
  (forall idx, g (elem (w_kernel plan) idx) = elem (w_kernel plan) idx) ->
  g (interp_off plan iu0 iv0 u_off v_off w_off s) = interp_off plan iu0 iv0 u_off v_off w_off (fun a b d => g (s a b d)).
Proof.
  intros Ga Gm G0 Ku Kw.
  assert (Gs : forall lo hi f, g (rsum lo hi f) = rsum lo hi (fun i => g (f i))).
  { intros. unfold sum. induction (zrange lo hi) as [|x l IH]; cbn; [exact G0|]. rewrite Ga, IH. reflexivity. }
  unfold interp_off. rewrite Gs. apply rsum_ext; intros a Ha. rewrite Gm, Kw, Gs. f_equal.
  apply rsum_ext; intros b Hb. rewrite Gm, Ku, Gs. f_equal.
  apply rsum_ext; intros d Hd. rewrite Gm, Ku. reflexivity.
Qed.

Lemma adjoint_lemma (g : A -> A) (plan : wplan A) w_plane off_u off_v off_w f0 df r0' r1' uvws scs ecs
    (vis vis0 vis1 sg sg0 sg1 : nd A) n m n0 n1 n2 :
  (forall p q, g (p + q) = g p + g q)%cr -> (forall p q, g (p * q) = g p * g q)%cr -> g r0 = r0 ->
  (forall idx, g (elem (uv_kernel plan) idx) = elem (uv_kernel plan) idx) ->
  (forall idx, g (elem (w_kernel plan) idx) = elem (w_kernel plan) idx) ->
  shape vis0 = [n; m] -> shape sg0 = [n0; n1; n2] ->
  grid plan w_plane off_u off_v off_w f0 df r0' r1' uvws scs ecs vis sg0 = Some sg1 ->
  degrid plan w_plane off_u off_v off_w f0 df r0' r1' uvws scs ecs sg vis0 = Some vis1 ->
  total3 n0 n1 n2 (fun a x y => (elem sg1 [a; x; y] - elem sg0 [a; x; y]) * g (elem sg [a; x; y]))%cr =
  total2 n m (fun i c => elem vis [i; c] * g (elem vis1 [i; c] - elem vis0 [i; c]))%cr.
Proof.
  intros Ga Gm G0 Ku Kw Sv Ss. rewrite grid_skel, degrid_skel. intros E1 E2.
  set (phi := fun q : nd A => total3 n0 n1 n2 (fun a x y => elem q [a; x; y] * g (elem sg [a; x; y]))%cr).
  set (psi := fun q : nd A => total2 n m (fun i c => elem vis [i; c] * g (elem q [i; c]))%cr).
  assert (Gopp : forall x, g (- x)%cr = (- g x)%cr).
  { intro x. assert (H : (g (- x) + g x = r0)%cr) by (rewrite <- Ga; replace (- x + x)%cr with (@r0 A) by ring; exact G0).
    transitivity (g (- x) + g x - g x)%cr; [ring|]. rewrite H. ring. }
  assert (F : shape sg1 = [n0; n1; n2] /\ shape vis1 = [n; m] /\ (phi sg1 - phi sg0 = psi vis1 - psi vis0)%cr).
  { refine (skel_rel plan w_plane off_u off_v off_w f0 df r0' r1' uvws scs ecs
      (fun a b => shape a = [n0; n1; n2] /\ shape b = [n; m] /\ (phi a - phi sg0 = psi b - psi vis0)%cr) _ _ _ _ _ _ _ _ E1 E2).
    - intros i c iu0 iv0 u_off v_off w_off x y x' y' (Sx & Sy & R) Ex Ey.
      apply (grid_act_partial _ _ _ _ _ _ _ _ _ n0 n1 n2 (fun a b d => g (elem sg [a; b; d])) _ _ Sx) in Ex. destruct Ex as [Sx' Ex].
      apply degrid_act_partial in Ey. destruct Ey as [I ->]. rewrite Sy in I. apply in_shape_2 in I.
      split; [exact Sx'|]. split; [rewrite shape_upd; exact Sy|].
      unfold phi at 1. rewrite Ex. fold (phi x). unfold psi at 1. rewrite (total2_upd n m y g (fun i c => elem vis [i; c])) by tauto.
      fold (psi y). rewrite (interp_hom plan g) by auto.
      match goal with |- (_ + ?t - _ = _ + ?t - _)%cr => generalize t; intro t0 end.
      transitivity (phi x - phi sg0 + t0)%cr; [ring|]. rewrite R. ring.
    - repeat split; auto. ring. }
  destruct F as (_ & _ & F).
  transitivity (phi sg1 - phi sg0)%cr.
  - unfold phi, total3. rewrite <- rsum_sub. apply rsum_ext; intros i Hi. rewrite <- rsum_sub. apply rsum_ext; intros j Hj.
    rewrite <- rsum_sub. apply rsum_ext; intros k Hk. ring.
  - rewrite F. unfold psi, total2. rewrite <- rsum_sub. apply rsum_ext; intros i Hi. rewrite <- rsum_sub. apply rsum_ext; intros j Hj.
    replace (elem vis1 [i; j] - elem vis0 [i; j])%cr with (elem vis1 [i; j] + - elem vis0 [i; j])%cr by ring.
    rewrite Ga, Gopp. ring.
Qed.
End Adjoint.
