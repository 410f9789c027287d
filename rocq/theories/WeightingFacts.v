From Coq Require Import QArith Qround Lia.
From Verif Require Import Base BaseFacts Sum CRing Clamp Loops Sets Weighting WeightingSpec.
Open Scope Z_scope.

Section Facts.
Context {A : cring} (wdiv : A -> A -> A) (nt nb nc np gs : Z) (uvw freq : nd Q) (max : Q).
Context (Hnt : 0 <= nt) (Hnb : 0 <= nb) (Hnc : 0 <= nc) (Hnp : 0 <= np) (Hgs : 0 <= gs).
Context (Su : shape uvw = [nt * nb * 3]) (Sf : shape freq = [nc]) (HV : in_view nt nb nc gs uvw freq max).
Notation cu := (cell_u nb gs uvw freq max).
Notation cv := (cell_v nb gs uvw freq max).
Notation on := (on_grid nb gs uvw freq max).
Add Ring Aring : (rth A).

Lemma cell_ok t b c : 0 <= t < nt -> 0 <= b < nb -> 0 <= c < nc ->
  cell gs uvw freq max (INDEX_3D nb 3 t b 0) c = Some (cu t b c, cv t b c).
Proof.
  intros Ht Hb Hc. unfold cell. cbv zeta. rewrite rd_some by (rewrite Sf; apply in_shape_1; lia). cbn [bind].
  change (INDEX_3D nb 3 t b 0) with (pos3 nb 3 t b 0).
  pose proof (pos3_range nt nb 3 t b 0 Ht Hb ltac:(lia)) as R0. pose proof (pos3_range nt nb 3 t b 1 Ht Hb ltac:(lia)) as R1.
  rewrite rd_some by (rewrite Su; apply in_shape_1; lia). cbn [bind]. replace (pos3 nb 3 t b 0 + 1) with (pos3 nb 3 t b 1) by (unfold pos3; lia).
  rewrite rd_some by (rewrite Su; apply in_shape_1; lia). cbn [bind]. destruct HV as [H0 H]. destruct (H t b c Ht Hb Hc) as [H1 H2].
  destruct (Qeq_bool max 0) eqn:E; [apply Qeq_bool_iff in E; contradiction|].
  unfold cdiv. rewrite Z.quot_div_nonneg by lia.
  change (Qfloor (elem uvw [pos3 nb 3 t b 0] * (elem freq [c] / C_0) / max * inject_Z (gs / 2)) + gs / 2) with (cu t b c).
  change (Qfloor (elem uvw [pos3 nb 3 t b 1] * (elem freq [c] / C_0) / max * inject_Z (gs / 2)) + gs / 2) with (cv t b c).
  unfold to_int64. replace (_ && _) with true by lia. cbn [bind]. replace (_ && _) with true by lia. reflexivity.
Qed.

Lemma on_eq t b c : (cu t b c >=? gs) || (cv t b c >=? gs) = negb (on t b c).
Proof. unfold on_grid. lia. Qed.
Lemma on_range t b c : 0 <= t < nt -> 0 <= b < nb -> 0 <= c < nc -> on t b c = true -> 0 <= cu t b c < gs /\ 0 <= cv t b c < gs.
Proof. intros Ht Hb Hc O. destruct HV as [_ H]. specialize (H t b c Ht Hb Hc). unfold on_grid in O. lia. Qed.

Notation own s := (pos3 gs np (cu (fst (fst s)) (snd (fst s)) (snd s)) (cv (fst (fst s)) (snd (fst s)) (snd s))).

(** The loops with the cell already known *)
Lemma each_vis_eq {S} (body : Z -> Z -> S -> option S) s :
  each_vis nt nb nc np gs uvw freq max body s =
  for_ 0 nt (fun t => for_ 0 nb (fun b => for_ 0 nc (fun c s =>
    if on t b c then body (pos3 gs np (cu t b c) (cv t b c) 0) (pos4 nb nc np t b c 0) s else Some s))) s.
Proof.
  unfold each_vis. apply for_ext. intros t s1 Ht. apply for_ext. intros b s2 Hb. cbv zeta. apply for_ext. intros c s3 Hc.
  rewrite cell_ok by auto. cbn [bind]. rewrite on_eq. destruct (on t b c); reflexivity.
Qed.

(** Gridding: every cell receives the weights of its visibilities. *)
Lemma write_ok (input grid : nd A) : shape input = [nt * nb * nc * np] -> shape grid = [gs * gs * np] ->
  exists g, weights_grid_write nt nb nc np gs uvw freq max input grid = Some g /\ shape g = [gs * gs * np] /\
    forall u v p, 0 <= u < gs -> 0 <= v < gs -> 0 <= p < np ->
      grid_at np gs g u v p = (grid_at np gs grid u v p + deposited nt nb nc np gs uvw freq max input u v p)%cr.
Proof.
  intros Si Sg. unfold weights_grid_write. rewrite each_vis_eq.
  pose (D := fun t b c p idx => if idx_eqb [pos3 gs np (cu t b c) (cv t b c) p] idx then weight nb nc np input t b c p else @r0 A).
  destruct (for_adds [gs * gs * np] (fun t idx => rsum 0 nb (fun b => rsum 0 nc (fun c => if on t b c then rsum 0 np (fun p => D t b c p idx) else r0)))
    (fun t => for_ 0 nb (fun b => for_ 0 nc (fun c s =>
      if on t b c then for_ 0 np (fun p grid => let* g := rd grid [pos3 gs np (cu t b c) (cv t b c) 0 + p] in
        let* w := rd input [pos4 nb nc np t b c 0 + p] in wr grid [pos3 gs np (cu t b c) (cv t b c) 0 + p] (g + w)%cr) s else Some s))) 0 nt grid Hnt Sg) as (g & E & Sg' & P).
  - intros t st1 Ht S1. apply (for_adds [gs * gs * np] (fun b idx => rsum 0 nc (fun c => if on t b c then rsum 0 np (fun p => D t b c p idx) else r0))); auto.
    intros b st2 Hb S2. apply (for_adds [gs * gs * np] (fun c idx => if on t b c then rsum 0 np (fun p => D t b c p idx) else r0)); auto.
    intros c st3 Hc S3. destruct (on t b c) eqn:O.
    2:{ exists st3. split; [reflexivity|]. split; [exact S3|]. intro idx. ring. }
    destruct (on_range t b c Ht Hb Hc O) as [Ru Rv].
    apply (for_adds [gs * gs * np] (fun p idx => D t b c p idx)); auto. intros p st4 Hp S4.
    replace (pos3 gs np (cu t b c) (cv t b c) 0 + p) with (pos3 gs np (cu t b c) (cv t b c) p) by (unfold pos3; lia).
    replace (pos4 nb nc np t b c 0 + p) with (pos4 nb nc np t b c p) by (unfold pos4; lia).
    pose proof (pos3_range gs gs np _ _ p Ru Rv Hp). pose proof (pos4_range nt nb nc np t b c p Ht Hb Hc Hp).
    rewrite rd_some by (rewrite S4; now apply in_shape_1). cbn [bind]. rewrite rd_some by (rewrite Si; now apply in_shape_1). cbn [bind].
    rewrite wr_some by (rewrite S4; now apply in_shape_1). eexists. split; [reflexivity|]. split; [exact S4|]. intro idx. cbn [upd elem]. unfold D.
    destruct (idx_eqb_spec [pos3 gs np (cu t b c) (cv t b c) p] idx) as [<-|N]; [reflexivity|ring].
  - exists g. split; [exact E|]. split; [exact Sg'|]. intros u v p Hu Hv Hp. unfold grid_at. rewrite P. f_equal.
    unfold deposited, total. apply rsum_ext. intros t Ht. apply rsum_ext. intros b Hb. apply rsum_ext. intros c Hc. destruct (on t b c) eqn:O; [|reflexivity].
    destruct (on_range t b c Ht Hb Hc O) as [Ru Rv].
    destruct ((cu t b c =? u) && (cv t b c =? v)) eqn:C.
    + assert (cu t b c = u) as Eu by lia. assert (cv t b c = v) as Ev by lia. rewrite (rsum_one 0 np p).
      * unfold D. rewrite Eu, Ev, idx_eqb_refl. reflexivity.
      * exact Hp.
      * intros q Hq N. unfold D. rewrite idx_eqb_neq; [reflexivity|]. intro X. injection X as X. apply pos3_inj in X; auto. lia.
    + apply rsum_none. intros q Hq. unfold D. rewrite idx_eqb_neq; [reflexivity|]. intro X. injection X as X. apply pos3_inj in X; auto. lia.
Qed.

(** Reading back *)
Definition written (idx : list Z) : bool :=
  own_all 0 nt (fun t => own_all 0 nb (fun b => own_all 0 nc (fun c idx => on t b c && own_all 0 np (fun p => idx_eqb [pos4 nb nc np t b c p]) idx))) idx.
Definition V_of (val : Z -> Z -> Z -> Z -> A) (idx : list Z) (x : A) : Prop :=
  forall t b c p, 0 <= t < nt -> 0 <= b < nb -> 0 <= c < nc -> 0 <= p < np -> idx = [pos4 nb nc np t b c p] -> x = val t b c p.

Lemma written_at t b c p : 0 <= t < nt -> 0 <= b < nb -> 0 <= c < nc -> 0 <= p < np -> written [pos4 nb nc np t b c p] = on t b c.
Proof.
  intros Ht Hb Hc Hp. destruct (on t b c) eqn:O.
  - apply own_all_true. exists t. split; [exact Ht|]. apply own_all_true. exists b. split; [exact Hb|]. apply own_all_true. exists c. split; [exact Hc|].
    rewrite O. cbn [andb]. apply own_all_true. exists p. split; [exact Hp|]. apply idx_eqb_refl.
  - apply own_all_false. intros t' Ht'. apply own_all_false. intros b' Hb'. apply own_all_false. intros c' Hc'.
    destruct (on t' b' c') eqn:O'; [|reflexivity]. cbn [andb]. apply own_all_false. intros p' Hp'. apply idx_eqb_neq. intro X. injection X as X.
    apply pos4_inj in X; auto. destruct X as (-> & -> & -> & _). congruence.
Qed.

Lemma read_sets (val : Z -> Z -> Z -> Z -> A) (body : Z -> Z -> Z -> nd A -> option (nd A)) :
  (forall t b c p st, 0 <= t < nt -> 0 <= b < nb -> 0 <= c < nc -> 0 <= p < np -> on t b c = true -> shape st = [nt * nb * nc * np] ->
    body (pos3 gs np (cu t b c) (cv t b c) 0) (pos4 nb nc np t b c 0) p st = wr st [pos4 nb nc np t b c p] (val t b c p)) ->
  sets [nt * nb * nc * np] written (V_of val) (each_vis nt nb nc np gs uvw freq max (fun i_s i_start => for_ 0 np (body i_s i_start))).
Proof.
  intro B. eapply sets_ext; [|reflexivity|intros st _; apply each_vis_eq]. unfold written.
  apply sets_for. intros t Ht. apply sets_for. intros b Hb. apply sets_for. intros c Hc. apply sets_if. intro O. apply sets_for. intros p Hp.
  eapply sets_ext; [apply (sets_wr _ [pos4 nb nc np t b c p] (val t b c p))|reflexivity|].
  - apply in_shape_1. now apply pos4_range.
  - intros t' b' c' p' Ht' Hb' Hc' Hp' E. injection E as E. apply pos4_inj in E; auto. now destruct E as (-> & -> & -> & ->).
  - intros st Sst. now apply B.
Qed.

Lemma read_result val body (out : nd A) : shape out = [nt * nb * nc * np] ->
  sets [nt * nb * nc * np] written (V_of val) (each_vis nt nb nc np gs uvw freq max (fun i_s i_start => for_ 0 np (body i_s i_start))) ->
  exists r, each_vis nt nb nc np gs uvw freq max (fun i_s i_start => for_ 0 np (body i_s i_start)) out = Some r /\ shape r = [nt * nb * nc * np] /\
    forall t b c p, 0 <= t < nt -> 0 <= b < nb -> 0 <= c < nc -> 0 <= p < np ->
      weight nb nc np r t b c p = if on t b c then val t b c p else weight nb nc np out t b c p.
Proof.
  intros S X. destruct (X out S) as (r & E & Sr & P & Q). exists r. split; [exact E|]. split; [exact Sr|]. intros t b c p Ht Hb Hc Hp. unfold weight.
  pose proof (written_at t b c p Ht Hb Hc Hp) as W. destruct (on t b c); [|now apply Q]. now apply (P _ W t b c p).
Qed.

Lemma uniform_ok (grid out : nd A) : shape grid = [gs * gs * np] -> shape out = [nt * nb * nc * np] ->
  exists r, uniform_weights_grid_read wdiv nt nb nc np gs uvw freq max grid out = Some r /\ shape r = [nt * nb * nc * np] /\
    forall t b c p, 0 <= t < nt -> 0 <= b < nb -> 0 <= c < nc -> 0 <= p < np ->
      weight nb nc np r t b c p = if on t b c then wdiv r1 (own_cell nb np gs uvw freq max grid t b c p) else weight nb nc np out t b c p.
Proof.
  intros Sg So. unfold uniform_weights_grid_read. apply read_result; [exact So|]. apply read_sets. intros t b c p st Ht Hb Hc Hp O Sst.
  destruct (on_range t b c Ht Hb Hc O) as [Ru Rv]. pose proof (pos3_range gs gs np _ _ p Ru Rv Hp).
  replace (pos3 gs np (cu t b c) (cv t b c) 0 + p) with (pos3 gs np (cu t b c) (cv t b c) p) by (unfold pos3; lia).
  replace (pos4 nb nc np t b c 0 + p) with (pos4 nb nc np t b c p) by (unfold pos4; lia).
  rewrite rd_some by (rewrite Sg; now apply in_shape_1). reflexivity.
Qed.

Lemma briggs_ok (grid input out : nd A) rob : shape grid = [gs * gs * np] -> shape input = [nt * nb * nc * np] -> shape out = [nt * nb * nc * np] ->
  exists r, briggs_weights_grid_read wdiv nt nb nc np gs uvw freq max grid input rob out = Some r /\ shape r = [nt * nb * nc * np] /\
    forall t b c p, 0 <= t < nt -> 0 <= b < nb -> 0 <= c < nc -> 0 <= p < np ->
      weight nb nc np r t b c p = if on t b c then wdiv (weight nb nc np input t b c p) (r1 + rob * own_cell nb np gs uvw freq max grid t b c p)%cr else weight nb nc np out t b c p.
Proof.
  intros Sg Si So. unfold briggs_weights_grid_read. apply read_result; [exact So|]. apply read_sets. intros t b c p st Ht Hb Hc Hp O Sst.
  destruct (on_range t b c Ht Hb Hc O) as [Ru Rv]. pose proof (pos3_range gs gs np _ _ p Ru Rv Hp). pose proof (pos4_range nt nb nc np t b c p Ht Hb Hc Hp).
  replace (pos3 gs np (cu t b c) (cv t b c) 0 + p) with (pos3 gs np (cu t b c) (cv t b c) p) by (unfold pos3; lia).
  replace (pos4 nb nc np t b c 0 + p) with (pos4 nb nc np t b c p) by (unfold pos4; lia).
  rewrite rd_some by (rewrite Si; now apply in_shape_1). cbn [bind]. rewrite rd_some by (rewrite Sg; now apply in_shape_1). reflexivity.
Qed.

Lemma for_pair lo hi (F G : Z -> A) body s : lo <= hi -> (forall i x, lo <= i < hi -> body i x = Some (fst x + F i, snd x + G i)%cr) ->
  for_ lo hi body s = Some (fst s + rsum lo hi F, snd s + rsum lo hi G)%cr.
Proof.
  intros L B. destruct (for_inv (fun k x => x = (fst s + rsum lo k F, snd s + rsum lo k G)%cr) lo hi body s L) as (x & E & ->); [| |exact E].
  - rewrite !sum_empty by lia. destruct s as [a b]. cbn [fst snd]. f_equal; ring.
  - intros i x Hi ->. eexists. split; [now apply B|]. cbn [fst snd]. rewrite !rsum_snoc by lia. f_equal; ring.
Qed.

Lemma sums_ok (grid : nd A) : shape grid = [gs * gs * np] ->
  sum_weights_calc nt nb nc np gs uvw freq max grid (r0, r0) =
  Some (total nt nb nc gs uvw freq max (fun t b c => rsum 0 np (fun p => own_cell nb np gs uvw freq max grid t b c p)),
        total nt nb nc gs uvw freq max (fun t b c => rsum 0 np (fun p => (own_cell nb np gs uvw freq max grid t b c p * own_cell nb np gs uvw freq max grid t b c p)%cr))).
Proof.
  intro Sg. unfold sum_weights_calc. rewrite each_vis_eq.
  rewrite (for_pair 0 nt (fun t => rsum 0 nb (fun b => rsum 0 nc (fun c => if on t b c then rsum 0 np (fun p => own_cell nb np gs uvw freq max grid t b c p) else r0)))
    (fun t => rsum 0 nb (fun b => rsum 0 nc (fun c => if on t b c then rsum 0 np (fun p => (own_cell nb np gs uvw freq max grid t b c p * own_cell nb np gs uvw freq max grid t b c p)%cr) else r0)))); auto.
  - cbn [fst snd]. unfold total. f_equal. f_equal; ring.
  - intros t s Ht. apply (for_pair 0 nb (fun b => rsum 0 nc (fun c => if on t b c then _ else r0)) (fun b => rsum 0 nc (fun c => if on t b c then _ else r0))); auto.
    intros b s2 Hb. apply (for_pair 0 nc (fun c => if on t b c then _ else r0) (fun c => if on t b c then _ else r0)); auto.
    intros c [s3 s4] Hc. destruct (on t b c) eqn:O; [|cbn [fst snd]; do 2 f_equal; ring].
    destruct (on_range t b c Ht Hb Hc O) as [Ru Rv]. apply for_pair; auto. intros p [x y] Hp. pose proof (pos3_range gs gs np _ _ p Ru Rv Hp).
    replace (pos3 gs np (cu t b c) (cv t b c) 0 + p) with (pos3 gs np (cu t b c) (cv t b c) p) by (unfold pos3; lia).
    rewrite rd_some by (rewrite Sg; now apply in_shape_1). reflexivity.
Qed.
End Facts.

(** Coordinates in the documented range have a cell. *)
Lemma cell_index_range gs max x : 0 <= gs -> (0 < max)%Q -> (- max <= x)%Q -> (x <= max)%Q -> 0 <= cell_index gs max x <= gs.
Proof.
  intros Hg Hm L U. unfold cell_index. set (h := gs / 2). assert (0 <= h) by (unfold h; apply Z.div_pos; lia). assert (2 * h <= gs) by (unfold h; apply Z.mul_div_le; lia).
  assert (Hh : (0 <= inject_Z h)%Q) by (change 0%Q with (inject_Z 0); now rewrite <- Zle_Qle).
  assert (A : (inject_Z (- h) <= x / max * inject_Z h)%Q).
  { rewrite inject_Z_opp. setoid_replace (- inject_Z h)%Q with ((-(1)) * inject_Z h)%Q by ring. apply Qmult_le_compat_r; [|exact Hh].
    apply Qle_shift_div_l; [exact Hm|]. setoid_replace (- (1) * max)%Q with (- max)%Q by ring. exact L. }
  assert (B : (x / max * inject_Z h <= inject_Z h)%Q).
  { setoid_replace (inject_Z h) with (1 * inject_Z h)%Q at 2 by ring. apply Qmult_le_compat_r; [|exact Hh]. apply Qle_shift_div_r; [exact Hm|]. now rewrite Qmult_1_l. }
  apply Qfloor_resp_le in A. apply Qfloor_resp_le in B. rewrite Qfloor_Z in A, B. lia.
Qed.
