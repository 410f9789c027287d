From Coq Require Import Lra Permutation.
From Verif Require Import Base BaseFacts Sum CRing Clamp Cplx Legendre FftSpec Sets Gpu GpuFacts EsKernels EsKernelsSpec EsKernelsFacts EsKernelsFacts2 GpuFacts2.
Open Scope Z_scope.

Lemma loc_eqb_spec a b : reflect (a = b) (loc_eqb a b).
Proof.
  destruct a as [i x], b as [j y]. unfold loc_eqb. cbn [fst snd]. destruct (Z.eqb_spec i j) as [->|N]; cbn [andb].
  - destruct (Bool.eqb x y) eqn:E; constructor; [apply eqb_prop in E; now subst|]. intro Q. injection Q as ->. now rewrite eqb_reflx in E.
  - constructor. intro Q. injection Q. auto.
Qed.
Lemma cell_inj g p a b p' a' b' : 0 <= a < g -> 0 <= b < g -> 0 <= a' < g -> 0 <= b' < g -> cell g p a b = cell g p' a' b' -> p = p' /\ a = a' /\ b = b'.
Proof.
  unfold cell. intros Ha Hb Ha' Hb' E. rewrite (Z.mul_comm _ g), (Z.mul_comm (p' * g + a') g) in E. apply pos2_inj in E; auto. destruct E as [E ->].
  rewrite (Z.mul_comm p), (Z.mul_comm p') in E. apply pos2_inj in E; auto. tauto.
Qed.

Section Kernels.
Context (P : es_args) (uvw freq : nd R) (nvis cells : Z) (OK : es_ok P uvw freq nvis cells).
Notation g := (grid_size P). Notation rows := (num_vis_rows P). Notation chans := (num_vis_chan P).

Lemma thread_range c r : In (c, r) (vis_threads P) -> 0 <= c < chans /\ 0 <= r < rows + 256.
Proof.
  unfold vis_threads. rewrite threads_in. pose proof (ok_rows _ _ _ _ _ OK). intros [A B]. split; [lia|]. pose proof (Z.mul_div_le (rows + 255) 256). lia.
Qed.
Lemma thread_of c r : 0 <= c < chans -> 0 <= r < rows -> In (c, r) (vis_threads P).
Proof. intros. unfold vis_threads. apply threads_in. split; [lia|]. pose proof (Z.mul_succ_div_gt (rows + 255) 256). lia. Qed.

Lemma vis_index_ok c r : In (c, r) (vis_threads P) -> vis_index P (c, r) = Some (c + chans * r).
Proof.
  intro I. apply thread_range in I. pose proof (ok_int _ _ _ _ _ OK). unfold vis_index. cbn [fst snd]. rewrite to_int_in by nia. cbn [bind]. apply to_int_in. nia.
Qed.
Lemma vis_index_in c r : 0 <= c < chans -> 0 <= r < rows -> 0 <= c + chans * r < nvis.
Proof. intros. rewrite (ok_vis _ _ _ _ _ OK). nia. Qed.

Definition add_ops (x y : R) (V : list (Z * R)) : list (op (Z * bool) R) := flat_map (fun '(o, k) => [Add (o, false) (x * k)%R; Add (o, true) (y * k)%R]) V.
Lemma fold_ops x y V : (forall o k, In (o, k) V -> 0 <= o < cells) -> forall s,
  fold_opt (fun '(o, k) s => if (0 <=? o) && (o <? cells) then Some (s ++ [Add (o, false) (x * k)%R; Add (o, true) (y * k)%R]) else None) V s = Some (s ++ add_ops x y V).
Proof.
  induction V as [|[o k] V IH]; intros H s; [unfold fold_opt; cbn; now rewrite app_nil_r|]. rewrite fold_opt_cons.
  pose proof (H o k (or_introl eq_refl)). replace ((0 <=? o) && (o <? cells)) with true by lia. cbn [bind]. rewrite IH by (intros; eapply H; right; eauto).
  cbn [add_ops flat_map]. now rewrite <- app_assoc.
Qed.
Lemma total_ops x y V l : total loc_eqb Rplus 0%R l (add_ops x y V) = lsum V (fun '(o, k) => ((if o =? fst l then (if snd l then y else x) else 0) * k)%R).
Proof.
  induction V as [|[o k] V IH]; [reflexivity|].
  change (add_ops x y ((o, k) :: V)) with ([Add (o, false) (x * k)%R; Add (o, true) (y * k)%R] ++ add_ops x y V). rewrite (total_app loc_eqb Rplus 0%R) by (intros; ring). rewrite IH.
  change (lsum ((o, k) :: V) (fun '(o, k) => ((if o =? fst l then if snd l then y else x else 0) * k)%R)) with
    ((if o =? fst l then if snd l then y else x else 0) * k + lsum V (fun '(o, k) => ((if o =? fst l then if snd l then y else x else 0) * k)))%R.
  f_equal. unfold total. cbn [map fold_right added]. unfold loc_eqb. cbn [fst snd]. destruct l as [o' b]. cbn [fst snd]. destruct (o =? o'), b; cbn [andb Bool.eqb]; ring.
Qed.

(** What one thread adds *)
Lemma gridding_thread vis weight c r : shape vis = [nvis] -> shape weight = [nvis] -> In (c, r) (vis_threads P) ->
  exists ops, gridding P vis weight uvw freq cells (c, r) = Some ops /\ only_adds ops /\
    forall p a b i, 0 <= p < num_w_grids_subset P -> 0 <= a < g -> 0 <= b < g ->
      total loc_eqb Rplus 0%R (cell g p a b, i) ops = if r <? rows then
        (coef P uvw freq r c (grid_start_w P + p)%Z a b * (elem weight [(c + chans * r)%Z] * part i (elem vis [(c + chans * r)%Z]) * (if i then turned P uvw r else 1)))%R else 0%R.
Proof.
  intros Sv Sw I. pose proof (thread_range c r I) as (Hc & Hr'). unfold gridding. rewrite (vis_index_ok c r I). cbn [bind]. unfold out_of_range. cbn [fst snd].
  destruct (Z.ltb_spec r rows) as [Hr|Hr].
  - replace ((c >=? chans) || (r >=? rows)) with false by lia.
    rewrite (get_place_ok P uvw freq nvis cells OK r c) by lia. cbn [bind]. pose proof (vis_index_in c r Hc ltac:(lia)) as Hi.
    rewrite !rd_some by (rewrite ?Sv, ?Sw; apply in_shape_1; lia). cbn [bind].
    set (x := (re (elem vis [(c + chans * r)%Z]) * elem weight [(c + chans * r)%Z])%R). cbn [flip the_place].
    set (y := (im (elem vis [(c + chans * r)%Z]) * elem weight [(c + chans * r)%Z] * turned P uvw r)%R).
    set (V := visits P uvw freq r c).
    assert (E : (if no_overlap (the_place P uvw freq r c) then Some [] else visit P (the_place P uvw freq r c)
        (fun o k s => if (0 <=? o) && (o <? cells) then Some (s ++ [Add (o, false) (x * k)%R; Add (o, true) (y * k)%R]) else None) []) = Some (add_ops x y V)).
    { destruct (no_overlap (the_place P uvw freq r c)) eqn:N.
      - unfold V. rewrite no_overlap_visits by exact N. reflexivity.
      - rewrite (visit_ok P uvw freq nvis cells OK r c) by lia.
        exact (fold_ops x y V (fun o k => visits_in P uvw freq nvis cells OK r c o k) []). }
    rewrite E. exists (add_ops x y V). split; [reflexivity|]. split.
    + intros o Io. unfold add_ops in Io. apply in_flat_map in Io. destruct Io as ([o' k] & _ & [<-|[<-|[]]]); eauto.
    + intros p a b i Hp Ha Hb. rewrite total_ops. cbn [fst snd]. unfold V.
      rewrite (visits_sum P uvw freq nvis cells OK r c ltac:(lia) Hc (fun o => if o =? cell g p a b then if i then y else x else 0%R)).
      rewrite (rsumf_one _ _ p); [|lia|].
      * rewrite (rsumf_one _ _ a); [|lia|].
        -- rewrite (rsumf_one _ _ b); [|lia|].
           ++ rewrite Z.eqb_refl. unfold x, y, part. destruct i; ring.
           ++ intros b' Hb' Nb. destruct (Z.eqb_spec (cell g p a b') (cell g p a b)) as [Q|Q]; [|ring]. apply cell_inj in Q; lia.
        -- intros a' Ha' Na. apply rsumf_none. intros b' Hb'. destruct (Z.eqb_spec (cell g p a' b') (cell g p a b)) as [Q|Q]; [|ring]. apply cell_inj in Q; lia.
      * intros p' Hp' Np. apply rsumf_none. intros a' Ha'. apply rsumf_none. intros b' Hb'. destruct (Z.eqb_spec (cell g p' a' b') (cell g p a b)) as [Q|Q]; [|ring]. apply cell_inj in Q; lia.
  - replace ((c >=? chans) || (r >=? rows)) with true by lia. exists []. split; [reflexivity|]. split; [intros ? []|]. reflexivity.
Qed.

Theorem gridding_result vis weight : shape vis = [nvis] -> shape weight = [nvis] ->
  (forall t, In t (vis_threads P) -> exists ops, gridding P vis weight uvw freq cells t = Some ops) /\
  forall m m', runs loc_eqb Rplus (vis_threads P) (gridding P vis weight uvw freq cells) m m' ->
    forall p a b i, 0 <= p < num_w_grids_subset P -> 0 <= a < g -> 0 <= b < g ->
      m' (cell g p a b, i) = (m (cell g p a b, i) + rsumf 0%Z rows (fun r => rsumf 0%Z chans (fun c =>
        coef P uvw freq r c (grid_start_w P + p)%Z a b * (elem weight [(c + chans * r)%Z] * part i (elem vis [(c + chans * r)%Z]) * (if i then turned P uvw r else 1)))))%R.
Proof.
  intros Sv Sw. split.
  - intros [c r] I. destruct (gridding_thread vis weight c r Sv Sw I) as (ops & E & _). eauto.
  - intros m m' Rn p a b i Hp Ha Hb.
    set (W := fun (t : Z * Z) => if snd t <? rows then (coef P uvw freq (snd t) (fst t) (grid_start_w P + p)%Z a b * (elem weight [(fst t + chans * snd t)%Z] * part i (elem vis [(fst t + chans * snd t)%Z]) * (if i then turned P uvw (snd t) else 1)))%R else 0%R).
    rewrite (adding_result loc_eqb loc_eqb_spec _ _ m m' (cell g p a b, i) W Rn).
    + f_equal. unfold vis_threads, launch_threads. rewrite lsum_prod, lsum_range. unfold W. cbn [fst snd]. rewrite Z.mul_1_r.
      rewrite (rsumf_swap 0 rows 0 chans). apply rsumf_ext. intros c Hc. rewrite lsum_range. symmetry. rewrite <- (rsumf_extend 0 rows 0 ((rows + 255) / 256 * 256)).
      * apply rsumf_ext. intros r Hr. replace (r <? rows) with true by lia. reflexivity.
      * intros r Hr. pose proof (Z.mul_succ_div_gt (rows + 255) 256). lia.
      * intros r Hr N. replace (r <? rows) with false by lia. reflexivity.
    + intros [c r] k It E. destruct (gridding_thread vis weight c r Sv Sw It) as (ops & E' & On & V). rewrite E in E'. injection E' as <-. split; [exact On|]. apply V; auto.
Qed.

Lemma fold_get (grid : nd C) V : (forall o k, In (o, k) V -> in_shape (shape grid) [o] = true) -> forall s : C,
  fold_opt (fun '(o, k) (s : C) => let* v := rd grid [o] in Some (re s + re v * k, im s + im v * k)%R) V s =
  Some (re s + lsum V (fun '(o, k) => re (elem grid [o]) * k), im s + lsum V (fun '(o, k) => im (elem grid [o]) * k))%R.
Proof.
  induction V as [|[o k] V IH]; intros H s; [unfold fold_opt; cbn; unfold lsum; cbn; destruct s as [u v]; cbn; f_equal; f_equal; unfold re, im; cbn; ring|].
  rewrite fold_opt_cons. rewrite rd_some by (apply (H o k); now left). cbn [bind]. rewrite IH by (intros; eapply H; right; eauto).
  change (lsum ((o, k) :: V) (fun '(o, k) => re (elem grid [o]) * k)%R) with (re (elem grid [o]) * k + lsum V (fun '(o, k) => re (elem grid [o]) * k))%R.
  change (lsum ((o, k) :: V) (fun '(o, k) => im (elem grid [o]) * k)%R) with (im (elem grid [o]) * k + lsum V (fun '(o, k) => im (elem grid [o]) * k))%R.
  apply f_equal. apply C_eq; unfold re, im; cbn [fst snd]; ring.
Qed.

Definition degrid_value (grid : nd C) (r c : Z) (i : bool) : R :=
  ((if i then turned P uvw r else 1) * rsumf 0%Z (num_w_grids_subset P) (fun p => rsumf 0%Z g (fun a => rsumf 0%Z g (fun b =>
    part i (elem grid [cell g p a b]) * coef P uvw freq r c (grid_start_w P + p)%Z a b))))%R.

Lemma degridding_thread grid c r : shape grid = [cells] -> In (c, r) (vis_threads P) ->
  exists ops, degridding P grid nvis uvw freq (c, r) = Some ops /\
    ((r >= rows /\ ops = []) \/ (r < rows /\ ops = [] /\ (forall i, degrid_value grid r c i = 0%R)) \/
     (r < rows /\ ops = [Update (c + chans * r, false) (fun x => x + degrid_value grid r c false)%R; Update (c + chans * r, true) (fun x => x + degrid_value grid r c true)%R])).
Proof.
  intros Sg I. pose proof (thread_range c r I) as (Hc & Hr'). unfold degridding. rewrite (vis_index_ok c r I). cbn [bind]. unfold out_of_range. cbn [fst snd].
  destruct (Z.ltb_spec r rows) as [Hr|Hr].
  - replace ((c >=? chans) || (r >=? rows)) with false by lia. rewrite (get_place_ok P uvw freq nvis cells OK r c) by lia. cbn [bind].
    assert (Vs : forall h, lsum (visits P uvw freq r c) (fun '(o, k) => (h o * k)%R) = rsumf 0 (num_w_grids_subset P) (fun p => rsumf 0 g (fun a => rsumf 0 g (fun b => (h (cell g p a b) * coef P uvw freq r c (grid_start_w P + p)%Z a b)%R)))).
    { intro h. apply (visits_sum P uvw freq nvis cells OK r c); lia. }
    destruct (no_overlap (the_place P uvw freq r c)) eqn:N.
    + exists []. split; [reflexivity|]. right. left. split; [exact Hr|]. split; [reflexivity|]. intro i. unfold degrid_value. rewrite <- (Vs (fun o => part i (elem grid [o]))).
      rewrite no_overlap_visits by exact N. unfold lsum. cbn [map fold_right]. ring.
    + rewrite (visit_ok P uvw freq nvis cells OK r c) by lia.
      rewrite fold_get by (intros o k Io; rewrite Sg; apply in_shape_1; apply (visits_in P uvw freq nvis cells OK r c o k); auto; lia). cbn [bind].
      pose proof (vis_index_in c r Hc ltac:(lia)). replace ((0 <=? c + chans * r) && (c + chans * r <? nvis)) with true by lia.
      eexists. split; [reflexivity|]. right. right. split; [exact Hr|]. unfold re at 1, im at 1. cbn [fst snd flip the_place].
      rewrite (Vs (fun o => re (elem grid [o]))), (Vs (fun o => im (elem grid [o]))). unfold degrid_value, part.
      change (fst C0) with 0%R. change (snd C0) with 0%R.
      rewrite !Rplus_0_l, Rmult_1_l. rewrite (Rmult_comm (turned P uvw r)). reflexivity.
  - replace ((c >=? chans) || (r >=? rows)) with true by lia. exists []. split; [reflexivity|]. left. split; [lia|reflexivity].
Qed.

Theorem degridding_result grid : shape grid = [cells] ->
  (forall t, In t (vis_threads P) -> exists ops, degridding P grid nvis uvw freq t = Some ops) /\
  forall m m', runs loc_eqb Rplus (vis_threads P) (degridding P grid nvis uvw freq) m m' ->
    forall r c i, 0 <= r < rows -> 0 <= c < chans -> m' (c + chans * r, i) = (m ((c + chans * r)%Z, i) + degrid_value grid r c i)%R.
Proof.
  intros Sg. split.
  - intros [c r] I. destruct (degridding_thread grid c r Sg I) as (ops & E & _). eauto.
  - intros m m' Rn r c i Hr Hc.
    assert (Sh : forall c r k o, In (c, r) (vis_threads P) -> degridding P grid nvis uvw freq (c, r) = Some k -> In o k -> r < rows /\ fst (loc o) = c + chans * r).
    { intros c1 r1 k o It E Io. destruct (degridding_thread grid c1 r1 Sg It) as (ops & E' & [(_ & Q)|[(_ & Q & _)|(Hlt & Q)]]); rewrite E in E'; injection E' as <-; subst k; try contradiction.
      split; [exact Hlt|]. destruct Io as [<-|[<-|[]]]; reflexivity. }
    destruct (disjoint_result loc_eqb Rplus loc_eqb_spec _ _ m m' Rn) as (U & K).
    + apply threads_nodup.
    + intros [c1 r1] k It E. destruct (degridding_thread grid c1 r1 Sg It) as (ops & E' & [(_ & Q)|[(_ & Q & _)|(_ & Q)]]); rewrite E in E'; injection E' as <-; subst k; try constructor.
      * intros [X|[]]. cbn [loc] in X. congruence.
      * constructor; [intros []|constructor].
    + intros [c1 r1] k1 o1 [c2 r2] k2 o2 I1 I2 E1 E2 J1 J2 Q. destruct (Sh _ _ _ _ I1 E1 J1) as (L1 & F1). destruct (Sh _ _ _ _ I2 E2 J2) as (L2 & F2).
      rewrite Q, F2 in F1. apply thread_range in I1, I2. rewrite (Z.add_comm c2), (Z.add_comm c1) in F1. apply pos2_inj in F1; try lia. destruct F1 as [-> ->]. reflexivity.
    + pose proof (thread_of c r Hc Hr) as It. destruct (degridding_thread grid c r Sg It) as (ops & E & [(? & _)|[(_ & Q & Z0)|(_ & Q)]]); [lia| |].
      * rewrite (Z0 i), Rplus_0_r. apply K. intros [c1 r1] k o It1 E1 J Ql. destruct (Sh _ _ _ _ It1 E1 J) as (L1 & F1). rewrite Ql in F1. cbn [fst] in F1.
        apply thread_range in It1. rewrite (Z.add_comm c), (Z.add_comm c1) in F1. apply pos2_inj in F1; try lia. destruct F1 as [<- <-]. rewrite E in E1. injection E1 as <-. subst ops. destruct J.
      * subst ops. destruct i.
        -- apply (U (c, r) _ (Update (c + chans * r, true) (fun x => x + degrid_value grid r c true)%R) It E). right. now left.
        -- apply (U (c, r) _ (Update (c + chans * r, false) (fun x => x + degrid_value grid r c false)%R) It E). now left.
Qed.
End Kernels.
