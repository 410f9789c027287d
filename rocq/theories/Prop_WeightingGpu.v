(** C94, C95: visibility weighting in GPU memory.  Exact arithmetic; weights in any commutative ring. *)
From Coq Require Import Reals QArith Qround Lia Lra String.
From Verif Require Import Base BaseFacts Sum Mem MemSpec Checks ChecksFacts CRing Cplx Clamp Sets FftSpec FftFacts Dft DftSpec DftFacts2 DftGpu DftGpuSpec DftGpuFacts Weighting WeightingSpec WeightingFacts Prop_Weighting Gpu GpuLaunch GpuAddFacts WeightingGpu WeightingGpuSpec WeightingGpuFacts.
Open Scope Z_scope.

Lemma kernel_cases fn uvw freq grid ty : registered (fn ++ "<double, double, double>")%string = true -> registered (fn ++ "<double, double, float>")%string = true ->
  if weighting_types uvw freq grid ty then exists n, weighting_kernel fn uvw freq grid ty = Some n /\ registered n = true else weighting_kernel fn uvw freq grid ty = None.
Proof.
  intros R1 R2. unfold weighting_types, weighting_kernel. destruct (mtype uvw =? MEM_DOUBLE), (ty =? MEM_DOUBLE), (mtype freq =? MEM_DOUBLE), (mtype grid =? MEM_DOUBLE), (ty =? MEM_FLOAT), (mtype grid =? MEM_FLOAT); cbn [andb orb]; eauto.
Qed.
Lemma buffer_ok m st : m_loc m = MEM_GPU -> gpu_buffer (Some m) st = st.
Proof. intro H. unfold gpu_buffer. cbn [location]. rewrite H, Z.eqb_refl. now destruct (failed st). Qed.
Lemma launch_failed {A} (plus : A -> A -> A) name b t body st (x : nd A) st' x' : failed st = true -> launch_kernel plus name b t body st x st' x' <-> st' = st /\ x' = x.
Proof. intro F. unfold launch_kernel. rewrite F. tauto. Qed.
Lemma product_1 (n : Z) : product [n] = n.
Proof. unfold product. cbn [fold_right]. ring. Qed.
Lemma fits3_grid (output : mem) nt nb nc np : mem_wf output -> m_shape output = [nt; nb; nc; np] -> fits3 nb nc nt = true <-> fits_grid output.
Proof.
  intros _ S. unfold fits_grid, size. rewrite S. cbn [nth]. unfold fits3. lia.
Qed.

Lemma all5 a b c d e : all_gpu [a; b; c; d; e] -> m_loc a = MEM_GPU /\ m_loc b = MEM_GPU /\ m_loc c = MEM_GPU /\ m_loc d = MEM_GPU /\ m_loc e = MEM_GPU.
Proof. unfold all_gpu. rewrite !Forall_cons_iff. tauto. Qed.

(** Uniform weighting: the call always completes.  Whatever the schedule, an error changes nothing; without one, the grid receives the sum of the weights of
    the visibilities of every cell and every visibility on the grid gets the inverse of the value of its own cell, as in CPU memory (C54).  There is no
    error exactly if the checks are passed, the types have a kernel and the visibilities fit in a grid of threads.  Partial: sizes within int. *)
Theorem C94_uniform_partial {A : cring} (wdiv : A -> A -> A) uvw freq max_abs_uv grid input output uvw_d freq_d grid_d input_d output_d nt nb nc np gs st :
  fits uvw freq grid input output uvw_d freq_d grid_d input_d output_d nt nb nc np gs -> in_view nt nb nc gs uvw_d freq_d max_abs_uv ->
  int_sized nt nb nc np gs uvw_d freq_d max_abs_uv -> all_gpu [uvw; freq; grid; input; output] ->
  let call := gpu_weighting_uniform wdiv (Some uvw) (Some freq) max_abs_uv (Some grid) (Some input) (Some output) uvw_d freq_d grid_d input_d output_d st in
  (exists st' g r, call st' g r) /\
  forall st' g r, call st' g r ->
    (st' <> SUCCESS -> g = grid_d /\ r = output_d) /\
    (st' = SUCCESS ->
      (forall u v p, 0 <= u < gs -> 0 <= v < gs -> 0 <= p < np ->
        grid_at np gs g u v p = (grid_at np gs grid_d u v p + deposited nt nb nc np gs uvw_d freq_d max_abs_uv input_d u v p)%cr) /\
      (forall t b c p, 0 <= t < nt -> 0 <= b < nb -> 0 <= c < nc -> 0 <= p < np ->
        weight nb nc np r t b c p = if on_grid nb gs uvw_d freq_d max_abs_uv t b c then wdiv r1 (own_cell nb np gs uvw_d freq_d max_abs_uv g t b c p)
                                    else weight nb nc np output_d t b c p)) /\
    (st' = SUCCESS <-> st = SUCCESS /\ snd (weighting_checks (Some uvw) (Some freq) (Some grid) (Some input) (Some output) st) = SUCCESS /\
      weighting_types (Some uvw) (Some freq) (Some grid) (m_type output) = true /\ fits_grid output).
Proof.
  intros W HV HI Lo. cbv zeta. apply all5 in Lo. destruct Lo as (L1 & L2 & L3 & L4 & L5). unfold gpu_weighting_uniform.
  destruct (failed st) eqn:F.
  { split; [eauto 6|]. intros st' g r (-> & -> & ->). split; [auto|]. split; [intros ->; discriminate|]. split; [intros ->; discriminate|]. now intros (-> & _). }
  apply failed_false in F. subst st.
  destruct (weighting_checks _ _ _ _ _ SUCCESS) as [[[[[[a b] c] d] ty] g0] s] eqn:K. destruct (checks_ok _ _ _ _ _ _ _ _ _ _ _ _ _ _ _ _ _ W K) as [N|[X Su]].
  { cbn [snd] in *. destruct (failed s) eqn:F2; [|apply failed_false in F2; congruence]. split; [eauto 6|]. intros st' g r (-> & -> & ->). split; [auto|]. split; [congruence|]. split; [congruence|]. now intros (_ & -> & _). }
  injection X as -> -> -> -> -> -> ->. cbn [snd]. change (failed SUCCESS) with false. cbv iota.
  pose proof (fits3_grid output nt nb nc np (proj2 (proj2 (proj2 (f_wf _ _ _ _ _ _ _ _ _ _ _ _ _ _ _ W)))) (f_output _ _ _ _ _ _ _ _ _ _ _ _ _ _ _ W)) as FG.
  destruct W as [_ (H1 & H2 & H3 & H4 & H5) _ _ T _ _ Sf Sg Si So].
  unfold input_as. cbn [mtype]. rewrite T, Z.eqb_refl. cbn [bind]. pose proof HI as (I1 & I2 & I3 & I4 & I5 & I6 & I7 & I8 & I9). rewrite !int_of_small by lia.
  rewrite Sg, So, !product_1.
  pose proof (kernel_cases "grid_write_gpu" (Some uvw) (Some freq) (Some grid) (m_type output) eq_refl eq_refl) as K1.
  pose proof (kernel_cases "grid_uniform_read_gpu" (Some uvw) (Some freq) (Some grid) (m_type output) eq_refl eq_refl) as K2.
  destruct (weighting_types _ _ _ _).
  2:{ rewrite K1. split.
      - eexists _, _, _, _. rewrite launch_failed by (repeat rewrite buffer_ok by assumption; reflexivity). split; [split; reflexivity|]. rewrite K2, launch_failed by (repeat rewrite buffer_ok by assumption; reflexivity). split; reflexivity.
      - intros st' g r (st1 & X1 & X2). rewrite launch_failed in X1 by (repeat rewrite buffer_ok by assumption; reflexivity). destruct X1 as (-> & ->).
        rewrite K2, launch_failed in X2 by (repeat rewrite buffer_ok by assumption; reflexivity). destruct X2 as (-> & ->). repeat rewrite buffer_ok by assumption. cbn [kernel_status].
        split; [auto|]. split; [discriminate|]. split; [discriminate|]. intros (_ & _ & ? & _). discriminate. }
  destruct K1 as (n1 & -> & R1). destruct K2 as (n2 & E2 & R2). cbn [kernel_status]. split.
  - destruct (write_launch_exists nt nb nc np gs uvw_d freq_d max_abs_uv H1 H2 H3 H5 Su Sf HV HI n1 R1 input_d grid_d _ Si (fun _ => eq_refl)) as (st1 & g & X1).
    pose proof (write_launch nt nb nc np gs uvw_d freq_d max_abs_uv H1 H2 H3 H5 Su Sf HV HI n1 R1 input_d grid_d _ st1 g Si Sg (fun _ => eq_refl) X1) as Q1.
    destruct (fits3 nb nc nt).
    + destruct Q1 as (-> & Sg' & _).
      destruct (read_launch_exists nt nb nc np gs uvw_d freq_d max_abs_uv H1 H2 H3 HI n2 R2 (grid_uniform_read_gpu wdiv nt nb nc np gs uvw_d freq_d max_abs_uv g (nt * nb * nc * np)) _ output_d
        (fun x y z Hx Hy Hz => uniform_thread wdiv nt nb nc np gs uvw_d freq_d max_abs_uv H5 Su Sf HV HI g x y z Sg' Hx Hy Hz)) as (st' & r & X2).
      exists st', g, r, SUCCESS. repeat rewrite buffer_ok by assumption. split; [exact X1|]. rewrite E2. exact X2.
    + destruct Q1 as (-> & ->). eexists _, _, _, _. repeat rewrite buffer_ok by assumption. split; [exact X1|]. rewrite E2. apply launch_failed; [reflexivity|]. split; reflexivity.
  - intros st' g r (st1 & X1 & X2). repeat rewrite buffer_ok in X1 by assumption. repeat rewrite buffer_ok in X2 by assumption. rewrite E2 in X2. cbn [kernel_status] in X2.
    pose proof (write_launch nt nb nc np gs uvw_d freq_d max_abs_uv H1 H2 H3 H5 Su Sf HV HI n1 R1 input_d grid_d _ st1 g Si Sg (fun _ => eq_refl) X1) as Q1.
    destruct (fits3 nb nc nt) eqn:G.
    + destruct Q1 as (-> & Sg' & P).
      pose proof (read_launch nt nb nc np gs uvw_d freq_d max_abs_uv H1 H2 H3 HI n2 R2 (grid_uniform_read_gpu wdiv nt nb nc np gs uvw_d freq_d max_abs_uv g (nt * nb * nc * np)) _ output_d
        (fun x y z Hx Hy Hz => uniform_thread wdiv nt nb nc np gs uvw_d freq_d max_abs_uv H5 Su Sf HV HI g x y z Sg' Hx Hy Hz) st' r X2) as Q2. rewrite G in Q2. destruct Q2 as (-> & Q).
      split; [congruence|]. split; [intros _; split; [exact P|exact Q]|]. split; [|reflexivity]. intros _. repeat (split; [reflexivity|]). now apply FG.
    + destruct Q1 as (-> & ->). apply launch_failed in X2; [|reflexivity]. destruct X2 as (-> & ->). split; [auto|]. split; [discriminate|]. split; [discriminate|].
      intros (_ & _ & _ & X). apply FG in X. discriminate.
Qed.
Print Assumptions C94_uniform_partial.

(** Briggs weighting, whatever the memory for the two sums contained when it was allocated ([sw0] and [sw20]). *)
Theorem C95_briggs_partial {A : cring} (wdiv : A -> A -> A) strength uvw freq max_abs_uv grid input output uvw_d freq_d grid_d input_d output_d sw0 sw20 nt nb nc np gs st :
  fits uvw freq grid input output uvw_d freq_d grid_d input_d output_d nt nb nc np gs -> in_view nt nb nc gs uvw_d freq_d max_abs_uv ->
  int_sized nt nb nc np gs uvw_d freq_d max_abs_uv -> all_gpu [uvw; freq; grid; input; output] ->
  let call := gpu_weighting_briggs wdiv (Some uvw) (Some freq) max_abs_uv strength (Some grid) (Some input) (Some output) uvw_d freq_d grid_d input_d output_d sw0 sw20 st in
  let accepted := snd (weighting_checks (Some uvw) (Some freq) (Some grid) (Some input) (Some output) st) = SUCCESS in
  let supported := weighting_types (Some uvw) (Some freq) (Some grid) (m_type output) = true /\ fits_grid output in
  (st <> SUCCESS \/ ~ accepted \/ supported -> exists st' g r, call st' g r) /\
  forall st' g r, call st' g r ->
    (st' <> SUCCESS -> g = grid_d /\ r = output_d) /\
    (st' = SUCCESS ->
      let value := own_cell nb np gs uvw_d freq_d max_abs_uv g in
      let sum1 := (sw0 + total nt nb nc gs uvw_d freq_d max_abs_uv (fun t b c => rsum 0 np (fun p => value t b c p)))%cr in
      let sum2 := (sw20 + total nt nb nc gs uvw_d freq_d max_abs_uv (fun t b c => rsum 0 np (fun p => (value t b c p * value t b c p)%cr)))%cr in
      (forall u v p, 0 <= u < gs -> 0 <= v < gs -> 0 <= p < np ->
        grid_at np gs g u v p = (grid_at np gs grid_d u v p + deposited nt nb nc np gs uvw_d freq_d max_abs_uv input_d u v p)%cr) /\
      (forall t b c p, 0 <= t < nt -> 0 <= b < nb -> 0 <= c < nc -> 0 <= p < np ->
        weight nb nc np r t b c p = if on_grid nb gs uvw_d freq_d max_abs_uv t b c
          then wdiv (weight nb nc np input_d t b c p) (r1 + wdiv strength (wdiv sum2 sum1) * value t b c p)%cr
          else weight nb nc np output_d t b c p)) /\
    (st' = SUCCESS <-> st = SUCCESS /\ accepted) /\ (st' = SUCCESS -> supported).
Proof.
  intros W HV HI Lo. cbv zeta. apply all5 in Lo. destruct Lo as (L1 & L2 & L3 & L4 & L5). unfold gpu_weighting_briggs.
  destruct (failed st) eqn:F.
  { split; [eauto 6|]. intros st' g r (-> & -> & ->). split; [auto|]. split; [intros ->; discriminate|]. split; [|intros ->; discriminate]. split; [intros ->; discriminate|]. now intros (-> & _). }
  apply failed_false in F. subst st.
  destruct (weighting_checks _ _ _ _ _ SUCCESS) as [[[[[[a b] c] d] ty] g0] s] eqn:K. destruct (checks_ok _ _ _ _ _ _ _ _ _ _ _ _ _ _ _ _ _ W K) as [N|[X Su]].
  { cbn [snd] in *. destruct (failed s) eqn:F2; [|apply failed_false in F2; congruence]. split; [eauto 6|]. intros st' g r (-> & -> & ->). split; [auto|]. split; [congruence|]. split; [|congruence]. split; [congruence|]. now intros (_ & ->). }
  injection X as -> -> -> -> -> -> ->. cbn [snd]. change (failed SUCCESS) with false. cbv iota.
  pose proof (fits3_grid output nt nb nc np (proj2 (proj2 (proj2 (f_wf _ _ _ _ _ _ _ _ _ _ _ _ _ _ _ W)))) (f_output _ _ _ _ _ _ _ _ _ _ _ _ _ _ _ W)) as FG.
  destruct W as [_ (H1 & H2 & H3 & H4 & H5) _ _ T _ _ Sf Sg Si So].
  unfold input_as. cbn [mtype]. rewrite T, Z.eqb_refl. cbn [bind]. pose proof HI as (I1 & I2 & I3 & I4 & I5 & I6 & I7 & I8 & I9). rewrite !int_of_small by lia.
  rewrite Sg, So, !product_1.
  pose proof (kernel_cases "grid_write_gpu" (Some uvw) (Some freq) (Some grid) (m_type output) eq_refl eq_refl) as K1.
  pose proof (kernel_cases "calc_sum_gpu" (Some uvw) (Some freq) (Some grid) (m_type output) eq_refl eq_refl) as K2.
  pose proof (kernel_cases "grid_briggs_read_gpu" (Some uvw) (Some freq) (Some grid) (m_type output) eq_refl eq_refl) as K3.
  destruct (weighting_types _ _ _ _).
  2:{ rewrite K1. split; [intros [X|[X|[X _]]]; [congruence|congruence|discriminate]|].
      intros st' g r (st1 & X1 & st2 & s & _ & F1 & _). rewrite launch_failed in X1 by (repeat rewrite buffer_ok by assumption; reflexivity). destruct X1 as (-> & ->).
      repeat rewrite buffer_ok in F1 by assumption. discriminate. }
  destruct K1 as (n1 & -> & R1). destruct K2 as (n2 & E2 & R2). destruct K3 as (n3 & E3 & R3). cbn [kernel_status]. split.
  - intros [X|[X|[_ X]]]; [congruence|congruence|]. apply FG in X.
    destruct (write_launch_exists nt nb nc np gs uvw_d freq_d max_abs_uv H1 H2 H3 H5 Su Sf HV HI n1 R1 input_d grid_d _ Si (fun _ => eq_refl)) as (st1 & g & X1).
    pose proof (write_launch nt nb nc np gs uvw_d freq_d max_abs_uv H1 H2 H3 H5 Su Sf HV HI n1 R1 input_d grid_d _ st1 g Si Sg (fun _ => eq_refl) X1) as Q1.
    rewrite X in Q1. destruct Q1 as (-> & Sg' & _).
    destruct (sum_launch_exists nt nb nc np gs uvw_d freq_d max_abs_uv H1 H2 H3 H5 Su Sf HV HI n2 R2 g (mk_nd [2] (fun i => if hd 0 i =? 0 then sw0 else sw20)) Sg') as (st2 & s & X2).
    pose proof (sum_launch nt nb nc np gs uvw_d freq_d max_abs_uv H1 H2 H3 H5 Su Sf HV HI n2 R2 g _ st2 s Sg' X2) as Q2. rewrite X in Q2. destruct Q2 as (-> & _).
    destruct (read_launch_exists nt nb nc np gs uvw_d freq_d max_abs_uv H1 H2 H3 HI n3 R3 (fun id => grid_briggs_read_gpu wdiv nt nb nc np gs uvw_d freq_d max_abs_uv g input_d (robustness_calc wdiv (elem s [1]) (elem s [0]) strength) (nt * nb * nc * np) id) _ output_d
        (fun x y z Hx Hy Hz => briggs_thread wdiv nt nb nc np gs uvw_d freq_d max_abs_uv H5 Su Sf HV HI g input_d _ x y z Sg' Si Hx Hy Hz)) as (st' & r & X3).
    exists st', g, r, SUCCESS. repeat rewrite buffer_ok by assumption. split; [exact X1|]. rewrite E2. exists SUCCESS, s. repeat rewrite buffer_ok by assumption. split; [exact X2|]. split; [reflexivity|]. split; [reflexivity|]. rewrite E3. exact X3.
  - intros st' g r (st1 & X1 & st2 & s & X2 & F1 & F2 & X3). repeat rewrite buffer_ok in X1 by assumption. repeat rewrite buffer_ok in X2 by assumption. repeat rewrite buffer_ok in X3 by assumption. rewrite E2 in X2. rewrite E3 in X3. cbn [kernel_status] in X2, X3.
    pose proof (write_launch nt nb nc np gs uvw_d freq_d max_abs_uv H1 H2 H3 H5 Su Sf HV HI n1 R1 input_d grid_d _ st1 g Si Sg (fun _ => eq_refl) X1) as Q1.
    destruct (fits3 nb nc nt) eqn:G; [|destruct Q1 as (-> & _); discriminate].
    destruct Q1 as (-> & Sg' & P).
    pose proof (sum_launch nt nb nc np gs uvw_d freq_d max_abs_uv H1 H2 H3 H5 Su Sf HV HI n2 R2 g _ st2 s Sg' X2) as Q2. rewrite G in Q2. destruct Q2 as (-> & V1 & V2). change (elem (mk_nd [2] _) [0]) with sw0 in V1. change (elem (mk_nd [2] _) [1]) with sw20 in V2.
    pose proof (read_launch nt nb nc np gs uvw_d freq_d max_abs_uv H1 H2 H3 HI n3 R3 _ _ output_d
        (fun x y z Hx Hy Hz => briggs_thread wdiv nt nb nc np gs uvw_d freq_d max_abs_uv H5 Su Sf HV HI g input_d _ x y z Sg' Si Hx Hy Hz) st' r X3) as Q3. rewrite G in Q3. destruct Q3 as (-> & Q).
    split; [congruence|]. split.
    + intros _. split; [exact P|]. intros. rewrite Q by assumption. unfold robustness_calc. rewrite V1, V2. reflexivity.
    + split; [split; auto|]. intros _. split; [reflexivity|]. now apply FG.
Qed.
Print Assumptions C95_briggs_partial.

Lemma total_ext {A : cring} nt nb nc gs uvw freq max (f h : Z -> Z -> Z -> A) : (forall t b c, 0 <= t < nt -> 0 <= b < nb -> 0 <= c < nc -> on_grid nb gs uvw freq max t b c = true -> f t b c = h t b c) ->
  total nt nb nc gs uvw freq max f = total nt nb nc gs uvw freq max h.
Proof.
  intro H. unfold total. apply rsum_ext. intros t Ht. apply rsum_ext. intros b Hb. apply rsum_ext. intros c Hc. destruct (on_grid nb gs uvw freq max t b c) eqn:O; [now apply H|reflexivity].
Qed.
(** If the memory for the sums happens to be zero, the weights are those of the CPU version (C54). *)
Theorem C95_zeroed_partial {A : cring} (wdiv : A -> A -> A) strength uvw freq max_abs_uv grid input output uvw_d freq_d grid_d input_d output_d nt nb nc np gs g r :
  fits uvw freq grid input output uvw_d freq_d grid_d input_d output_d nt nb nc np gs -> in_view nt nb nc gs uvw_d freq_d max_abs_uv ->
  int_sized nt nb nc np gs uvw_d freq_d max_abs_uv -> all_gpu [uvw; freq; grid; input; output] ->
  gpu_weighting_briggs wdiv (Some uvw) (Some freq) max_abs_uv strength (Some grid) (Some input) (Some output) uvw_d freq_d grid_d input_d output_d r0 r0 SUCCESS SUCCESS g r ->
  exists gc rc, weighting_briggs wdiv (Some uvw) (Some freq) max_abs_uv strength (Some grid) (Some input) (Some output) uvw_d freq_d grid_d input_d output_d SUCCESS = Some (SUCCESS, gc, rc) /\
    (forall u v p, 0 <= u < gs -> 0 <= v < gs -> 0 <= p < np -> grid_at np gs g u v p = grid_at np gs gc u v p) /\
    (forall t b c p, 0 <= t < nt -> 0 <= b < nb -> 0 <= c < nc -> 0 <= p < np -> weight nb nc np r t b c p = weight nb nc np rc t b c p).
Proof.
  intros W HV HI Lo G. destruct (C95_briggs_partial wdiv strength uvw freq max_abs_uv grid input output uvw_d freq_d grid_d input_d output_d r0 r0 nt nb nc np gs SUCCESS W HV HI Lo) as (_ & X).
  destruct (X _ _ _ G) as (_ & P & I & Ty). destruct (P eq_refl) as (P1 & P2). destruct (proj1 I eq_refl) as (_ & Ac). destruct (Ty eq_refl) as (Tt & _). clear X P I Ty.
  destruct (C54_briggs wdiv strength uvw freq max_abs_uv grid input output uvw_d freq_d grid_d input_d output_d nt nb nc np gs SUCCESS W HV) as (st' & gc & rc & E & _ & Q).
  assert (st' = SUCCESS) as ->.
  { clear - E Ac Tt W. unfold weighting_briggs in E. change (failed SUCCESS) with false in E. cbv iota in E.
    destruct (weighting_checks _ _ _ _ _ _) as [[[[[[a b] c] d] ty] g0] s] eqn:K. cbn [snd] in Ac. subst s. destruct (checks_ok _ _ _ _ _ _ _ _ _ _ _ _ _ _ _ _ _ W K) as [N|[X _]]; [now cbn in N|].
    injection X as -> -> -> -> -> ->. change (failed SUCCESS) with false in E. cbv iota in E. rewrite Tt in E. unfold bind in E.
    destruct (input_as _ _ _); [|discriminate]. destruct (weights_grid_write _ _ _ _ _ _ _ _ _ _); [|discriminate]. destruct (sum_weights_calc _ _ _ _ _ _ _ _ _) as [[? ?]|]; [|discriminate]. destruct (briggs_weights_grid_read _ _ _ _ _ _ _ _ _ _ _ _ _); [|discriminate]. now injection E as <- _ _. }
  exists gc, rc. split; [exact E|]. destruct (Q eq_refl) as (Q1 & Q2). clear Q E. cbv zeta in Q2, P2.
  assert (Eg : forall u v p, 0 <= u < gs -> 0 <= v < gs -> 0 <= p < np -> grid_at np gs g u v p = grid_at np gs gc u v p) by (intros; rewrite P1, Q1 by assumption; reflexivity).
  split; [exact Eg|]. intros t b c p Ht Hb Hc Hp. rewrite P2, Q2 by assumption.
  assert (Eo : forall t b c p, 0 <= t < nt -> 0 <= b < nb -> 0 <= c < nc -> 0 <= p < np -> on_grid nb gs uvw_d freq_d max_abs_uv t b c = true ->
    own_cell nb np gs uvw_d freq_d max_abs_uv g t b c p = own_cell nb np gs uvw_d freq_d max_abs_uv gc t b c p).
  { intros t' b' c' p' Ht' Hb' Hc' Hp' O. destruct (on_range nt nb nc gs uvw_d freq_d max_abs_uv HV t' b' c' Ht' Hb' Hc' O). unfold own_cell. now apply Eg. }
  destruct (on_grid nb gs uvw_d freq_d max_abs_uv t b c) eqn:O; [|reflexivity]. rewrite Eo by assumption.
  assert (Z0 : forall x : A, radd r0 x = x) by (intro; apply (Radd_0_l (rth A))). rewrite !Z0.
  assert (E1 : total nt nb nc gs uvw_d freq_d max_abs_uv (fun t b c => rsum 0 np (fun p => own_cell nb np gs uvw_d freq_d max_abs_uv g t b c p)) =
    total nt nb nc gs uvw_d freq_d max_abs_uv (fun t b c => rsum 0 np (fun p => own_cell nb np gs uvw_d freq_d max_abs_uv gc t b c p))).
  { apply total_ext. intros. apply rsum_ext. intros. now rewrite Eo. }
  assert (E2 : total nt nb nc gs uvw_d freq_d max_abs_uv (fun t b c => rsum 0 np (fun p => (own_cell nb np gs uvw_d freq_d max_abs_uv g t b c p * own_cell nb np gs uvw_d freq_d max_abs_uv g t b c p)%cr)) =
    total nt nb nc gs uvw_d freq_d max_abs_uv (fun t b c => rsum 0 np (fun p => (own_cell nb np gs uvw_d freq_d max_abs_uv gc t b c p * own_cell nb np gs uvw_d freq_d max_abs_uv gc t b c p)%cr))).
  { apply total_ext. intros. apply rsum_ext. intros. now rewrite Eo. }
  now rewrite E1, E2.
Qed.
Print Assumptions C95_zeroed_partial.

(** Arguments that pass the checks but whose types have no kernel, or that do not fit in a grid of threads: in CPU memory a status is returned; in GPU memory the call
    has no outcome, as the sums are read through a null pointer. *)
Theorem C95_crash_refuted {A : cring} (wdiv : A -> A -> A) strength uvw freq max_abs_uv grid input output uvw_d freq_d grid_d input_d output_d sw0 sw20 nt nb nc np gs :
  fits uvw freq grid input output uvw_d freq_d grid_d input_d output_d nt nb nc np gs -> in_view nt nb nc gs uvw_d freq_d max_abs_uv ->
  int_sized nt nb nc np gs uvw_d freq_d max_abs_uv -> all_gpu [uvw; freq; grid; input; output] ->
  snd (weighting_checks (Some uvw) (Some freq) (Some grid) (Some input) (Some output) SUCCESS) = SUCCESS ->
  weighting_types (Some uvw) (Some freq) (Some grid) (m_type output) = false \/ ~ fits_grid output ->
  (exists st' g r, weighting_briggs wdiv (Some uvw) (Some freq) max_abs_uv strength (Some grid) (Some input) (Some output) uvw_d freq_d grid_d input_d output_d SUCCESS = Some (st', g, r)) /\
  forall st' g r, ~ gpu_weighting_briggs wdiv (Some uvw) (Some freq) max_abs_uv strength (Some grid) (Some input) (Some output) uvw_d freq_d grid_d input_d output_d sw0 sw20 SUCCESS st' g r.
Proof.
  intros W HV HI Lo Ac Un. split.
  - destruct (C54_briggs wdiv strength uvw freq max_abs_uv grid input output uvw_d freq_d grid_d input_d output_d nt nb nc np gs SUCCESS W HV) as (st' & g & r & E & _). eauto.
  - intros st' g r G. destruct (C95_briggs_partial wdiv strength uvw freq max_abs_uv grid input output uvw_d freq_d grid_d input_d output_d sw0 sw20 nt nb nc np gs SUCCESS W HV HI Lo) as (_ & X).
    destruct (X _ _ _ G) as (_ & _ & I & Su). destruct (Su (proj2 I (conj eq_refl Ac))) as (S1 & S2). destruct Un as [U|U]; [congruence|contradiction].
Qed.
Print Assumptions C95_crash_refuted.

(** One visibility of weight 1 in an empty grid, strength 1: the weight should be 1 / (1 + 1) = 1/2, and is if the memory for the sums contains zeros; if the one for the
    sum of squares happens to contain 1, it is 2/3. *)
Section Fresh.
Let one (ty : Z) (sh : list Z) : mem := fst (create_wrapper (Some (1, 0)) ty MEM_GPU sh None SUCCESS).
Let uvw_d : nd Q := dat 0%Q [3; -5; 0]%Q.
Let freq_d : nd Q := dat 0%Q [c0].
Let ones : nd R := mk_nd [1] (fun _ => 1%R).
Definition fresh_call (sw20 : R) : error -> nd R -> nd R -> Prop :=
  gpu_weighting_briggs (A := Rring) Rdiv (Some (one MEM_DOUBLE [1; 1; 3])) (Some (one MEM_DOUBLE [1])) 8 1%R (Some (one MEM_DOUBLE [4; 4; 1])) (Some (one MEM_DOUBLE [1; 1; 1; 1])) (Some (one MEM_DOUBLE [1; 1; 1; 1]))
    uvw_d freq_d (mk_nd [16] (fun _ => 0%R)) ones (mk_nd [1] (fun _ => 0%R)) 0%R sw20 SUCCESS.
Lemma fresh_fits : fits (one MEM_DOUBLE [1; 1; 3]) (one MEM_DOUBLE [1]) (one MEM_DOUBLE [4; 4; 1]) (one MEM_DOUBLE [1; 1; 1; 1]) (one MEM_DOUBLE [1; 1; 1; 1])
    uvw_d freq_d (mk_nd [16] (fun _ => 0%R)) ones (mk_nd [1] (fun _ => 0%R)) 1 1 1 1 4.
Proof. constructor; try reflexivity; [|lia]. unfold mem_wf; repeat split; try reflexivity; repeat constructor. Qed.
Lemma fresh_view : in_view 1 1 1 4 uvw_d freq_d 8 /\ int_sized 1 1 1 1 4 uvw_d freq_d 8.
Proof.
  assert (H : cell_u 1 4 uvw_d freq_d 8 0 0 0 = 2 /\ cell_v 1 4 uvw_d freq_d 8 0 0 0 = 0) by (split; vm_compute; reflexivity). destruct H as [Hu Hv].
  assert (Z3 : forall t b c, 0 <= t < 1 -> 0 <= b < 1 -> 0 <= c < 1 -> cell_u 1 4 uvw_d freq_d 8 t b c = 2 /\ cell_v 1 4 uvw_d freq_d 8 t b c = 0).
  { intros t b c Ht Hb Hc. assert (t = 0) as -> by lia. assert (b = 0) as -> by lia. assert (c = 0) as -> by lia. auto. }
  split; [split; [intro E; vm_compute in E; discriminate|]|].
  - intros t b c Ht Hb Hc. destruct (Z3 t b c Ht Hb Hc). lia.
  - repeat (split; [lia|]). intros t b c Ht Hb Hc. destruct (Z3 t b c Ht Hb Hc). lia.
Qed.
Lemma fresh_gpu : all_gpu [one MEM_DOUBLE [1; 1; 3]; one MEM_DOUBLE [1]; one MEM_DOUBLE [4; 4; 1]; one MEM_DOUBLE [1; 1; 1; 1]; one MEM_DOUBLE [1; 1; 1; 1]].
Proof. repeat constructor. Qed.
Lemma fresh_ok : snd (weighting_checks (Some (one MEM_DOUBLE [1; 1; 3])) (Some (one MEM_DOUBLE [1])) (Some (one MEM_DOUBLE [4; 4; 1])) (Some (one MEM_DOUBLE [1; 1; 1; 1])) (Some (one MEM_DOUBLE [1; 1; 1; 1])) SUCCESS) = SUCCESS /\
  weighting_types (Some (one MEM_DOUBLE [1; 1; 3])) (Some (one MEM_DOUBLE [1])) (Some (one MEM_DOUBLE [4; 4; 1])) MEM_DOUBLE = true /\ fits_grid (one MEM_DOUBLE [1; 1; 1; 1]).
Proof. split; [vm_compute; reflexivity|]. split; [vm_compute; reflexivity|]. vm_compute. repeat split; discriminate. Qed.
Lemma fresh_result sw20 : (exists g r, fresh_call sw20 SUCCESS g r) /\ forall st' g r, fresh_call sw20 st' g r -> st' = SUCCESS /\ elem r [0] = (1 / (1 + 1 / ((sw20 + 1) / (0 + 1)) * 1))%R.
Proof.
  destruct (C95_briggs_partial (A := Rring) Rdiv 1%R _ _ 8 _ _ _ _ _ _ _ _ 0%R sw20 1 1 1 1 4 SUCCESS fresh_fits (proj1 fresh_view) (proj2 fresh_view) fresh_gpu) as (E & X).
  destruct fresh_ok as (Ok1 & Ok2 & Ok3). destruct (E (or_intror (or_intror (conj Ok2 Ok3)))) as (st0 & g0 & r0' & G0). clear E.
  assert (All : forall st' g r, fresh_call sw20 st' g r -> st' = SUCCESS /\ elem r [0] = (1 / (1 + 1 / ((sw20 + 1) / (0 + 1)) * 1))%R).
  { intros st' g r G. destruct (X st' g r G) as (_ & P & I & _). assert (st' = SUCCESS) as -> by (apply I; auto). split; [reflexivity|]. destruct (P eq_refl) as (P1 & P2).
    assert (On : on_grid 1 4 uvw_d freq_d 8 0 0 0 = true) by (vm_compute; reflexivity).
    assert (Cu : cell_u 1 4 uvw_d freq_d 8 0 0 0 = 2) by (vm_compute; reflexivity). assert (Cv : cell_v 1 4 uvw_d freq_d 8 0 0 0 = 0) by (vm_compute; reflexivity).
    specialize (P2 0 0 0 0 ltac:(lia) ltac:(lia) ltac:(lia) ltac:(lia)). cbv zeta in P2.
    assert (S1 : forall (f : Z -> R), sum Rplus 0%R 0 1 f = f 0). { intro f. unfold sum. cbn. apply Rplus_0_r. }
    assert (Gv : own_cell (A := Rring) 1 1 4 uvw_d freq_d 8 g 0 0 0 0 = 1%R).
    { unfold own_cell. rewrite Cu, Cv. rewrite (P1 2 0 0 ltac:(lia) ltac:(lia) ltac:(lia)). unfold deposited, total. cbn [radd r0 Rring]. rewrite !S1, On, Cu, Cv. cbn [Z.eqb andb Pos.eqb]. unfold grid_at, weight. cbn [elem ones]. apply Rplus_0_l. }
    rewrite On in P2. unfold total in P2. cbn [radd rmul r0 r1 Rring] in P2. rewrite !S1 in P2. rewrite On in P2. rewrite Gv in P2. try rewrite !S1 in P2. try rewrite Gv in P2.
    replace (weight (A := Rring) 1 1 1 ones 0 0 0 0) with 1%R in P2 by reflexivity. change (weight (A := Rring) 1 1 1 r 0 0 0 0) with (elem r [0]) in P2. rewrite P2. now rewrite !Rmult_1_r. }
  split; [|exact All]. destruct (All _ _ _ G0) as (-> & _). eauto.
Qed.
Theorem C95_fresh_refuted : (exists g r, fresh_call 0 SUCCESS g r /\ elem r [0] = (1 / 2)%R) /\ (exists g r, fresh_call 1 SUCCESS g r /\ elem r [0] = (2 / 3)%R).
Proof.
  destruct (fresh_result 0%R) as ((g & r & G) & P). destruct (fresh_result 1%R) as ((g' & r' & G') & P'). split; [exists g, r|exists g', r']; (split; [assumption|]).
  - destruct (P _ _ _ G) as (_ & ->). field.
  - destruct (P' _ _ _ G') as (_ & ->). field.
Qed.
End Fresh.
Print Assumptions C95_fresh_refuted.

Example C95_hyps : let m ty sh := fst (create_wrapper (Some (1, 0)) ty MEM_GPU sh None SUCCESS) in let uvw := dat 0%Q [3; -5; 0; -8; 2; 0]%Q in let freq := dat 0%Q [c0; (1 # 2) * c0]%Q in
  fits (m MEM_DOUBLE [1; 2; 3]) (m MEM_DOUBLE [2]) (m MEM_DOUBLE [4; 4; 1]) (m MEM_DOUBLE [1; 2; 2; 1]) (m MEM_DOUBLE [1; 2; 2; 1])
    uvw freq (mk_nd [16] (fun _ => 0)) (mk_nd [4] (fun _ => 1)) (mk_nd [4] (fun _ => 0)) 1 2 2 1 4 /\
  in_view 1 2 2 4 uvw freq 8 /\ int_sized 1 2 2 1 4 uvw freq 8 /\ all_gpu [m MEM_DOUBLE [1; 2; 3]; m MEM_DOUBLE [2]; m MEM_DOUBLE [4; 4; 1]; m MEM_DOUBLE [1; 2; 2; 1]; m MEM_DOUBLE [1; 2; 2; 1]] /\
  snd (weighting_checks (Some (m MEM_DOUBLE [1; 2; 3])) (Some (m MEM_DOUBLE [2])) (Some (m MEM_DOUBLE [4; 4; 1])) (Some (m MEM_DOUBLE [1; 2; 2; 1])) (Some (m MEM_DOUBLE [1; 2; 2; 1])) SUCCESS) = SUCCESS /\
  weighting_types (Some (m MEM_DOUBLE [1; 2; 3])) (Some (m MEM_DOUBLE [2])) (Some (m MEM_DOUBLE [4; 4; 1])) MEM_DOUBLE = true /\ fits_grid (m MEM_DOUBLE [1; 2; 2; 1]).
Proof.
  cbv zeta. split.
  - constructor; try reflexivity; [|lia]. unfold mem_wf; repeat split; try reflexivity; repeat constructor.
  - set (uvw := dat 0%Q _). set (freq := dat 0%Q _).
    assert (H : forall t b c, 0 <= t < 1 -> 0 <= b < 2 -> 0 <= c < 2 -> 0 <= cell_u 2 4 uvw freq 8 t b c <= 4 /\ 0 <= cell_v 2 4 uvw freq 8 t b c <= 4).
    { intros t b c Ht Hb Hc. assert (t = 0) as -> by lia. assert (b = 0 \/ b = 1) as [-> | ->] by lia; assert (c = 0 \/ c = 1) as [-> | ->] by lia; vm_compute; repeat split; discriminate. }
    split; [split; [intro E; vm_compute in E; discriminate|]; intros t b c Ht Hb Hc; specialize (H t b c Ht Hb Hc); lia|].
    split; [repeat (split; [lia|]); intros t b c Ht Hb Hc; specialize (H t b c Ht Hb Hc); lia|].
    split; [repeat constructor|]. split; [vm_compute; reflexivity|]. split; [vm_compute; reflexivity|]. vm_compute. repeat split; discriminate.
Qed.
