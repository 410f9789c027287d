(** C106: the w-towers kernels on arrays in GPU memory.  Exact arithmetic, as in C24 and C25. *)
From Coq Require Import Reals String Lia.
From Verif Require Import Base BaseFacts Sum CRing Cplx Clamp ClampSpec QNum Mem Checks ChecksFacts Gpu GpuFacts GpuFacts2 EsKernelsFacts2 GpuLaunch GpuLaunchFacts GpuView GpuViewFacts PhaseRotateGpu GridUtilsGpu GridUtilsGpuSpec GridUtilsGpuFacts ClampGpuSpec ClampGpuFacts WTower WTowerSpec WTowerFacts Prop_WTower WTowerGpu WTowerGpuSpec WTowerGpuFacts WTowerGpuFacts2.
From Verif Require StationGpu EsKernelsSpec EsKernelsFacts Prop_ClampGpu.
Open Scope Z_scope.

Lemma kernel_name (dg : bool) sg uvws vis ts tu tv : wtower_types ts tu tv -> mtype sg = ts -> mtype uvws = tu -> mtype vis = tv -> exists k, registered k = true /\ wtower_kernel dg sg uvws vis = Some k.
Proof.
  intros H E1 E2 E3. unfold wtower_kernel. rewrite E1, E2, E3. destruct H as [(-> & -> & ->)|(-> & [ -> | -> ] & ->)]; destruct dg; (eexists; split; [|reflexivity]; reflexivity).
Qed.
Section Checks.
Context (dg : bool) (sg uvws scs ecs vis : option mem) {A : Type} (uvws_d : nd Q) (scs_d ecs_d : nd Z) (vis_d : nd A) (n m ts tu tv : Z).
Context (Ty : wtower_types ts tu tv) (Ts : mtype sg = ts) (Ls : location sg = MEM_GPU) (Du : described uvws tu uvws_d) (Su : shape uvws_d = [n; 3]) (Ds : ints scs scs_d n) (De : ints ecs ecs_d n)
  (Dv : described vis tv vis_d) (Sv : shape vis_d = [n; m]) (Wv : dg = true -> writeable vis).
Lemma checks_ok : wtower_checks dg sg uvws scs ecs vis SUCCESS = SUCCESS.
Proof using All.
  unfold wtower_checks. destruct Ds as (D1 & S1). destruct De as (D2 & S2). rewrite (view_const_ok scs MEM_INT scs_d 1 D1) by now rewrite S1. rewrite (view_const_ok ecs MEM_INT ecs_d 1 D2) by now rewrite S2.
  destruct (kernel_name dg sg uvws vis ts tu tv Ty Ts (described_type _ _ _ Du) (described_type _ _ _ Dv)) as (k & _ & ->).
  rewrite (described_type _ _ _ Du), (described_type _ _ _ Dv), (view_const_ok uvws tu uvws_d 2 Du) by now rewrite Su.
  replace (if dg then _ else _) with SUCCESS. { unfold StationGpu.gpu_buffer. cbn [failed]. destruct sg; [|reflexivity]. rewrite Ls. reflexivity. }
  symmetry. destruct dg; [apply (view_ok vis tv vis_d 2 Dv); [now rewrite Sv|auto]|apply (view_const_ok vis tv vis_d 2 Dv); now rewrite Sv].
Qed.
End Checks.

(** ** Degridding: what is defined on the CPU (C24) is defined on the GPU, and every schedule gives the visibilities of the CPU. *)
Theorem C106_degrid : forall (A : cring) (plan : wplan A) w_plane off_u off_v off_w f0 df start_row end_row subgrids uvws scs ecs vis uvws_d scs_d ecs_d sg flat vis_d n m ts tu tv rc,
  wtower_types ts tu tv -> mtype subgrids = ts -> location subgrids = MEM_GPU -> described uvws tu uvws_d -> shape uvws_d = [n; 3] -> ints scs scs_d n -> ints ecs ecs_d n ->
  described vis tv vis_d -> shape vis_d = [n; m] -> writeable vis -> 1 <= n <= 2147483647 -> 0 <= start_row -> end_row <= n ->
  1 <= support plan -> 1 <= w_support plan -> 0 <= subgrid_size plan <= 46340 -> laid_out plan sg flat ->
  degrid plan w_plane off_u off_v off_w f0 df start_row end_row uvws_d scs_d ecs_d sg vis_d = Some rc ->
  let call := degrid_gpu plan w_plane off_u off_v off_w f0 df start_row end_row subgrids uvws scs ecs vis uvws_d scs_d ecs_d flat vis_d SUCCESS in
  (exists st' r, call st' r) /\ forall st' r, call st' r -> st' = SUCCESS /\ nd_eq r rc.
Proof.
  intros A plan w_plane off_u off_v off_w f0 df r0 r1 subgrids uvws scs ecs vis uvws_d scs_d ecs_d sg flat vis_d n m ts tu tv rc Ty Ts Ls Du Su Ds De Dv Sv Wv Hn H0 H1 Sp Ws Sq Fl E call.
  destruct (kernel_name true subgrids uvws vis ts tu tv Ty Ts (described_type _ _ _ Du) (described_type _ _ _ Dv)) as (k & Rg & Ek).
  unfold call, degrid_gpu. cbn [failed]. rewrite Ek, (checks_ok true subgrids uvws scs ecs vis uvws_d scs_d ecs_d vis_d n m ts tu tv Ty Ts Ls Du Su Ds De Dv Sv (fun _ => Wv)).
  rewrite (described_shape _ _ _ 0 Dv), Sv by (rewrite Sv; cbn; lia). cbn [nth Z.to_nat]. clear call.
  replace (dim vis_d 0) with n by (unfold dim; now rewrite Sv). replace (dim vis_d 1) with m by (unfold dim; now rewrite Sv).
  set (g := gpu_degrid_act plan flat n m). set (body := wtower_thread _ _ _ _ _ _ _ _ _ _ _ _ g).
  rewrite degrid_skel in E. apply rows_split in E. destruct E as (s & S0 & S1 & Sx & Sr).
  set (rowg := fun i => row plan w_plane off_u off_v off_w f0 df uvws_d scs_d ecs_d g i []).
  (* all rows *)
  assert (Sh : forall i, r0 <= i <= r1 -> shape (s i) = [n; m] /\ forall j, r0 <= j < i -> exists ops, rowg j = Some ops /\ exists c, degrid_rel (s j) j c (s (j + 1)) ops).
  { intros i Hi. assert (Q : exists q, i = r0 + Z.of_nat q) by (exists (Z.to_nat (i - r0)); lia). destruct Q as (q & ->). induction q as [|q IH].
    - replace (r0 + Z.of_nat 0) with r0 by lia. rewrite S0. split; [exact Sv|intros; lia].
    - replace (r0 + Z.of_nat (S q)) with (r0 + Z.of_nat q + 1) in * by lia. destruct (IH ltac:(lia)) as (I1 & I2).
      set (p := r0 + Z.of_nat q) in *.
      pose proof (row_sim plan w_plane off_u off_v off_w f0 df uvws_d scs_d ecs_d (degrid_rel (s p) p) (degrid_act plan sg) g p (s p) [] (s (p + 1))
        (fun c a b u v w x y x' => degrid_step plan sg flat Fl Sq (s p) p c a b u v w x y x' n m Ws Sp I1)) as RS.
      destruct RS as (ops & Eo & c & R); [| apply Sr; lia |].
      { intro c. split; [reflexivity|]. split; [intros ? []|]. split; [constructor|]. split; [intros ? []|auto]. }
      split; [rewrite (proj1 R); exact I1|]. intros j Hj. destruct (Z.eq_dec j p) as [->|Nq]; [|apply I2; lia]. exists ops. split; [exact Eo|]. eauto. }
  assert (Rw : forall j, r0 <= j < r1 -> exists ops, rowg j = Some ops /\ exists c, degrid_rel (s j) j c (s (j + 1)) ops) by (intros j Hj; apply (proj2 (Sh r1 ltac:(lia))); lia).
  (* the CPU, row by row *)
  assert (Cp : forall i, r0 <= i <= r1 -> (forall j ops o, r0 <= j < i -> rowg j = Some ops -> In o ops -> elem (s i) (GpuFacts.loc o) = apply radd o (elem vis_d (GpuFacts.loc o))) /\
    (forall idx, (forall j ops, r0 <= j < i -> rowg j = Some ops -> ~ In idx (map GpuFacts.loc ops)) -> elem (s i) idx = elem vis_d idx)).
  { intros i Hi. assert (Q : exists q, i = r0 + Z.of_nat q) by (exists (Z.to_nat (i - r0)); lia). destruct Q as (q & ->). induction q as [|q IH].
    - replace (r0 + Z.of_nat 0) with r0 by lia. rewrite S0. split; [intros; lia|auto].
    - replace (r0 + Z.of_nat (S q)) with (r0 + Z.of_nat q + 1) in * by lia. destruct (IH ltac:(lia)) as (I1 & I2). set (p := r0 + Z.of_nat q) in *.
      destruct (Rw p ltac:(lia)) as (ops & Eo & c & R1 & R2 & R3 & R4 & R5). split.
      + intros j ops' o Hj Ej Io. destruct (Z.eq_dec j p) as [->|Np].
        * rewrite Eo in Ej. injection Ej as <-. rewrite (R4 o Io). f_equal. apply I2. intros j ops' Hj' Ej K. apply in_map_iff in K. destruct K as (o' & L & Io').
          destruct (Rw j ltac:(lia)) as (ops'' & Ej' & c' & _ & R2' & _). rewrite Ej in Ej'. injection Ej' as <-. destruct (R2' o' Io') as (d' & L' & _). destruct (R2 o Io) as (d & L'' & _). rewrite L, L'' in L'. injection L'. lia.
        * rewrite R5; [apply (I1 j ops'); [lia|assumption|assumption]|]. intro K. apply in_map_iff in K. destruct K as (o' & L & Io'). destruct (R2 o' Io') as (d' & L' & _).
          destruct (Rw j ltac:(lia)) as (ops'' & Ej' & c' & _ & R2' & _). rewrite Ej in Ej'. injection Ej' as <-. destruct (R2' o Io) as (d & L'' & _). rewrite L, L'' in L'. injection L'. lia.
      + intros idx H. rewrite R5 by (apply (H p); [lia|exact Eo]). apply I2. intros j ops' Hj Ej. apply (H j); [lia|exact Ej]. }
  assert (Bd : forall t, In t (threads3 (to_dim3 (blocks_of n 256, 1, 1)) (to_dim3 (256, 1, 1))) -> exists a, t = (a, 0, 0) /\ 0 <= a < 4294967296 /\ body t = if (r1 <=? a + r0) then Some [] else rowg (a + r0)).
  { intros t I. destruct (rows_in n ltac:(lia) t I) as (a & -> & Ha). exists a. split; [reflexivity|]. split; [exact Ha|]. unfold body. rewrite thread_row by nia. rewrite u32_id by lia.
    replace (dim uvws_d 0) with n by (unfold dim; now rewrite Su). destruct (Z.leb_spec r1 (a + r0)); cbn [orb]; [reflexivity|]. replace (n <=? a + r0) with false by lia. reflexivity. }
  unfold launch_view. cbn [failed]. rewrite Rg, (rows_grid n) by lia. replace (1 <=? n) with true by lia. cbn [negb]. split.
  - destruct (runs_exists idx_eqb radd (threads3 (to_dim3 (blocks_of n 256, 1, 1)) (to_dim3 (256, 1, 1))) body (elem vis_d)) as (m' & R); [|eauto 7].
    intros t I. destruct (Bd t I) as (a & -> & Ha & ->). destruct (Z.leb_spec r1 (a + r0)); [eauto|]. destruct (Rw (a + r0) ltac:(lia)) as (ops & -> & _). eauto.
  - intros st' r (-> & m' & R & ->). split; [reflexivity|].
    destruct (disjoint_result idx_eqb radd idx_reflect _ body (elem vis_d) m' R (threads3_nodup _ _)) as [X Y].
    + intros t ops I Eo. destruct (Bd t I) as (a & -> & Ha & Eb). rewrite Eo in Eb. destruct (Z.leb_spec r1 (a + r0)); [injection Eb as ->; constructor|]. destruct (Rw (a + r0) ltac:(lia)) as (ops' & Er & c & _ & _ & Nd & _). congruence.
    + intros t ops o t' ops' o' I I' Eo Eo' Io Io' L. destruct (Bd t I) as (a & -> & Ha & Eb). destruct (Bd t' I') as (a' & -> & Ha' & Eb'). rewrite Eo in Eb. rewrite Eo' in Eb'.
      destruct (Z.leb_spec r1 (a + r0)); [injection Eb as ->; destruct Io|]. destruct (Z.leb_spec r1 (a' + r0)); [injection Eb' as ->; destruct Io'|].
      destruct (Rw (a + r0) ltac:(lia)) as (q & Er & c & _ & P & _). destruct (Rw (a' + r0) ltac:(lia)) as (q' & Er' & c' & _ & P' & _). rewrite Er in Eb. injection Eb as ->. rewrite Er' in Eb'. injection Eb' as ->.
      destruct (P o Io) as (d & L1 & _). destruct (P' o' Io') as (d' & L2 & _). rewrite L, L2 in L1. injection L1 as L1 _. replace a' with a by lia. reflexivity.
    + destruct (Z_le_gt_dec r0 r1) as [Le|Gt].
      * specialize (S1 Le). destruct (Cp r1 ltac:(lia)) as (C1 & C2). rewrite S1 in C1, C2. assert (Sr1 : shape rc = [n; m]) by (rewrite <- S1; apply (Sh r1); lia).
        split; [cbn [shape]; congruence|]. cbn [shape elem]. intros idx Hix.
        destruct (in_dec (list_eq_dec Z.eq_dec) idx (concat (map (fun j => match rowg j with Some ops => map GpuFacts.loc ops | None => [] end) (zrange r0 r1)))) as [In|Ni].
        -- apply in_concat in In. destruct In as (l & Il & Ii). apply in_map_iff in Il. destruct Il as (j & <- & Ij). apply in_zrange in Ij. destruct (rowg j) as [ops|] eqn:Ej; [|destruct Ii]. apply in_map_iff in Ii. destruct Ii as (o & <- & Io).
           rewrite (C1 j ops o Ij Ej Io). apply (X (j - r0, 0, 0) ops o); [apply rows_mem; lia| |exact Io].
           destruct (Bd (j - r0, 0, 0) ltac:(apply rows_mem; lia)) as (a & Ea & _ & ->). injection Ea as <-. replace (j - r0 + r0) with j by ring. replace (r1 <=? j) with false by lia. exact Ej.
        -- assert (No : forall j ops, r0 <= j < r1 -> rowg j = Some ops -> ~ In idx (map GpuFacts.loc ops)).
           { intros j ops Hj Ej K. apply Ni. apply in_concat. exists (map GpuFacts.loc ops). split; [|exact K]. apply in_map_iff. exists j. rewrite Ej. split; [reflexivity|]. now apply in_zrange. }
           rewrite C2 by exact No. apply Y. intros t ops o I Eo Io L. destruct (Bd t I) as (a & -> & Ha & Eb). rewrite Eo in Eb. destruct (Z.leb_spec r1 (a + r0)); [injection Eb as ->; destruct Io|].
           apply (No (a + r0) ops); [lia|congruence|]. rewrite <- L. now apply in_map.
      * rewrite (Sx ltac:(lia)). split; [reflexivity|]. cbn [elem]. intros idx _. apply Y. intros t ops o I Eo Io L. destruct (Bd t I) as (a & -> & Ha & Eb). rewrite Eo in Eb. replace (r1 <=? a + r0) with true in Eb by lia. injection Eb as ->. destruct Io.
Qed.
Print Assumptions C106_degrid.

Lemma pair_zero (z : C) : z = Cadd z (0%R, 0%R).
Proof. destruct z. csolve. Qed.
Lemma pair_more (z : C) a b c d : Cadd (Cadd z (a, b)) (c, d) = Cadd z ((a + c)%R, (b + d)%R).
Proof. destruct z. csolve. Qed.

(** ** Gridding: likewise, and every schedule of the atomic additions gives the sub-grids of the CPU. *)
Theorem C106_grid : forall (plan : wplan Cring) w_plane off_u off_v off_w f0 df start_row end_row subgrids uvws scs ecs vis uvws_d scs_d ecs_d sg flat vis_d n m ts tu tv rc,
  wtower_types ts tu tv -> mtype subgrids = ts -> location subgrids = MEM_GPU -> described uvws tu uvws_d -> shape uvws_d = [n; 3] -> ints scs scs_d n -> ints ecs ecs_d n ->
  described vis tv vis_d -> shape vis_d = [n; m] -> 1 <= n <= 2147483647 -> 0 <= start_row -> end_row <= n ->
  0 <= subgrid_size plan <= 46340 -> laid_out_pairs plan sg flat ->
  grid plan w_plane off_u off_v off_w f0 df start_row end_row uvws_d scs_d ecs_d vis_d sg = Some rc ->
  let call := grid_gpu plan w_plane off_u off_v off_w f0 df start_row end_row subgrids uvws scs ecs vis uvws_d scs_d ecs_d flat vis_d SUCCESS in
  (exists st' r, call st' r) /\ forall st' r, call st' r -> st' = SUCCESS /\ laid_out_pairs plan rc r.
Proof.
  intros plan w_plane off_u off_v off_w f0 df r0 r1 subgrids uvws scs ecs vis uvws_d scs_d ecs_d sg flat vis_d n m ts tu tv rc Ty Ts Ls Du Su Ds De Dv Sv Hn H0 H1 Sq Fl E call.
  destruct (kernel_name false subgrids uvws vis ts tu tv Ty Ts (described_type _ _ _ Du) (described_type _ _ _ Dv)) as (k & Rg & Ek).
  unfold call, grid_gpu. cbn [failed]. rewrite Ek, (checks_ok false subgrids uvws scs ecs vis uvws_d scs_d ecs_d vis_d n m ts tu tv Ty Ts Ls Du Su Ds De Dv Sv ltac:(discriminate)).
  rewrite (described_shape _ _ _ 0 Dv), Sv by (rewrite Sv; cbn; lia). cbn [nth Z.to_nat]. clear call.
  destruct Fl as (F1 & F2 & F3). set (N := subgrid_size plan) in *. set (w := w_support plan) in *.
  replace (dim flat 0) with (2 * (w * N * N)) by (unfold dim; now rewrite F2).
  set (g := gpu_grid_act plan vis_d (2 * (w * N * N))). set (body := wtower_thread _ _ _ _ _ _ _ _ _ _ _ _ g).
  rewrite grid_skel in E. apply rows_split in E. destruct E as (s & S0 & S1 & Sx & Sr).
  set (rowg := fun i => row plan w_plane off_u off_v off_w f0 df uvws_d scs_d ecs_d g i []).
  assert (Sh : forall i, r0 <= i <= r1 -> shape (s i) = [w; N; N] /\ forall j, r0 <= j < i -> exists ops, rowg j = Some ops /\ grid_rel plan (s j) (s (j + 1)) ops).
  { intros i Hi. assert (Q : exists q, i = r0 + Z.of_nat q) by (exists (Z.to_nat (i - r0)); lia). destruct Q as (q & ->). induction q as [|q IH].
    - replace (r0 + Z.of_nat 0) with r0 by lia. rewrite S0. split; [exact F1|intros; lia].
    - replace (r0 + Z.of_nat (S q)) with (r0 + Z.of_nat q + 1) in * by lia. destruct (IH ltac:(lia)) as (I1 & I2). set (p := r0 + Z.of_nat q) in *.
      pose proof (row_sim plan w_plane off_u off_v off_w f0 df uvws_d scs_d ecs_d (fun _ => grid_rel plan (s p)) (grid_act (A := Cring) plan vis_d) g p (s p) [] (s (p + 1))
        (fun c a b u v w x y x' => grid_step plan vis_d Sq (s p) p c a b u v w x y x')) as RS.
      destruct RS as (ops & Eo & _ & R); [| apply Sr; lia |].
      { intro c. split; [exact I1|]. split; [intros ? []|]. intros. cbn [total map fold_right]. apply pair_zero. }
      split; [exact (proj1 R)|]. intros j Hj. destruct (Z.eq_dec j p) as [->|Nq]; [|apply I2; lia]. exists ops. split; [exact Eo|]. exact R. }
  assert (Rw : forall j, r0 <= j < r1 -> exists ops, rowg j = Some ops /\ grid_rel plan (s j) (s (j + 1)) ops) by (intros j Hj; apply (proj2 (Sh r1 ltac:(lia))); lia).
  set (T := fun l j => match rowg j with Some ops => total Z.eqb Rplus 0%R l ops | None => 0%R end).
  (* the CPU, row by row *)
  assert (Cp : forall i, r0 <= i <= r1 -> forall a b d, 0 <= a < w -> 0 <= b < N -> 0 <= d < N -> let p := 2 * ((a * N + b) * N + d) in
    elem (s i) [a; b; d] = Cadd (elem sg [a; b; d]) (EsKernelsSpec.rsumf r0 i (T p), EsKernelsSpec.rsumf r0 i (T (p + 1)))).
  { intros i Hi a b d Ha Hb Hd p. assert (Q : exists q, i = r0 + Z.of_nat q) by (exists (Z.to_nat (i - r0)); lia). destruct Q as (q & ->). unfold EsKernelsSpec.rsumf. induction q as [|q IH].
    - replace (r0 + Z.of_nat 0) with r0 by lia. rewrite S0. rewrite !(sum_empty Rplus 0%R) by lia. apply pair_zero.
    - replace (r0 + Z.of_nat (S q)) with (r0 + Z.of_nat q + 1) in * by lia. rewrite !(sum_snoc _ _ EsKernelsFacts.rcm) by lia. specialize (IH ltac:(lia)).
      set (j := r0 + Z.of_nat q) in *. destruct (Rw j ltac:(lia)) as (ops & Eo & _ & _ & V). etransitivity; [exact (V a b d Ha Hb Hd)|]. etransitivity; [apply (f_equal (fun z => Cadd z _)); exact IH|]. assert (ET : forall l, T l j = total Z.eqb Rplus 0%R l ops) by (intro l; unfold T; now rewrite Eo). rewrite !ET. unfold place. fold N. fold p. apply pair_more. }
  assert (Bd : forall t, In t (threads3 (to_dim3 (blocks_of n 256, 1, 1)) (to_dim3 (256, 1, 1))) -> exists a, t = (a, 0, 0) /\ 0 <= a < 4294967296 /\ body t = if (r1 <=? a + r0) then Some [] else rowg (a + r0)).
  { intros t I. destruct (rows_in n ltac:(lia) t I) as (a & -> & Ha). exists a. split; [reflexivity|]. split; [exact Ha|]. unfold body. rewrite thread_row by (fold N; nia). rewrite u32_id by lia.
    replace (dim uvws_d 0) with n by (unfold dim; now rewrite Su). destruct (Z.leb_spec r1 (a + r0)); cbn [orb]; [reflexivity|]. replace (n <=? a + r0) with false by lia. reflexivity. }
  unfold launch_kernel. cbn [failed]. rewrite Rg, (rows_grid n) by lia. replace (1 <=? n) with true by lia. cbn [negb]. split.
  - destruct (runs_exists Z.eqb Rplus (threads3 (to_dim3 (blocks_of n 256, 1, 1)) (to_dim3 (256, 1, 1))) body (GpuLaunch.flat flat)) as (m' & R); [|eauto 7].
    intros t I. destruct (Bd t I) as (a & -> & Ha & ->). destruct (Z.leb_spec r1 (a + r0)); [eauto|]. destruct (Rw (a + r0) ltac:(lia)) as (ops & -> & _). eauto.
  - intros st' r (-> & m' & R & ->). split; [reflexivity|].
    assert (Tt : forall l, m' l = (elem flat [l] + EsKernelsSpec.rsumf r0 r1 (T l))%R).
    { intro l. rewrite (adding_result Z.eqb Z.eqb_spec _ body _ m' l (fun t => let '(a, _, _) := t in if r1 <=? a + r0 then 0%R else T l (a + r0)) R).
      - unfold GpuLaunch.flat at 1. f_equal. unfold threads3, to_dim3. rewrite blocks_of_ok by lia. pose proof (cover n 256 ltac:(lia) ltac:(lia)) as Cv.
        assert (Bn : 0 <= (n + 256 - 1) / 256 < 4294967296) by (split; [apply Z.div_pos; lia|apply Z.div_lt_upper_bound; lia]).
        rewrite (Z.mod_small ((n + 256 - 1) / 256)) by lia. set (M := (n + 256 - 1) / 256 * (256 mod 4294967296)). assert (HM : n <= M) by (unfold M; change (256 mod 4294967296) with 256; lia).
        change (1 mod 4294967296 * (1 mod 4294967296)) with 1. rewrite !lsum_prod. change (zrange 0 1) with [0].
        rewrite (lsum_ext _ _ (fun a => if r1 <=? a + r0 then 0%R else T l (a + r0))) by (intros; cbn; ring). rewrite lsum_range. clearbody M. unfold EsKernelsSpec.rsumf.
        destruct (Z_le_gt_dec r0 r1) as [Le|Gt].
        + rewrite (sum_split _ _ EsKernelsFacts.rcm 0 (r1 - r0) M) by lia. rewrite (sum_none _ _ EsKernelsFacts.rcm (r1 - r0) M) by (intros i Hi; replace (r1 <=? i + r0) with true by lia; reflexivity).
          rewrite Rplus_0_r. replace (sum Rplus 0%R r0 r1 (T l)) with (sum Rplus 0%R (0 + r0) (r1 - r0 + r0) (T l)) by (f_equal; lia). rewrite sum_shift. apply sum_ext. intros i Hi. replace (r1 <=? i + r0) with false by lia. reflexivity.
        + rewrite (sum_empty Rplus 0%R r0 r1) by lia. apply (sum_none _ _ EsKernelsFacts.rcm). intros i Hi. replace (r1 <=? i + r0) with true by lia. reflexivity.
      - intros t ops It Eo. destruct (Bd t It) as (a & -> & Ha & Eb). rewrite Eo in Eb. destruct (Z.leb_spec r1 (a + r0)); [injection Eb as ->; split; [intros ? []|reflexivity]|].
        destruct (Rw (a + r0) ltac:(lia)) as (ops' & Er & _ & O & _). unfold T. rewrite Er in *. injection Eb as ->. split; [exact O|reflexivity]. }
    assert (Src : shape rc = [w; N; N]). { destruct (Z_le_gt_dec r0 r1) as [Le|Gt]; [rewrite <- (S1 Le); apply (Sh r1); lia|rewrite Sx by lia; exact F1]. }
    split; [exact Src|]. split; [exact F2|]. fold N. fold w. intros a b d Ha Hb Hd. cbn [unflat elem hd]. rewrite !Tt.
    pose proof (F3 a b d Ha Hb Hd) as V. destruct (Z_le_gt_dec r0 r1) as [Le|Gt].
    + rewrite <- (S1 Le). etransitivity; [exact (Cp r1 ltac:(lia) a b d Ha Hb Hd)|]. etransitivity; [apply (f_equal (fun z => Cadd z _)); exact V|]. reflexivity.
    + rewrite (Sx ltac:(lia)). unfold EsKernelsSpec.rsumf. rewrite !(sum_empty Rplus 0%R) by lia. rewrite !Rplus_0_r. exact V.
Qed.
Print Assumptions C106_grid.

(** ** What is refused changes nothing. *)
Theorem C106_refused : forall (A : cring) (plan : wplan A) (plan_c : wplan Cring) w_plane off_u off_v off_w f0 df start_row end_row subgrids uvws scs ecs vis uvws_d scs_d ecs_d (flat : nd A) (vis_d : nd A) (flat_c : nd R) (vis_c : nd C),
  let deg := degrid_gpu plan w_plane off_u off_v off_w f0 df start_row end_row subgrids uvws scs ecs vis uvws_d scs_d ecs_d flat vis_d in
  let gri := grid_gpu plan_c w_plane off_u off_v off_w f0 df start_row end_row subgrids uvws scs ecs vis uvws_d scs_d ecs_d flat_c vis_c in
  (forall st st' r, st <> SUCCESS -> deg st st' r <-> st' = st /\ r = vis_d) /\ (forall st st' r, st <> SUCCESS -> gri st st' r <-> st' = st /\ r = flat_c) /\
  (~ wtower_types (mtype subgrids) (mtype uvws) (mtype vis) ->
     (forall st' r, deg SUCCESS st' r <-> st' = ERR_DATA_TYPE /\ r = vis_d) /\ (forall st' r, gri SUCCESS st' r <-> st' = ERR_DATA_TYPE /\ r = flat_c)) /\
  (wtower_types (mtype subgrids) (mtype uvws) (mtype vis) -> location subgrids <> MEM_GPU -> subgrids <> None ->
     (forall st' r, deg SUCCESS st' r -> st' <> SUCCESS /\ r = vis_d) /\ (forall st' r, gri SUCCESS st' r -> st' <> SUCCESS /\ r = flat_c)) /\
  (is_read_only vis = true -> forall st' r, deg SUCCESS st' r -> st' <> SUCCESS /\ r = vis_d) /\
  (forall n ts tu tv, wtower_types ts tu tv -> mtype subgrids = ts -> location subgrids = MEM_GPU -> described uvws tu uvws_d -> shape uvws_d = [n; 3] -> ints scs scs_d n -> ints ecs ecs_d n -> n = 0 ->
     (forall m, described vis tv vis_d -> shape vis_d = [n; m] -> writeable vis -> forall st' r, deg SUCCESS st' r <-> st' = ERR_RUNTIME /\ r = vis_d) /\
     (forall m, described vis tv vis_c -> shape vis_c = [n; m] -> forall st' r, gri SUCCESS st' r <-> st' = ERR_RUNTIME /\ r = flat_c)).
Proof.
  intros A plan plan_c w_plane off_u off_v off_w f0 df r0 r1 subgrids uvws scs ecs vis uvws_d scs_d ecs_d flat vis_d flat_c vis_c deg gri.
  assert (Kn : forall b, ~ wtower_types (mtype subgrids) (mtype uvws) (mtype vis) -> wtower_kernel b subgrids uvws vis = None).
  { intros b N. unfold wtower_kernel. destruct (Z.eqb_spec (mtype subgrids) MEM_COMPLEX_DOUBLE) as [E1|E1], (Z.eqb_spec (mtype uvws) MEM_DOUBLE) as [E2|E2], (Z.eqb_spec (mtype vis) MEM_COMPLEX_DOUBLE) as [E3|E3], (Z.eqb_spec (mtype subgrids) MEM_COMPLEX_FLOAT) as [E4|E4],
      (Z.eqb_spec (mtype uvws) MEM_FLOAT) as [E5|E5], (Z.eqb_spec (mtype vis) MEM_COMPLEX_FLOAT) as [E6|E6]; cbn [andb]; try reflexivity; exfalso; apply N; unfold wtower_types; tauto. }
  assert (Fd : forall st, st <> SUCCESS -> failed st = true) by (intros [] N; [congruence|reflexivity..]).
  split; [|split; [|split; [|split; [|split]]]].
  - intros st st' r N. unfold deg, degrid_gpu. rewrite Fd by exact N. tauto.
  - intros st st' r N. unfold gri, grid_gpu. rewrite Fd by exact N. tauto.
  - intro N. assert (Ch : forall b, wtower_checks b subgrids uvws scs ecs vis SUCCESS = ERR_DATA_TYPE) by (intro b; unfold wtower_checks; rewrite (Kn b N); reflexivity).
    split; intros st' r; [unfold deg, degrid_gpu, launch_view|unfold gri, grid_gpu, launch_kernel]; cbn [failed]; rewrite Ch; cbn [failed]; tauto.
  - intros Ty L Ne. assert (Nv : mtype subgrids <> MEM_VOID) by (destruct Ty as [(-> & _)|(-> & _)]; discriminate).
    assert (Ch : forall b, failed (wtower_checks b subgrids uvws scs ecs vis SUCCESS) = true).
    { intro b. unfold wtower_checks. match goal with |- failed (StationGpu.gpu_buffer _ ?e) = true => generalize e end. intro e. unfold StationGpu.gpu_buffer. destruct (failed e) eqn:Fe; [exact Fe|].
      apply Z.eqb_neq in L, Nv. destruct subgrids as [q|]; [|congruence]. rewrite L, Nv. reflexivity. }
    split; intros st' r; [unfold deg, degrid_gpu, launch_view; pose proof (Ch true) as K|unfold gri, grid_gpu, launch_kernel; pose proof (Ch false) as K]; cbn [failed]; rewrite K; intros (-> & ->);
      (split; [intro K'; rewrite K' in K; discriminate|reflexivity]).
  - intros Ro st' r. assert (K : failed (wtower_checks true subgrids uvws scs ecs vis SUCCESS) = true).
    { unfold wtower_checks. match goal with |- failed (StationGpu.gpu_buffer _ ?e) = true => assert (Fe : failed e = true) end.
      { destruct (wtower_kernel _ _ _ _); [|reflexivity]. apply Prop_ClampGpu.view_bad. auto. }
      unfold StationGpu.gpu_buffer. now rewrite Fe. }
    unfold deg, degrid_gpu, launch_view. cbn [failed]. rewrite K. intros (-> & ->). split; [intro K'; rewrite K' in K; discriminate|reflexivity].
  - intros n ts tu tv Ty Ts Ls Du Su Ds De ->. split; intros m Dv Sv.
    + intros Wv st' r. destruct (kernel_name true subgrids uvws vis ts tu tv Ty Ts (described_type _ _ _ Du) (described_type _ _ _ Dv)) as (k & Rg & Ek).
      unfold deg, degrid_gpu. cbn [failed]. rewrite Ek, (checks_ok true subgrids uvws scs ecs vis uvws_d scs_d ecs_d vis_d 0 m ts tu tv Ty Ts Ls Du Su Ds De Dv Sv (fun _ => Wv)).
      rewrite (described_shape _ _ _ 0 Dv), Sv by (rewrite Sv; cbn; lia). cbn [nth Z.to_nat]. unfold launch_view. cbn [failed]. rewrite Rg, (rows_grid 0) by lia. cbn [negb Z.leb Z.compare]. tauto.
    + intros st' r. destruct (kernel_name false subgrids uvws vis ts tu tv Ty Ts (described_type _ _ _ Du) (described_type _ _ _ Dv)) as (k & Rg & Ek).
      unfold gri, grid_gpu. cbn [failed]. rewrite Ek, (checks_ok false subgrids uvws scs ecs vis uvws_d scs_d ecs_d vis_c 0 m ts tu tv Ty Ts Ls Du Su Ds De Dv Sv ltac:(discriminate)).
      rewrite (described_shape _ _ _ 0 Dv), Sv by (rewrite Sv; cbn; lia). cbn [nth Z.to_nat]. unfold launch_kernel. cbn [failed]. rewrite Rg, (rows_grid 0) by lia. cbn [negb Z.leb Z.compare]. tauto.
Qed.
Print Assumptions C106_refused.

(** One row of two channels, and the 8 x 8 sub-grids of C24 *)
Definition gpu_mem ty sh : option mem := Some (mk_mem ty MEM_GPU true true false (Z.of_nat (length sh)) 2 1 sh [8] (Some (0, 0))).
Definition ex_cplan : wplan Cring := mk_wplan Cring 8 (1 # 1) (1 # 1) 2 2 2 2 (mk_nd [6] (fun idx => (IZR (nth 0 idx 0), 0%R))) (mk_nd [6] (fun idx => (IZR (10 * nth 0 idx 0 + 1), 0%R))).
Example C106_hyps :
  wtower_types MEM_COMPLEX_DOUBLE MEM_DOUBLE MEM_COMPLEX_DOUBLE /\ mtype (gpu_mem MEM_COMPLEX_DOUBLE [2; 8; 8]) = MEM_COMPLEX_DOUBLE /\ location (gpu_mem MEM_COMPLEX_DOUBLE [2; 8; 8]) = MEM_GPU /\
  described (gpu_mem MEM_DOUBLE [1; 3]) MEM_DOUBLE (ex_uvw (1 # 2) (- 3 # 4) (1 # 8)) /\ ints (gpu_mem MEM_INT [1]) (ex_ch 0) 1 /\ ints (gpu_mem MEM_INT [1]) (ex_ch 2) 1 /\
  described (gpu_mem MEM_COMPLEX_DOUBLE [1; 2]) MEM_COMPLEX_DOUBLE (ex_vis 2) /\ writeable (gpu_mem MEM_COMPLEX_DOUBLE [1; 2]) /\
  laid_out ex_plan ex_sg (mk_nd [128] (fun idx => let l := nth 0 idx 0 in l / 64 + 3 * (l / 8 mod 8) + 5 * (l mod 8))) /\
  (exists rc, degrid ex_plan 1 0 0 0 C_0 C_0 0 1 (ex_uvw (1 # 2) (- 3 # 4) (1 # 8)) (ex_ch 0) (ex_ch 2) ex_sg (ex_vis 2) = Some rc) /\
  (let sg := mk_nd [2; 8; 8] (fun idx => (IZR (nth 0 idx 0), 0%R)) : nd C in let vis := mk_nd [1; 2] (fun _ => (1, 2)%R) : nd C in
   laid_out_pairs ex_cplan sg (mk_nd [256] (fun idx => let l := nth 0 idx 0 in if l mod 2 =? 0 then IZR (l / 128) else 0%R)) /\
   exists rc, grid ex_cplan 1 0 0 0 C_0 C_0 0 1 (ex_uvw (1 # 2) (- 3 # 4) (1 # 8)) (ex_ch 0) (ex_ch 2) vis sg = Some rc).
Proof.
  split; [left; auto|]. split; [reflexivity|]. split; [reflexivity|]. split; [repeat split|]. split; [repeat split|]. split; [repeat split|]. split; [repeat split|]. split; [split; [reflexivity|discriminate]|].
  destruct C24_hyps as (P1 & P2 & P3 & _).
  split; [split; [reflexivity|split; [reflexivity|]]|split; [|cbv zeta; split; [split; [reflexivity|split; [reflexivity|]]|]]].
  - cbn [subgrid_size w_support ex_plan elem ex_sg nth]. intros a b d Ha Hb Hd. replace (((a * 8 + b) * 8 + d) / 64) with a by (apply Z.div_unique with (b * 8 + d); lia). replace (((a * 8 + b) * 8 + d) / 8) with (a * 8 + b) by (apply Z.div_unique with d; lia).
    rewrite (Z.add_comm (a * 8)), Z.mod_add, (Z.mod_small b) by lia. rewrite (Z.add_comm ((b + a * 8) * 8)), Z.mod_add, (Z.mod_small d) by lia. reflexivity.
  - destruct (C24_degrid_in_bounds_partial Zring ex_plan 1 0 0 0 C_0 C_0 0 1 _ _ _ 1 2 ex_sg (ex_vis 2) P1 P2 P3 eq_refl eq_refl) as (v & E & _). eauto.
  - cbn [subgrid_size w_support ex_cplan elem nth]. intros a b d Ha Hb Hd. replace (2 * ((a * 8 + b) * 8 + d)) with (((a * 8 + b) * 8 + d) * 2) by ring. rewrite Z.mod_mul by lia. rewrite (Z.add_comm _ 1), Z.mod_add by lia. change (1 mod 2 =? 0) with false. change (0 =? 0) with true. cbv iota.
    replace (((a * 8 + b) * 8 + d) * 2 / 128) with a by (apply Z.div_unique with ((b * 8 + d) * 2); lia). reflexivity.
  - assert (Q1 : plan_ok ex_cplan) by (repeat split; try reflexivity; cbn; lia).
    destruct (C24_grid_in_bounds_partial Cring ex_cplan 1 0 0 0 C_0 C_0 0 1 (ex_uvw (1 # 2) (- 3 # 4) (1 # 8)) (ex_ch 0) (ex_ch 2) 1 2 (mk_nd [1; 2] (fun _ => (1, 2)%R)) (mk_nd [2; 8; 8] (fun idx => (IZR (nth 0 idx 0), 0%R))) Q1 P2 P3 eq_refl eq_refl) as (v & E & _). eauto.
Qed.
