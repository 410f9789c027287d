(** C107: degridding with user-supplied kernels in GPU memory.  Exact arithmetic; values in any commutative ring. *)
From Coq Require Import QArith Lia Lqa String.
From Verif Require Import Base BaseFacts Sum Mem MemSpec Checks ChecksFacts CRing QNum Clamp Sets DftSpec DftFacts2 DegridCustom DegridCustomSpec DegridCustomFacts Prop_DegridCustom Gpu GpuFacts GpuLaunch GpuLaunchFacts GpuSpec DftGpuSpec DegridCustomGpu DegridCustomGpuSpec DegridCustomGpuFacts.
From Verif Require StationGpu.
Open Scope Z_scope.

(** The checks of the GPU branch are those of the CPU branch *)
Lemma api_cases {A : cring} (conj : A -> A) grid uvw uv_kernel w_kernel vis grid_d uvw_d uvk_d wk_d vis_d ks wks nt nb nc np os osw theta wstep f0 df conjugate st :
  let zs := shape_dim (Some grid) 1 in let ys := shape_dim (Some grid) 2 in let xs := shape_dim (Some grid) 3 in
  fits grid uvw uv_kernel w_kernel vis grid_d uvw_d uvk_d wk_d vis_d ks wks nt nb nc np os osw -> m_loc vis = MEM_GPU ->
  let call := gpu_degrid_custom conj (Some grid) (Some uvw) (Some uv_kernel) (Some w_kernel) (Some vis) grid_d uvw_d uvk_d wk_d theta wstep f0 df conjugate vis_d st in
  let cpu := degrid_api conj (Some grid) (Some uvw) (Some uv_kernel) (Some w_kernel) (Some vis) grid_d uvw_d uvk_d wk_d theta wstep f0 df conjugate vis_d st in
  (exists e, e <> SUCCESS /\ cpu = Some (e, vis_d) /\ forall st' r, call st' r <-> st' = e /\ r = vis_d) \/
  (cpu = (let* r := degrid_uvw_custom conj ks wks xs ys zs nt nb nc np grid_d uvw_d uvk_d wk_d os osw theta wstep f0 df conjugate vis_d in Some (SUCCESS, r)) /\
   (forall st' r, call st' r <-> launch_kernel radd (Some "degrid_uvw_custom<double2>"%string) (blocks_of nb 128, blocks_of nc 2, blocks_of nt 2) (128, 2, 2)
      (degrid_custom_thread conj ks wks xs ys zs nt nb nc np grid_d uvw_d uvk_d wk_d os osw theta wstep f0 df conjugate (nt * nb * nc * np)) SUCCESS vis_d st' r) /\
   shape uvw_d = [nt * nb * 3] /\ shape grid_d = [nc * zs * ys * xs * np]).
Proof.
  intros zs ys xs [(W1 & W2 & W3 & W4 & W5) Sv Sk Sw Dg Du Dk Dw Dv] Lg call cpu. unfold call, cpu, gpu_degrid_custom, degrid_api. clear call cpu. destruct (failed st) eqn:F.
  { left. exists st. split; [intros ->; discriminate|]. split; [reflexivity|tauto]. }
  destruct (get_vis_metadata (Some vis) st) as [md s1] eqn:M.
  destruct (match md with Some d => d | None => _ end) as [[[[[ty loc] a] b] c] d] eqn:D. cbv zeta. fold zs ys xs.
  match goal with |- context [if failed ?s then _ else _] => destruct (failed s) eqn:F1 end.
  { left. eexists. split; [|split; [reflexivity|tauto]]. intro X. rewrite X in F1. discriminate. }
  apply failed_false in F1. rewrite F1. apply shape_ok in F1; [|exact W1|discriminate]. destruct F1 as [F1 Sg]. pose proof F1 as F2. apply uvw_ok in F1; [|exact W2]. destruct F1 as [F1 Su].
  apply writeable_ok in F1. destruct F1 as [F1 _]. destruct (vis_md_shape vis nt nb nc np st md s1 W5 Sv M F1) as [_ ->]. injection D as <- <- <- <- <- <-.
  destruct (_ || _ || _) eqn:Lo. { left. exists ERR_MEM_LOCATION. split; [discriminate|]. split; [reflexivity|tauto]. }
  destruct (_ || _ || _ || _ || _). { left. exists ERR_DATA_TYPE. split; [discriminate|]. split; [reflexivity|tauto]. }
  assert (K : shape_dim (Some uv_kernel) 0 = os /\ shape_dim (Some uv_kernel) 1 = ks) by (unfold shape_dim; destruct W3 as (_ & -> & _); rewrite Sk; cbn; auto).
  assert (K' : shape_dim (Some w_kernel) 0 = osw /\ shape_dim (Some w_kernel) 1 = wks) by (unfold shape_dim; destruct W4 as (_ & -> & _); rewrite Sw; cbn; auto).
  destruct K as [-> ->]. destruct K' as [-> ->]. right. split; [reflexivity|]. split; [|split; [rewrite Du, Su; unfold product; cbn [fold_right]; f_equal; ring|rewrite Dg, Sg; unfold product; cbn [fold_right]; f_equal; ring]].
  assert (Lu : location (Some uvw) = MEM_GPU).
  { assert (s1' : exists x, check_uvw (Some uvw) MEM_VOID (m_loc vis) nt nb x = SUCCESS /\ x = SUCCESS) by (eexists; split; [exact F2|]; apply uvw_ok in F2; [tauto|exact W2]).
    destruct s1' as (x & X & ->). apply check_uvw_ok in X; [|now intros m' [= <-]]. rewrite <- Lg. tauto. }
  assert (Lv : location (Some vis) = MEM_GPU) by exact Lg.
  apply orb_false_iff in Lo. destruct Lo as (Lo & L3). apply orb_false_iff in Lo. destruct Lo as (L1 & L2). rewrite Lg in *. apply negb_false_iff in L1, L2, L3.
  cbn [fold_left]. unfold StationGpu.gpu_buffer. cbn [failed]. rewrite L1, L2, L3, Lu, Lv. cbn [negb andb failed]. change (MEM_GPU =? MEM_GPU) with true. cbn [negb andb failed].
  rewrite Dv. replace (product [nt * nb * nc * np]) with (nt * nb * nc * np) by (unfold product; cbn [fold_right]; ring). tauto.
Qed.

(** Every access is in range, errors change nothing, and every visibility whose kernel support is inside the grid becomes the kernel-weighted sum of the grid around its
    position, conjugated on request; the others keep their value.  Positions are rounded to the nearest step of the oversampled kernel, halves to even. *)
Theorem C107_values {A : cring} (conj : A -> A) grid uvw uv_kernel w_kernel vis grid_d uvw_d uvk_d wk_d vis_d ks wks nt nb nc np os osw theta wstep f0 df conjugate st :
  let zs := shape_dim (Some grid) 1 in let ys := shape_dim (Some grid) 2 in let xs := shape_dim (Some grid) 3 in
  fits grid uvw uv_kernel w_kernel vis grid_d uvw_d uvk_d wk_d vis_d ks wks nt nb nc np os osw -> m_loc vis = MEM_GPU ->
  geometry ks wks xs ys zs nt nb nc np os osw wstep -> positions_ok double2int_rn xs nt nb nc os osw uvw_d theta wstep f0 df ->
  nb <= 2147483647 -> nc <= 2147483647 -> nt <= 2147483647 ->
  let call := gpu_degrid_custom conj (Some grid) (Some uvw) (Some uv_kernel) (Some w_kernel) (Some vis) grid_d uvw_d uvk_d wk_d theta wstep f0 df conjugate vis_d st in
  (exists st' r, call st' r) /\ forall st' r, call st' r ->
    (st' <> SUCCESS -> r = vis_d) /\
    (st' = SUCCESS -> fits_grid vis /\ shape r = shape vis_d /\ forall t b c p, 0 <= t < nt -> 0 <= b < nb -> 0 <= c < nc -> 0 <= p < np ->
      vis_at nb nc np r t b c p = if inside double2int_rn ks xs ys nb os uvw_d theta f0 df t b c
        then degridded double2int_rn conj ks wks xs ys zs nb np os osw grid_d uvw_d uvk_d wk_d theta wstep f0 df conjugate t b c p
        else vis_at nb nc np vis_d t b c p).
Proof.
  intros zs ys xs Fi Lg G P Hb Hc Ht call. pose proof (api_cases conj _ _ _ _ _ _ _ _ _ _ _ _ _ _ _ _ _ _ theta wstep f0 df conjugate st Fi Lg) as AC. cbv zeta in AC. fold zs ys xs in AC.
  change (gpu_degrid_custom conj (Some grid) (Some uvw) (Some uv_kernel) (Some w_kernel) (Some vis) grid_d uvw_d uvk_d wk_d theta wstep f0 df conjugate vis_d st) with call in AC.
  destruct AC as [(e & Ne & _ & Ca)|(_ & Ca & Su & Sg)].
  - split; [exists e, vis_d; now apply Ca|]. intros st' r H. apply Ca in H. destruct H as (-> & ->). split; [auto|]. intro X. contradiction.
  - destruct Fi as [_ Sv _ _ _ _ Dk Dw Dv].
    assert (Rg : registered "degrid_uvw_custom<double2>" = true) by reflexivity.
    split.
    + destruct (deg_launch_exists conj ks wks xs ys zs nt nb nc np os osw grid_d uvw_d uvk_d wk_d vis_d theta wstep f0 df conjugate G Su Dk Dw Sg Dv P Hb Hc Ht _ Rg) as (st' & r & L).
      exists st', r. apply Ca. exact L.
    + intros st' r L. apply Ca in L. apply (deg_launch conj ks wks xs ys zs nt nb nc np os osw grid_d uvw_d uvk_d wk_d vis_d theta wstep f0 df conjugate G Su Dk Dw Sg Dv P Hb Hc Ht _ _ _ Rg) in L.
      destruct (_ && _) eqn:B.
      * destruct L as (-> & Sr & V). split; [congruence|]. intros _. split; [|split; [congruence|exact V]]. unfold fits_grid, size. rewrite Sv. cbn [nth]. lia.
      * destruct L as (-> & ->). split; [auto|]. discriminate.
Qed.
Print Assumptions C107_values.

(** Without a visibility half-way between two steps of an oversampled kernel the GPU and the CPU compute the same.
    Partial: half-way positions are excluded (see C107_ties_refuted), and numbers of times, baselines and channels are below 2^31. *)
Theorem C107_cpu_partial {A : cring} (conj : A -> A) grid uvw uv_kernel w_kernel vis grid_d uvw_d uvk_d wk_d vis_d ks wks nt nb nc np os osw theta wstep f0 df conjugate st :
  let zs := shape_dim (Some grid) 1 in let ys := shape_dim (Some grid) 2 in let xs := shape_dim (Some grid) 3 in
  fits grid uvw uv_kernel w_kernel vis grid_d uvw_d uvk_d wk_d vis_d ks wks nt nb nc np os osw -> m_loc vis = MEM_GPU ->
  geometry ks wks xs ys zs nt nb nc np os osw wstep -> positions_ok qround xs nt nb nc os osw uvw_d theta wstep f0 df ->
  no_ties nt nb nc os osw uvw_d theta wstep f0 df -> nb <= 2147483647 -> nc <= 2147483647 -> nt <= 2147483647 ->
  let call := gpu_degrid_custom conj (Some grid) (Some uvw) (Some uv_kernel) (Some w_kernel) (Some vis) grid_d uvw_d uvk_d wk_d theta wstep f0 df conjugate vis_d st in
  (exists st' r, call st' r) /\
  exists sc rc, degrid_api conj (Some grid) (Some uvw) (Some uv_kernel) (Some w_kernel) (Some vis) grid_d uvw_d uvk_d wk_d theta wstep f0 df conjugate vis_d st = Some (sc, rc) /\
    forall st' r, call st' r -> agrees (fits_grid vis) vis_d sc rc st' r.
Proof.
  intros zs ys xs Fi Lg G P T Hb Hc Ht call.
  assert (Rd : forall t b c, 0 <= t < nt -> 0 <= b < nb -> 0 <= c < nc ->
    steps_x double2int_rn nb os uvw_d theta f0 df t b c = steps_x qround nb os uvw_d theta f0 df t b c /\ steps_y double2int_rn nb os uvw_d theta f0 df t b c = steps_y qround nb os uvw_d theta f0 df t b c /\
    steps_z double2int_rn nb osw uvw_d wstep f0 df t b c = steps_z qround nb osw uvw_d wstep f0 df t b c).
  { intros t b c H1 H2 H3. destruct (T t b c H1 H2 H3) as (T1 & T2 & T3). destruct (P t b c H1 H2 H3) as (P1 & P2 & _).
    pose proof (proj1 (P1 _ (or_introl eq_refl))) as Px. pose proof (proj1 (P1 _ (or_intror eq_refl))) as Py. unfold steps_x, steps_y, steps_z in *.
    rewrite <- (qeven_qround _ T1) in Px |- *. rewrite <- (qeven_qround _ T2) in Py |- *. rewrite <- (qeven_qround _ T3) in P2 |- *. now rewrite !double2int_id. }
  assert (P' : positions_ok double2int_rn xs nt nb nc os osw uvw_d theta wstep f0 df).
  { intros t b c H1 H2 H3. destruct (Rd t b c H1 H2 H3) as (-> & -> & ->). exact (P t b c H1 H2 H3). }
  destruct (C107_values conj grid uvw uv_kernel w_kernel vis grid_d uvw_d uvk_d wk_d vis_d ks wks nt nb nc np os osw theta wstep f0 df conjugate st Fi Lg G P' Hb Hc Ht) as (Ex & _). split; [exact Ex|]. clear Ex.
  pose proof (api_cases conj _ _ _ _ _ _ _ _ _ _ _ _ _ _ _ _ _ _ theta wstep f0 df conjugate st Fi Lg) as AC. cbv zeta in AC. fold zs ys xs in AC.
  change (gpu_degrid_custom conj (Some grid) (Some uvw) (Some uv_kernel) (Some w_kernel) (Some vis) grid_d uvw_d uvk_d wk_d theta wstep f0 df conjugate vis_d st) with call in AC.
  destruct AC as [(e & Ne & -> & Ca)|(-> & Ca & Su & Sg)].
  - exists e, vis_d. split; [reflexivity|]. intros st' r H. apply Ca in H. destruct H as (-> & ->). split; [auto|]. split; intro X; contradiction.
  - destruct Fi as [_ Sv _ _ _ _ Dk Dw Dv].
    destruct (degrid_ok qround conj ks wks xs ys zs nt nb nc np os osw grid_d uvw_d uvk_d wk_d theta wstep f0 df conjugate G) with (vis := vis_d) as (rc & -> & Src & Vc); auto.
    cbn [bind]. exists SUCCESS, rc. split; [reflexivity|]. intros st' r L. apply Ca in L.
    apply (deg_launch conj ks wks xs ys zs nt nb nc np os osw grid_d uvw_d uvk_d wk_d vis_d theta wstep f0 df conjugate G Su Dk Dw Sg Dv P' Hb Hc Ht "degrid_uvw_custom<double2>"%string _ _ eq_refl) in L.
    split; [congruence|]. unfold fits_grid, size. rewrite Sv. cbn [nth]. destruct (_ && _) eqn:B.
    + destruct L as (-> & Sr & V). split; [intros _ X; exfalso; apply X; lia|]. intros _ _. split; [reflexivity|]. split; [congruence|]. rewrite Sr.
      intros idx Ii. destruct idx as [|k [|]]; try (cbn in Ii; rewrite ?andb_false_r in Ii; discriminate). apply in_shape_1 in Ii.
      destruct G as [(_ & _ & _ & Hp & _) _ _ _ _].
      assert (X : exists t b c p, 0 <= t < nt /\ 0 <= b < nb /\ 0 <= c < nc /\ 0 <= p < np /\ k = pos4 nb nc np t b c p).
      { clear - B Ii Hp. assert (Np : 0 < np) by (destruct (Z.eq_dec np 0) as [->|]; [rewrite Z.mul_0_r in Ii|]; lia). pose proof (Z.div_mod k np ltac:(lia)). pose proof (Z.mod_pos_bound k np Np). set (k1 := k / np) in *.
        assert (0 <= k1 < nt * nb * nc) by (split; [apply Z.div_pos; lia|apply Z.div_lt_upper_bound; lia]).
        pose proof (Z.div_mod k1 nc ltac:(lia)). pose proof (Z.mod_pos_bound k1 nc ltac:(lia)). set (k2 := k1 / nc) in *.
        assert (0 <= k2 < nt * nb) by (split; [apply Z.div_pos; lia|apply Z.div_lt_upper_bound; lia]).
        pose proof (Z.div_mod k2 nb ltac:(lia)). pose proof (Z.mod_pos_bound k2 nb ltac:(lia)).
        assert (0 <= k2 / nb < nt) by (split; [apply Z.div_pos; lia|apply Z.div_lt_upper_bound; lia]).
        exists (k2 / nb), (k2 mod nb), (k1 mod nc), (k mod np). repeat split; try lia. unfold pos4. congruence. }
      destruct X as (t & b & c & p & H1 & H2 & H3 & H4 & ->). specialize (V t b c p H1 H2 H3 H4). specialize (Vc t b c p H1 H2 H3 H4). unfold vis_at in V, Vc. rewrite V, Vc.
      destruct (Rd t b c H1 H2 H3) as (Ex & Ey & Ez). unfold inside, degridded, interpolate, gx, gy. rewrite Ex, Ey, Ez. reflexivity.
    + destruct L as (-> & ->). split; [auto|]. intros _ X. exfalso. lia.
Qed.
Print Assumptions C107_cpu_partial.

(** The rounding of the GPU: to a nearest integer, the even one of two; numbers that int cannot hold become the nearest int *)
Theorem C107_rounding q : nearest_even qeven q /\ in_int (double2int_rn q) /\ (in_int (qeven q) -> double2int_rn q = qeven q).
Proof. split; [apply qeven_even|]. split; [apply double2int_in|apply double2int_id]. Qed.
Print Assumptions C107_rounding.

Definition garr (ty : Z) (sh : list Z) : mem := fst (create_wrapper (Some (1, 0)) ty MEM_GPU sh None SUCCESS).
Section Tie.
(** As [run] of Prop_DegridCustom.v: one visibility, on a grid of 8 x 8 points in 2 planes, theta = 1 / 16; kernels of 4 rows *)
Context (u : Q).
Definition tie_grid : nd Z := fl [1; 2; 8; 8; 1] (fun i => i).
Definition tie_uvw : nd Q := dat 0%Q [u; 0%Q; 0%Q].
Definition tie_uvk : nd Z := fl [4; 2] (fun i => i + 1).
Definition tie_wk : nd Z := fl [4; 2] (fun _ => 1).
Definition tie_vis : nd Z := fl [1] (fun _ => 7).
Definition tie_cpu : option (error * nd Z) :=
  degrid_api (A := Zring) (fun x => x) (Some (garr MEM_COMPLEX_DOUBLE [1; 2; 8; 8; 1])) (Some (garr MEM_DOUBLE [1; 1; 3])) (Some (garr MEM_DOUBLE [4; 2])) (Some (garr MEM_DOUBLE [4; 2]))
    (Some (garr MEM_COMPLEX_DOUBLE [1; 1; 1; 1])) tie_grid tie_uvw tie_uvk tie_wk (1 # 16) 1 299792458 0 false tie_vis SUCCESS.
Definition tie_gpu : error -> nd Z -> Prop :=
  gpu_degrid_custom (A := Zring) (fun x => x) (Some (garr MEM_COMPLEX_DOUBLE [1; 2; 8; 8; 1])) (Some (garr MEM_DOUBLE [1; 1; 3])) (Some (garr MEM_DOUBLE [4; 2])) (Some (garr MEM_DOUBLE [4; 2]))
    (Some (garr MEM_COMPLEX_DOUBLE [1; 1; 1; 1])) tie_grid tie_uvw tie_uvk tie_wk (1 # 16) 1 299792458 0 false tie_vis SUCCESS.
Lemma tie_fits : fits (garr MEM_COMPLEX_DOUBLE [1; 2; 8; 8; 1]) (garr MEM_DOUBLE [1; 1; 3]) (garr MEM_DOUBLE [4; 2]) (garr MEM_DOUBLE [4; 2]) (garr MEM_COMPLEX_DOUBLE [1; 1; 1; 1])
  tie_grid tie_uvw tie_uvk tie_wk tie_vis 2 2 1 1 1 1 4 4.
Proof. constructor; try reflexivity. unfold mem_wf; repeat split; try reflexivity; repeat constructor. Qed.
Lemma tie_geometry : geometry 2 2 8 8 2 1 1 1 1 4 4 1.
Proof. constructor; try (vm_compute; repeat split; discriminate). Qed.
End Tie.

(** At a position half-way between two steps of the kernel (u = 2: half a step) the GPU uses the next even row, the CPU the row that is farther from the centre: the visibilities differ. *)
Theorem C107_ties_refuted :
  (exists rc, tie_cpu 2 = Some (SUCCESS, rc) /\ elem rc [0] = 5928) /\
  (exists st' r, tie_gpu 2 st' r) /\ forall st' r, tie_gpu 2 st' r -> st' = SUCCESS /\ elem r [0] = 1170.
Proof.
  assert (Cp : exists rc, tie_cpu 2 = Some (SUCCESS, rc) /\ elem rc [0] = 5928) by (eexists; split; [vm_compute; reflexivity|vm_compute; reflexivity]).
  split; [exact Cp|].
  assert (P : positions_ok double2int_rn 8 1 1 1 4 4 (tie_uvw 2) (1 # 16) 1 299792458 0).
  { intros t b c Ht Hb Hc. assert (t = 0) as -> by lia. assert (c = 0) as -> by lia. assert (b = 0) as -> by lia. unfold in_int.
    split; [intros k [-> | ->]; vm_compute; repeat split; discriminate|vm_compute; repeat split; discriminate]. }
  destruct (C107_values (A := Zring) (fun x => x) _ _ _ _ _ _ _ _ _ _ _ _ _ _ _ _ _ _ (1 # 16) 1 299792458 0 false SUCCESS (tie_fits 2) eq_refl (tie_geometry) P ltac:(lia) ltac:(lia) ltac:(lia)) as (Ex & V).
  split; [exact Ex|]. intros st' r L.
  assert (E : st' = SUCCESS).
  { pose proof (api_cases (A := Zring) (fun x => x) _ _ _ _ _ _ _ _ _ _ _ _ _ _ _ _ _ _ (1 # 16) 1 299792458 0 false SUCCESS (tie_fits 2) eq_refl) as AC. cbv zeta in AC.
    destruct AC as [(e & Ne & Ec & _)|(_ & Ca & Su & Sg)].
    - destruct Cp as (rc & E & _). unfold tie_cpu in E. rewrite Ec in E. congruence.
    - apply Ca in L. apply (deg_launch (A := Zring) (fun x => x) 2 2 8 8 2 1 1 1 1 4 4 tie_grid (tie_uvw 2) tie_uvk tie_wk tie_vis (1 # 16) 1 299792458 0 false tie_geometry eq_refl eq_refl eq_refl eq_refl eq_refl P
        ltac:(lia) ltac:(lia) ltac:(lia) "degrid_uvw_custom<double2>"%string _ _ eq_refl) in L. cbn [Z.leb Z.compare Pos.compare andb Pos.compare_cont] in L. tauto. }
  split; [exact E|]. destruct (V st' r L) as (_ & W). destruct (W E) as (_ & _ & W'). specialize (W' 0 0 0 0 ltac:(lia) ltac:(lia) ltac:(lia) ltac:(lia)).
  unfold vis_at in W' at 1. change (pos4 1 1 1 0 0 0 0) with 0 in W'. etransitivity; [exact W'|]. vm_compute. reflexivity.
Qed.
Print Assumptions C107_ties_refuted.

Example C107_hyps : fits (garr MEM_COMPLEX_DOUBLE [1; 2; 8; 8; 1]) (garr MEM_DOUBLE [1; 1; 3]) (garr MEM_DOUBLE [4; 2]) (garr MEM_DOUBLE [4; 2]) (garr MEM_COMPLEX_DOUBLE [1; 1; 1; 1])
    tie_grid (tie_uvw 3) tie_uvk tie_wk tie_vis 2 2 1 1 1 1 4 4 /\ m_loc (garr MEM_COMPLEX_DOUBLE [1; 1; 1; 1]) = MEM_GPU /\
  geometry 2 2 8 8 2 1 1 1 1 4 4 1 /\ positions_ok qround 8 1 1 1 4 4 (tie_uvw 3) (1 # 16) 1 299792458 0 /\ positions_ok double2int_rn 8 1 1 1 4 4 (tie_uvw 3) (1 # 16) 1 299792458 0 /\
  no_ties 1 1 1 4 4 (tie_uvw 3) (1 # 16) 1 299792458 0 /\ inside double2int_rn 2 8 8 1 4 (tie_uvw 3) (1 # 16) 299792458 0 0 0 0 = true /\ fits_grid (garr MEM_COMPLEX_DOUBLE [1; 1; 1; 1]).
Proof.
  split; [apply tie_fits|]. split; [reflexivity|]. split; [apply tie_geometry|].
  assert (P : forall f, f = qround \/ f = double2int_rn -> positions_ok f 8 1 1 1 4 4 (tie_uvw 3) (1 # 16) 1 299792458 0).
  { intros f Hf t b c Ht Hb Hc. assert (t = 0) as -> by lia. assert (c = 0) as -> by lia. assert (b = 0) as -> by lia. unfold in_int.
    destruct Hf as [-> | ->]; (split; [intros k [-> | ->]; vm_compute; repeat split; discriminate|vm_compute; repeat split; discriminate]). }
  split; [apply P; auto|]. split; [apply P; auto|]. split; [|split; [vm_compute; reflexivity|vm_compute; repeat split; discriminate]].
  intros t b c Ht Hb Hc. assert (t = 0) as -> by lia. assert (c = 0) as -> by lia. assert (b = 0) as -> by lia.
  assert (N : forall q n d, (q == n # d)%Q -> (2 * n) mod (Z.pos d) <> 0 \/ (2 * n) / Z.pos d mod 2 = 0 -> ~ halfway q).
  { intros q n d E H (z & Z'). rewrite E in Z'. unfold Qeq, inject_Z, Qplus in Z'. cbn [Qnum Qden] in Z'. rewrite Pos2Z.inj_mul in Z'.
    assert (X : 2 * n = Z.pos d * (2 * z + 1)) by lia. rewrite X in H. rewrite Z.mul_comm, Z.mod_mul, Z.div_mul in H by lia. destruct H as [H|H]; [lia|].
    rewrite Z.add_comm, Z.mul_comm, Z.mod_add in H by lia. discriminate. }
  split; [|split]; [apply (N _ 3 4%positive)|apply (N _ 0 1%positive)|apply (N _ 4 1%positive)]; try (vm_compute; reflexivity); vm_compute; try (left; discriminate); right; reflexivity.
Qed.
