(** C92: the point-source DFT in GPU memory.  Exact arithmetic. *)
From Coq Require Import Reals Lra Lia String.
From Verif Require Import Base BaseFacts Mem MemSpec Checks ChecksFacts CRing Cplx Sum Clamp FftSpec FftFacts GridUtilsFacts Sets Dft DftSpec DftFacts DftFacts2 Gpu GpuFacts GpuLaunch GpuLaunchFacts DftGpu DftGpuSpec DftGpuFacts Prop_Dft.
Open Scope Z_scope.

Section Launching.
Context (fn : string) (dirs flux uvw vis : mem) (nt nb nc np : Z) (body : Z * Z * Z -> option (list (op Z C))) (vis_d : nd C) (v : Z -> Z -> Z -> Z -> C).
Context (Ht : 0 <= nt <= 2147483647) (Hb : 0 <= nb <= 2147483647) (Hc : 0 <= nc <= 2147483647) (Hp : np = 1 \/ np = 4) (Sv : shape vis_d = [nt * nb * nc * np]) (Dv : m_shape vis = [nt; nb; nc; np]).
Context (Rg : registered (fn ++ "<double3, double2, double3, double2>")%string = true /\ registered (fn ++ "<double3, double2, double3, float2>")%string = true).
Context (Th : forall x y z, 0 <= x <= 2147483647 -> 0 <= y <= 2147483647 -> 0 <= z <= 2147483647 -> thread_sets Cadd body (vis_dom np nc nb nt) (val_of np nc nb v) (x, y, z)).
Let go st' r := launch_kernel Cadd (dft_kernel fn (Some dirs) (Some flux) (Some uvw) (Some vis)) (vis_blocks nb nc nt) vis_threads body
  match dft_kernel fn (Some dirs) (Some flux) (Some uvw) (Some vis) with Some _ => SUCCESS | None => ERR_DATA_TYPE end vis_d st' r.

Lemma kernel_cases : (types_ok (Some dirs) (Some flux) (Some uvw) (Some vis) = true /\ exists n, dft_kernel fn (Some dirs) (Some flux) (Some uvw) (Some vis) = Some n /\ registered n = true) \/
  (types_ok (Some dirs) (Some flux) (Some uvw) (Some vis) = false /\ dft_kernel fn (Some dirs) (Some flux) (Some uvw) (Some vis) = None).
Proof.
  unfold types_ok, dft_kernel. destruct Rg as [R1 R2]. destruct (mtype (Some dirs) =? MEM_DOUBLE), (mtype (Some flux) =? MEM_COMPLEX_DOUBLE), (mtype (Some uvw) =? MEM_DOUBLE), (mtype (Some vis) =? MEM_COMPLEX_DOUBLE), (mtype (Some vis) =? MEM_COMPLEX_FLOAT); cbn [andb orb]; eauto.
Qed.
Lemma in_ths x y z : In (x, y, z) (threads3 (to_dim3 (vis_blocks nb nc nt)) (to_dim3 vis_threads)) ->
  0 <= x <= 2147483647 /\ 0 <= y <= nc + 1 /\ 0 <= z <= nt + 1.
Proof.
  intro I. unfold vis_blocks, vis_threads in *. pose proof (proj2 (threads_cover nb nc nt 128 2 2 x y z ltac:(lia) ltac:(lia) ltac:(lia) ltac:(lia) ltac:(lia) ltac:(lia)) I) as P.
  pose proof (threads_below nb nc nt 128 2 2 x y z 16777216 ltac:(lia) ltac:(lia) ltac:(lia) ltac:(lia) ltac:(lia) ltac:(lia) ltac:(lia) I). lia.
Qed.
Lemma grid_ths : grid_ok (to_dim3 (vis_blocks nb nc nt)) (to_dim3 vis_threads) = (1 <=? nb) && (1 <=? nc) && (1 <=? nt) && (nc <=? 131070) && (nt <=? 131070).
Proof.
  unfold vis_blocks, vis_threads. rewrite grid_ok_cover by lia. replace (nb <=? 2147483647 * 128) with true by lia. rewrite andb_true_r. reflexivity.
Qed.
Lemma ths_ok : grid_ok (to_dim3 (vis_blocks nb nc nt)) (to_dim3 vis_threads) = true -> forall t, In t (threads3 (to_dim3 (vis_blocks nb nc nt)) (to_dim3 vis_threads)) -> thread_sets Cadd body (vis_dom np nc nb nt) (val_of np nc nb v) t.
Proof. rewrite grid_ths. intros G [[x y] z] I. apply in_ths in I. apply Th; lia. Qed.
Lemma ths_dj t t' l : In t (threads3 (to_dim3 (vis_blocks nb nc nt)) (to_dim3 vis_threads)) -> In t' (threads3 (to_dim3 (vis_blocks nb nc nt)) (to_dim3 vis_threads)) -> vis_dom np nc nb nt t l -> vis_dom np nc nb nt t' l -> t = t'.
Proof. intros. eapply vis_dom_inj; eauto. intros x y z I. apply in_ths in I. lia. Qed.

Lemma go_exists : exists st' r, go st' r.
Proof.
  unfold go. destruct kernel_cases as [(_ & n & -> & R)|(_ & ->)].
  - exact (launch_exists Cadd n _ _ body vis_d _ _ R ths_ok).
  - eexists _, _. cbn. eauto.
Qed.
Lemma go_result st' r : go st' r -> (st' <> SUCCESS -> r = vis_d) /\ (st' = SUCCESS -> every_vis vis r v) /\
  (st' = SUCCESS <-> types_ok (Some dirs) (Some flux) (Some uvw) (Some vis) = true /\ 1 <= nb /\ 1 <= nc <= 131070 /\ 1 <= nt <= 131070).
Proof.
  unfold go. destruct kernel_cases as [(Ty & n & -> & R)|(Ty & ->)]; rewrite Ty.
  - intro L. apply (launch_result Cadd n _ _ body vis_d _ _ R ths_ok ths_dj) in L. rewrite grid_ths in L. destruct ((1 <=? nb) && (1 <=? nc) && (1 <=? nt) && (nc <=? 131070) && (nt <=? 131070)) eqn:G.
    + destruct L as (-> & S & V & _). split; [congruence|]. split; [|split; [intros _; split; [reflexivity|lia]|reflexivity]]. intros _. exists nt, nb, nc, np. split; [exact Dv|]. split; [now rewrite S|].
      intros t b c p Ht' Hb' Hc' Hp'. specialize (V (b, c, t) (pos4 nb nc np t b c p)). rewrite V.
      * cbn. f_equal. unfold pos4. lia.
      * unfold vis_blocks, vis_threads. now apply (threads_cover nb nc nt 128 2 2 b c t); lia.
      * cbn. repeat split; try lia. exists p. split; [exact Hp'|reflexivity].
    + destruct L as (-> & ->). split; [auto|]. split; [discriminate|]. split; [discriminate|]. lia.
  - cbn. intros (-> & ->). split; [auto|]. split; [discriminate|]. split; [discriminate|]. intros (? & _). discriminate.
Qed.
End Launching.

(** The call always completes; whatever the schedule, it reports an error and leaves the visibilities alone, or evaluates the measurement equation for
    every visibility; the latter exactly if the arguments are accepted, the types have a kernel and the launch has at least one block and no more than CUDA
    allows.  Partial: at most 2^31 elements, as C48. *)
Theorem C92_v00_partial dirs flux uvw vis dirs_d flux_d uvw_d vis_d st :
  mem_wf dirs -> mem_wf flux -> mem_wf uvw -> mem_wf vis ->
  holds dirs dirs_d -> holds flux flux_d -> holds uvw uvw_d -> holds vis vis_d ->
  (exists st' r, gpu_dft_v00 (Some dirs) (Some flux) (Some uvw) (Some vis) dirs_d flux_d uvw_d vis_d st st' r) /\
  (forall st' r, gpu_dft_v00 (Some dirs) (Some flux) (Some uvw) (Some vis) dirs_d flux_d uvw_d vis_d st st' r ->
    (st' <> SUCCESS -> r = vis_d) /\
    (st' = SUCCESS -> every_vis vis r (vis00 (size dirs 0) (size vis 3) (size vis 2) (size vis 1) dirs_d flux_d uvw_d)) /\
    (st' = SUCCESS <-> check_params_v00 (Some dirs) (Some flux) (Some uvw) (Some vis) st = SUCCESS /\ types_ok (Some dirs) (Some flux) (Some uvw) (Some vis) = true /\ fits_grid vis)).
Proof.
  intros W1 W2 W3 W4 (S1 & F1 & B1) (S2 & F2 & B2) (S3 & F3 & B3) (S4 & F4 & B4). unfold gpu_dft_v00.
  destruct (failed (check_params_v00 (Some dirs) (Some flux) (Some uvw) (Some vis) st)) eqn:F.
  { split; [eauto|]. intros st' r (-> & ->). split; [auto|]. split; [intro E; rewrite E in F; discriminate|]. split; [intro E; rewrite E in F; discriminate|intros (E & _); exact E]. }
  apply failed_false in F. rewrite F.
  destruct (params_v00_ok dirs flux uvw vis st W1 W2 W3 W4 F) as (n & nt & nb & nc & np & D1 & D2 & D3 & D4 & Hp).
  unfold fits_grid, size. destruct (shape4_dims vis nt nb nc np W4 D4) as (X0 & X1 & X2 & X3). rewrite X0, X1, X2, X3.
  assert (shape_dim (Some dirs) 0 = n) as -> by (unfold shape_dim; destruct W1 as (_ & -> & _); now rewrite D1).
  rewrite D1 in *. rewrite D2 in *. rewrite D3 in *. rewrite D4 in *. cbn [nth].
  rewrite !Forall_cons_iff in *. unfold product in *. cbn [fold_right] in *. rewrite S4. cbn [fold_right]. rewrite !int_of_ok by lia.
  assert (Sv : shape vis_d = [nt * nb * nc * np]) by (rewrite S4; f_equal; lia). replace (nt * (nb * (nc * (np * 1))) * 1) with (nt * nb * nc * np) by ring.
  assert (Th : forall x y z, 0 <= x <= 2147483647 -> 0 <= y <= 2147483647 -> 0 <= z <= 2147483647 -> thread_sets Cadd (dft_v00_thread n np nc nb nt dirs_d flux_d uvw_d (nt * nb * nc * np)) (vis_dom np nc nb nt) (val_of np nc nb (vis00 n np nc nb dirs_d flux_d uvw_d)) (x, y, z)).
  { intros. apply v00_thread; auto; try lia; [rewrite S1|rewrite S2|rewrite S3]; f_equal; lia. }
  split.
  - apply (go_exists "dft_point_v00" dirs flux uvw vis nt nb nc np _ vis_d (vis00 n np nc nb dirs_d flux_d uvw_d)); auto; try lia; try (split; reflexivity).
  - intros st' r G. apply (go_result "dft_point_v00" dirs flux uvw vis nt nb nc np _ vis_d (vis00 n np nc nb dirs_d flux_d uvw_d)) in G; auto; try lia; try (split; reflexivity).
    destruct G as (G1 & G2 & G3). split; [exact G1|]. split; [exact G2|]. rewrite G3. intuition lia.
Qed.
Print Assumptions C92_v00_partial.

Theorem C92_v01_partial dirs flux uvw vis dirs_d flux_d uvw_d f0 df vis_d st :
  mem_wf dirs -> mem_wf flux -> mem_wf uvw -> mem_wf vis -> length (m_shape dirs) = 2%nat ->
  holds dirs dirs_d -> holds flux flux_d -> holds uvw uvw_d -> holds vis vis_d ->
  (exists st' r, gpu_dft_v01 (Some dirs) (Some flux) (Some uvw) (Some vis) dirs_d flux_d uvw_d f0 df vis_d st st' r) /\
  (forall st' r, gpu_dft_v01 (Some dirs) (Some flux) (Some uvw) (Some vis) dirs_d flux_d uvw_d f0 df vis_d st st' r ->
    (st' <> SUCCESS -> r = vis_d) /\
    (st' = SUCCESS -> every_vis vis r (vis01 (size dirs 0) (size vis 3) (size vis 2) (size vis 1) dirs_d flux_d uvw_d f0 df)) /\
    (st' = SUCCESS <-> check_params_v01 (Some dirs) (Some flux) (Some uvw) (Some vis) st = SUCCESS /\ types_ok (Some dirs) (Some flux) (Some uvw) (Some vis) = true /\ fits_grid vis)).
Proof.
  intros W1 W2 W3 W4 L (S1 & F1 & B1) (S2 & F2 & B2) (S3 & F3 & B3) (S4 & F4 & B4). unfold gpu_dft_v01.
  destruct (failed (check_params_v01 (Some dirs) (Some flux) (Some uvw) (Some vis) st)) eqn:F.
  { split; [eauto|]. intros st' r (-> & ->). split; [auto|]. split; [intro E; rewrite E in F; discriminate|]. split; [intro E; rewrite E in F; discriminate|intros (E & _); exact E]. }
  apply failed_false in F. rewrite F.
  destruct (params_v01_ok dirs flux uvw vis st W1 W2 W3 W4 ltac:(destruct W1 as (_ & -> & _); now rewrite L) F) as (n & nt & nb & nc & np & D1 & D2 & D3 & D4 & Hp).
  unfold fits_grid, size. destruct (shape4_dims vis nt nb nc np W4 D4) as (X0 & X1 & X2 & X3). rewrite X0, X1, X2, X3.
  assert (shape_dim (Some dirs) 0 = n) as -> by (unfold shape_dim; destruct W1 as (_ & -> & _); now rewrite D1).
  rewrite D1 in *. rewrite D2 in *. rewrite D3 in *. rewrite D4 in *. cbn [nth].
  rewrite !Forall_cons_iff in *. unfold product in *. cbn [fold_right] in *. rewrite S4. cbn [fold_right]. rewrite !int_of_ok by lia.
  assert (Sv : shape vis_d = [nt * nb * nc * np]) by (rewrite S4; f_equal; lia). replace (nt * (nb * (nc * (np * 1))) * 1) with (nt * nb * nc * np) by ring.
  assert (Th : forall x y z, 0 <= x <= 2147483647 -> 0 <= y <= 2147483647 -> 0 <= z <= 2147483647 -> thread_sets Cadd (dft_v01_thread n np nc nb nt dirs_d flux_d uvw_d f0 df (nt * nb * nc * np)) (vis_dom np nc nb nt) (val_of np nc nb (vis01 n np nc nb dirs_d flux_d uvw_d f0 df)) (x, y, z)).
  { intros. apply v01_thread; auto; try lia; [rewrite S1|rewrite S2|rewrite S3]; f_equal; lia. }
  split.
  - apply (go_exists "dft_point_v01" dirs flux uvw vis nt nb nc np _ vis_d (vis01 n np nc nb dirs_d flux_d uvw_d f0 df)); auto; try lia; try (split; reflexivity).
  - intros st' r G. apply (go_result "dft_point_v01" dirs flux uvw vis nt nb nc np _ vis_d (vis01 n np nc nb dirs_d flux_d uvw_d f0 df)) in G; auto; try lia; try (split; reflexivity).
    destruct G as (G1 & G2 & G3). split; [exact G1|]. split; [exact G2|]. rewrite G3. intuition lia.
Qed.
Print Assumptions C92_v01_partial.

Definition garr (ty : Z) (sh : list Z) : mem := fst (create_wrapper (Some (1, 0)) ty MEM_GPU sh None SUCCESS).

Example C92_hyps :
  let dirs := garr MEM_DOUBLE [2; 3] in let flux := garr MEM_COMPLEX_DOUBLE [2; 2; 4] in
  let vis := garr MEM_COMPLEX_DOUBLE [2; 3; 2; 4] in
  mem_wf dirs /\ mem_wf flux /\ mem_wf vis /\ mem_wf (garr MEM_DOUBLE [2; 3; 2; 3]) /\ mem_wf (garr MEM_DOUBLE [2; 3; 3]) /\
  holds vis (mk_nd [48] (fun _ => C0)) /\ holds dirs (mk_nd [6] (fun _ => 0%R)) /\
  check_params_v00 (Some dirs) (Some flux) (Some (garr MEM_DOUBLE [2; 3; 2; 3])) (Some vis) SUCCESS = SUCCESS /\
  types_ok (Some dirs) (Some flux) (Some (garr MEM_DOUBLE [2; 3; 2; 3])) (Some vis) = true /\
  check_params_v01 (Some dirs) (Some flux) (Some (garr MEM_DOUBLE [2; 3; 3])) (Some vis) SUCCESS = SUCCESS /\
  types_ok (Some dirs) (Some flux) (Some (garr MEM_DOUBLE [2; 3; 3])) (Some vis) = true /\ fits_grid vis.
Proof.
  cbv zeta.
  assert (H1 : holds (garr MEM_COMPLEX_DOUBLE [2; 3; 2; 4]) (mk_nd [48] (fun _ => C0))).
  { unfold holds. change (m_shape _) with [2; 3; 2; 4]. split; [reflexivity|]. rewrite !Forall_cons_iff. repeat split; try lia; try constructor. discriminate. }
  assert (H2 : holds (garr MEM_DOUBLE [2; 3]) (mk_nd [6] (fun _ => 0%R))).
  { unfold holds. change (m_shape _) with [2; 3]. split; [reflexivity|]. rewrite !Forall_cons_iff. repeat split; try lia; try constructor. discriminate. }
  repeat match goal with |- _ /\ _ => split end; try assumption; try (vm_compute; reflexivity); try (vm_compute; intuition discriminate); repeat constructor.
Qed.

Lemma big_wf (f : Z -> list Z -> mem) : f = arr \/ f = garr -> mem_wf (f MEM_DOUBLE [1; 3]) /\ mem_wf (f MEM_COMPLEX_DOUBLE [1; 131072; 1]) /\ mem_wf (f MEM_DOUBLE [1; 1; 131072; 3]) /\ mem_wf (f MEM_COMPLEX_DOUBLE [1; 1; 131072; 1]).
Proof. intros [ -> | -> ]; repeat match goal with |- _ /\ _ => split end; vm_compute; repeat constructor. Qed.
Lemma big_holds (f : Z -> list Z -> mem) {A} ty sh (x : nd A) : m_shape (f ty sh) = sh -> shape x = [product sh] -> Forall (fun n => 0 <= n <= 2147483647) sh -> product sh <= 2147483648 -> holds (f ty sh) x.
Proof. intros F S A1 A2. unfold holds. rewrite F. auto. Qed.

Lemma big_all (f : Z -> list Z -> mem) (dirs_d : nd R) (flux_d : nd C) (uvw_d : nd R) (vis_d : nd C) : f = arr \/ f = garr ->
  shape dirs_d = [3] -> shape flux_d = [131072] -> shape uvw_d = [3 * 131072] -> shape vis_d = [131072] ->
  holds (f MEM_DOUBLE [1; 3]) dirs_d /\ holds (f MEM_COMPLEX_DOUBLE [1; 131072; 1]) flux_d /\ holds (f MEM_DOUBLE [1; 1; 131072; 3]) uvw_d /\ holds (f MEM_COMPLEX_DOUBLE [1; 1; 131072; 1]) vis_d.
Proof.
  intros F D1 D2 D3 D4.
  assert (B1 : Forall (fun n => 0 <= n <= 2147483647) [1; 3]) by (rewrite !Forall_cons_iff; repeat split; try lia; constructor).
  assert (B2 : Forall (fun n => 0 <= n <= 2147483647) [1; 131072; 1]) by (rewrite !Forall_cons_iff; repeat split; try lia; constructor).
  assert (B3 : Forall (fun n => 0 <= n <= 2147483647) [1; 1; 131072; 3]) by (rewrite !Forall_cons_iff; repeat split; try lia; constructor).
  assert (B4 : Forall (fun n => 0 <= n <= 2147483647) [1; 1; 131072; 1]) by (rewrite !Forall_cons_iff; repeat split; try lia; constructor).
  repeat match goal with |- _ /\ _ => split end; (apply big_holds; [destruct F as [ -> | -> ]; vm_compute; reflexivity| |assumption|vm_compute; discriminate]); assumption.
Qed.
Lemma dft_status dirs flux uvw vis dirs_d flux_d uvw_d vis_d st' r : dft_point_v00 dirs flux uvw vis dirs_d flux_d uvw_d vis_d SUCCESS = Some (st', r) ->
  check_params_v00 dirs flux uvw vis SUCCESS = SUCCESS -> types_ok dirs flux uvw vis = true -> st' = SUCCESS.
Proof. unfold dft_point_v00. intros E K T. rewrite K in E. cbn [failed] in E. rewrite T in E. unfold bind in E. destruct (dft_v00 _ _ _ _ _ _ _ _ _); [|discriminate]. now injection E as <- _. Qed.
Lemma big_cpu dirs_d flux_d uvw_d vis_d :
  shape dirs_d = [3] -> shape flux_d = [131072] -> shape uvw_d = [3 * 131072] -> shape vis_d = [131072] ->
  exists r, dft_point_v00 (Some (arr MEM_DOUBLE [1; 3])) (Some (arr MEM_COMPLEX_DOUBLE [1; 131072; 1])) (Some (arr MEM_DOUBLE [1; 1; 131072; 3]))
    (Some (arr MEM_COMPLEX_DOUBLE [1; 1; 131072; 1])) dirs_d flux_d uvw_d vis_d SUCCESS = Some (SUCCESS, r).
Proof.
  intros D1 D2 D3 D4.
destruct (big_all arr dirs_d flux_d uvw_d vis_d (or_introl eq_refl) D1 D2 D3 D4) as (H1 & H2 & H3 & H4). destruct (big_wf arr (or_introl eq_refl)) as (W1 & W2 & W3 & W4).
    destruct (C48_v00_partial _ _ _ _ _ _ _ _ SUCCESS W1 W2 W3 W4 H1 H2 H3 H4) as (st' & r & E & _). exists r. rewrite E. do 2 f_equal. apply (dft_status _ _ _ _ _ _ _ _ _ _ E); vm_compute; reflexivity.
Qed.
Lemma big_gpu dirs_d flux_d uvw_d vis_d :
  shape dirs_d = [3] -> shape flux_d = [131072] -> shape uvw_d = [3 * 131072] -> shape vis_d = [131072] ->
  forall st' r, gpu_dft_v00 (Some (garr MEM_DOUBLE [1; 3])) (Some (garr MEM_COMPLEX_DOUBLE [1; 131072; 1])) (Some (garr MEM_DOUBLE [1; 1; 131072; 3]))
    (Some (garr MEM_COMPLEX_DOUBLE [1; 1; 131072; 1])) dirs_d flux_d uvw_d vis_d SUCCESS st' r -> st' <> SUCCESS /\ r = vis_d.
Proof.
  intros D1 D2 D3 D4.
destruct (big_all garr dirs_d flux_d uvw_d vis_d (or_intror eq_refl) D1 D2 D3 D4) as (H1 & H2 & H3 & H4). destruct (big_wf garr (or_intror eq_refl)) as (W1 & W2 & W3 & W4). intros st' r G.
    destruct (C92_v00_partial _ _ _ _ _ _ _ _ SUCCESS W1 W2 W3 W4 H1 H2 H3 H4) as (_ & X). destruct (X st' r G) as (X1 & _ & X3).
    assert (N : st' <> SUCCESS). { intro E. apply X3 in E. destruct E as (_ & _ & F). unfold fits_grid in F. change (size (garr MEM_COMPLEX_DOUBLE [1; 1; 131072; 1]) 2) with 131072 in F. lia. }
    clear - N X1. split; [exact N|exact (X1 N)].
Qed.

(** Not every array that the call accepts in CPU memory works in GPU memory: with 131072 channels the CPU version succeeds, the GPU version reports an error
    and computes nothing. *)
Theorem C92_grid_refuted dirs_d flux_d uvw_d vis_d :
  let n := 131072 in
  shape dirs_d = [3] -> shape flux_d = [n] -> shape uvw_d = [3 * n] -> shape vis_d = [n] ->
  (exists r, dft_point_v00 (Some (arr MEM_DOUBLE [1; 3])) (Some (arr MEM_COMPLEX_DOUBLE [1; n; 1])) (Some (arr MEM_DOUBLE [1; 1; n; 3]))
    (Some (arr MEM_COMPLEX_DOUBLE [1; 1; n; 1])) dirs_d flux_d uvw_d vis_d SUCCESS = Some (SUCCESS, r)) /\
  forall st' r, gpu_dft_v00 (Some (garr MEM_DOUBLE [1; 3])) (Some (garr MEM_COMPLEX_DOUBLE [1; n; 1])) (Some (garr MEM_DOUBLE [1; 1; n; 3]))
    (Some (garr MEM_COMPLEX_DOUBLE [1; 1; n; 1])) dirs_d flux_d uvw_d vis_d SUCCESS st' r -> st' <> SUCCESS /\ r = vis_d.
Proof. cbv zeta. intros D1 D2 D3 D4. split; [exact (big_cpu _ _ _ _ D1 D2 D3 D4)|exact (big_gpu _ _ _ _ D1 D2 D3 D4)]. Qed.
Print Assumptions C92_grid_refuted.
