(** C109, C110: counting, sorting and indexing the visibilities of tiles on the GPU. *)
From Coq Require Import String Lia Permutation.
From Verif Require Import Base BaseFacts Sum CRing QNum Clamp Tiled TiledSpec TiledFacts Gpu GpuFacts GpuLaunch GpuFetch GpuFetchFacts DftGpu TiledGpu TiledGpuSpec TiledGpuFacts TiledGpuFacts2 PrefixGpu Prop_PrefixGpu.
From Verif Require SumDiffGpu SumDiffGpuFacts.
Import SumDiffGpu(i32). Import SumDiffGpuFacts(i32_id).
Open Scope Z_scope.
Definition count_name (name : string) : Prop := name = "sdp_tile_count_simple_gpu<double, double>"%string \/ name = "sdp_tile_count_simple_gpu<float, float>"%string.
Definition sort_name (name : string) : Prop := name = "sdp_bucket_sort_simple_gpu<double, double, double, double, 1>"%string \/ name = "sdp_bucket_sort_simple_gpu<float, float, float, float, 1>"%string.
Definition index_name (name : string) : Prop := name = "sdp_tiled_indexing_gpu<double, double, double, double, 1>"%string \/ name = "sdp_tiled_indexing_gpu<float, float, float, float, 1>"%string.
Lemma name_registered name : count_name name \/ sort_name name \/ index_name name -> registered name = true.
Proof. intros [[-> | ->]|[[-> | ->]|[-> | ->]]]; reflexivity. Qed.

(** ** C109 *)
(** Every visibility has a list of the tiles it belongs to. *)
Theorem C109_tiles : forall P, 0 < tile_u P -> 0 < tile_v P -> 0 <= support P -> exists ts, lists_tiles P ts.
Proof. intros P Tu Tv Hs. exists (gpu_tiles P). now apply gpu_tiles_ok. Qed.
Print Assumptions C109_tiles.

(** In every schedule, each tile is counted once for every visibility that belongs to it, and the visibilities outside of the grid are counted as skipped; no thread leaves the arrays. *)
Theorem C109_count : forall name P nt nb nc uvw freqs pts skipped ts, count_name name ->
  let vs := visibilities P nt nb nc uvw freqs in let hs := pairs P ts (fun _ _ => tt) vs in
  shape uvw = [nt; nb; 3] -> shape freqs = [nc] -> shape pts = [num_tiles P] -> shape skipped = [1] ->
  0 < tile_u P -> 0 < tile_v P -> 0 <= support P -> 0 <= grid_size P -> grid_fits nb nc nt -> lists_tiles P ts -> tiles_there P vs ->
  (forall id, In id (threads3 (to_dim3 (vis_blocks nb nc nt)) (to_dim3 vis_threads)) -> count_thread P nt nb nc uvw freqs (num_tiles P) id <> None) /\
  (exists st' p s, gpu_tile_count name P nt nb nc uvw freqs pts skipped SUCCESS st' p s) /\
  forall st' p s, gpu_tile_count name P nt nb nc uvw freqs pts skipped SUCCESS st' p s ->
    st' = SUCCESS /\ shape p = [num_tiles P] /\ shape s = [1] /\ (forall t, 0 <= t < num_tiles P -> elem p [t] = elem pts [t] + cnt t hs) /\
    elem s [0] = elem skipped [0] + Z.of_nat (length (filter (fun v => negb (fits P v)) vs)).
Proof.
  intros name P nt nb nc uvw freqs pts skipped ts Nm vs hs S1 S2 S3 S4 Tu Tv Hs Hg F L T. fold (all_threads nb nc nt).
  assert (B := count_body P nt nb nc uvw freqs S1 S2 Tu Tv Hs Hg F T).
  assert (C : forall t, cnt t hs = cnt t (pairs P (gpu_tiles P) (fun _ _ => tt) vs)). { intro t. apply cnt_permutation. apply pairs_perm; [exact L|now apply gpu_tiles_ok]. }
  assert (R := name_registered name (or_introl Nm)). assert (G := grid_fits_ok nb nc nt F). split; [|split].
  - intros [[x y] z] I. rewrite B by exact I. discriminate.
  - set (m := fun l => match l with Pts i => elem pts [i] | Skp i => elem skipped [i] end).
    destruct (runs_exists cell_eqb Z.add (all_threads nb nc nt) (count_thread P nt nb nc uvw freqs (num_tiles P)) m) as (m' & Ru). { intros [[x y] z] I. rewrite B by exact I. eauto. }
    exists SUCCESS. do 2 eexists. unfold gpu_tile_count. cbn [failed]. rewrite R, G. cbn [negb orb]. split; [reflexivity|]. exists m'. fold (all_threads nb nc nt). unfold dim. rewrite S3. cbn [nth]. split; [exact Ru|]. split; reflexivity.
  - intros st' p s. unfold gpu_tile_count. cbn [failed]. rewrite R, G. cbn [negb orb]. fold (all_threads nb nc nt). unfold dim. rewrite S3. cbn [nth]. intros (-> & m' & Ru & -> & ->). cbn [shape elem nth].
    assert (V := fun l => count_runs P nt nb nc uvw freqs S1 S2 Tu Tv Hs Hg F T _ m' l Ru). split; [reflexivity|]. split; [reflexivity|]. split; [exact S4|]. split.
    + intros t Ht. rewrite (V (Pts t)), C. reflexivity.
    + rewrite (V (Skp 0)). reflexivity.
Qed.
Print Assumptions C109_count.

(** The prefix sum (C108) of these counts, which the function makes next: the offset of a tile is the number of (tile, visibility) pairs of the tiles before it.
    Partial: fewer than 512 tiles (C108_race_refuted). *)
Theorem C109_offsets_partial : forall name P nt nb nc uvw freqs pts skipped offs ts st' p s r, count_name name ->
  let vs := visibilities P nt nb nc uvw freqs in let hs := pairs P ts (fun _ _ => tt) vs in
  shape uvw = [nt; nb; 3] -> shape freqs = [nc] -> shape pts = [num_tiles P] -> shape skipped = [1] -> shape offs = [num_tiles P + 1] ->
  0 < tile_u P -> 0 < tile_v P -> 0 <= support P -> 0 <= grid_size P -> grid_fits nb nc nt -> lists_tiles P ts -> tiles_there P vs ->
  num_tiles P < 512 -> start (num_tiles P) hs <= 2147483647 -> (forall t, 0 <= t < num_tiles P -> elem pts [t] = 0) ->
  gpu_tile_count name P nt nb nc uvw freqs pts skipped SUCCESS st' p s -> gpu_prefix_sum (num_tiles P) p offs r ->
  shape r = [num_tiles P + 1] /\ forall t, 0 <= t <= num_tiles P -> elem r [t] = start t hs.
Proof.
  intros name P nt nb nc uvw freqs pts skipped offs ts st' p s r Nm vs hs S1 S2 S3 S4 S5 Tu Tv Hs Hg F L T N B Z0 Cn Pf.
  destruct (C109_count name P nt nb nc uvw freqs pts skipped ts Nm S1 S2 S3 S4 Tu Tv Hs Hg F L T) as (_ & _ & U). destruct (U _ _ _ Cn) as (_ & Sp & _ & Vp & _).
  destruct (num_tiles_nonneg P Hg Tu Tv) as [_ N0]. destruct (C108_offsets_partial (num_tiles P) p offs ltac:(lia) Sp S5) as (_ & V). destruct (V r Pf) as (Sr & Vr). split; [exact Sr|]. intros t Ht. rewrite Vr by exact Ht.
  assert (E : sum Z.add 0 0 t (fun i => elem p [i]) = start t hs). { unfold start. apply sum_ext. intros i Hi. rewrite Vp, Z0 by lia. reflexivity. }
  rewrite E. apply i32_id. pose proof (B_mono hs t (num_tiles P) ltac:(lia) ltac:(lia)) as M. pose proof (B_mono hs 0 t ltac:(lia) ltac:(lia)) as M0. unfold TiledFacts.B in *. change (start 0 hs) with 0 in M0. fold hs in B. lia.
Qed.
Print Assumptions C109_offsets_partial.

(** When the grid is an odd number of tiles in both directions only existing tiles are used. *)
Theorem C109_tiles_exist : forall P vs ku kv, 0 < tile_u P -> 0 < tile_v P -> 0 <= support P -> 0 <= ku -> 0 <= kv ->
  grid_size P = (2 * ku + 1) * tile_u P -> grid_size P = (2 * kv + 1) * tile_v P -> tiles_there P vs.
Proof.
  intros P vs ku kv Tu Tv Hs Hu Hv G1 G2 [[i pu] pv] [x y] Iv (Fi & (a & A1 & A2) & (b & B1 & B2)). cbn [fst snd] in *.
  destruct (top_left_odd P (tile_u P) ku Tu Hu G1) as (L1 & N1). destruct (top_left_odd P (tile_v P) kv Tv Hv G2) as (L2 & N2). rewrite N1, N2. rewrite L1 in A2. rewrite L2 in B2.
  unfold fits, inside in Fi. nia.
Qed.
Print Assumptions C109_tiles_exist.

(** Otherwise a thread can leave the array: a grid of 8 x 8 in tiles of 4 x 4, support 1, a visibility at pixel (6, 6): tile (2, 2) of a grid of 2 x 2 tiles. *)
Definition evenP := mk_tparams 1 8 4 4 (1 # 8).
Definition corner_uvw : nd Q := mk_nd [1; 1; 3] (fun _ => (2 # 1)%Q).
Definition one_freq : nd Q := mk_nd [1] (fun _ => C_0).
Theorem C109_outside_grid_refuted : num_tiles evenP = 4 /\ In (2, 2) (gpu_tiles evenP (0, (2 # 1)%Q, (2 # 1)%Q)) /\
  count_thread evenP 1 1 1 corner_uvw one_freq (num_tiles evenP) (0, 0, 0) = None.
Proof. repeat split; vm_compute; auto 10. Qed.
Print Assumptions C109_outside_grid_refuted.

(** ** C110 *)
(** The bucket sort, from the offsets of the prefix sum: in every schedule, the slots of a tile hold the visibilities that belong to it, each once, with the coordinates, the weight and
    the code of the tile; the offset of each tile becomes that of the next one; and no thread accesses memory outside of the arrays. *)
Theorem C110_bucket_sort : forall V W name P nt nb nc uvw freqs (vis : nd V) (weight : nd W) ts (m : memory (value V W)), sort_name name ->
  let vs := visibilities P nt nb nc uvw freqs in let hs := pairs P ts (sort_entry vis weight) vs in
  shape uvw = [nt; nb; 3] -> shape freqs = [nc] -> shape vis = [nt * nb * nc] -> shape weight = [nt * nb * nc] ->
  0 < tile_u P -> 0 < tile_v P -> 0 <= support P -> 0 <= grid_size P -> grid_fits nb nc nt -> lists_tiles P ts -> tiles_there P vs ->
  (forall t, 0 <= t < num_tiles P -> counter m t = start t hs) ->
  (exists m', gpu_bucket_sort name P nt nb nc uvw freqs vis weight SUCCESS m SUCCESS m') /\
  (forall st' m', gpu_bucket_sort name P nt nb nc uvw freqs vis weight SUCCESS m st' m' ->
    st' = SUCCESS /\ (forall t, 0 <= t < num_tiles P -> counter m' t = start (t + 1) hs) /\
    forall t, 0 <= t < num_tiles P -> exists l, Permutation l (entries t hs) /\
      forall i uu vv v w c, nth_error l i = Some (uu, vv, v, w, c) -> let slot := start t hs + Z.of_nat i in
        out m' 0%nat slot = VCoord uu /\ out m' 1%nat slot = VCoord vv /\ out m' 2%nat slot = VVis v /\ out m' 3%nat slot = VWeight w /\ out m' 4%nat slot = VInt c) /\
  ~ fetch_oob (num_tiles P) (start (num_tiles P) hs) (vis_blocks nb nc nt) vis_threads (sort_thread P nt nb nc uvw freqs vis weight) m.
Proof.
  intros V W name P nt nb nc uvw freqs vis weight ts m Nm vs hs S1 S2 S3 S4 Tu Tv Hs Hg F L T Hc.
  destruct (sort_launch P nt nb nc uvw freqs (fun i_vis pu_ pv_ pu pv => let* v := rd vis [i_vis] in let* w := rd weight [i_vis] in
       Some [(pu + pv * num_tiles_u P, [VCoord pu_; VCoord pv_; VVis v; VWeight w; VInt (pv * 32768 + pu)])])
      (fun e => let '(uu, vv, v, w, c) := e in [VCoord uu; VCoord vv; VVis v; VWeight w; VInt c]) (sort_entry vis weight) S1 S2 Tu Tv Hs Hg F T) with (ts := ts) (name := name) (m := m) as (A & B & C).
  - intros i u v pu pv I. pose proof (vis_index P nt nb nc uvw freqs _ I) as Hi. cbn [fst] in Hi. rewrite rd_some by (rewrite S3; apply in_shape_1; exact Hi). cbn [bind]. rewrite rd_some by (rewrite S4; apply in_shape_1; exact Hi). reflexivity.
  - exact L.
  - apply name_registered. auto.
  - exact Hc.
  - split; [exact A|]. split; [|exact C]. intros st' m' H. destruct (B st' m' H) as (E & Co & O). split; [exact E|]. split; [exact Co|]. intros t Ht. destruct (O t Ht) as (l & Pm & Ol). exists l. split; [exact Pm|].
    intros i uu vv v w c Ei slot. repeat split; [apply (Ol i _ Ei 0%nat)|apply (Ol i _ Ei 1%nat)|apply (Ol i _ Ei 2%nat)|apply (Ol i _ Ei 3%nat)|apply (Ol i _ Ei 4%nat)]; reflexivity.
Qed.
Print Assumptions C110_bucket_sort.

(** The indexing: the slots of a tile hold the indices of the visibilities that belong to it, and (unlike on the CPU, C66_indexing_coordinates_refuted) their coordinates. *)
Theorem C110_tiled_indexing : forall name P nt nb nc uvw freqs ts (m : memory (value unit unit)), index_name name ->
  let vs := visibilities P nt nb nc uvw freqs in let hs := pairs P ts (fun v t => (v, snd t * 32768 + fst t)) vs in
  shape uvw = [nt; nb; 3] -> shape freqs = [nc] ->
  0 < tile_u P -> 0 < tile_v P -> 0 <= support P -> 0 <= grid_size P -> grid_fits nb nc nt -> lists_tiles P ts -> tiles_there P vs ->
  (forall t, 0 <= t < num_tiles P -> counter m t = start t hs) ->
  (exists m', gpu_tiled_indexing name P nt nb nc uvw freqs SUCCESS m SUCCESS m') /\
  (forall st' m', gpu_tiled_indexing name P nt nb nc uvw freqs SUCCESS m st' m' ->
    st' = SUCCESS /\ (forall t, 0 <= t < num_tiles P -> counter m' t = start (t + 1) hs) /\
    forall t, 0 <= t < num_tiles P -> exists l, Permutation l (entries t hs) /\
      forall i k uu vv c, nth_error l i = Some (k, uu, vv, c) -> let slot := start t hs + Z.of_nat i in
        out m' 0%nat slot = VCoord uu /\ out m' 1%nat slot = VCoord vv /\ out m' 2%nat slot = VInt k /\ out m' 3%nat slot = VInt c) /\
  ~ fetch_oob (num_tiles P) (start (num_tiles P) hs) (vis_blocks nb nc nt) vis_threads (index_thread P nt nb nc uvw freqs) m.
Proof.
  intros name P nt nb nc uvw freqs ts m Nm vs hs S1 S2 Tu Tv Hs Hg F L T Hc.
  destruct (sort_launch P nt nb nc uvw freqs (fun i_vis pu_ pv_ pu pv => Some [(pu + pv * num_tiles_u P, [VCoord pu_; VCoord pv_; VInt i_vis; VInt (pv * 32768 + pu)] : list (value unit unit))])
      (fun e => let '(k, uu, vv, c) := e in [VCoord uu; VCoord vv; VInt k; VInt c]) (fun v t => (v, snd t * 32768 + fst t)) S1 S2 Tu Tv Hs Hg F T) with (ts := ts) (name := name) (m := m) as (A & B & C).
  - reflexivity.
  - exact L.
  - apply name_registered. auto.
  - exact Hc.
  - split; [exact A|]. split; [|exact C]. intros st' m' H. destruct (B st' m' H) as (E & Co & O). split; [exact E|]. split; [exact Co|]. intros t Ht. destruct (O t Ht) as (l & Pm & Ol). exists l. split; [exact Pm|].
    intros i k uu vv c Ei slot. repeat split; [apply (Ol i _ Ei 0%nat)|apply (Ol i _ Ei 1%nat)|apply (Ol i _ Ei 2%nat)|apply (Ol i _ Ei 3%nat)]; reflexivity.
Qed.
Print Assumptions C110_tiled_indexing.

(** A 12 x 12 grid of 4 x 4 tiles, support 1; two visibilities *)
Example C109_hyps : count_name "sdp_tile_count_simple_gpu<double, double>" /\ sort_name "sdp_bucket_sort_simple_gpu<double, double, double, double, 1>" /\ grid_fits 2 1 1 /\
  let P := mk_tparams 1 12 4 4 (1 # 12) in let uvw := mk_nd [1; 2; 3] (fun idx => if nth 1 idx 0 =? 0 then (2 # 1)%Q else (- 3 # 1)%Q) in
  lists_tiles P (gpu_tiles P) /\ tiles_there P (visibilities P 1 2 1 uvw one_freq) /\
  map fst (pairs P (gpu_tiles P) (fun _ _ => tt) (visibilities P 1 2 1 uvw one_freq)) = [4; 5; 7; 8; 0; 1; 3; 4].
Proof.
  split; [left; reflexivity|]. split; [left; reflexivity|]. split; [unfold grid_fits; lia|]. cbv zeta. split; [apply gpu_tiles_ok; cbn; lia|]. split; [apply (C109_tiles_exist _ _ 1 1); cbn; lia|]. vm_compute. reflexivity.
Qed.
