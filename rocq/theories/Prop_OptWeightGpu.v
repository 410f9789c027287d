(** C111: optimised (tiled) Briggs weighting. *)
From Coq Require Import String Lia Lqa Qpower.
From Verif Require Import Base BaseFacts Sum QNum Mem Checks ChecksFacts Tiled TiledSpec TiledFacts GpuLaunch GpuAtom GpuAtomFacts OptWeightGpu OptWeightGpuSpec OptWeightGpuFacts.
From Verif Require SumDiffGpu WeightingGpu.
Import SumDiffGpu(i32). Import WeightingGpu(gpu_buffer).
Open Scope Z_scope.

(** ** The calls *)
Lemma tiles_value gs : 0 < gs -> num_tiles (opt_tiles gs) = tiles_of gs.
Proof. intro H. unfold num_tiles, num_tiles1, opt_tiles, tiles_of, cdiv. cbn [tile_u tile_v Tiled.grid_size]. rewrite !Z.quot_div_nonneg by lia. f_equal; f_equal; lia. Qed.
Lemma tiles_pos gs : 0 < gs -> 1 <= tiles_of gs.
Proof. intro H. unfold tiles_of. pose proof (Z.div_le_lower_bound (gs + 31) 32 1 ltac:(lia) ltac:(lia)). pose proof (Z.div_le_lower_bound (gs + 15) 16 1 ltac:(lia) ltac:(lia)). nia. Qed.
(** What comes out of a call: an error, undefined behaviour, or what a launch leaves *)
Lemma outcome name uvw vis weights output doubles bufs gs kernel out res : 0 < gs ->
  opt_weighting name uvw vis weights output doubles bufs gs kernel out SUCCESS res ->
  (exists st', res = Some (st', out)) \/ res = None \/
  (exists B m m' st', 1 <= B <= tiles_of gs - 1 /\ (forall i, m (Out i) = elem out [i]) /\ launch oloc_eqb Qplus B 512 kernel m m' /\ res = Some (st', mk_nd (shape out) (fun i => m' (Out (hd 0 i))))).
Proof.
  intros Hg. unfold opt_weighting. cbn [failed]. destruct (get_vis_metadata vis SUCCESS) as [md st]. destruct (match md with Some _ => _ | None => _ end) as [[[nt nb] nc] np].
  destruct (location vis =? MEM_CPU); [intros ->; eauto|]. destruct (negb (location vis =? MEM_GPU)); [intros ->; eauto|].
  destruct (failed (fold_left _ _ _)); [intros ->; eauto|]. destruct (negb doubles); [intros ->; eauto|].
  rewrite tiles_value by exact Hg. pose proof (tiles_pos gs Hg) as Tp. destruct (negb (registered name)); [intros ->; eauto|]. cbn [orb].
  destruct (grid_ok _ _) eqn:G; cbn [negb]; [|intros ->; eauto]. unfold to_dim3, grid_ok in G. cbn [fst].
  assert (Hb : 1 <= (tiles_of gs - 1) mod 4294967296) by lia. pose proof (Z.mod_le (tiles_of gs - 1) 4294967296 ltac:(lia) ltac:(lia)).
  intros (m & Im & [(m' & L & ->)|(_ & ->)]); [|auto]. right. right. unfold to_dim3 in L. cbn [fst] in L. do 4 eexists. split; [|split; [exact Im|split; [exact L|reflexivity]]]. lia.
Qed.

(** Refuted: for arrays in CPU memory every call is an error, and leaves the weights as they were. *)
Theorem C111_cpu_refuted : forall uvw freqs vis weights suu svv sw sidx stile offs points output bits gs offsets sorted_tile uu vv sorted_weight sorted_index weights_d out res,
  location vis = MEM_CPU ->
  optimized_weighting uvw freqs vis weights suu svv sw stile offs points output bits gs offsets sorted_tile uu vv sorted_weight out SUCCESS res \/
  indexed_weighting uvw vis weights suu svv sidx stile offs points output bits gs offsets sorted_tile uu vv sorted_index weights_d out SUCCESS res ->
  exists st', res = Some (st', out) /\ st' <> SUCCESS.
Proof.
  intros until res. intros Hv H.
  assert (K : forall name output' doubles bufs kernel, opt_weighting name uvw vis weights output' doubles bufs gs kernel out SUCCESS res -> exists st', res = Some (st', out) /\ st' <> SUCCESS).
  { intros name output' doubles bufs kernel. unfold opt_weighting. cbn [failed]. destruct (get_vis_metadata vis SUCCESS) as [md st]. destruct (match md with Some _ => _ | None => _ end) as [[[nt nb] nc] np].
    rewrite Hv, Z.eqb_refl. intros ->. eexists. split; [reflexivity|]. destruct doubles; discriminate. }
  destruct H as [H|H]; exact (K _ _ _ _ _ H).
Qed.
Print Assumptions C111_cpu_refuted.

(** Refuted: the robust parameter has no effect.  For every whole number up to 2^20 in absolute value (the documentation: "Integer value between -2 and 2") the calls do
    what they do for 0. *)
Lemma small_bits bits n : -2 ^ 20 <= n <= 2 ^ 20 -> double_bits bits (inject_Z n) -> i32 bits = 0.
Proof.
  intros Hn [[-> _]|(s & e & m & Hs & He & Hm & -> & Hq)]; [reflexivity|].
  assert (D : exists k, m = k * 2 ^ 32).
  { destruct (Z_lt_le_dec (e - 52) 0) as [Hneg|Hpos].
    - assert (Q : ((-1) ^ s * m = n * 2 ^ (52 - e))%Z).
      { replace (e - 52) with (0 - (52 - e)) in Hq by lia. rewrite Qpower_minus in Hq by (intro Z0; discriminate). change (Qpower 2 0) with 1%Q in Hq. unfold Qdiv in Hq. rewrite Qmult_1_l in Hq. assert (P : (Qpower 2 (52 - e) == inject_Z (2 ^ (52 - e)))%Q) by (rewrite Zpower_Qpower by lia; reflexivity). rewrite P in Hq.
        assert (Pz : 0 < 2 ^ (52 - e)) by (apply Z.pow_pos_nonneg; lia). apply Qeq_sym in Hq. apply (Qmult_inj_r _ _ (inject_Z (2 ^ (52 - e)))) in Hq.
        - rewrite <- Qmult_assoc, (Qmult_comm (/ _)), Qmult_inv_r, Qmult_1_r, <- inject_Z_mult in Hq.
          + unfold Qeq in Hq. cbn [Qnum Qden inject_Z] in Hq. lia.
          + intro Z0. unfold Qeq in Z0. cbn in Z0. lia.
        - intro Z0. unfold Qeq in Z0. cbn in Z0. lia. }
      assert (Hb : 32 <= 52 - e).
      { destruct (Z_le_gt_dec 32 (52 - e)); [assumption|]. assert (2 ^ (52 - e) <= 2 ^ 31) by (apply Z.pow_le_mono_r; lia). assert (0 < 2 ^ (52 - e)) by (apply Z.pow_pos_nonneg; lia).
        exfalso. assert (Z.abs ((-1) ^ s * m) = m) by (destruct Hs as [-> | ->]; cbn; lia). assert (Z.abs (n * 2 ^ (52 - e)) <= 2 ^ 51) by (rewrite Z.abs_mul; change (2 ^ 51) with (2 ^ 20 * 2 ^ 31); apply Z.mul_le_mono_nonneg; lia).
        rewrite <- Q in *. change (2 ^ 52) with (2 * 2 ^ 51) in Hm. lia. }
      exists ((-1) ^ s * n * 2 ^ (52 - e - 32)). rewrite <- Z.mul_assoc, <- Z.pow_add_r by lia. replace (52 - e - 32 + 32) with (52 - e) by lia. rewrite <- Z.mul_assoc, <- Q. destruct Hs as [-> | ->]; cbn; lia.
    - exfalso. assert (P : (Qpower 2 (e - 52) == inject_Z (2 ^ (e - 52)))%Q) by (rewrite Zpower_Qpower by lia; reflexivity). rewrite P, <- inject_Z_mult in Hq.
      unfold Qeq in Hq. cbn [Qnum Qden inject_Z] in Hq. assert (Pz : 1 <= 2 ^ (e - 52)) by (pose proof (Z.pow_pos_nonneg 2 (e - 52)); lia).
      change (2 ^ 20) with 1048576 in Hn. change (2 ^ 52) with 4503599627370496 in Hm. destruct Hs as [-> | ->]; cbn [Z.pow Z.pow_pos Pos.iter] in Hq; nia. }
  destruct D as (k & ->). unfold i32. replace (s * 2 ^ 63 + (e + 1023) * 2 ^ 52 + (k * 2 ^ 32 - 2 ^ 52) + 2147483648) with (2147483648 + (s * 2 ^ 31 + (e + 1023) * 2 ^ 20 + k - 2 ^ 20) * 4294967296) by lia.
  rewrite Z.mod_add by lia. reflexivity.
Qed.
Theorem C111_robust_refuted : forall uvw freqs vis weights suu svv sw sidx stile offs points output bits gs offsets sorted_tile uu vv sorted_weight sorted_index weights_d out st res n,
  -2 ^ 20 <= n <= 2 ^ 20 -> double_bits bits (inject_Z n) ->
  (optimized_weighting uvw freqs vis weights suu svv sw stile offs points output bits gs offsets sorted_tile uu vv sorted_weight out st res <->
   optimized_weighting uvw freqs vis weights suu svv sw stile offs points output 0 gs offsets sorted_tile uu vv sorted_weight out st res) /\
  (indexed_weighting uvw vis weights suu svv sidx stile offs points output bits gs offsets sorted_tile uu vv sorted_index weights_d out st res <->
   indexed_weighting uvw vis weights suu svv sidx stile offs points output 0 gs offsets sorted_tile uu vv sorted_index weights_d out st res).
Proof.
  intros until n. intros Hn Hd. unfold optimized_weighting, indexed_weighting, bucket_thread, indexed_thread. rewrite (small_bits bits n Hn Hd). change (i32 0) with 0. tauto.
Qed.
Print Assumptions C111_robust_refuted.

(** ** Which weights are written *)
(** In every schedule, the weight of a slot is only written if the slot belongs to a tile other than the last one, and is below the number of slots of that tile
    (the loops run from the offset of the tile up to this number). *)
Theorem C111_written : forall uvw freqs vis weights suu svv sw stile offs points output bits gs offsets sorted_tile uu vv sorted_weight out st' out' i, 0 < gs ->
  optimized_weighting uvw freqs vis weights suu svv sw stile offs points output bits gs offsets sorted_tile uu vv sorted_weight out SUCCESS (Some (st', out')) ->
  shape out' = shape out /\
  ((forall b, 0 <= b < tiles_of gs - 1 -> ~ (elem offsets [b] <= i < elem offsets [b + 1] - elem offsets [b])) -> elem out' [i] = elem out [i]).
Proof.
  intros until i. intros Hg H. destruct (outcome _ _ _ _ _ _ _ _ _ _ _ Hg H) as [(s & E)|[E|(B & m & m' & s & Hb & Im & L & E)]]; [injection E as -> ->; auto|discriminate|]. injection E as -> ->. split; [reflexivity|]. intro N. cbn [elem hd]. rewrite <- Im.
  set (W := fun l => match l with Out o => exists b, 0 <= b < tiles_of gs - 1 /\ elem offsets [b] <= o < elem offsets [b + 1] - elem offsets [b] | _ => True end).
  apply (launch_keeps oloc_eqb Qplus oloc_eqb_ok True W (fun _ => True) B 512 _ m m') with (2 := L).
  - intros b t Hb' Ht. apply thread_within; [cbn; auto|cbn; auto|exact Ht|auto|]. intros j Hj. split; [auto|]. destruct (rd sorted_weight [j]); cbn [bind]; [|exact Logic.I]. exists b. split; [lia|exact Hj].
  - intros (b & Hb' & Hj). exact (N b Hb' Hj).
Qed.
Print Assumptions C111_written.

(** Refuted: with the offsets of the prefix sum (C65, C109) the weights of the last tile are never written, nor any weight whose slot is not below the
    number of visibilities of its tile: of two tiles with as many visibilities, only the first. *)
Theorem C111_last_tile_refuted : forall (E : Type) (hs : list (Z * E)) uvw freqs vis weights suu svv sw stile offs points output bits gs offsets sorted_tile uu vv sorted_weight out st' out' t i, 0 < gs ->
  (forall t, 0 <= t <= tiles_of gs -> elem offsets [t] = start t hs) ->
  0 <= t < tiles_of gs -> start t hs <= i < start (t + 1) hs -> t = tiles_of gs - 1 \/ cnt t hs <= i ->
  optimized_weighting uvw freqs vis weights suu svv sw stile offs points output bits gs offsets sorted_tile uu vv sorted_weight out SUCCESS (Some (st', out')) ->
  elem out' [i] = elem out [i].
Proof.
  intros until i. intros Hg Ho Ht Hi Hl H. apply (proj2 (C111_written _ _ _ _ _ _ _ _ _ _ _ _ _ _ _ _ _ _ _ _ _ i Hg H)). intros b Hb Hr. rewrite !Ho in Hr by lia.
  pose proof (B_next hs b ltac:(lia)) as Sb. pose proof (B_mono hs 0 b ltac:(lia) ltac:(lia)) as M0. unfold TiledFacts.B in M0. change (start 0 hs) with 0 in M0.
  unfold TiledFacts.B in Sb. assert (b = t) as ->; [|lia].
  destruct (Z.lt_trichotomy b t) as [L|[L|L]]; [|exact L|].
  - pose proof (B_mono hs (b + 1) t ltac:(lia) ltac:(lia)) as M. unfold TiledFacts.B in M. lia.
  - pose proof (B_mono hs (t + 1) b ltac:(lia) ltac:(lia)) as M. unfold TiledFacts.B in M. lia.
Qed.
Print Assumptions C111_last_tile_refuted.

(** Refuted: with the offsets that the bucket sort leaves (C110: each tile has that of the next one), which is what the functions are given in the test of the
    library, the weights of the first tile are never written, nor any weight whose slot is not below the number of visibilities of its tile. *)
Theorem C111_first_tile_refuted : forall (E : Type) (hs : list (Z * E)) uvw freqs vis weights suu svv sw stile offs points output bits gs offsets sorted_tile uu vv sorted_weight out st' out' t i, 0 < gs ->
  (forall t, 0 <= t < tiles_of gs -> elem offsets [t] = start (t + 1) hs) ->
  0 <= t < tiles_of gs -> start t hs <= i < start (t + 1) hs -> t = 0 \/ cnt t hs <= i ->
  optimized_weighting uvw freqs vis weights suu svv sw stile offs points output bits gs offsets sorted_tile uu vv sorted_weight out SUCCESS (Some (st', out')) ->
  elem out' [i] = elem out [i].
Proof.
  intros until i. intros Hg Ho Ht Hi Hl H. apply (proj2 (C111_written _ _ _ _ _ _ _ _ _ _ _ _ _ _ _ _ _ _ _ _ _ i Hg H)). intros b Hb Hr. rewrite !Ho in Hr by lia.
  pose proof (B_next hs (b + 1) ltac:(lia)) as Sb. pose proof (B_mono hs 0 (b + 1) ltac:(lia) ltac:(lia)) as M0. unfold TiledFacts.B in M0, Sb. change (start 0 hs) with 0 in M0.
  assert (t = b + 1) as ->; [|lia].
  destruct (Z.lt_trichotomy t (b + 1)) as [L|[L|L]]; [|exact L|].
  - pose proof (B_mono hs (t + 1) (b + 1) ltac:(lia) ltac:(lia)) as M. unfold TiledFacts.B in M. lia.
  - pose proof (B_mono hs (b + 1 + 1) t ltac:(lia) ltac:(lia)) as M. unfold TiledFacts.B in M. lia.
Qed.
Print Assumptions C111_first_tile_refuted.

(** ** Undefined behaviour *)
Lemma array_loc m ty sh : array m ty sh -> location m = MEM_GPU.
Proof. destruct m as [m|]; cbn [array]; [|intros []]. intros (_ & L & _). exact L. Qed.
Lemma array_ty m ty sh : array m ty sh -> mtype m = ty.
Proof. destruct m as [m|]; cbn [array]; [|intros []]. intros (T & _). exact T. Qed.
Lemma array_shape m ty sh : array m ty sh -> check_shape m sh SUCCESS = SUCCESS /\ num_dims m = Z.of_nat (length sh) /\ forall d, 0 <= d < Z.of_nat (length sh) -> shape_dim m d = nth (Z.to_nat d) sh 0.
Proof.
  destruct m as [m|]; cbn [array]; [|intros []]. intros (_ & _ & _ & Sh & Nd & _).
  assert (D : forall d, 0 <= d < Z.of_nat (length sh) -> shape_dim (Some m) d = nth (Z.to_nat d) sh 0).
  { intros d Hd. cbn [shape_dim]. rewrite Nd, Sh. replace ((d <? 0) || (d >=? Z.of_nat (length sh)))%bool with false by lia. reflexivity. }
  assert (N : num_dims (Some m) = Z.of_nat (length sh)) by exact Nd. split; [|split; [exact N|exact D]].
  unfold check_shape. cbn [failed]. rewrite N, Z.eqb_refl. cbn [negb].
  assert (K : forall l k, (forall j, (j < length l)%nat -> shape_dim (Some m) (k + Z.of_nat j) = nth j l 0) -> k + Z.of_nat (length l) <= Z.of_nat (length sh) -> 0 <= k -> check_shape_from (Some m) k l SUCCESS = SUCCESS).
  { induction l as [|x l IH]; intros k H1 H2 H3; [reflexivity|]. cbn [check_shape_from length] in *. unfold check_shape_dim. cbn [failed]. rewrite N. destruct (Z.leb_spec (Z.of_nat (length sh)) k); [lia|].
    pose proof (H1 0%nat ltac:(lia)) as H0. rewrite Z.add_0_r in H0. cbn [nth] in H0. rewrite H0, Z.eqb_refl. cbn [negb]. apply IH; [|lia|lia]. intros j Hj. pose proof (H1 (Datatypes.S j) ltac:(cbn; lia)) as X. cbn [nth] in X. rewrite <- X. f_equal. lia. }
  apply K; [|lia|lia]. intros j Hj. rewrite D by lia. f_equal. lia.
Qed.
Lemma array_check m ty sh : array m ty sh -> check_c_contiguity m (check_location m MEM_GPU (check_shape m sh SUCCESS)) = SUCCESS.
Proof.
  intro H. rewrite (proj1 (array_shape _ _ _ H)). unfold check_location, check_c_contiguity. cbn [failed]. rewrite (array_loc _ _ _ H). change (MEM_GPU =? MEM_GPU) with true. cbn [negb failed].
  destruct m as [m|]; cbn [array] in H; [|destruct H]. destruct H as (_ & _ & Co & _ & _ & Da). cbn [is_c_contiguous]; unfold has_data; rewrite Co. destruct (m_data m); [reflexivity|congruence].
Qed.
Lemma launched name uvw freqs vis weights output bufs gs kernel out nt nb nc np res : accepted uvw freqs vis weights (output :: bufs) nt nb nc np ->
  registered name = true -> 2 <= tiles_of gs <= 2147483648 -> 0 < gs ->
  opt_weighting name uvw vis weights output true bufs gs kernel out SUCCESS res <->
  exists m : oloc -> Q, (forall i, m (Out i) = elem out [i]) /\
    ((exists m', launch oloc_eqb Qplus (tiles_of gs - 1) 512 kernel m m' /\ res = Some (SUCCESS, mk_nd (shape out) (fun i => m' (Out (hd 0 i))))) \/
     (out_of_bounds oloc_eqb Qplus (tiles_of gs - 1) 512 (there out) kernel m /\ res = None)).
Proof.
  intros (Av & Au & Aw & _ & Hnp & Fo) Rg Tn Hg. unfold opt_weighting. cbn [failed].
  assert (V : get_vis_metadata vis SUCCESS = (Some (MEM_COMPLEX_DOUBLE, MEM_GPU, nt, nb, nc, np), SUCCESS)).
  { unfold get_vis_metadata. cbn [failed]. destruct (array_shape _ _ _ Av) as (_ & N & D). rewrite (array_ty _ _ _ Av), (array_loc _ _ _ Av).
    assert (C : is_complex vis = true). { destruct vis as [v|]; [|destruct Av]. cbn [array] in Av. destruct Av as (T & _ & _ & _ & _ & Da). cbn [is_complex]; unfold has_data; rewrite T. destruct (m_data v); [reflexivity|congruence]. }
    rewrite C. cbn [negb]. unfold check_num_dims. cbn [failed]. rewrite N. change (Z.of_nat (length [nt; nb; nc; np]) =? 4) with true. cbn [negb failed andb].
    rewrite (D 0), (D 1), (D 2), (D 3) by (cbn; lia). cbn [nth Z.to_nat Pos.to_nat Pos.iter_op Nat.add]. destruct Hnp as [-> | ->]; reflexivity. }
  rewrite V. cbv beta iota. rewrite (array_loc _ _ _ Av).
  assert (U : check_uvw uvw MEM_VOID MEM_GPU nt nb SUCCESS = SUCCESS).
  { unfold check_uvw. cbn [failed]. assert (C : negb (is_floating_point uvw) || is_complex uvw = false).
    { destruct uvw as [v|]; [|destruct Au]. cbn [array] in Au. destruct Au as (T & _ & _ & _ & _ & Da). cbn [is_floating_point is_complex]; unfold has_data; rewrite T. destruct (m_data v); [reflexivity|congruence]. }
    rewrite C. change (negb (MEM_VOID =? MEM_VOID)) with false. cbv beta iota. exact (array_check _ _ _ Au). }
  assert (Wt : check_weights weights MEM_VOID MEM_GPU nt nb nc np SUCCESS = SUCCESS).
  { unfold check_weights. cbn [failed]. assert (C : is_complex weights = false).
    { destruct weights as [v|]; [|destruct Aw]. cbn [array] in Aw. destruct Aw as (T & _ & _ & _ & _ & Da). cbn [is_complex]; unfold has_data; rewrite T. destruct (m_data v); [reflexivity|congruence]. }
    rewrite C. change (negb (MEM_VOID =? MEM_VOID)) with false. cbv beta iota. exact (array_check _ _ _ Aw). }
  rewrite U, Wt. change (MEM_GPU =? MEM_CPU) with false. change (negb (MEM_GPU =? MEM_GPU)) with false. cbv beta iota.
  apply Forall_cons_iff in Fo. destruct Fo as (Lo & Fo). unfold check_location at 1. cbn [failed]. rewrite Lo. change (negb (MEM_GPU =? MEM_GPU)) with false. cbv beta iota.
  assert (Fb : fold_left (fun st m => gpu_buffer m st) bufs SUCCESS = SUCCESS).
  { induction Fo as [|m l Lm Fo IH]; [reflexivity|]. cbn [fold_left]. unfold gpu_buffer at 2. cbn [failed]. rewrite Lm. change (negb (MEM_GPU =? MEM_GPU)) with false. cbn [andb]. exact IH. }
  unfold check_location. cbn [failed]. rewrite Lo. change (negb (MEM_GPU =? MEM_GPU)) with false. cbv beta iota. rewrite Fb. cbn [failed negb]. rewrite Rg, tiles_value by exact Hg.
  assert (M : (tiles_of gs - 1) mod 4294967296 = tiles_of gs - 1) by (apply Z.mod_small; lia).
  unfold to_dim3. rewrite M. change (1 mod 4294967296) with 1. change (512 mod 4294967296) with 512.
  assert (G : grid_ok (tiles_of gs - 1, 1, 1) (512, 1, 1) = true) by (unfold grid_ok; lia). rewrite G. cbn [negb orb fst]. tauto.
Qed.

(** Refuted: if a tile but the last one begins where the visibilities end (the tiles from it on have none), every call can access memory that is not there, and
    none ends. *)
Theorem C111_empty_tile_refuted : forall uvw freqs vis weights suu svv sw stile offs points output bits gs offsets sorted_tile uu vv sorted_weight out nt nb nc np n b,
  accepted uvw freqs vis weights [output; suu; svv; sw; stile; offs; points; output] nt nb nc np -> 0 < gs -> 2 <= tiles_of gs <= 2147483648 ->
  shape offsets = [tiles_of gs + 1] -> shape sorted_tile = [n] -> 0 <= b < tiles_of gs - 1 -> elem offsets [b] = n ->
  let call := optimized_weighting uvw freqs vis weights suu svv sw stile offs points output bits gs offsets sorted_tile uu vv sorted_weight out SUCCESS in
  call None /\ forall r, ~ call (Some r).
Proof.
  intros until b. intros Ac Hg Tn So Sti Hb En call.
  assert (Do : ((mtype uvw =? MEM_DOUBLE) && (mtype weights =? MEM_DOUBLE) && (mtype freqs =? MEM_DOUBLE))%bool = true).
  { destruct Ac as (_ & Au & Aw & Fr & _). rewrite (array_ty _ _ _ Au), (array_ty _ _ _ Aw), Fr. reflexivity. }
  unfold call, optimized_weighting. rewrite Do.
  assert (Stuck_ : forall t, 0 <= t < 512 -> forall p, after_start Sw Sw2 offsets sorted_tile uu vv (fun i => let* w := rd sorted_weight [i] in Some (i, w)) (top_left (opt_tiles gs) 32) (top_left (opt_tiles gs) 16) gs (i32 bits) b t = p -> p = Stuck).
  { intros t Ht p <-. unfold after_start, briggs_thread. rewrite rd_some by (rewrite So; apply in_shape_1; lia). cbn [bind]. rewrite rd_some by (rewrite So; apply in_shape_1; lia). cbn [bind].
    rewrite En. destruct (rd sorted_tile [n]) eqn:R; [|reflexivity]. apply rd_inv in R. destruct R as (R & _). rewrite Sti in R. apply in_shape_1 in R. lia. }
  split.
  - apply (launched _ uvw freqs vis weights output _ gs _ out nt nb nc np); [exact Ac|reflexivity|exact Tn|exact Hg|].
    exists (fun l => match l with Out i => elem out [i] | _ => 0%Q end). split; [reflexivity|]. right. split; [|reflexivity].
    destruct (to_barrier Sw Sw2 offsets sorted_tile uu vv (fun i => let* w := rd sorted_weight [i] in Some (i, w)) (top_left (opt_tiles gs) 32) (top_left (opt_tiles gs) 16) gs (i32 bits) (tiles_of gs - 1) b
      (fun l => match l with Out i => elem out [i] | _ => 0%Q end) Hb) as (m' & g & E & G).
    exists m', g, b, 0. split; [exact E|]. split; [exact Hb|]. split; [lia|]. rewrite (Stuck_ 0 ltac:(lia) _ (eq_sym (G 0 ltac:(lia)))). exact Logic.I.
  - intros r H. apply (launched _ uvw freqs vis weights output _ gs _ out nt nb nc np) in H; [|exact Ac|reflexivity|exact Tn|exact Hg].
    destruct H as (m & _ & [(m' & (g & E & F) & _)|(_ & X)]); [|discriminate].
    set (C := fun b' t p => b' = b -> 0 <= t < 512 -> p = bucket_thread bits gs offsets sorted_tile uu vv sorted_weight b t \/ p = St (Sw b) 0%Q (St (Sw2 b) 0%Q (Sync Stuck)) \/ p = St (Sw2 b) 0%Q (Sync Stuck) \/ p = Sync Stuck \/ p = Stuck).
    assert (K : forall t, 0 <= t < 512 -> bucket_thread bits gs offsets sorted_tile uu vv sorted_weight b t = St (Cell b t) 0%Q (St (Sw b) 0%Q (St (Sw2 b) 0%Q (Sync Stuck)))).
    { intros t Ht. pose proof (Stuck_ t Ht _ eq_refl) as Z0. unfold after_start in Z0. unfold bucket_thread. unfold briggs_thread in *. cbv beta iota zeta in Z0. now rewrite Z0. }
    assert (Inv : C b 0 (g b 0)).
    { change (g b 0) with (snd (m', g) b 0). apply (stays oloc_eqb Qplus C (tiles_of gs - 1) 512) with (3 := E).
      - intros b' t m0 p m1 p' H Es Eb Ht. specialize (H Eb Ht). rewrite (K t Ht) in *. destruct H as [-> |[-> |[-> |[-> | ->]]]]; cbn [tstep] in Es; try discriminate; injection Es as <- <-; auto.
      - intros b' t p H Eb Ht. specialize (H Eb Ht). rewrite (K t Ht) in *. destruct H as [-> |[-> |[-> |[-> | ->]]]]; cbn [release]; auto.
      - intros b' t -> Ht. left. reflexivity. }
    specialize (Inv eq_refl ltac:(lia)). rewrite (F b 0 Hb ltac:(lia)), (K 0 ltac:(lia)) in Inv. destruct Inv as [X|[X|[X|[X|X]]]]; discriminate.
Qed.
Print Assumptions C111_empty_tile_refuted.

(** ** The race *)
(** A grid of 32 x 32 pixels (two tiles, of which the first is processed) and three visibilities, two of weight 1 in one pixel and one of weight 3 in another: the weight of the
    first one can become 17/367 (the Briggs weight: sums 2 + 2 + 3 and 4 + 4 + 9, and 25 * 7 / 17) or 1/26, depending on the schedule: the sums are used while other threads still add to them. *)
Definition race_vec (l : list Q) : nd Q := mk_nd [3] (fun i => nth (Z.to_nat (hd 0 i)) l 0%Q).
Definition race_kernel : Z -> Z -> prog oloc Q :=
  bucket_thread 0 32 (mk_nd [3] (fun i => if hd 0 i =? 0 then 0 else 3)) (mk_nd [3] (fun _ => 0)) (race_vec [0; 1; 0])%Q (race_vec [-16; -16; -16])%Q (race_vec [1; 3; 1])%Q.
Definition race_start (l : oloc) : Q := match l with Out i => elem (race_vec [0; 0; 0])%Q [i] | _ => 0%Q end.
Definition times (n : nat) (t : Z) : list (Z * option Z) := repeat (0, Some t) n.
Definition race_schedule (mid : list (Z * option Z)) : list (Z * option Z) :=
  flat_map (times 3) (zrange 0 512) ++ [(0, None); (0, None); (0, Some 0); (0, Some 1); (0, Some 2); (0, None)] ++ mid ++ [(0, None)] ++ times 2 0 ++ times 2 1 ++ times 2 2.
Definition ends_with (q : Q) (r : option ((oloc -> Q) * (Z -> Z -> prog oloc Q))) : bool :=
  match r with
  | Some (m, g) => Qeq_bool (m (Out 0)) q && forallb (fun t => match g 0 t with Done => true | _ => false end) (zrange 0 512)
  | None => false
  end.
Definition race_ends (mid : list (Z * option Z)) (q : Q) : bool := ends_with q (run oloc_eqb Qplus 512 (race_schedule mid) race_start race_kernel).
Lemma run_ends (T : Z) (kernel : Z -> Z -> prog oloc Q) m0 sch (m : oloc -> Q) g : (forall b o, In (b, o) sch -> b = 0 /\ forall t, o = Some t -> 0 <= t < T) ->
  run oloc_eqb Qplus T sch m0 kernel = Some (m, g) -> forallb (fun t => match g 0 t with Done => true | _ => false end) (zrange 0 T) = true -> launch oloc_eqb Qplus 1 T kernel m0 m.
Proof.
  intros Sch R H2. exists g. split.
  - apply (run_exec oloc_eqb Qplus 1 T) with (3 := R).
    + intros b t I. destruct (Sch _ _ I) as (-> & K). split; [lia|]. now apply K.
    + intros b I. destruct (Sch _ _ I) as (-> & _). lia.
  - intros b t Hb Ht. assert (b = 0) as -> by lia. rewrite forallb_forall in H2. specialize (H2 t ltac:(now apply in_zrange)). destruct (g 0 t); (discriminate || reflexivity).
Qed.
Lemma times_ok n t b o : 0 <= t < 512 -> In (b, o) (times n t) -> b = 0 /\ forall t', o = Some t' -> 0 <= t' < 512.
Proof. intros Ht I. unfold times in I. apply repeat_spec in I. injection I as -> ->. split; [reflexivity|]. intros t' E. injection E as <-. exact Ht. Qed.
Lemma race_schedule_ok mid : (forall b o, In (b, o) mid -> b = 0 /\ forall t, o = Some t -> 0 <= t < 512) -> forall b o, In (b, o) (race_schedule mid) -> b = 0 /\ forall t, o = Some t -> 0 <= t < 512.
Proof.
  intros Hm b o I. unfold race_schedule in I. rewrite !in_app_iff in I. destruct I as [I|[I|[I|[I|[I|[I|I]]]]]].
  - apply in_flat_map in I. destruct I as (t & It & I). apply in_zrange in It. exact (times_ok 3 t b o It I).
  - assert (I' : b = 0 /\ (o = None \/ o = Some 0 \/ o = Some 1 \/ o = Some 2)) by (cbn [In] in I; intuition congruence). clear I. destruct I' as (-> & I'). split; [reflexivity|]. intros t E. destruct I' as [-> |[-> |[-> | ->]]]; try discriminate; injection E as <-; lia.
  - exact (Hm b o I).
  - destruct I as [I|[]]. injection I as <- <-. split; [reflexivity|]. discriminate.
  - assert (H : 0 <= 0 < 512) by lia. exact (times_ok 2 0 b o H I).
  - assert (H : 0 <= 1 < 512) by lia. exact (times_ok 2 1 b o H I).
  - assert (H : 0 <= 2 < 512) by lia. exact (times_ok 2 2 b o H I).
Qed.
Lemma race_run mid q : (forall b o, In (b, o) mid -> b = 0 /\ forall t, o = Some t -> 0 <= t < 512) -> race_ends mid q = true -> exists m, launch oloc_eqb Qplus 1 512 race_kernel race_start m /\ (m (Out 0) == q)%Q.
Proof.
  intros Hm. pose proof (race_schedule_ok mid Hm) as Hs. unfold race_ends, ends_with. generalize dependent (race_schedule mid). intros sch Hs. generalize race_kernel race_start. intros k0 m0.
  destruct (run oloc_eqb Qplus 512 sch m0 k0) as [[m g]|] eqn:R; [|discriminate]. intro H. apply andb_true_iff in H. destruct H as (H1 & H2). exists m. split; [|now apply Qeq_bool_eq]. exact (run_ends 512 k0 m0 sch m g Hs R H2).
Qed.
Definition mid_good := times 5 0 ++ times 5 1 ++ times 5 2 ++ times 2 0 ++ times 2 1 ++ times 2 2.
Definition mid_bad := times 7 0 ++ times 7 1 ++ times 7 2.
Lemma race_good : race_ends mid_good (17 # 367) = true.
Proof. vm_compute. reflexivity. Qed.
Lemma race_bad : race_ends mid_bad (1 # 26) = true.
Proof. vm_compute. reflexivity. Qed.
Lemma mid_ok k : forall b o, In (b, o) (times k 0 ++ times k 1 ++ times k 2 ++ times 2 0 ++ times 2 1 ++ times 2 2) -> b = 0 /\ forall t, o = Some t -> 0 <= t < 512.
Proof.
  assert (H0 : 0 <= 0 < 512) by lia. assert (H1 : 0 <= 1 < 512) by lia. assert (H2 : 0 <= 2 < 512) by lia. intros b o I. rewrite !in_app_iff in I.
  destruct I as [I|[I|[I|[I|[I|I]]]]].
  - exact (times_ok k 0 b o H0 I).
  - exact (times_ok k 1 b o H1 I).
  - exact (times_ok k 2 b o H2 I).
  - exact (times_ok 2 0 b o H0 I).
  - exact (times_ok 2 1 b o H1 I).
  - exact (times_ok 2 2 b o H2 I).
Qed.
Lemma bad_ok : forall b o, In (b, o) (times 7 0 ++ times 7 1 ++ times 7 2) -> b = 0 /\ forall t, o = Some t -> 0 <= t < 512.
Proof.
  assert (H0 : 0 <= 0 < 512) by lia. assert (H1 : 0 <= 1 < 512) by lia. assert (H2 : 0 <= 2 < 512) by lia. intros b o I. rewrite !in_app_iff in I.
  destruct I as [I|[I|I]]; [exact (times_ok 7 0 b o H0 I)|exact (times_ok 7 1 b o H1 I)|exact (times_ok 7 2 b o H2 I)].
Qed.

(** Refuted: the weights do not depend on the schedule.  On a grid of 32 x 32 pixels (two tiles, of which the first is processed) with three visibilities,
    two of weight 1 in one pixel and one of weight 3 in another of the first tile, the call can end with 17/367 for the first one (the Briggs weight: its pixel has the sum 2,
    the weights of the pixels of the visibilities and their squares add up to 2 + 3 + 2 and 4 + 9 + 4, and 1 / (1 + 25 * 7 / 17 * 2)) and can end with 1/26: the sums are used while other threads still add to them. *)
Theorem C111_race_refuted : forall uvw freqs vis weights suu svv sw stile offs points output nt nb nc np,
  accepted uvw freqs vis weights [output; suu; svv; sw; stile; offs; points; output] nt nb nc np ->
  let call := optimized_weighting uvw freqs vis weights suu svv sw stile offs points output 0 32
    (mk_nd [3] (fun i => if hd 0 i =? 0 then 0 else 3)) (mk_nd [3] (fun _ => 0)) (race_vec [0; 1; 0])%Q (race_vec [-16; -16; -16])%Q (race_vec [1; 3; 1])%Q (race_vec [0; 0; 0])%Q SUCCESS in
  (exists out, call (Some (SUCCESS, out)) /\ (elem out [0%Z] == 17 # 367)%Q) /\
  (exists out, call (Some (SUCCESS, out)) /\ (elem out [0%Z] == 1 # 26)%Q).
Proof.
  intros until np. intros Ac call.
  assert (Do : ((mtype uvw =? MEM_DOUBLE) && (mtype weights =? MEM_DOUBLE) && (mtype freqs =? MEM_DOUBLE))%bool = true).
  { destruct Ac as (_ & Au & Aw & Fr & _). rewrite (array_ty _ _ _ Au), (array_ty _ _ _ Aw), Fr. reflexivity. }
  assert (K : forall q, (exists m, launch oloc_eqb Qplus 1 512 race_kernel race_start m /\ (m (Out 0) == q)%Q) -> exists out, call (Some (SUCCESS, out)) /\ (elem out [0%Z] == q)%Q).
  { intros q (m & L & E). exists (mk_nd [3] (fun i => m (Out (hd 0 i)))). split; [|exact E]. unfold call, optimized_weighting. rewrite Do.
    apply (launched "sdp_opt_briggs_bucket_gpu<double, double>" uvw freqs vis weights output _ 32 _ (race_vec [0; 0; 0]%Q) nt nb nc np); [exact Ac|reflexivity|change (tiles_of 32) with 2; lia|lia|].
    exists race_start. split; [reflexivity|]. left. exists m. split; [exact L|reflexivity]. }
  split; apply K.
  - exact (race_run mid_good (17 # 367) (mid_ok 5) race_good).
  - exact (race_run mid_bad (1 # 26) bad_ok race_bad).
Qed.
Print Assumptions C111_race_refuted.

(** A case for the hypotheses: arguments that the checks accept; 2.0 as a double; the offsets of five visibilities, two of which are in the first of two tiles *)
Definition gpu_array (ty : Z) (sh : list Z) : option mem := Some (mk_mem ty MEM_GPU true true false (Z.of_nat (length sh)) (fold_right Z.mul 1 sh) 1 sh [] (Some (0, 0))).
Example C111_hyps :
  accepted (gpu_array MEM_DOUBLE [5; 1; 3]) (gpu_array MEM_DOUBLE [1]) (gpu_array MEM_COMPLEX_DOUBLE [5; 1; 1; 1]) (gpu_array MEM_DOUBLE [5; 1; 1; 1])
    (repeat (gpu_array MEM_DOUBLE [5]) 8) 5 1 1 1 /\
  location (Some (mk_mem MEM_COMPLEX_DOUBLE MEM_CPU true true false 4 5 1 [5; 1; 1; 1] [] (Some (0, 0)))) = MEM_CPU /\
  double_bits 4611686018427387904 (inject_Z 2) /\ i32 4611686018427387904 = 0 /\ tiles_of 32 = 2 /\
  (let hs := [(1, tt); (0, tt); (1, tt); (0, tt); (1, tt)] in start 0 hs = 0 /\ start 1 hs = 2 /\ start 2 hs = 5 /\ start 0 hs <= 1 < start 1 hs /\ cnt 1 hs <= 3).
Proof.
  split; [|split; [reflexivity|split; [|split; [reflexivity|split; [reflexivity|vm_compute; repeat split; discriminate]]]]].
  - unfold accepted. repeat split; try discriminate; try (left; reflexivity). cbn. repeat constructor.
  - right. exists 0, 1, (2 ^ 52). repeat split; try (cbn; lia).
Qed.
