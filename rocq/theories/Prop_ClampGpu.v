(** C103: the selection of channels in GPU memory.  Exact rational arithmetic, as in C19. *)
From Coq Require Import String Lia.
From Verif Require Import Base BaseFacts Mem Checks ChecksFacts Clamp ClampSpec ClampFacts ClampFacts2 Gpu GpuFacts GpuFacts2 GpuLaunch GpuLaunchFacts GpuView GpuViewFacts PhaseRotateGpu GridUtilsGpu GridUtilsGpuSpec GridUtilsGpuFacts Prop_GridUtilsGpu ClampGpu ClampGpuSpec ClampGpuFacts.
Open Scope Z_scope.

Lemma ints_view m x n : ints m x n -> writeable m -> snd (check_and_view m MEM_INT 1 MEM_GPU SUCCESS) = SUCCESS.
Proof. intros (D & S) W. apply (view_ok m MEM_INT x 1 D); [now rewrite S|exact W]. Qed.
Lemma ints_view_const m x n : ints m x n -> snd (check_and_view_const m MEM_INT 1 MEM_GPU SUCCESS) = SUCCESS.
Proof. intros (D & S). apply (view_const_ok m MEM_INT x 1 D). now rewrite S. Qed.
Lemma clamp_name (single : bool) uvw ty (uvw_d : nd Q) : real_type ty -> described uvw ty uvw_d ->
  exists k, registered k = true /\ (if mtype uvw =? MEM_DOUBLE then Some (if single then "sdp_gridder_clamp_channels_single<double>" else "sdp_gridder_clamp_channels_uv<double>")%string
    else if mtype uvw =? MEM_FLOAT then Some (if single then "sdp_gridder_clamp_channels_single<float>" else "sdp_gridder_clamp_channels_uv<float>")%string else None) = Some k.
Proof. intros [-> | ->] D; rewrite (described_type _ _ _ D); destruct single; eexists; split; [|reflexivity| |reflexivity| |reflexivity| |reflexivity]; reflexivity. Qed.

(** What both functions do with a row, given what the kernel does with it *)
Section Both.
Context (single : bool) (uvw si ei so eo : option mem) (uvw_d : nd Q) (inp : option (nd Z * nd Z)) (so_d eo_d : nd Z) (n ty a b : Z) (body : Z * Z * Z -> option (list (op (list Z) (Z * Z)))).
Context (f : Z -> Z -> Z -> option (Z * Z)).
Context (Hn : side n) (Ha : 0 <= a) (Ty : real_type ty) (D : described uvw ty uvw_d) (S : shape uvw_d = [n; 3]).
Context (Dsi : ints si (input1 inp so_d) n) (Dei : ints ei (input2 inp eo_d) n) (Dso : ints so so_d n) (Deo : ints eo eo_d n) (Wso : writeable so) (Weo : writeable eo).
Context (Fd : forall i s e, exists r, f i s e = Some r).
Context (val : Z -> Z * Z -> Z * Z).
Context (Th : forall x, 0 <= x < 4294967296 -> body (x, 0, 0) = Some (if (x + a <? b) && (x + a <? n) then [Update [x + a] (val (x + a))] else [])).
Context (Vl : forall i, a <= i < b -> i < n -> Some (val i (elem so_d [i], elem eo_d [i])) = f i (elem (input1 inp so_d) [i]) (elem (input2 inp eo_d) [i])).
Lemma both_launch st' r1 r2 : gpu_clamp single uvw si ei so eo body so_d eo_d SUCCESS st' r1 r2 <->
  exists k y, registered k = true /\ launch_view (fun a _ => a) (Some k) (blocks_of n 256, 1, 1) (256, 1, 1) body SUCCESS (zipped so_d eo_d) st' y /\
    (if mtype uvw =? MEM_DOUBLE then Some (if single then "sdp_gridder_clamp_channels_single<double>" else "sdp_gridder_clamp_channels_uv<double>")%string
    else if mtype uvw =? MEM_FLOAT then Some (if single then "sdp_gridder_clamp_channels_single<float>" else "sdp_gridder_clamp_channels_uv<float>")%string else None) = Some k /\
    r1 = (if failed st' then so_d else firsts y) /\ r2 = (if failed st' then eo_d else seconds (shape eo_d) y).
Proof using Ty D S Dsi Dei Dso Deo Wso Weo.
  clear Th Vl Fd Ha Hn. unfold gpu_clamp. destruct (clamp_name single uvw ty uvw_d Ty D) as (k & Rg & Ek).
  rewrite (ints_view_const _ _ _ Dsi), (ints_view_const _ _ _ Dei), (ints_view _ _ _ Dso Wso), (ints_view _ _ _ Deo Weo). rewrite Ek.
  rewrite (described_type _ _ _ D), (view_const_ok uvw ty uvw_d 2 D) by now rewrite S. rewrite (described_shape _ _ _ 0 D), S by (rewrite S; cbn; clear; lia). cbn [nth Z.to_nat].
  split.
  - intros (y & L & E1 & E2). exists k, y. auto.
  - intros (k' & y & _ & L & E & E1 & E2). injection E as <-. exists y. auto.
Qed.
Lemma both_exists : exists st' r1 r2, gpu_clamp single uvw si ei so eo body so_d eo_d SUCCESS st' r1 r2.
Proof using Hn Ty D S Dsi Dei Dso Deo Wso Weo Th.
  clear Vl Fd. destruct (clamp_name single uvw ty uvw_d Ty D) as (k & Rg & Ek). destruct (rows_exists (fun x _ => x) k n a b body (zipped so_d eo_d) val Hn Rg Th) as (st' & y & L).
  exists st'. do 2 eexists. apply both_launch. exists k, y. split; [exact Rg|]. split; [exact L|]. split; [exact Ek|]. split; reflexivity.
Qed.
Lemma both_result st' r1 r2 : gpu_clamp single uvw si ei so eo body so_d eo_d SUCCESS st' r1 r2 ->
  (1 <= n -> st' = SUCCESS /\ shape r1 = [n] /\ shape r2 = [n] /\
    (forall i, a <= i < b -> i < n -> f i (elem (input1 inp so_d) [i]) (elem (input2 inp eo_d) [i]) = Some (elem r1 [i], elem r2 [i])) /\
    (forall i, ~ (a <= i < b /\ i < n) -> elem r1 [i] = elem so_d [i] /\ elem r2 [i] = elem eo_d [i])) /\
  (n = 0 -> st' = ERR_RUNTIME /\ r1 = so_d /\ r2 = eo_d).
Proof using Hn Ha Ty D S Dsi Dei Dso Deo Wso Weo Th Vl.
  clear Fd. intro L. apply both_launch in L. destruct L as (k & y & Rg & L & _ & -> & ->).
  apply (rows_result (fun x _ => x) k n a b body (zipped so_d eo_d) val Hn Ha Rg Th) in L. destruct L as (L1 & L0). split; intro Q.
  - destruct (L1 Q) as (-> & Sh & V & O). cbn [failed firsts seconds shape elem]. split; [reflexivity|]. split; [rewrite Sh; apply Dso|]. split; [apply Deo|]. split.
    + intros i Hi Hin. rewrite <- (Vl i Hi Hin). rewrite (V i Hi Hin). cbn [zipped elem]. now rewrite <- surjective_pairing.
    + intros i N. rewrite (O [i]) by (intros j Hj Hj' E; injection E as <-; apply N; auto). split; reflexivity.
  - destruct (L0 Q) as (-> & ->). auto.
Qed.
End Both.

Lemma single_th uvw_d d f0 df a b inp mn mx so_d eo_d n : side n -> 0 <= a -> 0 <= d < 3 -> shape uvw_d = [n; 3] -> shape (input1 inp so_d) = [n] -> shape (input2 inp eo_d) = [n] -> shape so_d = [n] -> shape eo_d = [n] ->
  forall x, 0 <= x < 4294967296 -> single_thread uvw_d d f0 df a b inp mn mx (dim so_d 0) (dim eo_d 0) (x, 0, 0) =
  Some (if (x + a <? b) && (x + a <? n) then [Update [x + a] (fun p => let '(s, e) := of_in (match row_in inp (x + a) with Some q => q | None => None end) p in or_keep (clamp1 (elem uvw_d [x + a; d]) f0 df s e mn mx) p)] else []).
Proof.
  intros Hn Ha Hd Su S1 S2 S3 S4 x Hx. unfold single_thread. rewrite u32_id by assumption. unfold dim. rewrite Su, S3, S4. cbn [nth Z.to_nat]. rewrite leb_out2. destruct (Z.ltb_spec (x + a) b), (Z.ltb_spec (x + a) n); cbn [andb negb]; try reflexivity.
  rewrite rd_some by (rewrite Su; apply in_shape_2; lia). cbn [bind]. destruct (row_in_ok inp so_d eo_d n (x + a) S1 S2 ltac:(lia)) as (q & -> & _). cbn [bind].
  replace (in_shape [n] [x + a]) with true by (symmetry; apply in_shape_1; lia). reflexivity.
Qed.
Lemma uv_th uvw_d f0 df a b inp mnu mxu mnv mxv so_d eo_d n : side n -> 0 <= a -> shape uvw_d = [n; 3] -> shape (input1 inp so_d) = [n] -> shape (input2 inp eo_d) = [n] -> shape so_d = [n] -> shape eo_d = [n] ->
  forall x, 0 <= x < 4294967296 -> uv_thread uvw_d f0 df a b inp mnu mxu mnv mxv (dim so_d 0) (dim eo_d 0) (x, 0, 0) =
  Some (if (x + a <? b) && (x + a <? n) then [Update [x + a] (fun p => let '(s, e) := of_in (match row_in inp (x + a) with Some q => q | None => None end) p in or_keep (clamp2 (elem uvw_d [x + a; 0]) (elem uvw_d [x + a; 1]) f0 df s e mnu mxu mnv mxv) p)] else []).
Proof.
  intros Hn Ha Su S1 S2 S3 S4 x Hx. unfold uv_thread. rewrite u32_id by assumption. unfold dim. rewrite Su, S3, S4. cbn [nth Z.to_nat]. rewrite leb_out2. destruct (Z.ltb_spec (x + a) b), (Z.ltb_spec (x + a) n); cbn [andb negb]; try reflexivity.
  rewrite !rd_some by (rewrite Su; apply in_shape_2; lia). cbn [bind]. destruct (row_in_ok inp so_d eo_d n (x + a) S1 S2 ltac:(lia)) as (q & -> & _). cbn [bind].
  replace (in_shape [n] [x + a]) with true by (symmetry; apply in_shape_1; lia). reflexivity.
Qed.
Lemma clamp2_defined u v f0 df s e mnu mxu mnv mxv : exists r, clamp2 u v f0 df s e mnu mxu mnv mxv = Some r.
Proof.
  unfold clamp2. destruct (clamp1_defined u f0 df s e mnu mxu) as ([s1 e1] & -> & _). cbn [bind]. destruct (_ >=? _); [eauto|]. destruct (clamp1_defined v f0 df s1 e1 mnv mxv) as (r & -> & _). eauto.
Qed.

(** ** The rows that are asked for get exactly the channels in range (as in C19_single_exact); other rows keep their values.  With no row at all the call reports an error
    (unlike the version for CPU memory).  The inputs may be the outputs. *)
Theorem C103_single_partial uvw d f0 df si ei mn mx so eo start_row end_row uvw_d inp so_d eo_d n ty :
  side n -> real_type ty -> described uvw ty uvw_d -> shape uvw_d = [n; 3] -> 0 <= d < 3 ->
  ints si (input1 inp so_d) n -> ints ei (input2 inp eo_d) n -> ints so so_d n -> ints eo eo_d n -> writeable so -> writeable eo ->
  (exists st' r1 r2, gpu_clamp_single uvw d f0 df si ei mn mx so eo start_row end_row uvw_d inp so_d eo_d SUCCESS st' r1 r2) /\
  forall st' r1 r2, gpu_clamp_single uvw d f0 df si ei mn mx so eo start_row end_row uvw_d inp so_d eo_d SUCCESS st' r1 r2 ->
  (1 <= n -> st' = SUCCESS /\ shape r1 = [n] /\ shape r2 = [n] /\
    (forall i, asked start_row end_row n i -> elem r1 [i] <= elem r2 [i] /\
      (step_ok (elem uvw_d [i; d]) f0 df mn mx -> forall c, elem r1 [i] <= c < elem r2 [i] <->
        elem (input1 inp so_d) [i] <= c < elem (input2 inp eo_d) [i] /\ in_range_directed (0 <= coord_step (elem uvw_d [i; d]) df)%Q (coord (elem uvw_d [i; d]) f0 df c) mn mx)) /\
    (forall i, ~ asked start_row end_row n i -> elem r1 [i] = elem so_d [i] /\ elem r2 [i] = elem eo_d [i])) /\
  (n = 0 -> st' = ERR_RUNTIME /\ r1 = so_d /\ r2 = eo_d).
Proof.
  intros Hn Ty D S Hd Dsi Dei Dso Deo Wso Weo. unfold gpu_clamp_single. cbn [failed]. rewrite (described_shape _ _ _ 0 D), S by (rewrite S; cbn; lia). cbn [nth Z.to_nat].
  destruct (clamp_bounds n start_row end_row) as [a b] eqn:B. assert (Ha : 0 <= a) by (apply (bounds_asked n start_row end_row a b 0 Hn B)).
  pose proof (fun i => proj2 (bounds_asked n start_row end_row a b i Hn B)) as As.
  pose proof (single_th uvw_d d f0 df a b inp mn mx so_d eo_d n Hn Ha Hd S (proj2 Dsi) (proj2 Dei) (proj2 Dso) (proj2 Deo)) as Th. cbv zeta beta in Th.
  set (val := fun i p => let '(s, e) := of_in (match row_in inp i with Some q => q | None => None end) p in or_keep (clamp1 (elem uvw_d [i; d]) f0 df s e mn mx) p).
  change (forall x, 0 <= x < 4294967296 -> single_thread uvw_d d f0 df a b inp mn mx (dim so_d 0) (dim eo_d 0) (x, 0, 0) = Some (if (x + a <? b) && (x + a <? n) then [Update [x + a] (val (x + a))] else [])) in Th.
  split.
  - destruct (both_exists true uvw si ei so eo uvw_d inp so_d eo_d n ty a b _ Hn Ty D S Dsi Dei Dso Deo Wso Weo val Th) as (st' & r1 & r2 & R). eauto.
  - intros st' r1 r2 R.
    apply (both_result true uvw si ei so eo uvw_d inp so_d eo_d n ty a b _ (fun i s e => clamp1 (elem uvw_d [i; d]) f0 df s e mn mx) Hn Ha Ty D S Dsi Dei Dso Deo Wso Weo val Th) in R.
    + destruct R as (R1 & R0). split; [|exact R0]. intro Q. destruct (R1 Q) as (E & S1 & S2 & V & O). split; [exact E|]. split; [exact S1|]. split; [exact S2|]. split.
      * intros i Hi. apply As in Hi. destruct Hi as [Hi Hin]. specialize (V i Hi Hin). cbv beta in V.
        destruct (clamp1_defined (elem uvw_d [i; d]) f0 df (elem (input1 inp so_d) [i]) (elem (input2 inp eo_d) [i]) mn mx) as (r & E1 & L1). rewrite V in E1. injection E1 as <-. split; [exact L1|]. intros K c.
        destruct (clamp1_ok _ f0 df (elem (input1 inp so_d) [i]) (elem (input2 inp eo_d) [i]) mn mx K) as (r & E1 & _ & X). rewrite V in E1. injection E1 as <-. exact (X c).
      * intros i N. apply O. intro H. apply N, As. exact H.
    + intros i Hi Hin. unfold val. destruct (row_in_ok inp so_d eo_d n i (proj2 Dsi) (proj2 Dei) ltac:(lia)) as (q & -> & ->).
      destruct (clamp1_defined (elem uvw_d [i; d]) f0 df (elem (input1 inp so_d) [i]) (elem (input2 inp eo_d) [i]) mn mx) as (r & -> & _). reflexivity.
Qed.
Print Assumptions C103_single_partial.
Theorem C103_uv_partial uvw f0 df si ei mnu mxu mnv mxv so eo start_row end_row uvw_d inp so_d eo_d n ty :
  side n -> real_type ty -> described uvw ty uvw_d -> shape uvw_d = [n; 3] ->
  ints si (input1 inp so_d) n -> ints ei (input2 inp eo_d) n -> ints so so_d n -> ints eo eo_d n -> writeable so -> writeable eo ->
  (exists st' r1 r2, gpu_clamp_uv uvw f0 df si ei mnu mxu mnv mxv so eo start_row end_row uvw_d inp so_d eo_d SUCCESS st' r1 r2) /\
  forall st' r1 r2, gpu_clamp_uv uvw f0 df si ei mnu mxu mnv mxv so eo start_row end_row uvw_d inp so_d eo_d SUCCESS st' r1 r2 ->
  (1 <= n -> st' = SUCCESS /\ shape r1 = [n] /\ shape r2 = [n] /\
    (forall i, asked start_row end_row n i -> step_ok (elem uvw_d [i; 0]) f0 df mnu mxu -> step_ok (elem uvw_d [i; 1]) f0 df mnv mxv -> elem r1 [i] <= elem r2 [i] /\
      forall c, elem r1 [i] <= c < elem r2 [i] <->
        elem (input1 inp so_d) [i] <= c < elem (input2 inp eo_d) [i] /\
        in_range_directed (0 <= coord_step (elem uvw_d [i; 0%Z]) df)%Q (coord (elem uvw_d [i; 0]) f0 df c) mnu mxu /\
        in_range_directed (0 <= coord_step (elem uvw_d [i; 1%Z]) df)%Q (coord (elem uvw_d [i; 1]) f0 df c) mnv mxv) /\
    (forall i, ~ asked start_row end_row n i -> elem r1 [i] = elem so_d [i] /\ elem r2 [i] = elem eo_d [i])) /\
  (n = 0 -> st' = ERR_RUNTIME /\ r1 = so_d /\ r2 = eo_d).
Proof.
  intros Hn Ty D S Dsi Dei Dso Deo Wso Weo. unfold gpu_clamp_uv. cbn [failed]. rewrite (described_shape _ _ _ 0 D), S by (rewrite S; cbn; lia). cbn [nth Z.to_nat].
  destruct (clamp_bounds n start_row end_row) as [a b] eqn:B. assert (Ha : 0 <= a) by (apply (bounds_asked n start_row end_row a b 0 Hn B)).
  pose proof (fun i => proj2 (bounds_asked n start_row end_row a b i Hn B)) as As.
  pose proof (uv_th uvw_d f0 df a b inp mnu mxu mnv mxv so_d eo_d n Hn Ha S (proj2 Dsi) (proj2 Dei) (proj2 Dso) (proj2 Deo)) as Th. cbv zeta beta in Th.
  set (val := fun i p => let '(s, e) := of_in (match row_in inp i with Some q => q | None => None end) p in or_keep (clamp2 (elem uvw_d [i; 0]) (elem uvw_d [i; 1]) f0 df s e mnu mxu mnv mxv) p).
  change (forall x, 0 <= x < 4294967296 -> uv_thread uvw_d f0 df a b inp mnu mxu mnv mxv (dim so_d 0) (dim eo_d 0) (x, 0, 0) = Some (if (x + a <? b) && (x + a <? n) then [Update [x + a] (val (x + a))] else [])) in Th.
  split.
  - destruct (both_exists false uvw si ei so eo uvw_d inp so_d eo_d n ty a b _ Hn Ty D S Dsi Dei Dso Deo Wso Weo val Th) as (st' & r1 & r2 & R). eauto.
  - intros st' r1 r2 R.
    apply (both_result false uvw si ei so eo uvw_d inp so_d eo_d n ty a b _ (fun i s e => clamp2 (elem uvw_d [i; 0]) (elem uvw_d [i; 1]) f0 df s e mnu mxu mnv mxv) Hn Ha Ty D S Dsi Dei Dso Deo Wso Weo val Th) in R.
    + destruct R as (R1 & R0). split; [|exact R0]. intro Q. destruct (R1 Q) as (E & S1 & S2 & V & O). split; [exact E|]. split; [exact S1|]. split; [exact S2|]. split.
      * intros i Hi K1 K2. apply As in Hi. destruct Hi as [Hi Hin]. specialize (V i Hi Hin). cbv beta in V.
        destruct (clamp2_ok _ _ f0 df (elem (input1 inp so_d) [i]) (elem (input2 inp eo_d) [i]) mnu mxu mnv mxv K1 K2) as (r & E1 & L1 & X). rewrite V in E1. injection E1 as <-. split; [exact L1|exact X].
      * intros i N. apply O. intro H. apply N, As. exact H.
    + intros i Hi Hin. unfold val. destruct (row_in_ok inp so_d eo_d n i (proj2 Dsi) (proj2 Dei) ltac:(lia)) as (q & -> & ->).
      destruct (clamp2_defined (elem uvw_d [i; 0]) (elem uvw_d [i; 1]) f0 df (elem (input1 inp so_d) [i]) (elem (input2 inp eo_d) [i]) mnu mxu mnv mxv) as (r & ->). reflexivity.
Qed.
Print Assumptions C103_uv_partial.

(** Two rows; the inputs are the outputs *)
Example C103_hyps : exists uvw so eo uvw_d so_d eo_d, described uvw MEM_DOUBLE uvw_d /\ shape uvw_d = [2; 3] /\ real_type MEM_DOUBLE /\ ints so (input1 None so_d) 2 /\ ints eo (input2 None eo_d) 2 /\ writeable so /\ writeable eo /\
  side 2 /\ asked 1 2 2 1 /\ step_ok (elem uvw_d [1; 0]) (100000000 # 1) (10000000 # 1) (11 # 1) (27 # 2).
Proof.
  exists (Some (mk_mem MEM_DOUBLE MEM_GPU true true false 2 6 1 [2; 3] [24; 8] (Some (0, 0)))), (Some (mk_mem MEM_INT MEM_GPU true true false 1 2 1 [2] [4] (Some (1, 0)))), (Some (mk_mem MEM_INT MEM_GPU true true false 1 2 1 [2] [4] (Some (2, 0)))).
  exists (mk_nd [2; 3] (fun _ => 30 # 1)), (mk_nd [2] (fun _ => 0)), (mk_nd [2] (fun _ => 4)). unfold ints, described, writeable, real_type, side, asked.
  repeat split; auto; try discriminate; try lia. right. repeat split; vm_compute; reflexivity.
Qed.

(** ** Refused: an earlier error, read-only outputs, coordinates of another type, channel limits of another type *)
Lemma const_view_bad m ty k l st : failed st = true \/ mtype m <> ty -> failed (snd (check_and_view_const m ty k l st)) = true.
Proof.
  unfold check_and_view_const, check_type, check_num_dims, check_location. intro H. destruct (failed st) eqn:F; [now rewrite !F|]. destruct H as [H|H]; [discriminate|]. destruct (Z.eqb_spec (mtype m) ty); [contradiction|]. cbn [negb failed]. reflexivity.
Qed.
Lemma view_bad m ty k l st : failed st = true \/ mtype m <> ty \/ is_read_only m = true -> failed (snd (check_and_view m ty k l st)) = true.
Proof.
  unfold check_and_view, check_type, check_num_dims, check_location, check_writeable. intro H. destruct (failed st) eqn:F; [now rewrite !F|]. destruct H as [H|[H|H]]; [discriminate| |].
  - destruct (Z.eqb_spec (mtype m) ty); [contradiction|]. cbn [negb failed]. reflexivity.
  - destruct (Z.eqb_spec (mtype m) ty); cbn [negb failed]; [|reflexivity]. rewrite F. destruct (num_dims m =? _); cbn [negb failed]; [|reflexivity]. rewrite F. destruct (location m =? l); cbn [negb failed]; [|reflexivity]. rewrite F, H. reflexivity.
Qed.
Lemma clamp_refused single uvw si ei so eo body so_d eo_d st' r1 r2 :
  is_read_only so = true \/ is_read_only eo = true \/ ~ real_type (mtype uvw) \/ mtype si <> MEM_INT \/ mtype ei <> MEM_INT \/ mtype so <> MEM_INT \/ mtype eo <> MEM_INT ->
  gpu_clamp single uvw si ei so eo body so_d eo_d SUCCESS st' r1 r2 -> st' <> SUCCESS /\ r1 = so_d /\ r2 = eo_d.
Proof.
  intros Q (y & L & -> & ->). apply launch_view_failed in L.
  - destruct L as (E & _). revert E. match goal with |- st' = ?s -> _ => assert (F : failed s = true) end; [|intro E; subst st'; rewrite F; split; [intro E; rewrite E in F; discriminate|auto]].
    revert Q. clear. intro Q. unfold real_type in Q. destruct (Z.eqb_spec (mtype uvw) MEM_DOUBLE) as [E1|E1]; [|destruct (Z.eqb_spec (mtype uvw) MEM_FLOAT) as [E2|E2]; [|reflexivity]].
    all: apply const_view_bad; left; destruct Q as [Q|[Q|[Q|[Q|[Q|[Q|Q]]]]]]; [| |exfalso; auto| | | |]; repeat (first [apply view_bad; solve [auto] | apply const_view_bad; solve [auto] | apply view_bad; left | apply const_view_bad; left]).
  - match goal with |- ?s <> _ => assert (F : failed s = true) end; [|intro E; rewrite E in F; discriminate].
    revert Q. clear. intro Q. unfold real_type in Q. destruct (Z.eqb_spec (mtype uvw) MEM_DOUBLE) as [E1|E1]; [|destruct (Z.eqb_spec (mtype uvw) MEM_FLOAT) as [E2|E2]; [|reflexivity]].
    all: apply const_view_bad; left; destruct Q as [Q|[Q|[Q|[Q|[Q|[Q|Q]]]]]]; [| |exfalso; auto| | | |]; repeat (first [apply view_bad; solve [auto] | apply const_view_bad; solve [auto] | apply view_bad; left | apply const_view_bad; left]).
Qed.
Theorem C103_refused uvw d f0 df si ei mn mx so eo start_row end_row uvw_d inp so_d eo_d st st' r1 r2 :
  gpu_clamp_single uvw d f0 df si ei mn mx so eo start_row end_row uvw_d inp so_d eo_d st st' r1 r2 ->
  st <> SUCCESS \/ is_read_only so = true \/ is_read_only eo = true \/ ~ real_type (mtype uvw) \/ mtype si <> MEM_INT \/ mtype ei <> MEM_INT \/ mtype so <> MEM_INT \/ mtype eo <> MEM_INT ->
  st' <> SUCCESS /\ r1 = so_d /\ r2 = eo_d /\ (st <> SUCCESS -> st' = st).
Proof.
  unfold gpu_clamp_single. destruct (failed st) eqn:F.
  - intros (-> & -> & ->) _. repeat split; auto. intros ->. discriminate.
  - assert (st = SUCCESS) as -> by (destruct st; [reflexivity|discriminate..]). destruct (clamp_bounds _ _ _) as [a b]. intros L [Q|Q]; [congruence|]. destruct (clamp_refused _ _ _ _ _ _ _ _ _ _ _ _ Q L) as (A & B & C). repeat split; auto. congruence.
Qed.
Print Assumptions C103_refused.
Theorem C103_refused_uv uvw f0 df si ei mnu mxu mnv mxv so eo start_row end_row uvw_d inp so_d eo_d st st' r1 r2 :
  gpu_clamp_uv uvw f0 df si ei mnu mxu mnv mxv so eo start_row end_row uvw_d inp so_d eo_d st st' r1 r2 ->
  st <> SUCCESS \/ is_read_only so = true \/ is_read_only eo = true \/ ~ real_type (mtype uvw) \/ mtype si <> MEM_INT \/ mtype ei <> MEM_INT \/ mtype so <> MEM_INT \/ mtype eo <> MEM_INT ->
  st' <> SUCCESS /\ r1 = so_d /\ r2 = eo_d /\ (st <> SUCCESS -> st' = st).
Proof.
  unfold gpu_clamp_uv. destruct (failed st) eqn:F.
  - intros (-> & -> & ->) _. repeat split; auto. intros ->. discriminate.
  - assert (st = SUCCESS) as -> by (destruct st; [reflexivity|discriminate..]). destruct (clamp_bounds _ _ _) as [a b]. intros L [Q|Q]; [congruence|]. destruct (clamp_refused _ _ _ _ _ _ _ _ _ _ _ _ Q L) as (A & B & C). repeat split; auto. congruence.
Qed.
Print Assumptions C103_refused_uv.

(** ** The lengths of the channel arrays are not compared with the number of rows: with arrays that are too short no defined run exists *)
Theorem C103_lengths_refuted : exists uvw si ei so eo uvw_d inp so_d eo_d, described uvw MEM_DOUBLE uvw_d /\ shape uvw_d = [2; 3] /\ ints si (input1 inp so_d) 2 /\ ints ei (input2 inp eo_d) 2 /\
  ints so so_d 1 /\ ints eo eo_d 2 /\ writeable so /\ writeable eo /\
  forall st' r1 r2, ~ gpu_clamp_single uvw 0 1 1 si ei 0 1 so eo (-1) (-1) uvw_d inp so_d eo_d SUCCESS st' r1 r2.
Proof.
  exists (Some (mk_mem MEM_DOUBLE MEM_GPU true true false 2 6 1 [2; 3] [24; 8] (Some (0, 0)))), (Some (mk_mem MEM_INT MEM_GPU true true false 1 2 1 [2] [4] (Some (1, 0)))), (Some (mk_mem MEM_INT MEM_GPU true true false 1 2 1 [2] [4] (Some (2, 0)))).
  exists (Some (mk_mem MEM_INT MEM_GPU true true false 1 1 1 [1] [4] (Some (3, 0)))), (Some (mk_mem MEM_INT MEM_GPU true true false 1 2 1 [2] [4] (Some (4, 0)))).
  exists (mk_nd [2; 3] (fun _ => 30 # 1)), (Some (mk_nd [2] (fun _ => 0), mk_nd [2] (fun _ => 4))), (mk_nd [1] (fun _ => 0)), (mk_nd [2] (fun _ => 0)). unfold ints, described, writeable.
  repeat split; try discriminate. intros st' r1 r2 (y & L & _). change (launch_view (fun a _ => a) (Some "sdp_gridder_clamp_channels_single<double>"%string) (blocks_of 2 256, 1, 1) (256, 1, 1)
    (single_thread (mk_nd [2; 3] (fun _ => 30 # 1)) 0 1 1 0 2 (Some (mk_nd [2] (fun _ => 0), mk_nd [2] (fun _ => 4))) 0 1 1 2) SUCCESS (zipped (mk_nd [1] (fun _ => 0)) (mk_nd [2] (fun _ => 0))) st' y) in L.
  unfold launch_view in L. cbn [failed] in L. replace (registered "sdp_gridder_clamp_channels_single<double>") with true in L by reflexivity. rewrite rows_grid in L by lia. replace (1 <=? 2) with true in L by reflexivity. cbn [negb] in L.
  destruct L as (_ & m' & (per & F & _) & _). destruct (forall2_left _ _ _ (1, 0, 0) F) as (k & E); [apply rows_mem; lia|]. discriminate E.
Qed.
Print Assumptions C103_lengths_refuted.
