(** C101, C102: operations on single elements of arrays in GPU memory.  Exact arithmetic. *)
From Coq Require Import Reals Lra Lia String.
From Verif Require Import Base BaseFacts Mem Checks ChecksFacts CRing Cplx Fft GridUtils GridUtilsFacts FftSpec Gpu GpuFacts GpuFacts2 GpuLaunch GpuLaunchFacts GpuView GpuViewFacts PhaseRotateGpu PhaseRotateGpuFacts GridUtilsGpu GridUtilsGpuSpec GridUtilsGpuFacts Prop_GridUtilsGpu ElementGpu ElementGpuSpec ElementGpuFacts.
Open Scope Z_scope.

(** ** C101: sdp_mem_set_value writes the value to every element, and to nothing else, or reports an error and writes nothing.
    Partial: sizes within int. *)
Lemma set_names ty : element_type ty -> exists n1 n2 n3, set1_kernel ty = Some n1 /\ registered n1 = true /\ set2_kernel ty = Some n2 /\ registered n2 = true /\ set3_kernel ty = Some n3 /\ registered n3 = true.
Proof. intros [-> |[-> |[-> |[-> | -> ]]]]; do 3 eexists; repeat split. Qed.
Theorem C101_set_value_1d_partial data ty v x n : side n -> described data ty x -> shape x = [n] -> writeable data -> element_type ty ->
  (exists st' r, gpu_set_value data v x SUCCESS st' r) /\
  forall st' r, gpu_set_value data v x SUCCESS st' r -> all_or_nothing (1 <= n) x (fun _ _ => RtoC (IZR v)) st' r.
Proof.
  intros Hn D S W T. unfold gpu_set_value. cbn [failed]. rewrite (described_dims _ _ _ D), S. cbn [length Z.of_nat Pos.of_succ_nat Z.eqb Pos.eqb]. rewrite (described_type _ _ _ D), (described_shape _ _ _ 0 D), S by (rewrite S; cbn; lia). cbn [nth Z.to_nat].
  destruct (set_names ty T) as (k & _ & _ & -> & Rg & _). rewrite (view_ok data ty x 1 D) by (try exact W; now rewrite S).
  apply grid1_all; auto. intros a Ha. now apply set1_th.
Qed.
Print Assumptions C101_set_value_1d_partial.
Theorem C101_set_value_2d_partial data ty v x n m : side n -> side m -> described data ty x -> shape x = [n; m] -> writeable data -> element_type ty ->
  (exists st' r, gpu_set_value data v x SUCCESS st' r) /\
  forall st' r, gpu_set_value data v x SUCCESS st' r -> all_or_nothing (fits 16 n m) x (fun _ _ => RtoC (IZR v)) st' r.
Proof.
  intros Hn Hm D S W T. unfold gpu_set_value. cbn [failed]. rewrite (described_dims _ _ _ D), S. cbn [length Z.of_nat Pos.of_succ_nat Pos.succ Z.eqb Pos.eqb]. destruct (dims2 data ty x n m D S) as (-> & ->). rewrite (described_type _ _ _ D).
  destruct (set_names ty T) as (_ & k & _ & _ & _ & -> & Rg & _). rewrite (view_ok data ty x 2 D) by (try exact W; now rewrite S).
  apply grid2_all; auto; try lia. intros a b Ha Hb. now apply set2_th.
Qed.
Print Assumptions C101_set_value_2d_partial.
Theorem C101_set_value_3d_partial data ty v x n m l : side n -> side m -> side l -> described data ty x -> shape x = [n; m; l] -> writeable data -> element_type ty ->
  (exists st' r, gpu_set_value data v x SUCCESS st' r) /\
  forall st' r, gpu_set_value data v x SUCCESS st' r -> all_or_nothing (fits3 8 4 n m l) x (fun _ _ => RtoC (IZR v)) st' r.
Proof.
  intros Hn Hm Hl D S W T. unfold gpu_set_value. cbn [failed]. rewrite (described_dims _ _ _ D), S. cbn [length Z.of_nat Pos.of_succ_nat Pos.succ Z.eqb Pos.eqb].
  rewrite (described_shape _ _ _ 0 D), (described_shape _ _ _ 1 D), (described_shape _ _ _ 2 D), S by (rewrite S; cbn; lia). cbn [nth Z.to_nat Pos.to_nat Pos.iter_op Nat.add]. rewrite (described_type _ _ _ D).
  destruct (set_names ty T) as (_ & _ & k & _ & _ & _ & _ & -> & Rg). rewrite (view_ok data ty x 3 D) by (try exact W; now rewrite S).
  assert (A : 1 <= 16 <= 1024) by lia. assert (B : 1 <= 8 <= 1024) by lia. assert (L : 1 <= 4 <= 64) by lia. assert (E : 16 * 8 * 4 <= 1024) by lia.
  assert (Th : forall a b c, 0 <= a < n + 16 - 1 -> 0 <= b < m + 8 - 1 -> 0 <= c < l + 4 - 1 -> 0 <= a < 4294967296 -> 0 <= b < 4294967296 -> 0 <= c < 4294967296 ->
    set3_thread n m l v (a, b, c) = Some (if (a <? n) && (b <? m) && (c <? l) then [Update [a; b; c] (fun _ : C => RtoC (IZR v))] else [])) by (intros; now apply set3_th).
  split.
  - exact (grid3_exists k n m l 16 8 4 _ x (fun _ _ => RtoC (IZR v)) (fun a b c => [a; b; c]) Hn Hm Hl A B L E Rg Th).
  - intros st' r. apply (grid3_result k n m l 16 8 4 _ x (fun _ _ => RtoC (IZR v)) (fun a b c => [a; b; c]) Hn Hm Hl A B L E Rg); [| |exact Th].
    + intro idx. rewrite S. apply shape3_iff.
    + intros a b c a' b' c' _ _ _ _ _ _ Q. injection Q. auto.
Qed.
Print Assumptions C101_set_value_3d_partial.
Example C101_hyps : exists data x, @described C data MEM_FLOAT x /\ shape x = [3; 5] /\ writeable data /\ element_type MEM_FLOAT /\ fits 16 3 5.
Proof. exists (Some (mk_mem MEM_FLOAT MEM_GPU true true false 2 15 1 [3; 5] [20; 4] (Some (0, 0)))), (mk_nd [3; 5] (fun _ => C1)). repeat split; try discriminate; try lia. unfold element_type. auto 6. Qed.

(** Read-only arrays, other types and other ranks are refused, and an earlier error is kept; nothing is written. *)
Theorem C101_set_value_refused data v x st st' r : gpu_set_value data v x st st' r ->
  failed st = true \/ is_read_only data = true \/ ~ element_type (mtype data) \/ ~ (1 <= num_dims data <= 3) -> st' <> SUCCESS /\ r = x /\ (failed st = true -> st' = st).
Proof.
  intros H Q. unfold gpu_set_value in H. destruct (failed st) eqn:F.
  { destruct H as (-> & ->). repeat split. intros ->. discriminate. }
  assert (st = SUCCESS) as -> by (destruct st; [reflexivity|discriminate..]). destruct Q as [Q|Q]; [discriminate|].
  enough (st' <> SUCCESS /\ r = x) by (repeat split; try tauto; discriminate).
  assert (V : forall k name b t body, launch_view Cadd (Some name) b t body (snd (check_and_view data (mtype data) k MEM_GPU SUCCESS)) x st' r -> is_read_only data = true -> st' <> SUCCESS /\ r = x).
  { intros k name b t body L R. apply launch_view_failed in L.
    - destruct L as (-> & ->). split; [|reflexivity]. revert R. clear. unfold check_and_view, check_type, check_num_dims, check_location, check_writeable. intros ->. rewrite Z.eqb_refl. cbn [failed negb]. destruct (num_dims data =? _), (location data =? MEM_GPU); discriminate.
    - revert R. clear. unfold check_and_view, check_type, check_num_dims, check_location, check_writeable. intros ->. rewrite Z.eqb_refl. cbn [failed negb]. destruct (num_dims data =? _), (location data =? MEM_GPU); discriminate. }
  assert (K1 : forall n, set1_kernel (mtype data) = Some n -> element_type (mtype data)).
  { intros n. unfold set1_kernel, element_type. clear. destruct (Z.eqb_spec (mtype data) MEM_COMPLEX_DOUBLE), (Z.eqb_spec (mtype data) MEM_COMPLEX_FLOAT), (Z.eqb_spec (mtype data) MEM_DOUBLE), (Z.eqb_spec (mtype data) MEM_FLOAT), (Z.eqb_spec (mtype data) MEM_INT); auto 8; discriminate. }
  assert (K2 : forall n, set2_kernel (mtype data) = Some n -> element_type (mtype data)).
  { intros n. unfold set2_kernel, element_type. clear. destruct (Z.eqb_spec (mtype data) MEM_COMPLEX_DOUBLE), (Z.eqb_spec (mtype data) MEM_COMPLEX_FLOAT), (Z.eqb_spec (mtype data) MEM_DOUBLE), (Z.eqb_spec (mtype data) MEM_FLOAT), (Z.eqb_spec (mtype data) MEM_INT); auto 8; discriminate. }
  assert (K3 : forall n, set3_kernel (mtype data) = Some n -> element_type (mtype data)).
  { intros n. unfold set3_kernel, element_type. clear. destruct (Z.eqb_spec (mtype data) MEM_COMPLEX_DOUBLE), (Z.eqb_spec (mtype data) MEM_COMPLEX_FLOAT), (Z.eqb_spec (mtype data) MEM_DOUBLE), (Z.eqb_spec (mtype data) MEM_FLOAT), (Z.eqb_spec (mtype data) MEM_INT); auto 8; discriminate. }
  destruct (Z.eqb_spec (num_dims data) 1); [|destruct (Z.eqb_spec (num_dims data) 2); [|destruct (Z.eqb_spec (num_dims data) 3)]].
  - destruct (set1_kernel (mtype data)) as [k|] eqn:E; [|destruct H as (-> & ->); split; [discriminate|reflexivity]]. destruct Q as [Q|[Q|Q]]; [eapply V; eassumption|elim Q; eauto|lia].
  - destruct (set2_kernel (mtype data)) as [k|] eqn:E; [|destruct H as (-> & ->); split; [discriminate|reflexivity]]. destruct Q as [Q|[Q|Q]]; [eapply V; eassumption|elim Q; eauto|lia].
  - destruct (set3_kernel (mtype data)) as [k|] eqn:E; [|destruct H as (-> & ->); split; [discriminate|reflexivity]]. destruct Q as [Q|[Q|Q]]; [eapply V; eassumption|elim Q; eauto|lia].
  - destruct H as (-> & ->). split; [discriminate|reflexivity].
Qed.
Print Assumptions C101_set_value_refused.

(** ** sdp_mem_scale_real *)
Lemma scale_names ty : float_type ty -> exists k, scale_kernel ty = Some k /\ registered k = true.
Proof. intros [-> |[-> |[-> | -> ]]]; eexists; split; reflexivity. Qed.
Lemma contiguous_ok m ty n : contiguous m ty n -> is_c_contiguous m = true /\ num_elements m = n /\ mtype m = ty.
Proof. destruct m as [m|]; [|intros []]. intros (T & _ & C & D & N). unfold is_c_contiguous, num_elements, has_data. destruct (m_data m); [|congruence]. auto. Qed.
Theorem C101_scale_partial data ty f x n : side n -> contiguous data ty n -> shape x = [n] -> float_type ty ->
  (exists st' r, gpu_scale_real data f x SUCCESS st' r) /\
  forall st' r, gpu_scale_real data f x SUCCESS st' r -> all_or_nothing (1 <= n) x (fun _ v => Cmul v (RtoC f)) st' r.
Proof.
  intros Hn D S T. unfold gpu_scale_real. cbn [failed]. destruct (contiguous_ok _ _ _ D) as (-> & -> & ->). cbn [negb]. destruct (scale_names ty T) as (k & -> & Rg).
  apply grid1_all; auto. intros a Ha. now apply scale_th.
Qed.
Print Assumptions C101_scale_partial.
Example C101_scale_hyps : contiguous (Some (mk_mem MEM_DOUBLE MEM_GPU true true false 1 9 1 [9] [8] (Some (0, 0)))) MEM_DOUBLE 9 /\ side 9.
Proof. repeat split; try discriminate; lia. Qed.

(** An array that has been marked as read-only is scaled all the same, without an error. *)
Theorem C101_scale_read_only_refuted : forall n, 1 <= n <= 2147483647 ->
  let data := Some (mk_mem MEM_DOUBLE MEM_GPU true true true 1 n 1 [n] [8] (Some (0, 0))) in
  let x := mk_nd [n] (fun _ => C1) in
  is_read_only data = true /\
  exists r, gpu_scale_real data 2 x SUCCESS SUCCESS r /\ forall i, 0 <= i < n -> elem r [i] <> elem x [i].
Proof.
  intros n Hn data x. split; [reflexivity|].
  destruct (C101_scale_partial data MEM_DOUBLE 2 x n) as ((st' & r & L) & X); [unfold side; lia|repeat split; discriminate|reflexivity|unfold float_type; auto|].
  destruct (X st' r L) as (Y & _). destruct (Y ltac:(lia)) as (-> & _ & V). exists r. split; [exact L|]. intros i Hi. rewrite V.
  replace (in_shape (shape x) [i]) with true by (symmetry; apply in_shape_1; lia). cbn [elem x]. intro E. apply (f_equal re) in E. cbn in E. lra.
Qed.
Print Assumptions C101_scale_read_only_refuted.

(** Indices are computed with 32 bits: of an array with more than 2^32 elements only the first 2^32 are scaled, and no error is reported. *)
Lemma big_grid n : 4294967296 <= n <= 549755813632 -> grid_ok (to_dim3 (blocks_of n 256, 1, 1)) (to_dim3 (256, 1, 1)) = true.
Proof.
  intro H. rewrite blocks_of_ok by lia. unfold to_dim3, grid_ok.
  assert (B : 1 <= (n + 256 - 1) / 256 <= 2147483647) by (split; [apply Z.div_le_lower_bound; lia|apply Z.lt_succ_r, Z.div_lt_upper_bound; lia]).
  rewrite !Z.mod_small by lia. repeat (apply andb_true_intro; split); lia.
Qed.
Theorem C101_scale_large_refuted : forall data ty f x n, 4294967296 <= n <= 549755813632 -> contiguous data ty n -> shape x = [n] -> float_type ty ->
  (exists st' r, gpu_scale_real data f x SUCCESS st' r) /\
  forall st' r, gpu_scale_real data f x SUCCESS st' r -> st' = SUCCESS /\ forall i, 4294967296 <= i -> elem r [i] = elem x [i].
Proof.
  intros data ty f x n Hn D S T. unfold gpu_scale_real. cbn [failed]. destruct (contiguous_ok _ _ _ D) as (-> & -> & ->). cbn [negb]. destruct (scale_names ty T) as (k & -> & Rg).
  unfold launch_view. cbn [failed]. rewrite Rg, (big_grid n Hn). cbn [negb]. split.
  - destruct (runs_exists idx_eqb Cadd (threads3 (to_dim3 (blocks_of n 256, 1, 1)) (to_dim3 (256, 1, 1))) (scale_thread n f) (elem x)) as (m' & R); [|eauto 6].
    intros [[a b] c] _. unfold scale_thread. destruct (n <=? u32 a); eauto.
  - intros st' r (-> & m' & R & ->). split; [reflexivity|]. intros i Hi. cbn [elem].
    apply (untouched idx_eqb Cadd idx_reflect _ _ _ _ [i] R). intros [[a b] c] k' o _ E Io. unfold scale_thread in E.
    pose proof (Z.mod_pos_bound a 4294967296 ltac:(lia)) as B. fold (u32 a) in B. destruct (n <=? u32 a); injection E as <-; [destruct Io|]. destruct Io as [<-|[]]. cbn [loc]. intro Q. injection Q. lia.
Qed.
Print Assumptions C101_scale_large_refuted.
Example C101_large_hyps : contiguous (Some (mk_mem MEM_FLOAT MEM_GPU true true false 1 5000000000 1 [5000000000] [4] (Some (0, 0)))) MEM_FLOAT 5000000000 /\ 4294967296 <= 5000000000 <= 549755813632.
Proof. repeat split; try discriminate; lia. Qed.

(** ** C102: normalising and shifting the phases of a transform; correction of facets.  Partial: sides within int. *)
Lemma norm_names ty : complex_type ty -> exists k, norm_kernel ty = Some k /\ registered k = true.
Proof. intros [-> | ->]; eexists; split; reflexivity. Qed.
Lemma phase_names ty : complex_type ty -> exists k, phase_kernel ty = Some k /\ registered k = true.
Proof. intros [-> | ->]; eexists; split; reflexivity. Qed.
Lemma w_stack_names ty : complex_type ty -> exists k, w_stack_kernel ty = Some k /\ registered k = true.
Proof. intros [-> | ->]; eexists; split; reflexivity. Qed.
Lemma pswf_names ty : complex_type ty \/ real_type ty -> exists k, pswf_kernel ty = Some k /\ registered k = true.
Proof. intros [[-> | ->]|[-> | ->]]; eexists; split; reflexivity. Qed.
Theorem C102_norm_partial data ty x n m : side n -> side m -> n * m <= 2147483647 -> described data ty x -> shape x = [n; m] -> writeable data -> complex_type ty ->
  (exists st' r, gpu_fft_norm data x SUCCESS st' r) /\
  forall st' r, gpu_fft_norm data x SUCCESS st' r -> all_or_nothing (fits 8 n m) x (fun _ v => Cmul v (RtoC (/ IZR (n * m)))) st' r.
Proof.
  intros Hn Hm P D S W T. unfold gpu_fft_norm. cbn [failed]. destruct (dims2 data ty x n m D S) as (-> & ->). rewrite (described_type _ _ _ D), (view2_ok data ty x n m D S W).
  unfold int_times. replace (n * m <=? 2147483647) with true by lia. cbv zeta. destruct (norm_names ty T) as (k & -> & Rg).
  apply grid2_all; auto; try lia. intros a b Ha Hb. rewrite norm_th by assumption. unfold Rdiv. rewrite Rmult_1_l. reflexivity.
Qed.
Print Assumptions C102_norm_partial.
(** The number of pixels is computed as int: with 2^31 pixels or more (46341 x 46341) the call is undefined behaviour, whatever the type and the size of the sides. *)
Theorem C102_norm_large_refuted : forall data ty x n m, described data ty x -> shape x = [n; m] -> 2147483647 < n * m -> forall st' r, gpu_fft_norm data x SUCCESS st' r.
Proof.
  intros data ty x n m D S P st' r. unfold gpu_fft_norm. cbn [failed]. destruct (dims2 data ty x n m D S) as (-> & ->). unfold int_times. replace (n * m <=? 2147483647) with false by lia. exact I.
Qed.
Print Assumptions C102_norm_large_refuted.
Example C102_large_hyps : 2147483647 < 46341 * 46341. Proof. lia. Qed.
Theorem C102_phase_partial data ty x n m : side n -> side m -> described data ty x -> shape x = [n; m] -> writeable data -> complex_type ty ->
  (exists st' r, gpu_fft_phase data x SUCCESS st' r) /\
  forall st' r, gpu_fft_phase data x SUCCESS st' r ->
    all_or_nothing (phase_fits n m) x (fun idx v => Cmul v (RtoC (sign (nth 0 idx 0 + nth 1 idx 0)))) st' r.
Proof.
  intros Hn Hm D S W T. unfold gpu_fft_phase. cbn [failed]. rewrite (described_type _ _ _ D). destruct (phase_names ty T) as (k & -> & Rg). rewrite (view2_ok data ty x n m D S W). cbn [failed]. cbv zeta. destruct (dims2 data ty x n m D S) as (-> & ->).
  assert (Th : forall a b, 0 <= a < 4294967296 -> 0 <= b < 4294967296 -> phase_thread n m (a, b, 0) = Some (if (a <? n) && (b <? m) then [Update [a; b] ((fun idx v => Cmul v (RtoC (sign (nth 0 idx 0 + nth 1 idx 0)))) [a; b])] else [])) by (intros; now apply phase_th).
  destruct (phase_threads n m) as (tx, ty') eqn:E.
  assert (Q : 1 <= tx <= 1024 /\ 1 <= ty' <= 1024 /\ tx * ty' <= 1024 /\ (fits ty' n m <-> phase_fits n m)).
  { unfold phase_threads in E. unfold fits, phase_fits, side in *. destruct (Z.eqb_spec n 1), (Z.eqb_spec m 1); injection E as <- <-; lia. }
  destruct Q as (Q1 & Q2 & Q3 & Q4). destruct (grid2_all k n m tx ty' _ x _ Hn Hm Q1 Q2 Q3 Rg S Th) as (X & Y). split; [exact X|].
  intros st' r L. destruct (Y st' r L) as (Y1 & Y2). split; tauto.
Qed.
Print Assumptions C102_phase_partial.
Example C102_hyps : exists data x, @described C data MEM_COMPLEX_FLOAT x /\ shape x = [1; 600000] /\ writeable data /\ phase_fits 1 600000 /\ ~ fits 8 1 600000 /\ 1 * 600000 <= 2147483647.
Proof.
  exists (Some (mk_mem MEM_COMPLEX_FLOAT MEM_GPU true true false 2 600000 1 [1; 600000] [4800000; 8] (Some (0, 0)))), (mk_nd [1; 600000] (fun _ => C1)). repeat split; try discriminate; try lia. unfold fits. lia.
Qed.
Theorem C102_w_stack_partial data ty x n m sz theta ws hu hv ol om w inv : side n -> side m -> w <> 0 -> described data ty x -> shape x = [n; m] -> writeable data -> complex_type ty ->
  (exists st' r, gpu_correct_w_stack sz theta ws hu hv data ol om w inv x SUCCESS st' r) /\
  forall st' r, gpu_correct_w_stack sz theta ws hu hv data ol om w inv x SUCCESS st' r ->
    all_or_nothing (fits 16 n m) x (fun idx v => Cmul v (w_factor sz theta ws hu hv n m ol om w inv (nth 0 idx 0) (nth 1 idx 0))) st' r.
Proof.
  intros Hn Hm Hw D S W T. unfold gpu_correct_w_stack. cbn [failed orb]. replace (w =? 0) with false by lia. cbv zeta. rewrite (described_type _ _ _ D). destruct (w_stack_names ty T) as (k & -> & Rg).
  rewrite (view2_ok data ty x n m D S W). destruct (dims2 data ty x n m D S) as (-> & ->). apply grid2_all; auto; try lia.
  intros a b Ha Hb. unfold side in *. rewrite w_stack_th by (assumption || lia). reflexivity.
Qed.
Print Assumptions C102_w_stack_partial.
(** With w_offset = 0 nothing happens, on any facet. *)
Theorem C102_w_stack_zero sz theta ws hu hv data ol om inv x st' r : gpu_correct_w_stack sz theta ws hu hv data ol om 0 inv x SUCCESS st' r -> st' = SUCCESS /\ r = x.
Proof. intro H. exact H. Qed.
Print Assumptions C102_w_stack_zero.
Theorem C102_pswf_partial data ty x n m sz theta hu hv pswf pn ol om : side n -> side m -> described data ty x -> shape x = [n; m] -> writeable data -> complex_type ty \/ real_type ty ->
  shape pswf = [sz] -> 0 <= sz -> 0 <= sz / 2 - n / 2 + ol -> sz / 2 - n / 2 + ol + n <= sz -> 0 <= sz / 2 - m / 2 + om -> sz / 2 - m / 2 + om + m <= sz ->
  (exists st' r, gpu_correct_pswf sz theta hu hv pswf pn data ol om x SUCCESS st' r) /\
  forall st' r, gpu_correct_pswf sz theta hu hv pswf pn data ol om x SUCCESS st' r ->
    all_or_nothing (fits 16 n m) x (fun idx v => Cmul v (RtoC (pswf_factor sz theta hu hv pswf pn n m ol om (nth 0 idx 0) (nth 1 idx 0)))) st' r.
Proof.
  intros Hn Hm D S W T Sp Hs L1 L2 M1 M2. unfold gpu_correct_pswf. cbn [failed]. cbv zeta. rewrite (described_type _ _ _ D). destruct (pswf_names ty T) as (k & -> & Rg).
  rewrite (view2_ok data ty x n m D S W). destruct (dims2 data ty x n m D S) as (-> & ->). apply grid2_all; auto; try lia.
  intros a b Ha Hb. unfold side in *. rewrite pswf_th by (assumption || lia). reflexivity.
Qed.
Print Assumptions C102_pswf_partial.
Example C102_pswf_hyps : let p : nd R := mk_nd [8] (fun _ => 1%R) in
  shape p = [8] /\ 0 <= 8 / 2 - 2 / 2 + 1 /\ 8 / 2 - 2 / 2 + 1 + 2 <= 8 /\ 0 <= 8 / 2 - 3 / 2 + (-2) /\ 8 / 2 - 3 / 2 + (-2) + 3 <= 8.
Proof. cbn. repeat split; lia. Qed.
(** The facet must lie in the image: otherwise the kernel reads outside the table, and there is no defined run. *)
Theorem C102_pswf_outside data ty x n m sz theta hu hv pswf pn ol om st' r : side n -> side m -> fits 16 n m -> described data ty x -> shape x = [n; m] -> writeable data -> complex_type ty \/ real_type ty ->
  shape pswf = [sz] -> 0 <= sz -> gpu_correct_pswf sz theta hu hv pswf pn data ol om x SUCCESS st' r ->
  0 <= sz / 2 - n / 2 + ol /\ sz / 2 - n / 2 + ol + n <= sz /\ 0 <= sz / 2 - m / 2 + om /\ sz / 2 - m / 2 + om + m <= sz.
Proof.
  intros Hn Hm F D S W T Sp Hs. unfold gpu_correct_pswf. cbn [failed]. cbv zeta. rewrite (described_type _ _ _ D). destruct (pswf_names ty T) as (k & -> & Rg).
  rewrite (view2_ok data ty x n m D S W). destruct (dims2 data ty x n m D S) as (-> & ->). unfold launch_view. cbn [failed]. rewrite Rg. cbn [negb]. unfold side, fits in *.
  change (blocks_of n 16, blocks_of m 16, 1) with (blocks_of n 16, blocks_of m 16, blocks_of 1 1). rewrite (grid_ok_cover n m 1 16 16 1) by lia.
  match goal with |- (if negb ?g then _ else _) -> _ => replace g with true by (symmetry; repeat (apply andb_true_intro; split); lia) end. cbn [negb].
  intros (-> & m' & (ops & Fo & _) & _).
  assert (G : forall a b, 0 <= a < n -> 0 <= b < m -> 0 <= a - n / 2 + ol + sz / 2 < sz /\ 0 <= b - m / 2 + om + sz / 2 < sz).
  { intros a b Ha Hb. destruct (forall2_left _ _ _ (a, b, 0) Fo) as (o & E).
    - apply (each_thread n m 1 16 16 1); lia.
    - unfold pswf_thread in E. rewrite !u32_id, ltb_out in E by lia. replace ((a <? n) && (b <? m)) with true in E by lia. cbn [negb] in E. rewrite !cdiv2' in E by lia. unfold rd in E. rewrite Sp in E.
      destruct (in_shape [sz] [a - n / 2 + ol + sz / 2]) eqn:E1; [|discriminate]. cbn [bind] in E. destruct (in_shape [sz] [b - m / 2 + om + sz / 2]) eqn:E2; [|discriminate].
      apply in_shape_1 in E1. apply in_shape_1 in E2. lia. }
  pose proof (G 0 0 ltac:(lia) ltac:(lia)). pose proof (G (n - 1) (m - 1) ltac:(lia) ltac:(lia)). lia.
Qed.
Print Assumptions C102_pswf_outside.
(** Other types are refused, and nothing is written. *)
Theorem C102_types data x st' r : ~ complex_type (mtype data) ->
  (shape_dim data 0 * shape_dim data 1 <= 2147483647 -> gpu_fft_norm data x SUCCESS st' r -> st' = ERR_DATA_TYPE /\ r = x) /\
  (gpu_fft_phase data x SUCCESS st' r -> st' = ERR_DATA_TYPE /\ r = x) /\
  (forall sz theta ws hu hv ol om w inv, w <> 0 -> gpu_correct_w_stack sz theta ws hu hv data ol om w inv x SUCCESS st' r -> st' = ERR_DATA_TYPE /\ r = x) /\
  (forall sz theta hu hv pswf pn ol om, ~ real_type (mtype data) -> gpu_correct_pswf sz theta hu hv pswf pn data ol om x SUCCESS st' r -> st' = ERR_DATA_TYPE /\ r = x).
Proof.
  unfold complex_type, real_type. intro N. assert (N1 : mtype data =? MEM_COMPLEX_DOUBLE = false) by (apply Z.eqb_neq; tauto). assert (N2 : mtype data =? MEM_COMPLEX_FLOAT = false) by (apply Z.eqb_neq; tauto). repeat split.
  - unfold gpu_fft_norm, int_times, norm_kernel in *. cbn [failed] in *. replace (shape_dim data 0 * shape_dim data 1 <=? 2147483647) with true in * by lia. rewrite N1, N2 in *. tauto.
  - unfold gpu_fft_norm, int_times, norm_kernel in *. cbn [failed] in *. replace (shape_dim data 0 * shape_dim data 1 <=? 2147483647) with true in * by lia. rewrite N1, N2 in *. tauto.
  - unfold gpu_fft_phase, phase_kernel in *. cbn [failed] in *. rewrite N1, N2 in *. tauto.
  - unfold gpu_fft_phase, phase_kernel in *. cbn [failed] in *. rewrite N1, N2 in *. tauto.
  - unfold gpu_correct_w_stack, w_stack_kernel in *. cbn [failed orb] in *. replace (w =? 0) with false in * by lia. rewrite N1, N2 in *. exact (proj1 H0).
  - unfold gpu_correct_w_stack, w_stack_kernel in *. cbn [failed orb] in *. replace (w =? 0) with false in * by lia. rewrite N1, N2 in *. exact (proj2 H0).
  - assert (N3 : mtype data =? MEM_DOUBLE = false) by (apply Z.eqb_neq; tauto). assert (N4 : mtype data =? MEM_FLOAT = false) by (apply Z.eqb_neq; tauto). unfold gpu_correct_pswf, pswf_kernel in *. cbn [failed] in *. rewrite N1, N2, N3, N4 in *. exact (proj1 H0).
  - assert (N3 : mtype data =? MEM_DOUBLE = false) by (apply Z.eqb_neq; tauto). assert (N4 : mtype data =? MEM_FLOAT = false) by (apply Z.eqb_neq; tauto). unfold gpu_correct_pswf, pswf_kernel in *. cbn [failed] in *. rewrite N1, N2, N3, N4 in *. exact (proj2 H0).
Qed.
Print Assumptions C102_types.
