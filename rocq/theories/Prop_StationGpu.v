(** C104: station beams on the GPU. *)
From Coq Require Import Reals String Lia.
From Verif Require Import Base BaseFacts Sum CRing Cplx Clamp GpuBlock GpuBlockFacts GpuBlockFacts2 GpuLaunch GpuLaunchFacts Mem Sets SphericalWave Station StationSpec StationFacts StationGpu StationGpuSpec StationGpuFacts StationGpuFacts2 StationGpuFacts3.
Open Scope Z_scope.

Lemma types_pass w x bi b out (data_idx : option (nd Z)) (data : option (nd C)) : beam_types w x bi b out data_idx data ->
  negb (is_complex w) = false /\ has data && negb (is_complex b) = false /\ has data_idx && negb (mtype bi =? MEM_INT) = false /\ negb (is_complex out) = false.
Proof.
  intros (-> & Hb & Hi & -> & _). split; [reflexivity|]. split; [destruct data; [rewrite Hb by discriminate|]; reflexivity|]. split; [destruct data_idx; [rewrite Hi by discriminate|]; reflexivity|reflexivity].
Qed.
Lemma kernel_ok x out : mtype x = MEM_FLOAT \/ mtype x = MEM_DOUBLE -> exists name chunk, station_kernel (mtype x) (is_complex4 out) = Some (name, chunk) /\ registered name = true /\ 0 < chunk.
Proof. intros [ -> | -> ]; destruct (is_complex4 out); eexists _, _; (split; [reflexivity|]); (split; [vm_compute; reflexivity|lia]). Qed.
Lemma buffers_ok l : all_on_gpu l -> fold_left (fun st m => gpu_buffer m st) l SUCCESS = SUCCESS /\ existsb is_null l = false.
Proof.
  induction l as [|m l IH]; intro H; [split; reflexivity|]. cbn [fold_left existsb]. assert (Hm : on_gpu m) by (apply H; now left). destruct m as [m|]; [|destruct Hm].
  replace (gpu_buffer (Some m) SUCCESS) with SUCCESS. { apply IH. intros x Hx. apply H. now right. }
  unfold gpu_buffer. cbn [failed location mtype]. destruct Hm as [ -> | -> ]; [reflexivity|]. change (MEM_VOID =? MEM_VOID) with true. rewrite andb_false_r. reflexivity.
Qed.
Lemma grid_beam n : 0 <= n <= 2147483647 -> grid_ok (to_dim3 (blocks_of n 256, 1, 1)) (to_dim3 (256, 1, 1)) = (1 <=? n).
Proof.
  intro H. rewrite (blocks_of_ok n 256) by lia. pose proof (cover n 256 ltac:(lia) ltac:(lia)) as Cv. unfold to_dim3, grid_ok. rewrite (Z.mod_small ((n + 256 - 1) / 256)) by lia. rewrite <- (some_blocks n 256) by lia.
  set (q := (n + 256 - 1) / 256) in *. clearbody q. change (1 mod 4294967296) with 1. change (256 mod 4294967296) with 256. replace (q <=? 2147483647) with true by lia.
  rewrite !andb_true_r. reflexivity.
Qed.
Definition start (weights : nd C) (x_in y_in z_in x_out y_out : nd R) (z_out : option (nd R)) (idx : option (nd Z)) (data : option (nd C)) (output : nd C) (l : loc) : val :=
  match l with
  | Weight i => Cx (elem weights [i]) | ElemX i => Re (elem x_in [i]) | ElemY i => Re (elem y_in [i]) | ElemZ i => Re (elem z_in [i]) | PointX i => Re (elem x_out [i]) | PointY i => Re (elem y_out [i])
  | PointZ i => match z_out with Some a => Re (elem a [i]) | None => Re 0 end | Index i => match idx with Some a => Int (elem a [i]) | None => Int 0 end
  | Data i => match data with Some a => Cx (elem a [i]) | None => Cx C0 end | Out i => Cx (elem output [i]) | _ => Int 0
  end.
Lemma start_holds weights x_in y_in z_in x_out y_out z_out idx data output : holds weights x_in y_in z_in x_out y_out z_out idx data output (start weights x_in y_in z_in x_out y_out z_out idx data output).
Proof. repeat (split; [intros; subst; reflexivity|]). intros; reflexivity. Qed.

(** In every schedule of the threads the call succeeds, never accesses memory that is not there, and the output is the beam of C57; no other element changes. *)
Theorem C104_beam k w x y z px py pz bi b out weights x_in y_in z_in off_pts num_points x_out y_out z_out idx data off_output output (normalise eval_x eval_y : bool) :
  beam_types w x bi b out idx data -> all_on_gpu [w; x; y; z; px; py; pz; bi; b; out] -> num_elements x <= 2147483647 -> 1 <= num_points ->
  beam_sizes (beam_pols out) (num_elements x) off_pts num_points off_output weights x_in y_in z_in x_out y_out z_out idx data output ->
  let call := gpu_station_beam k w x y z px py pz bi b out weights x_in y_in z_in off_pts num_points x_out y_out z_out idx data off_output output normalise eval_x eval_y SUCCESS in
  (exists res, call res) /\ forall res, call res -> exists r, res = Some (SUCCESS, r) /\ shape r = shape output /\
    (forall j p, 0 <= j < num_points -> evaluated (beam_pols out) eval_x eval_y p = true -> elem r [beam_pols out * (j + off_output) + p] =
      beam_sum (num_elements x) (fun i => elem weights [i]) (fun i => elem x_in [i]) (fun i => elem y_in [i]) (fun i => elem z_in [i]) k
        (elem x_out [j + off_pts]) (elem y_out [j + off_pts]) (direction_z z_out (j + off_pts)) (fun i => beam_response (beam_pols out) num_points idx data i j p) (if normalise then 1 / IZR (num_elements x) else 1)%R) /\
    (forall i, 0 <= i -> in_shape (shape output) [i] = true -> (forall j p, 0 <= j < num_points -> evaluated (beam_pols out) eval_x eval_y p = true -> i <> beam_pols out * (j + off_output) + p) -> elem r [i] = elem output [i]).
Proof.
  intros T G Hx Hp B call. unfold call, gpu_station_beam. cbn [failed]. clear call. assert (Hn : 0 <= num_elements x <= 2147483647) by (split; [apply B|exact Hx]). rewrite to_int_in by exact Hn. cbn iota.
  assert (Np : 1 <= num_points <= 2147483647) by (destruct B as (_ & ? & _ & _ & _ & _ & _ & _ & _ & _ & _ & _ & _ & _ & ? & _); lia).
  destruct (kernel_ok x out ltac:(apply T)) as (name & chunk & Ek & Rg & Hc). destruct (buffers_ok _ G) as (Eb & En).
  assert (Pol : beam_pols out = 1 \/ beam_pols out = 4) by (unfold beam_pols; destruct (is_complex4 out); auto).
  set (norm := (if normalise then 1 / IZR (num_elements x) else 1)%R).
  assert (Cl : forall m0 m' g, holds weights x_in y_in z_in x_out y_out z_out idx data output m0 ->
    gexec loc_eqb (blocks_of num_points 256) 256 (m0, station_thread (beam_pols out) k (num_elements x) off_pts num_points (has z_out) (has idx) (has data) off_output norm eval_x eval_y chunk) (m', g) -> _) by
    exact (fun m0 m' g M0 => grid_claim (beam_pols out) (num_elements x) off_pts num_points off_output weights x_in y_in z_in x_out y_out z_out idx data output k norm eval_x eval_y chunk m0 Pol B Hc M0 (blocks_of num_points 256) m' g
      ltac:(rewrite (blocks_of_ok num_points 256) by lia; pose proof (cover num_points 256 ltac:(lia) ltac:(lia)); lia)).
  destruct (types_pass w x bi b out idx data T) as (T1 & T2 & T3 & T4). rewrite T1, T2, T3, T4, Ek. cbv zeta. rewrite Eb. cbn [failed]. rewrite Rg, En. cbn [negb]. rewrite (grid_beam num_points) by lia. replace (1 <=? num_points) with true by lia. cbn [negb].
  change (if is_complex4 out then 4 else 1) with (beam_pols out). fold norm. split.
  - destruct (launch_ends loc_eqb (blocks_of num_points 256) 256 (2 * Z.to_nat (num_elements x) + 0)
      (station_thread (beam_pols out) k (num_elements x) off_pts num_points (has z_out) (has idx) (has data) off_output norm eval_x eval_y chunk) (start weights x_in y_in z_in x_out y_out z_out idx data output) ltac:(lia)) as (m' & L).
    { intros. apply thread_syncs. }
    exists (Some (SUCCESS, out_array output m')), (start weights x_in y_in z_in x_out y_out z_out idx data output). split; [apply start_holds|]. left. exists m'. auto.
  - intros res (m0 & M0 & [(m' & (g & E & Fi) & ->)|((m' & g & c & t & l & E & Hc' & Ht & Nx & Bad) & _)]).
    2:{ exfalso. destruct (Cl m0 m' g M0 E) as (S & _). exact (Bad (S c t l Hc' Ht Nx)). }
    destruct (Cl m0 m' g M0 E) as (_ & P). destruct (P Fi) as (P1 & P2). clear Cl P. exists (out_array output m'). split; [reflexivity|]. split; [reflexivity|].
    pose proof (cover num_points 256 ltac:(lia) ltac:(lia)) as Cv. rewrite <- (blocks_of_ok num_points 256) in Cv by lia.
    assert (Sp : forall j, 0 <= j < num_points -> 0 <= j / 256 < blocks_of num_points 256 /\ 0 <= j mod 256 < 256 /\ j / 256 * 256 + j mod 256 = j).
    { intros j Hj. pose proof (Z.div_mod j 256 ltac:(lia)). pose proof (Z.mod_pos_bound j 256 ltac:(lia)). lia. }
    split.
    + intros j p Hj He. destruct (Sp j Hj) as (S1 & S2 & S3). cbn [out_array elem]. specialize (P1 (j / 256) (j mod 256) p S1 S2). rewrite S3 in P1. rewrite P1 by (lia || exact He). reflexivity.
    + intros i Hi In Ne. cbn [out_array elem]. rewrite P2; [destruct M0 as (_ & _ & _ & _ & _ & _ & _ & _ & _ & A10); rewrite (A10 i In); reflexivity|].
      intros c t Hcc Ht Lv (p & He & Q). exact (Ne (c * 256 + t) p ltac:(lia) He Q).
Qed.
Print Assumptions C104_beam.

(** Same result as on the CPU: the two calls agree on every element. *)
Theorem C104_cpu k w x y z px py pz bi b out weights x_in y_in z_in off_pts num_points x_out y_out z_out idx data off_output output (normalise eval_x eval_y : bool) r res :
  beam_types w x bi b out idx data -> all_on_gpu [w; x; y; z; px; py; pz; bi; b; out] -> num_elements x <= 2147483647 -> 1 <= num_points ->
  beam_sizes (beam_pols out) (num_elements x) off_pts num_points off_output weights x_in y_in z_in x_out y_out z_out idx data output ->
  station_beam_dft (beam_pols out) k (num_elements x) weights x_in y_in z_in off_pts num_points x_out y_out z_out idx data off_output output (if normalise then 1 / IZR (num_elements x) else 1)%R eval_x eval_y = Some r ->
  gpu_station_beam k w x y z px py pz bi b out weights x_in y_in z_in off_pts num_points x_out y_out z_out idx data off_output output normalise eval_x eval_y SUCCESS res ->
  exists r', res = Some (SUCCESS, r') /\ nd_eq r' r.
Proof.
  intros T G Hx Hp B E C. destruct (C104_beam k w x y z px py pz bi b out weights x_in y_in z_in off_pts num_points x_out y_out z_out idx data off_output output normalise eval_x eval_y T G Hx Hp B) as (_ & U).
  destruct (U res C) as (r' & -> & S & V & N). exists r'. split; [reflexivity|].
  assert (Pol : beam_pols out = 1 \/ beam_pols out = 4) by (unfold beam_pols; destruct (is_complex4 out); auto).
  assert (Sn : exists n, shape output = [n]). { destruct B as (_ & _ & _ & _ & _ & _ & _ & _ & _ & _ & _ & _ & (n & Q & _) & _). eauto. } destruct Sn as (n & Sn).
  destruct (beam_sets (beam_pols out) (num_elements x) off_pts num_points off_output weights x_in y_in z_in x_out y_out z_out idx data output k (if normalise then 1 / IZR (num_elements x) else 1)%R eval_x eval_y Pol B n Sn output Sn) as (q & F & S' & P & Q).
  rewrite F in E. injection E as ->. split; [congruence|]. intros ix Hix. rewrite S, Sn in Hix. destruct ix as [|i [|? ?]]; [discriminate Hix| |cbn in Hix; rewrite andb_false_r in Hix; discriminate Hix]. assert (Hi : 0 <= i < n) by (apply in_shape_1; exact Hix).
  destruct (own_all 0 num_points (own (beam_pols out) off_output eval_x eval_y) [i]) eqn:O.
  - pose proof O as O2. apply own_all_true in O2. destruct O2 as (j & Hj & O2). apply own_spec in O2; [|exact Pol]. destruct O2 as (p & He & Ei). injection Ei as ->. rewrite (V j p Hj He). symmetry. apply (P [beam_pols out * (j + off_output) + p]); auto.
  - rewrite (Q [i] O). apply N; [lia|rewrite Sn; exact Hix|]. intros j p Hj He Ei. pose proof (proj1 (own_all_false _ _ _ _) O j Hj) as O'.
    assert (own (beam_pols out) off_output eval_x eval_y j [i] = true) by (apply own_spec; [exact Pol|]; exists p; subst i; auto). congruence.
Qed.
Print Assumptions C104_cpu.

(** Refused calls do not change the output: an earlier error is passed on; unsupported types and arrays in other memory are an error; so is a call without points. *)
Theorem C104_refused k w x y z px py pz bi b out weights x_in y_in z_in off_pts num_points x_out y_out z_out idx data off_output output (normalise eval_x eval_y : bool) :
  let call := gpu_station_beam k w x y z px py pz bi b out weights x_in y_in z_in off_pts num_points x_out y_out z_out idx data off_output output normalise eval_x eval_y in
  (forall st, st <> SUCCESS -> forall res, call st res <-> res = Some (st, output)) /\
  (0 <= num_elements x <= 2147483647 -> ~ beam_types w x bi b out idx data -> forall res, call SUCCESS res <-> res = Some (ERR_DATA_TYPE, output)) /\
  (0 <= num_elements x <= 2147483647 -> beam_types w x bi b out idx data -> (exists a, In (Some a) [w; x; y; z; px; py; pz; bi; b; out] /\ ~ on_gpu (Some a)) ->
    forall res, call SUCCESS res <-> res = Some (ERR_MEM_LOCATION, output)) /\
  (0 <= num_elements x <= 2147483647 -> beam_types w x bi b out idx data -> all_on_gpu [w; x; y; z; px; py; pz; bi; b; out] -> num_points = 0 ->
    forall res, call SUCCESS res <-> res = Some (ERR_RUNTIME, output)).
Proof.
  intro call. unfold call, gpu_station_beam. clear call. split; [|split; [|split]].
  - intros st N res. replace (failed st) with true by (destruct st; cbn; congruence). tauto.
  - intros Hn N res. cbn [failed]. rewrite to_int_in by exact Hn. cbn iota.
    destruct (is_complex w) eqn:E1; cbn [negb]; [|tauto]. destruct (has data && negb (is_complex b)) eqn:E2; [tauto|]. destruct (has idx && negb (mtype bi =? MEM_INT)) eqn:E3; [tauto|].
    destruct (is_complex out) eqn:E4; cbn [negb]; [|tauto].
    assert (Nx : mtype x <> MEM_FLOAT /\ mtype x <> MEM_DOUBLE).
    { assert (Nx : ~ (mtype x = MEM_FLOAT \/ mtype x = MEM_DOUBLE)); [|tauto]. intro Q. apply N. split; [exact E1|]. split; [|split; [|split; [exact E4|exact Q]]].
      - intro D. destruct data; [|congruence]. cbn in E2. now apply negb_false_iff in E2.
      - intro D. destruct idx; [|congruence]. cbn in E3. apply negb_false_iff in E3. now apply Z.eqb_eq in E3. }
    unfold station_kernel. rewrite (proj2 (Z.eqb_neq _ _) (proj1 Nx)), (proj2 (Z.eqb_neq _ _) (proj2 Nx)). cbn [andb]. tauto.
  - intros Hn T H res. cbn [failed]. rewrite to_int_in by exact Hn. cbn iota. destruct (types_pass w x bi b out idx data T) as (T1 & T2 & T3 & T4). rewrite T1, T2, T3, T4.
    destruct (kernel_ok x out ltac:(apply T)) as (name & chunk & Ek & Rg & Hc). rewrite Ek. cbv zeta.
    assert (L : forall l, (exists a, In (Some a) l /\ ~ on_gpu (Some a)) -> fold_left (fun st m => gpu_buffer m st) l SUCCESS = ERR_MEM_LOCATION).
    { assert (K : forall l, fold_left (fun st m => gpu_buffer m st) l ERR_MEM_LOCATION = ERR_MEM_LOCATION) by (induction l as [|m l IH]; [reflexivity|exact IH]).
      induction l as [|m l IH]; intros (a & Ia & Na); [destruct Ia|]. cbn [fold_left]. destruct m as [m|].
      - destruct ((m_loc m =? MEM_GPU) || (m_type m =? MEM_VOID)) eqn:O.
        + replace (gpu_buffer (Some m) SUCCESS) with SUCCESS by (unfold gpu_buffer; cbn [failed location mtype]; destruct (m_loc m =? MEM_GPU), (m_type m =? MEM_VOID); cbn in *; congruence).
          apply IH. exists a. split; [|exact Na]. destruct Ia as [Ia|Ia]; [|exact Ia]. injection Ia as ->. exfalso. apply Na. cbn. apply orb_prop in O. destruct O as [O|O]; apply Z.eqb_eq in O; auto.
        + replace (gpu_buffer (Some m) SUCCESS) with ERR_MEM_LOCATION by (unfold gpu_buffer; cbn [failed location mtype]; destruct (m_loc m =? MEM_GPU), (m_type m =? MEM_VOID); cbn in *; congruence). apply K.
      - apply IH. exists a. split; [|exact Na]. destruct Ia as [Ia|Ia]; [discriminate|exact Ia]. }
    rewrite (L _ H). cbn [failed]. tauto.
  - intros Hn T G -> res. cbn [failed]. rewrite to_int_in by exact Hn. cbn iota. destruct (types_pass w x bi b out idx data T) as (T1 & T2 & T3 & T4). rewrite T1, T2, T3, T4.
    destruct (kernel_ok x out ltac:(apply T)) as (name & chunk & Ek & Rg & Hc). rewrite Ek. cbv zeta. destruct (buffers_ok _ G) as (Eb & En). rewrite Eb. cbn [failed]. rewrite Rg, En. cbn [negb]. rewrite (grid_beam 0) by lia. cbn [Z.leb Z.compare negb]. tauto.
Qed.
Print Assumptions C104_refused.

Lemma none_buffer st : gpu_buffer None st = st.
Proof. unfold gpu_buffer. destruct (failed st); reflexivity. Qed.
(** A null pointer in the place of an optional array, which the CPU accepts, is not accepted on the GPU: the launch is given an argument that is not there. *)
Theorem C104_null_refuted k w x y z px py pz bi out weights x_in y_in z_in off_pts num_points x_out y_out z_out idx off_output output (normalise eval_x eval_y : bool) :
  beam_types w x bi None out idx None -> all_on_gpu [w; x; y; z; px; py; pz; bi; out] -> 0 <= num_elements x <= 2147483647 ->
  forall res, gpu_station_beam k w x y z px py pz bi None out weights x_in y_in z_in off_pts num_points x_out y_out z_out idx None off_output output normalise eval_x eval_y SUCCESS res <-> res = None.
Proof.
  intros T G Hn res. unfold gpu_station_beam. cbn [failed]. rewrite to_int_in by exact Hn. cbn iota. destruct (types_pass w x bi None out idx None T) as (T1 & T2 & T3 & T4). rewrite T1, T2, T3, T4.
  destruct (kernel_ok x out ltac:(apply T)) as (name & chunk & Ek & Rg & Hc). rewrite Ek. cbv zeta. destruct (buffers_ok _ G) as (Eb & En).
  replace (fold_left (fun st m => gpu_buffer m st) [w; x; y; z; px; py; pz; bi; None; out] SUCCESS) with SUCCESS by (cbn [fold_left] in *; rewrite none_buffer; symmetry; exact Eb).
  cbn [failed]. rewrite Rg. cbn [negb]. cbn [existsb is_null orb]. replace (is_null w || (is_null x || (is_null y || (is_null z || (is_null px || (is_null py || (is_null pz || (is_null bi || true)))))))) with true by now rewrite !orb_true_r. tauto.
Qed.
Print Assumptions C104_null_refuted.

(** The shared memory of a block, sdp_station.cu 46-50 with sdp_station.cpp 331-360: bytes of the parts for [c] elements of precision [fp] bytes: weights (2 numbers each), x and y
    (2 numbers), indices (an int each), z.  They follow each other, every part begins at a multiple of the size of what it holds (of the two numbers for weights and x, y), and they
    end at the size that the host asks for. *)
Theorem C104_layout precision c4 name c : station_kernel precision c4 = Some (name, c) -> let fp := type_size precision in
  (0 + c * (2 * fp)) mod (2 * fp) = 0 /\ (0 + c * (2 * fp) + c * (2 * fp)) mod 4 = 0 /\ (0 + c * (2 * fp) + c * (2 * fp) + c * 4) mod fp = 0 /\
  0 + c * (2 * fp) + c * (2 * fp) + c * 4 + c * fp = c * (5 * fp + 4) /\ c * (5 * fp + 4) <= 49152 /\ registered name = true.
Proof.
  unfold station_kernel. cbv zeta. destruct (Z.eqb_spec precision MEM_FLOAT) as [ -> |]; [|destruct (Z.eqb_spec precision MEM_DOUBLE) as [ -> |]]; destruct c4; cbn [andb negb]; intro E; try discriminate E; injection E as <- <-;
    (split; [reflexivity|]; split; [reflexivity|]; split; [reflexivity|]; split; [reflexivity|]; split; [vm_compute; discriminate|vm_compute; reflexivity]).
Qed.
Print Assumptions C104_layout.

(** A call to which C104_beam applies: 2 elements, 4 polarisations, one point, element responses *)
Definition gpu_arr (ty : Z) (sh : list Z) : option Mem.mem := Some (fst (create_wrapper (Some (1, 0)) ty MEM_GPU sh None SUCCESS)).
Definition dat {A} (v : A) (n : Z) : nd A := mk_nd [n] (fun _ => v).
Example C104_hyps : let w := gpu_arr MEM_COMPLEX_DOUBLE [2] in let x := gpu_arr MEM_DOUBLE [2] in let p := gpu_arr MEM_DOUBLE [1] in let bi := gpu_arr MEM_INT [2] in
  let b := gpu_arr MEM_COMPLEX_DOUBLE [2; 1; 4] in let out := gpu_arr MEM_COMPLEX_DOUBLE [1; 4] in
  beam_types w x bi b out None (Some (dat C1 8)) /\ all_on_gpu [w; x; x; x; p; p; p; bi; b; out] /\ num_elements x <= 2147483647 /\
  beam_sizes (beam_pols out) (num_elements x) 0 1 0 (dat C1 2) (dat 0%R 2) (dat 0%R 2) (dat 0%R 2) (dat 0%R 1) (dat 0%R 1) None None (Some (dat C1 8)) (dat C0 4).
Proof.
  split; [|split; [|split]].
  - split; [reflexivity|]. split; [intros _; reflexivity|]. split; [congruence|]. split; [reflexivity|]. right; reflexivity.
  - intros m Hm. repeat (destruct Hm as [<-|Hm]; [left; reflexivity|]). destruct Hm.
  - vm_compute. discriminate.
  - change (beam_pols _) with 4. change (num_elements _) with 2.
    assert (A : forall T (v : T) n m, m <= n -> at_least (dat v n) m) by (intros; eexists; split; [reflexivity|assumption]).
    unfold beam_sizes. repeat apply conj; try (apply A; lia); try lia; try discriminate.
    intros d E i Hi. injection E as <-. cbn [beam_index]. split; [lia|]. split; [apply A; lia|lia].
Qed.
