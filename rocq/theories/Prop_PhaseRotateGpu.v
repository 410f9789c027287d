(** C93: phase rotation in GPU memory gives what it gives in CPU memory.  Exact arithmetic. *)
From Coq Require Import Reals Lra Lia String.
From Verif Require Import Base BaseFacts Mem MemSpec Checks ChecksFacts CRing Cplx Sets FftSpec FftFacts Dft DftSpec DftFacts2 GpuSpec DftGpuSpec PhaseRotate PhaseRotateSpec PhaseRotateFacts Prop_PhaseRotate Gpu GpuFacts GpuLaunch GpuLaunchFacts PhaseRotateGpu PhaseRotateGpuFacts.
Open Scope Z_scope.

Lemma uvw_kernel_cases uin uout : let ok := ((mtype uin =? MEM_DOUBLE) && (mtype uout =? MEM_DOUBLE)) || ((mtype uin =? MEM_FLOAT) && (mtype uout =? MEM_FLOAT)) in
  (ok = true /\ exists n, rotate_uvw_kernel uin uout = Some n /\ registered n = true) \/ (ok = false /\ rotate_uvw_kernel uin uout = None).
Proof.
  cbv zeta. unfold rotate_uvw_kernel. destruct (_ && _); cbn [orb]; [left; split; [reflexivity|]; eexists; split; reflexivity|]. destruct (_ && _); [left; split; [reflexivity|]; eexists; split; reflexivity|]. right. auto.
Qed.
Lemma vis_kernel_cases uvw vin vout : let ok := ((mtype uvw =? MEM_DOUBLE) && (mtype vin =? MEM_COMPLEX_DOUBLE) && (mtype vout =? MEM_COMPLEX_DOUBLE)) ||
     ((mtype uvw =? MEM_FLOAT) && (mtype vin =? MEM_COMPLEX_FLOAT) && (mtype vout =? MEM_COMPLEX_FLOAT)) in
  (ok = true /\ exists n, rotate_vis_kernel uvw vin vout = Some n /\ registered n = true) \/ (ok = false /\ rotate_vis_kernel uvw vin vout = None).
Proof.
  cbv zeta. unfold rotate_vis_kernel. destruct (_ && _); cbn [orb]; [left; split; [reflexivity|]; eexists; split; reflexivity|]. destruct (_ && _); [left; split; [reflexivity|]; eexists; split; reflexivity|]. right. auto.
Qed.

(** The call on GPU memory always completes.  Whatever the schedule, status and coordinates are those of the CPU version, except that a call without any
    baselines is an error.  Partial: fewer than 2^32 baselines. *)
Theorem C93_uvw_partial orig new alias uin uout in_d out_d st : mem_wf uin -> mem_wf uout -> contents uin in_d -> contents uout out_d -> (alias = true -> in_d = out_d) ->
  rows uin <= 4294967295 ->
  (exists st' r, gpu_phase_rotate_uvw orig new alias (Some uin) (Some uout) in_d out_d st st' r) /\
  exists sc rc, phase_rotate_uvw orig new alias (Some uin) (Some uout) in_d out_d st = Some (sc, rc) /\
    forall st' r, gpu_phase_rotate_uvw orig new alias (Some uin) (Some uout) in_d out_d st st' r -> agrees (1 <= rows uin) out_d sc rc st' r.
Proof.
  intros W1 W2 C1 C2 Al Hr. destruct (uvw_api orig new alias uin uout in_d out_d st W1 W2 C1 C2 Al) as (sc & rc & E & Sh & Nn & P).
  unfold gpu_phase_rotate_uvw. unfold phase_rotate_uvw in E |- *.
  destruct (failed st) eqn:F.
  { injection E as <- <-. split; [eauto|]. eexists _, _. split; [reflexivity|]. intros st' r (-> & ->). split; [auto|]. split; intros ->; discriminate. }
  apply failed_false in F. subst st. pose proof (rotate_uvw_checks uin uout SUCCESS W1 W2) as K. cbv zeta in E, K |- *.
  destruct (get_uvw_metadata (Some uin) (check_writeable (Some uout) SUCCESS)) as [md s1] eqn:M.
  set (d := match md with Some x => x | None => _ end) in *. destruct d as [[[ty loc] nt] nb] eqn:Ed. subst d.
  destruct (failed (check_uvw _ _ _ _ _ _)) eqn:F.
  { injection E as <- <-. split; [eauto|]. eexists _, _. split; [reflexivity|]. intros st' r (-> & ->). split; [auto|]. split; intros X; rewrite X in F; discriminate. }
  apply failed_false in F. specialize (K F). destruct K as (nt' & nb' & D1 & D2). rewrite F in E |- *.
  assert (s1 = SUCCESS) as ->. { destruct s1; try reflexivity; unfold check_uvw in F; cbn in F; discriminate. }
  apply uvw_md_ok in M; [|exact W1]. destruct M as (nt2 & nb2 & _ & D3 & ->). injection Ed as <- <- <- <-.
  rewrite D1 in D3. injection D3 as <- <-.
  destruct (uvw_kernel_cases (Some uin) (Some uout)) as [(Ty & n & En & Rg)|(Ty & En)]; rewrite Ty in E |- *; rewrite En.
  2:{ injection E as <- <-. split; [eexists _, _, _; split; cbn; eauto|]. eexists _, _. split; [reflexivity|]. intros st' r (y & L & ->). cbn in L. destruct L as (-> & ->). cbn [failed].
      split; [auto|]. split; discriminate. }
  destruct (rotate_uvw _ _ _ _ _) as [r0|] eqn:E0; [|discriminate]. cbn [bind] in E |- *. injection E as <- <-. destruct (P eq_refl) as (Sm & Hrow & S3 & Q).
  assert (Rw : rows uin = nt' * nb') by (unfold rows; now rewrite D1). rewrite Rw in *.
  assert (Si : shape (as_rows in_d) = [nt' * nb']). { unfold as_rows. cbn [shape]. destruct C1 as (-> & _). rewrite D1. unfold product. cbn [fold_right]. f_equal. replace (nt' * (nb' * (3 * 1)) * 1) with (nt' * nb' * 3) by ring. apply Z.div_mul. lia. }
  assert (So : shape (as_rows out_d) = [nt' * nb']). { unfold as_rows. cbn [shape]. destruct C2 as (-> & _). rewrite D2. unfold product. cbn [fold_right]. f_equal. replace (nt' * (nb' * (3 * 1)) * 1) with (nt' * nb' * 3) by ring. apply Z.div_mul. lia. }
  assert (Sz : product (shape out_d) / 3 = nt' * nb') by (unfold as_rows in So; cbn [shape] in So; now injection So). rewrite Sz.
  assert (Al' : alias = true -> as_rows in_d = as_rows out_d) by (intro A; now rewrite (Al A)).
  split.
  - assert (X : exists st' y, launch_kernel (fun a _ => a) (Some n) (blocks_of (nt' * nb') 256, 1, 1) (256, 1, 1) (rotate_uvw_thread alias (nt' * nb') (rot_matrix orig new) (as_rows in_d) (nt' * nb')) SUCCESS (as_rows out_d) st' y) by (eapply uvw_launch_exists; auto; lia). destruct X as (st' & y & L). exists st'. eexists. exists y. split; [exact L|reflexivity].
  - eexists _, _. split; [reflexivity|]. intros st' r (y & L & ->).
    eapply uvw_launch in L; [|auto; lia..].
    destruct (Z.leb_spec 1 (nt' * nb')).
    + destruct L as (-> & Sy & V). cbn [failed]. split; [congruence|]. split; [intros _ X; lia|]. intros _ _. split; [reflexivity|]. split; [cbn [of_rows shape]; now rewrite Sh|].
      intros idx Ii. cbn [of_rows shape] in Ii. rewrite <- Sh, S3 in Ii. destruct idx as [|k [|]]; try (cbn in Ii; rewrite ?andb_false_r in Ii; discriminate). apply in_shape_1 in Ii.
      cbn [of_rows elem hd]. pose proof (Z.div_mod k 3 ltac:(lia)) as Dm. pose proof (Z.mod_pos_bound k 3 ltac:(lia)) as Bm. assert (Hk : 0 <= k / 3 < nt' * nb') by (split; [apply Z.div_pos; lia|apply Z.div_lt_upper_bound; lia]).
      rewrite (V (k / 3) Hk). specialize (Q (k / 3) Hk). cbv zeta in Q. unfold as_rows. cbn [elem hd]. unfold rotate_row.
      unfold row in Q. injection Q as Q0 Q1 Q2. cbn [vx vy vz] in Q0, Q1, Q2. rewrite (Z.add_0_r (3 * (k / 3))) in Q0, Q1, Q2.
      destruct (Z.eqb_spec (k mod 3) 0) as [E0'|]; [|destruct (Z.eqb_spec (k mod 3) 1) as [E1'|]].
      * replace [k] with [3 * (k / 3)] by (f_equal; lia). now rewrite Q0.
      * replace [k] with [3 * (k / 3) + 1] by (f_equal; lia). now rewrite Q1.
      * replace [k] with [3 * (k / 3) + 2] by (f_equal; lia). now rewrite Q2.
    + destruct L as (-> & ->). cbn [failed]. split; [congruence|]. split; [auto|]. intros _ X. lia.
Qed.
Print Assumptions C93_uvw_partial.

(** The same for visibilities: a call that does not fit in a grid of threads is an error.  Partial: fewer than 2^32 times, baselines and channels. *)
Theorem C93_vis_partial orig new f0 df alias uvw vin vout uvw_d in_d out_d st : mem_wf uvw -> mem_wf vin -> mem_wf vout ->
  contents uvw uvw_d -> contents vin in_d -> contents vout out_d -> (alias = true -> in_d = out_d) ->
  Forall (fun n => n <= 4294967295) (m_shape vout) ->
  (exists st' r, gpu_phase_rotate_vis orig new f0 df alias (Some uvw) (Some vin) (Some vout) uvw_d in_d out_d st st' r) /\
  exists sc rc, phase_rotate_vis orig new f0 df alias (Some uvw) (Some vin) (Some vout) uvw_d in_d out_d st = Some (sc, rc) /\
    forall st' r, gpu_phase_rotate_vis orig new f0 df alias (Some uvw) (Some vin) (Some vout) uvw_d in_d out_d st st' r -> agrees (fits_grid vout) out_d sc rc st' r.
Proof.
  intros W1 W2 W3 (S1 & F1) (S2 & F2) (S3 & F3) Al B3. unfold gpu_phase_rotate_vis, phase_rotate_vis.
  destruct (failed st) eqn:F.
  { split; [eauto|]. eexists _, _. split; [reflexivity|]. intros st' r (-> & ->). split; [auto|]. split; intros ->; discriminate. }
  apply failed_false in F. subst st. cbv zeta.
  destruct (get_vis_metadata _ _) as [md s1] eqn:M.
  set (d := match md with Some x => x | None => _ end) in *. destruct d as [[[[[ty loc] nt] nb] nc] np] eqn:Ed. subst d.
  destruct (failed (check_uvw _ _ _ _ _ _)) eqn:F.
  { split; [eauto|]. eexists _, _. split; [reflexivity|]. intros st' r (-> & ->). split; [auto|]. split; intros X; rewrite X in F; discriminate. }
  apply failed_false in F. rewrite F. apply uvw_ok in F; [|exact W1]. destruct F as [F Du]. apply vis_chk_ok in F; [|exact W2]. destruct F as [-> Di].
  assert (check_location (Some vout) (location (Some uvw)) (check_writeable (Some vout) SUCCESS) = SUCCESS) as K.
  { revert M. generalize (check_location (Some vout) (location (Some uvw)) (check_writeable (Some vout) SUCCESS)). intros s0 M.
    unfold get_vis_metadata in M. destruct (failed s0) eqn:F; [injection M as _ M; rewrite M in F; discriminate|]. now apply failed_false. }
  rewrite K in M. apply vis_md_ok in M; [|exact W3]. destruct M as (nt' & nb' & nc' & np' & Do & Hp & ->). injection Ed as <- <- <- <- <- <-.
  destruct (vis_kernel_cases (Some uvw) (Some vin) (Some vout)) as [(Ty & n & En & Rg)|(Ty & En)]; rewrite Ty, En.
  2:{ split; [eexists _, _; cbn; eauto|]. eexists _, _. split; [reflexivity|]. intros st' r L. cbn in L. destruct L as (-> & ->). split; [auto|]. split; discriminate. }
  unfold fits_grid, size. rewrite Du in *. rewrite Di in *. rewrite Do in *. rewrite !Forall_cons_iff in *. unfold product in *. cbn [fold_right nth] in *.
  assert (Sv : shape out_d = [nt' * nb' * nc' * np']) by (rewrite S3; f_equal; ring). rewrite Sv. cbn [fold_right]. replace (nt' * nb' * nc' * np' * 1) with (nt' * nb' * nc' * np') by ring.
  assert (Sn : shape in_d = [nt' * nb' * nc' * np']) by (rewrite S2; f_equal; ring).
  assert (Su : shape uvw_d = [3 * (nt' * nb')]) by (rewrite S1; f_equal; ring).
  match goal with |- context [rotate_vis alias nt' nb' nc' np' f0 df ?l ?m ?n uvw_d in_d out_d] =>
    set (dl := l); set (dm := m); set (dn := n);
    destruct (rotate_vis_ok alias nt' nb' nc' np' f0 df dl dm dn uvw_d in_d out_d (nt' * nb' * nc' * np')) as (r0 & E & S & P) end; auto; [lia|].
  rewrite E. cbn [bind]. split.
  - eapply vis_launch_exists; auto; lia.
  - eexists _, _. split; [reflexivity|]. intros st' r L.
    eapply vis_launch in L; [|auto; lia..].
    match type of L with if ?g then _ else _ => destruct g eqn:G end.
    + destruct L as (-> & Sr & V). split; [congruence|]. split; [intros _ X; exfalso; apply X; lia|]. intros _ _. split; [reflexivity|]. split; [congruence|]. rewrite Sr.
      intros idx Ii. destruct idx as [|k [|]]; try (cbn in Ii; rewrite ?andb_false_r in Ii; discriminate). apply in_shape_1 in Ii.
      assert (X : exists t b c p, 0 <= t < nt' /\ 0 <= b < nb' /\ 0 <= c < nc' /\ 0 <= p < np' /\ k = pos4 nb' nc' np' t b c p).
      { assert (Np : 0 < np') by lia. pose proof (Z.div_mod k np' ltac:(lia)). pose proof (Z.mod_pos_bound k np' Np). set (k1 := k / np') in *.
        assert (0 <= k1 < nt' * nb' * nc') by (split; [apply Z.div_pos; lia|apply Z.div_lt_upper_bound; lia]).
        pose proof (Z.div_mod k1 nc' ltac:(lia)). pose proof (Z.mod_pos_bound k1 nc' ltac:(lia)). set (k2 := k1 / nc') in *.
        assert (0 <= k2 < nt' * nb') by (split; [apply Z.div_pos; lia|apply Z.div_lt_upper_bound; lia]).
        pose proof (Z.div_mod k2 nb' ltac:(lia)). pose proof (Z.mod_pos_bound k2 nb' ltac:(lia)).
        assert (0 <= k2 / nb' < nt') by (split; [apply Z.div_pos; lia|apply Z.div_lt_upper_bound; lia]).
        exists (k2 / nb'), (k2 mod nb'), (k1 mod nc'), (k mod np'). repeat split; try lia. unfold pos4. congruence. }
      destruct X as (t & b & c & p & H1 & H2 & H3 & H4 & ->). rewrite V, P by assumption. unfold turn. csolve.
    + destruct L as (-> & ->). split; [congruence|]. split; [auto|]. intros _ X. exfalso. lia.
Qed.
Print Assumptions C93_vis_partial.

Definition big : Z := 4294967297.
Definition big_table : mem := fst (create_wrapper (Some (1, 0)) MEM_DOUBLE MEM_GPU [1; big; 3] None SUCCESS).
Lemma big_md : get_uvw_metadata (Some big_table) (check_writeable (Some big_table) SUCCESS) = (Some (MEM_DOUBLE, MEM_GPU, 1, big), SUCCESS).
Proof. vm_compute. reflexivity. Qed.
Lemma big_check : check_uvw (Some big_table) MEM_DOUBLE MEM_GPU 1 big SUCCESS = SUCCESS.
Proof. vm_compute. reflexivity. Qed.
Lemma big_kernel : rotate_uvw_kernel (Some big_table) (Some big_table) = Some "rotate_uvw<double3>"%string.
Proof. vm_compute. reflexivity. Qed.
Lemma big_grid : grid_ok (to_dim3 (blocks_of big 256, 1, 1)) (to_dim3 (256, 1, 1)) = true.
Proof. vm_compute. reflexivity. Qed.
Lemma big_wf : mem_wf big_table.
Proof. repeat split; vm_compute; repeat constructor. Qed.
Lemma big_contents (x : nd R) : shape x = [3 * big] -> contents big_table x.
Proof. intro H. split; [rewrite H; vm_compute; reflexivity|]. change (m_shape big_table) with [1; big; 3]. repeat constructor; vm_compute; discriminate. Qed.

(** With more than 2^32 baselines, the indices of the threads wrap: "rotating" from a centre to itself into another array, which should copy all coordinates and does so
    in CPU memory, succeeds, but leaves the last baseline as it was. *)
Theorem C93_wrap_refuted c in_d out_d : shape in_d = [3 * big] -> shape out_d = [3 * big] ->
  let last := big - 1 in
  (exists rc, phase_rotate_uvw c c false (Some big_table) (Some big_table) in_d out_d SUCCESS = Some (SUCCESS, rc) /\ row rc last = row in_d last) /\
  (exists st' r, gpu_phase_rotate_uvw c c false (Some big_table) (Some big_table) in_d out_d SUCCESS st' r) /\
  forall st' r, gpu_phase_rotate_uvw c c false (Some big_table) (Some big_table) in_d out_d SUCCESS st' r -> st' = SUCCESS /\ row r last = row out_d last.
Proof.
  intros S1 S2. cbv zeta. assert (B : big = 4294967297) by reflexivity.
  split; [|].
  - destruct (C49_uvw_same c c false big_table big_table in_d out_d SUCCESS big_wf big_wf (big_contents _ S1) (big_contents _ S2) ltac:(discriminate) eq_refl eq_refl) as (st' & rc & E & P).
    assert (st' = SUCCESS) as ->.
    { revert E. unfold phase_rotate_uvw. cbn [failed]. cbv zeta. rewrite big_md. cbv iota beta. rewrite big_check. cbn [failed].
      assert (T : (mtype (Some big_table) =? MEM_DOUBLE) = true) by (vm_compute; reflexivity). rewrite T. cbn [andb orb]. destruct (rotate_uvw _ _ _ _ _); [|discriminate]. cbn [bind]. intro E. now injection E as <- _. }
    exists rc. split; [exact E|]. apply P; [reflexivity|]. assert (R : rows big_table = big) by (vm_compute; reflexivity). rewrite R. lia.
  - unfold gpu_phase_rotate_uvw. cbn [failed]. cbv zeta. rewrite big_md. cbv iota beta. rewrite big_check. cbn [failed]. rewrite big_kernel.
    unfold launch_kernel. cbn [failed]. assert (Rg : registered "rotate_uvw<double3>" = true) by reflexivity. rewrite Rg. cbn [negb]. rewrite Z.mul_1_l, big_grid. cbn [negb].
    assert (Sz : product (shape out_d) / 3 = big) by (rewrite S2; reflexivity). rewrite Sz.
    assert (Sr : shape (as_rows in_d) = [big]) by (unfold as_rows; cbn [shape]; rewrite S1; reflexivity).
    assert (Bd : forall t, exists k, rotate_uvw_thread false big (rot_matrix c c) (as_rows in_d) big t = Some k /\ forall o, In o k -> loc o < 4294967296).
    { intros [[x y] z]. unfold rotate_uvw_thread. unfold u32. pose proof (Z.mod_pos_bound x 4294967296 ltac:(lia)) as Hx. destruct (Z.leb_spec big (x mod 4294967296)); [exfalso; lia|].
      rewrite rd_some by (rewrite Sr; apply in_shape_1; lia). cbn [bind]. rewrite (proj2 (in_shape_1 _ _)) by lia. eexists. split; [reflexivity|]. intros o [<-|[]]. cbn [loc]. lia. }
    split.
    + destruct (runs_exists Z.eqb (fun a _ : vec3 => a) (threads3 (to_dim3 (blocks_of big 256, 1, 1)) (to_dim3 (256, 1, 1))) (rotate_uvw_thread false big (rot_matrix c c) (as_rows in_d) big) (flat (as_rows out_d))) as (m' & R).
      { intros t _. destruct (Bd t) as (k & E & _). eauto. }
      eexists SUCCESS, _, _. split; [|reflexivity]. split; [reflexivity|]. exists m'. split; [exact R|reflexivity].
    + intros st' r (y & (-> & m' & R & ->) & ->). split; [reflexivity|]. cbn [failed].
      assert (U : m' (big - 1) = flat (as_rows out_d) (big - 1)).
      { apply (untouched Z.eqb (fun a _ : vec3 => a) Z.eqb_spec _ _ _ _ (big - 1) R). intros t k o _ E Io. destruct (Bd t) as (k' & E' & Hl). rewrite E in E'. injection E' as <-. specialize (Hl o Io). lia. }
      unfold row, of_rows. cbn [elem hd]. unfold unflat. cbn [elem hd].
      assert (D0 : (3 * (big - 1) + 0) / 3 = big - 1) by reflexivity. assert (D1 : (3 * (big - 1) + 1) / 3 = big - 1) by reflexivity. assert (D2 : (3 * (big - 1) + 2) / 3 = big - 1) by reflexivity.
      rewrite D0, D1, D2, U. unfold flat, as_rows. cbn [elem hd].
      assert (M0 : (3 * (big - 1) + 0) mod 3 = 0) by reflexivity. assert (M1 : (3 * (big - 1) + 1) mod 3 = 1) by reflexivity. assert (M2 : (3 * (big - 1) + 2) mod 3 = 2) by reflexivity.
      rewrite M0, M1, M2. cbn [Z.eqb Pos.eqb]. now rewrite Z.add_0_r.
Qed.
Print Assumptions C93_wrap_refuted.

Example C93_hyps :
  let uvw := fst (create_wrapper (Some (1, 0)) MEM_DOUBLE MEM_GPU [2; 3; 3] None SUCCESS) in
  let vis := fst (create_wrapper (Some (1, 0)) MEM_COMPLEX_DOUBLE MEM_GPU [2; 3; 5; 4] None SUCCESS) in
  mem_wf uvw /\ mem_wf vis /\ contents uvw (mk_nd [18] (fun _ => 1%R)) /\ contents vis (mk_nd [120] (fun _ => C1)) /\ rows uvw = 6 /\ fits_grid vis /\
  Forall (fun n => n <= 4294967295) (m_shape vis) /\
  (exists r, phase_rotate_uvw None None true (Some uvw) (Some uvw) (mk_nd [18] (fun _ => 1%R)) (mk_nd [18] (fun _ => 1%R)) SUCCESS = Some (SUCCESS, r)).
Proof.
  cbv zeta. split; [repeat split; vm_compute; repeat constructor|]. split; [repeat split; vm_compute; repeat constructor|].
  split; [split; [reflexivity|vm_compute; repeat constructor; discriminate]|]. split; [split; [reflexivity|vm_compute; repeat constructor; discriminate]|].
  split; [reflexivity|]. split; [vm_compute; intuition discriminate|]. split; [match goal with |- Forall _ (m_shape ?v) => change (m_shape v) with [2; 3; 5; 4] end; repeat constructor; lia|].
  match goal with |- exists r, phase_rotate_uvw ?o ?n ?al (Some ?m) _ ?x ?y _ = _ =>
    assert (W : mem_wf m) by (repeat split; vm_compute; repeat constructor); assert (Co : contents m x) by (split; [reflexivity|vm_compute; repeat constructor; discriminate]);
    destruct (uvw_api o n al m m x y SUCCESS W W Co Co ltac:(auto)) as (st & r & E & _) end.
  exists r. rewrite E. do 2 f_equal. revert E. unfold phase_rotate_uvw. cbn [failed].
  change (get_uvw_metadata _ _) with (Some (MEM_DOUBLE, MEM_GPU, 2, 3), SUCCESS). cbv iota beta zeta.
  change (check_uvw _ _ _ _ _ _) with SUCCESS. cbn [failed]. change (_ || _) with true. cbv iota.
  destruct (rotate_uvw _ _ _ _ _); [|discriminate]. cbn [bind]. intro E. now injection E as <- _.
Qed.
