(** C98: atomic operations made from compare-and-swap.  C99: coordinate bounds on the GPU. *)
From Coq Require Import String Lia Permutation.
From Verif Require Import Base BaseFacts Mem Checks ChecksFacts Sum CRing Clamp ClampSpec Select SelectSpec SelectFacts GpuLaunch GpuLaunchFacts GpuViewFacts GpuCas GpuCasSpec GpuCasFacts GridUtilsGpuSpec GridUtilsGpuFacts BoundsGpu BoundsGpuSpec BoundsGpuFacts.
Open Scope Z_scope.

(** Whatever the schedule: the loops of compare-and-swap have the effect of the operations done one at a time in some order. *)
Theorem C98_one_at_a_time : forall (L V : Type) (leqb : L -> L -> bool) (same : V -> V -> bool),
  (forall a b, reflect (a = b) (leqb a b)) -> (forall a b, reflect (a = b) (same a b)) ->
  forall (m : L -> V) ops n c, steps leqb same n (initial m ops) c -> finished c -> one_at_a_time leqb (concat ops) m (fst c).
Proof. intros L V leqb same Hl Hs m ops n c. exact (serial leqb same Hl Hs m ops n c). Qed.
Print Assumptions C98_one_at_a_time.

(** Every schedule ends: an execution of N operations by T threads has at most N (3 T + 1) + 3 T steps, and one that is not finished can go on. *)
Theorem C98_ends : forall (L V : Type) (leqb : L -> L -> bool) (same : V -> V -> bool), (forall a b, reflect (a = b) (same a b)) ->
  forall (m : L -> V) ops n c, steps leqb same n (initial m ops) c ->
    (n <= length (concat ops) * (3 * length ops + 1) + 3 * length ops)%nat /\ (~ finished c -> exists c', step leqb same c c').
Proof.
  intros L V leqb same Hs m ops n c St. split; [|apply progress]. pose proof (steps_bound leqb same Hs n _ _ St) as B. pose proof (phases_le same Hs (initial m ops)) as P.
  destruct (initial_measure m ops) as (E1 & E2). rewrite E1, E2 in *. lia.
Qed.
Print Assumptions C98_ends.

(** The addition of numbers on devices without an instruction for it: every location receives everything added to it. *)
Theorem C98_add : forall (L : Type) (A : cring) (leqb : L -> L -> bool) (same : A -> A -> bool),
  (forall a b, reflect (a = b) (leqb a b)) -> (forall a b, reflect (a = b) (same a b)) ->
  forall (m : L -> A) (ops : list (list (L * A))) n c, steps leqb same n (initial m (map (map (fun lv => atomic_add radd (fst lv) (snd lv))) ops)) c -> finished c ->
    forall l, fst c l = (m l + fold_right radd r0 (map (fun lv => if leqb (fst lv) l then snd lv else r0) (concat ops)))%cr.
Proof.
  intros L A leqb same Hl Hs m ops n c St F l. destruct (serial leqb same Hl Hs m _ n c St F) as (ord & P & M). rewrite M. clear M St F.
  rewrite <- concat_map in P. revert P. generalize (concat ops). clear ops. intros ops P.
  apply Permutation_map_inv in P. destruct P as (ops' & -> & P).
  assert (S : forall x, in_order leqb (map (fun lv => atomic_add radd (fst lv) (snd lv)) ops') l x = (x + fold_right radd r0 (map (fun lv => if leqb (fst lv) l then snd lv else r0) ops'))%cr).
  { clear P. induction ops' as [|[l' v] ops' IH]; intro x; [cbn; rewrite (Radd_comm (rth A)); symmetry; apply (Radd_0_l (rth A))|]. cbn [map in_order fold_left fst snd fold_right at_ atomic_add].
    change (fold_left _ _ ?y) with (in_order leqb (map (fun lv : L * A => atomic_add radd (fst lv) (snd lv)) ops') l y). rewrite IH. destruct (leqb l' l).
    - unfold act, atomic_add. cbn [go next]. rewrite (Radd_comm (rth A) v x). symmetry. apply (Radd_assoc (rth A)).
    - rewrite (Radd_0_l (rth A)). reflexivity. }
  rewrite S. f_equal. clear S. induction P as [|a b c' P IH|a b c'|a b c' P1 IH1 P2 IH2]; cbn [map fold_right].
  - reflexivity.
  - now rewrite IH.
  - rewrite !(Radd_assoc (rth A)). f_equal. apply (Radd_comm (rth A)).
  - now rewrite IH2, IH1.
Qed.
Print Assumptions C98_add.

Lemma bounds_names uvws : mtype uvws = MEM_DOUBLE \/ mtype uvws = MEM_FLOAT -> exists k, bounds_kernel uvws = Some k /\ registered k = true.
Proof. unfold bounds_kernel. intros [-> | ->]; eexists; split; reflexivity. Qed.

(** For every channel separation: the least of the lower ends of the rows, and the greatest of the upper ends *)
Lemma gpu_ends uvws f0 df start_chs end_chs ty uvw_d s_d e_d mn mx n : 0 <= n <= 2147483647 -> real_type ty ->
  described uvws ty uvw_d -> shape uvw_d = [n; 3] -> described start_chs MEM_INT s_d -> shape s_d = [n] -> described end_chs MEM_INT e_d -> shape e_d = [n] ->
  (exists st' mn' mx', gpu_uvw_bounds uvws f0 df start_chs end_chs uvw_d s_d e_d mn mx SUCCESS st' mn' mx') /\
  forall st' mn' mx', gpu_uvw_bounds uvws f0 df start_chs end_chs uvw_d s_d e_d mn mx SUCCESS st' mn' mx' ->
    st' = (if 1 <=? n then SUCCESS else ERR_RUNTIME) /\ shape mn' = [3] /\ shape mx' = [3] /\
    forall j, 0 <= j < 3 -> is_min (fun v => exists i, on s_d e_d n i /\ v = lo uvw_d f0 df s_d e_d i j) (elem mn' [j]) /\
      is_max (fun v => exists i, on s_d e_d n i /\ v = hi uvw_d f0 df s_d e_d i j) (elem mx' [j]).
Proof.
  intros Hn Ty Du Su Ds Ss De Se. unfold gpu_uvw_bounds. cbn [failed]. cbv zeta.
  rewrite (view_const_ok start_chs MEM_INT s_d 1 Ds), (view_const_ok end_chs MEM_INT e_d 1 De) by (rewrite ?Ss, ?Se; reflexivity).
  destruct (bounds_names uvws) as (k & -> & Rg). { rewrite (described_type _ _ _ Du). exact Ty. }
  rewrite (described_type _ _ _ Du), (view_const_ok uvws ty uvw_d 2 Du) by (rewrite Su; reflexivity).
  assert (E0 : shape_dim uvws 0 = n) by (rewrite (described_shape uvws ty uvw_d) by (auto; rewrite Su; cbn; lia); now rewrite Su). rewrite E0.
  unfold launch_cas. cbn [failed]. rewrite Rg. cbn [negb].
  change (blocks_of n 256, 1, 1) with (blocks_of n 256, blocks_of 1 1, blocks_of 1 1).
  pose proof (each_grid n 1 1 256 1 1 ltac:(lia) ltac:(lia) ltac:(lia) ltac:(lia) ltac:(lia) ltac:(lia) ltac:(lia)) as Gr. cbv zeta in Gr. rewrite Gr.
  assert (Fg : fits_grid n 1 1 1 1 = (1 <=? n)) by (unfold fits_grid; lia). rewrite Fg. clear Gr Fg.
  set (ths := threads3 _ _).
  assert (In1 : forall a b c, In (a, b, c) ths -> 0 <= a < n + 255 /\ b = 0 /\ c = 0).
  { intros a b c I. pose proof (each_in n 1 1 256 1 1 ltac:(lia) ltac:(lia) ltac:(lia) ltac:(lia) ltac:(lia) ltac:(lia) a b c) as X. cbv zeta in X. specialize (X I). lia. }
  assert (In2 : forall a, 0 <= a < n -> In (a, 0, 0) ths).
  { intros a Ha. pose proof (each_thread n 1 1 256 1 1 ltac:(lia) ltac:(lia) ltac:(lia) ltac:(lia) ltac:(lia) ltac:(lia) a 0 0) as X. cbv zeta in X. apply X; lia. }
  clearbody ths.
  destruct (Z.leb_spec 1 n) as [H1|H1]; cbn [negb].
  - split.
    + destruct (forall2_make (bounds_thread uvw_d f0 df s_d e_d) ths) as (ks & F).
      { intros [[a b] c] I. apply In1 in I. destruct (row_ops uvw_d f0 df s_d e_d n Su Ss Se a b c ltac:(lia)) as (q & E & _). eauto. }
      destruct (finishes loc_eqb bits_eqb bits_eqb_spec (initial (fun _ => None) ks)) as (steps_ & c & St & Fi).
      eexists _, _, _. exists (fst c). split; [split; [reflexivity|]; exists ks; split; [exact F|]; exists steps_, c; auto|]. split; reflexivity.
    + intros st' mn' mx' (m' & (-> & ks & F & steps_ & c & St & Fi & Em) & -> & ->). cbn [failed]. split; [reflexivity|]. split; [reflexivity|]. split; [reflexivity|].
      destruct (serial loc_eqb bits_eqb loc_eqb_spec bits_eqb_spec _ _ _ _ St Fi) as (ord & P & M). rewrite Em in M.
      assert (Ops : forall o, In o ord <-> exists i j, on s_d e_d n i /\ 0 <= j < 3 /\ (o = atomic_min below_min (false, j) (Some (lo uvw_d f0 df s_d e_d i j)) \/ o = atomic_max above_max (true, j) (Some (hi uvw_d f0 df s_d e_d i j)))).
      { intro o. transitivity (In o (concat ks)); [split; intro I; [exact (Permutation_in o P I)|exact (Permutation_in o (Permutation_sym P) I)]|]. rewrite (concat_in _ _ _ F). split.
        - intros ([[a b] c'] & q & I & E & Io). apply In1 in I. destruct (row_ops uvw_d f0 df s_d e_d n Su Ss Se a b c' ltac:(lia)) as (q' & E' & X). rewrite E in E'. injection E' as <-. apply X in Io. destruct Io as (O & j & Hj & Y). eauto 6.
        - intros (i & j & O & Hj & Y). destruct (row_ops uvw_d f0 df s_d e_d n Su Ss Se i 0 0 ltac:(unfold on in O; lia)) as (q & E & X). exists (i, 0, 0), q. split; [apply In2; exact (proj1 O)|]. split; [exact E|]. apply X. eauto. }
      intros j Hj. cbn [elem hd]. rewrite !M. split.
      * eapply is_min_ext; [|apply min_fold].
        -- intro x. cbv beta. rewrite Ops. split.
           ++ intros (i & j' & O & Hj' & [X|X]); [|apply (f_equal at_) in X; discriminate]. apply min_val in X. destruct X as (X1 & X2). injection X1 as <-. injection X2 as ->. eauto.
           ++ intros (i & O & ->). exists i, j. auto.
        -- intros o I Ea. apply Ops in I. destruct I as (i & j' & O & Hj' & [-> | ->]); [|discriminate]. cbn [at_ atomic_min] in Ea. injection Ea as ->. eauto.
      * eapply is_max_ext; [|apply max_fold].
        -- intro x. cbv beta. rewrite Ops. split.
           ++ intros (i & j' & O & Hj' & [X|X]); [apply (f_equal at_) in X; discriminate|]. apply max_val in X. destruct X as (X1 & X2). injection X1 as <-. injection X2 as ->. eauto.
           ++ intros (i & O & ->). exists i, j. auto.
        -- intros o I Ea. apply Ops in I. destruct I as (i & j' & O & Hj' & [-> | ->]); [discriminate|]. cbn [at_ atomic_max] in Ea. injection Ea as ->. eauto.
  - split; [eexists _, _, _, _; split; [split; reflexivity|split; reflexivity]|]. intros st' mn' mx' (m' & (-> & ->) & -> & ->). cbn [failed].
    split; [reflexivity|]. split; [reflexivity|]. split; [reflexivity|]. intros j Hj. cbn [elem is_min is_max]. split; intros x (i & (Hi & _) & _); lia.
Qed.
(** sdp_gridder_uvw_bounds_all: the call completes, and in every schedule the results are the least and the greatest coordinate of the selected channels,
    as on the CPU (C23); without rows the call is an error, and the results are infinite as on the CPU.  Partial: exact arithmetic, a channel separation
    that is not negative, at most 2^31 - 1 rows. *)
Theorem C99_bounds_partial uvws f0 df start_chs end_chs ty uvw_d s_d e_d mn mx n : (0 <= df)%Q -> 0 <= n <= 2147483647 -> real_type ty ->
  described uvws ty uvw_d -> shape uvw_d = [n; 3] -> described start_chs MEM_INT s_d -> shape s_d = [n] -> described end_chs MEM_INT e_d -> shape e_d = [n] ->
  (exists st' mn' mx', gpu_uvw_bounds uvws f0 df start_chs end_chs uvw_d s_d e_d mn mx SUCCESS st' mn' mx') /\
  forall st' mn' mx', gpu_uvw_bounds uvws f0 df start_chs end_chs uvw_d s_d e_d mn mx SUCCESS st' mn' mx' ->
    st' = (if 1 <=? n then SUCCESS else ERR_RUNTIME) /\ shape mn' = [3] /\ shape mx' = [3] /\
    forall j, 0 <= j < 3 -> is_min (coords uvw_d f0 df s_d e_d j n) (elem mn' [j]) /\ is_max (coords uvw_d f0 df s_d e_d j n) (elem mx' [j]).
Proof.
  intros Hd Hn Ty Du Su Ds Ss De Se. destruct (gpu_ends uvws f0 df start_chs end_chs ty uvw_d s_d e_d mn mx n Hn Ty Du Su Ds Ss De Se) as (Ex & K). split; [exact Ex|].
  intros st' mn' mx' H. destruct (K st' mn' mx' H) as (E & S1 & S2 & M). split; [exact E|]. split; [exact S1|]. split; [exact S2|]. intros j Hj. destruct (M j Hj) as (M1 & M2).
  split; [exact (ends_min uvw_d f0 df s_d e_d n Hd j _ M1)|exact (ends_max uvw_d f0 df s_d e_d n Hd j _ M2)].
Qed.
Print Assumptions C99_bounds_partial.

(** For every channel separation, negative ones too: the results are those of the CPU (C23). *)
Theorem C99_as_cpu : forall uvws f0 df start_chs end_chs ty uvw_d s_d e_d mn mx n, 0 <= n <= 2147483647 -> real_type ty ->
  described uvws ty uvw_d -> shape uvw_d = [n; 3] -> described start_chs MEM_INT s_d -> shape s_d = [n] -> described end_chs MEM_INT e_d -> shape e_d = [n] ->
  exists cpu_mn cpu_mx, uvw_bounds uvw_d f0 df s_d e_d = Some (cpu_mn, cpu_mx) /\
  forall st' mn' mx', gpu_uvw_bounds uvws f0 df start_chs end_chs uvw_d s_d e_d mn mx SUCCESS st' mn' mx' ->
    st' = (if 1 <=? n then SUCCESS else ERR_RUNTIME) /\ shape mn' = shape cpu_mn /\ shape mx' = shape cpu_mx /\
    forall j, 0 <= j < 3 -> same_bound (elem mn' [j]) (elem cpu_mn [j]) /\ same_bound (elem mx' [j]) (elem cpu_mx [j]).
Proof.
  intros until n. intros Hn Ty Du Su Ds Ss De Se.
  destruct (cpu_ends uvw_d f0 df s_d e_d n (proj1 Hn) Su Ss Se) as (cmn & cmx & E & C1 & C2 & C). exists cmn, cmx. split; [exact E|].
  intros st' mn' mx' H. destruct (proj2 (gpu_ends uvws f0 df start_chs end_chs ty uvw_d s_d e_d mn mx n Hn Ty Du Su Ds Ss De Se) st' mn' mx' H) as (E0 & S1 & S2 & M).
  split; [exact E0|]. split; [congruence|]. split; [congruence|]. intros j Hj. split; [exact (is_min_unique _ _ _ (proj1 (M j Hj)) (proj1 (C j Hj)))|exact (is_max_unique _ _ _ (proj2 (M j Hj)) (proj2 (C j Hj)))].
Qed.
Print Assumptions C99_as_cpu.
(** Refuted: with a negative channel separation (allowed by the interface) the bounds may miss coordinates, in every schedule. *)
Theorem C99_negative_width_refuted : forall uvws start_chs end_chs mn mx st' mn' mx',
  let uvw_d := mk_nd [1; 3] (fun _ => 1%Q) in let s_d := mk_nd [1] (fun _ => 0) in let e_d := mk_nd [1] (fun _ => 4) in
  let f0 := (inject_Z 10 * C_0)%Q in let df := (- C_0)%Q in
  described uvws MEM_DOUBLE uvw_d -> described start_chs MEM_INT s_d -> described end_chs MEM_INT e_d ->
  gpu_uvw_bounds uvws f0 df start_chs end_chs uvw_d s_d e_d mn mx SUCCESS st' mn' mx' ->
  exists a x, elem mn' [0] = Some a /\ coords uvw_d f0 df s_d e_d 0 1 x /\ (x < a)%Q.
Proof.
  intros until mx'. intros uvw_d s_d e_d f0 df Du Ds De H.
  destruct (proj2 (gpu_ends uvws f0 df start_chs end_chs MEM_DOUBLE uvw_d s_d e_d mn mx 1 ltac:(lia) (or_introl eq_refl) Du eq_refl Ds eq_refl De eq_refl) st' mn' mx' H) as (_ & _ & _ & M).
  destruct (M 0 ltac:(lia)) as (M0 & _). destruct (elem mn' [0]) as [a|].
  - destruct M0 as ((v & (i & (Hi & _) & ->) & Ev) & _). assert (i = 0) as -> by lia. exists a, (coord 1 f0 df 3). split; [reflexivity|]. split; [exists 0, 3; cbn [elem s_d e_d uvw_d]; split; [lia|]; split; [lia|reflexivity]|].
    rewrite <- Ev. vm_compute. reflexivity.
  - exfalso. refine (M0 _ (ex_intro _ 0 (conj _ eq_refl))). split; [lia|]. cbn. lia.
Qed.
Print Assumptions C99_negative_width_refuted.

(** Three threads, two locations *)
Example C98_hyps :
  let ops : list (list (rmw Z Z)) := [[atomic_min Z.ltb 0 5; atomic_add Z.add 1 7]; [atomic_min Z.ltb 0 3]; [atomic_add Z.add 1 2]] in
  (exists n c, steps Z.eqb Z.eqb n (initial (fun _ => 10) ops) c /\ finished c) /\
  forall n c, steps Z.eqb Z.eqb n (initial (fun _ => 10) ops) c -> finished c -> one_at_a_time Z.eqb (concat ops) (fun _ => 10) (fst c) /\ (n <= 49)%nat.
Proof.
  cbv zeta. split; [apply (finishes Z.eqb Z.eqb Z.eqb_spec)|]. intros n c St F. split; [exact (C98_one_at_a_time Z Z Z.eqb Z.eqb Z.eqb_spec Z.eqb_spec _ _ n c St F)|].
  exact (proj1 (C98_ends Z Z Z.eqb Z.eqb Z.eqb_spec _ _ n c St)).
Qed.
Example C99_hyps : let m ty sh := Some (mk_mem ty MEM_GPU true true false (Z.of_nat (length sh)) (fold_right Z.mul 1 sh) 1 sh [] (Some (1, 0))) in
  described (m MEM_FLOAT [2; 3]) MEM_FLOAT (mk_nd [2; 3] (fun _ => 1%Q)) /\ described (m MEM_INT [2]) MEM_INT (mk_nd [2] (fun _ => 0)) /\ described (m MEM_INT [2]) MEM_INT (mk_nd [2] (fun _ => 4)) /\
  coords (mk_nd [2; 3] (fun _ => 1%Q)) 1 1 (mk_nd [2] (fun _ => 0)) (mk_nd [2] (fun _ => 4)) 0 2 (coord 1 1 1 3).
Proof. cbv zeta. split; [now repeat split|]. split; [now repeat split|]. split; [now repeat split|]. exists 1, 3. cbn [elem]. split; [lia|]. split; [lia|reflexivity]. Qed.
