(** C48: the point-source DFT.  Exact arithmetic (real and complex numbers). *)
From Coq Require Import Reals Lra Lia.
From Verif Require Import Base BaseFacts Mem MemSpec Checks CRing Cplx Sum Clamp FftSpec FftFacts GridUtilsFacts Sets Dft DftSpec DftFacts DftFacts2.
Open Scope Z_scope.

(** The function reports an error and leaves the visibilities alone, or evaluates the measurement
    equation for every visibility.  Partial: positions are int in the code, so arrays must have at
    most 2^31 elements (see C48_overflow_refuted). *)
Theorem C48_v00_partial dirs flux uvw vis dirs_d flux_d uvw_d vis_d st :
  mem_wf dirs -> mem_wf flux -> mem_wf uvw -> mem_wf vis ->
  holds dirs dirs_d -> holds flux flux_d -> holds uvw uvw_d -> holds vis vis_d ->
  exists st' r, dft_point_v00 (Some dirs) (Some flux) (Some uvw) (Some vis) dirs_d flux_d uvw_d vis_d st = Some (st', r) /\
    (st' <> SUCCESS -> r = vis_d) /\
    (st' = SUCCESS -> every_vis vis r (vis00 (size dirs 0) (size vis 3) (size vis 2) (size vis 1) dirs_d flux_d uvw_d)).
Proof.
  intros W1 W2 W3 W4 (S1 & F1 & B1) (S2 & F2 & B2) (S3 & F3 & B3) (S4 & F4 & B4). unfold dft_point_v00.
  destruct (failed (check_params_v00 (Some dirs) (Some flux) (Some uvw) (Some vis) st)) eqn:F.
  { eexists _, _. split; [reflexivity|]. split; [auto|]. intros E. rewrite E in F. discriminate. }
  apply failed_false in F. destruct (types_ok _ _ _ _).
  2:{ eexists _, _. split; [reflexivity|]. split; [auto|discriminate]. }
  destruct (params_v00_ok dirs flux uvw vis st W1 W2 W3 W4 F) as (n & nt & nb & nc & np & D1 & D2 & D3 & D4 & Hp).
  unfold size. destruct (shape4_dims vis nt nb nc np W4 D4) as (X0 & X1 & X2 & X3). rewrite X0, X1, X2, X3.
  assert (shape_dim (Some dirs) 0 = n) as -> by (unfold shape_dim; destruct W1 as (_ & -> & _); now rewrite D1).
  rewrite D1 in *. rewrite D2 in *. rewrite D3 in *. rewrite D4 in *.
  rewrite !Forall_cons_iff in *.
  unfold product in *. cbn [fold_right] in *. rewrite !int_of_ok by lia.
  destruct (v00_ok n np nc nb nt dirs_d flux_d ltac:(lia) ltac:(lia) ltac:(lia) ltac:(lia)
    ltac:(rewrite S1; f_equal; lia) ltac:(rewrite S2; f_equal; lia) ltac:(lia) uvw_d vis_d ltac:(lia)
    ltac:(rewrite S3; f_equal; lia) ltac:(rewrite S4; f_equal; lia)) as (r & E & S & P).
  rewrite E. cbn [bind]. eexists _, _. split; [reflexivity|]. split; [congruence|]. intros _.
  exists nt, nb, nc, np. cbn [nth]. auto.
Qed.
Print Assumptions C48_v00_partial.

(** As above, with coordinates in metres and the frequency of the channel.  Partial: also, the
    function does not check that the directions array is two-dimensional. *)
Theorem C48_v01_partial dirs flux uvw vis dirs_d flux_d uvw_d f0 df vis_d st :
  mem_wf dirs -> mem_wf flux -> mem_wf uvw -> mem_wf vis -> length (m_shape dirs) = 2%nat ->
  holds dirs dirs_d -> holds flux flux_d -> holds uvw uvw_d -> holds vis vis_d ->
  exists st' r, dft_point_v01 (Some dirs) (Some flux) (Some uvw) (Some vis) dirs_d flux_d uvw_d f0 df vis_d st = Some (st', r) /\
    (st' <> SUCCESS -> r = vis_d) /\
    (st' = SUCCESS -> every_vis vis r (vis01 (size dirs 0) (size vis 3) (size vis 2) (size vis 1) dirs_d flux_d uvw_d f0 df)).
Proof.
  intros W1 W2 W3 W4 L (S1 & F1 & B1) (S2 & F2 & B2) (S3 & F3 & B3) (S4 & F4 & B4). unfold dft_point_v01.
  destruct (failed (check_params_v01 (Some dirs) (Some flux) (Some uvw) (Some vis) st)) eqn:F.
  { eexists _, _. split; [reflexivity|]. split; [auto|]. intros E. rewrite E in F. discriminate. }
  apply failed_false in F. destruct (types_ok _ _ _ _).
  2:{ eexists _, _. split; [reflexivity|]. split; [auto|discriminate]. }
  destruct (params_v01_ok dirs flux uvw vis st W1 W2 W3 W4 ltac:(destruct W1 as (_ & -> & _); now rewrite L) F) as (n & nt & nb & nc & np & D1 & D2 & D3 & D4 & Hp).
  unfold size. destruct (shape4_dims vis nt nb nc np W4 D4) as (X0 & X1 & X2 & X3). rewrite X0, X1, X2, X3.
  assert (shape_dim (Some dirs) 0 = n) as -> by (unfold shape_dim; destruct W1 as (_ & -> & _); now rewrite D1).
  rewrite D1 in *. rewrite D2 in *. rewrite D3 in *. rewrite D4 in *.
  rewrite !Forall_cons_iff in *.
  unfold product in *. cbn [fold_right] in *. rewrite !int_of_ok by lia.
  destruct (v01_ok n np nc nb nt dirs_d flux_d ltac:(lia) ltac:(lia) ltac:(lia) ltac:(lia)
    ltac:(rewrite S1; f_equal; lia) ltac:(rewrite S2; f_equal; lia) ltac:(lia) uvw_d f0 df vis_d ltac:(lia)
    ltac:(rewrite S3; f_equal; lia) ltac:(rewrite S4; f_equal; lia)) as (r & E & S & P).
  rewrite E. cbn [bind]. eexists _, _. split; [reflexivity|]. split; [congruence|]. intros _.
  exists nt, nb, nc, np. cbn [nth]. auto.
Qed.
Print Assumptions C48_v01_partial.

(** Linear in the fluxes *)
Theorem C48_linear ncomp npol nchan nbase dirs flux1 flux2 flux uvw f0 df a t b c p :
  (forall idx, elem flux idx = Cadd (Cmul a (elem flux1 idx)) (elem flux2 idx)) ->
  vis00 ncomp npol nchan nbase dirs flux uvw t b c p =
    Cadd (Cmul a (vis00 ncomp npol nchan nbase dirs flux1 uvw t b c p)) (vis00 ncomp npol nchan nbase dirs flux2 uvw t b c p) /\
  vis01 ncomp npol nchan nbase dirs flux uvw f0 df t b c p =
    Cadd (Cmul a (vis01 ncomp npol nchan nbase dirs flux1 uvw f0 df t b c p)) (vis01 ncomp npol nchan nbase dirs flux2 uvw f0 df t b c p).
Proof.
  intro H. unfold vis00, vis01. cbv zeta. rewrite !csum_mul_l, <- !csum_add.
  split; apply csum_ext; intros s _; unfold flux_of; rewrite H; csolve.
Qed.
Print Assumptions C48_linear.

(** Additive in the list of sources: the sources of [dirs] are those of [dirs1] followed by those of [dirs2]. *)
Theorem C48_additive n1 n2 npol nchan nbase dirs1 flux1 dirs2 flux2 dirs flux uvw f0 df t b c p : 0 <= n1 -> 0 <= n2 ->
  (forall s i, 0 <= s < n1 -> direction dirs s i = direction dirs1 s i) ->
  (forall s i, 0 <= s < n2 -> direction dirs (n1 + s) i = direction dirs2 s i) ->
  (forall s, 0 <= s < n1 -> flux_of nchan npol flux s c p = flux_of nchan npol flux1 s c p) ->
  (forall s, 0 <= s < n2 -> flux_of nchan npol flux (n1 + s) c p = flux_of nchan npol flux2 s c p) ->
  vis00 (n1 + n2) npol nchan nbase dirs flux uvw t b c p =
    Cadd (vis00 n1 npol nchan nbase dirs1 flux1 uvw t b c p) (vis00 n2 npol nchan nbase dirs2 flux2 uvw t b c p) /\
  vis01 (n1 + n2) npol nchan nbase dirs flux uvw f0 df t b c p =
    Cadd (vis01 n1 npol nchan nbase dirs1 flux1 uvw f0 df t b c p) (vis01 n2 npol nchan nbase dirs2 flux2 uvw f0 df t b c p).
Proof.
  intros H1 H2 D1 D2 F1 F2.
  assert (G : forall g g1 g2 : Z -> C, (forall s, 0 <= s < n1 -> g s = g1 s) -> (forall s, 0 <= s < n2 -> g (n1 + s) = g2 s) ->
    csum 0 (n1 + n2) g = Cadd (csum 0 n1 g1) (csum 0 n2 g2)).
  { clear - H1 H2. intros g g1 g2 G1 G2.
    revert G2. pattern n2. apply natlike_ind; [|intros k Hk IH|exact H2].
    - intros _. rewrite Z.add_0_r, (csum_empty 0 0) by lia. rewrite (csum_ext 0 n1 g g1) by auto. csolve.
    - intro G2. unfold Z.succ. replace (n1 + (k + 1)) with (n1 + k + 1) by lia. rewrite !csum_snoc by lia.
      rewrite IH by (intros; apply G2; lia). rewrite G2 by lia. csolve. }
  split; unfold vis00, vis01; cbv zeta; apply G; intros s Hs; unfold dot3; rewrite ?D1, ?D2, ?F1, ?F2 by auto; reflexivity.
Qed.
Print Assumptions C48_additive.

(** v01 is v00 with coordinates divided by the wavelength of the channel. *)
Theorem C48_frequency ncomp npol nchan nbase dirs flux uvw uvw_wl f0 df t b c p :
  (forall i, 0 <= i < 3 -> elem uvw_wl [pos4 nbase nchan 3 t b c i] =
    (elem uvw [pos3 nbase 3 t b i] / (299792458 / (f0 + IZR c * df)))%R) ->
  vis01 ncomp npol nchan nbase dirs flux uvw f0 df t b c p = vis00 ncomp npol nchan nbase dirs flux uvw_wl t b c p.
Proof.
  intro H. unfold vis01, vis00. cbv zeta. apply csum_ext. intros s _. rewrite !H by lia. do 3 f_equal.
  unfold dot3, Rdiv. f_equal. ring.
Qed.
Print Assumptions C48_frequency.


Definition arr (ty : Z) (sh : list Z) : mem := fst (create_wrapper (Some (1, 0)) ty MEM_CPU sh None SUCCESS).

(** Coordinates of 2^30 visibilities are accepted by the checks (all dimensions are far below 2^31), and the position
    of their last elements overflows int: undefined behaviour instead of a result. *)
Theorem C48_overflow_refuted dirs_d flux_d uvw_d vis_d :
  check_params_v00 (Some (arr MEM_DOUBLE [1; 3])) (Some (arr MEM_COMPLEX_DOUBLE [1; 2; 1])) (Some (arr MEM_DOUBLE [1; 536870912; 2; 3]))
    (Some (arr MEM_COMPLEX_DOUBLE [1; 536870912; 2; 1])) SUCCESS = SUCCESS /\
  dft_point_v00 (Some (arr MEM_DOUBLE [1; 3])) (Some (arr MEM_COMPLEX_DOUBLE [1; 2; 1])) (Some (arr MEM_DOUBLE [1; 536870912; 2; 3]))
    (Some (arr MEM_COMPLEX_DOUBLE [1; 536870912; 2; 1])) dirs_d flux_d uvw_d vis_d SUCCESS = None.
Proof.
  assert (E : check_params_v00 (Some (arr MEM_DOUBLE [1; 3])) (Some (arr MEM_COMPLEX_DOUBLE [1; 2; 1])) (Some (arr MEM_DOUBLE [1; 536870912; 2; 3]))
    (Some (arr MEM_COMPLEX_DOUBLE [1; 536870912; 2; 1])) SUCCESS = SUCCESS) by (vm_compute; reflexivity).
  split; [exact E|]. unfold dft_point_v00. rewrite E. cbn [failed].
  match goal with |- context [types_ok ?a ?b ?c ?d] => assert (types_ok a b c d = true) as -> by (vm_compute; reflexivity) end.
  match goal with |- context [dft_v00 ?a ?b ?c ?d ?e _ _ _ _] =>
    assert (a = 1) as -> by (vm_compute; reflexivity); assert (b = 1) as -> by (vm_compute; reflexivity);
    assert (c = 2) as -> by (vm_compute; reflexivity); assert (d = 536870912) as -> by (vm_compute; reflexivity);
    try (assert (e = 1) as -> by (vm_compute; reflexivity)) end.
  destruct (dft_v00 _ _ _ _ _ _ _ _ _) as [r|] eqn:D; [|reflexivity].
  apply v00_overflow in D; lia.
Qed.
Print Assumptions C48_overflow_refuted.

(** The hypotheses are met and the checks accept: two sources, 2 x 3 x 2 visibilities of 4 polarisations. *)
Example C48_hyps :
  let dirs := arr MEM_DOUBLE [2; 3] in let flux := arr MEM_COMPLEX_DOUBLE [2; 2; 4] in
  let vis := arr MEM_COMPLEX_DOUBLE [2; 3; 2; 4] in
  mem_wf dirs /\ mem_wf flux /\ mem_wf vis /\ mem_wf (arr MEM_DOUBLE [2; 3; 2; 3]) /\ mem_wf (arr MEM_DOUBLE [2; 3; 3]) /\
  holds vis (mk_nd [48] (fun _ => C0)) /\ holds dirs (mk_nd [6] (fun _ => 0%R)) /\
  check_params_v00 (Some dirs) (Some flux) (Some (arr MEM_DOUBLE [2; 3; 2; 3])) (Some vis) SUCCESS = SUCCESS /\
  types_ok (Some dirs) (Some flux) (Some (arr MEM_DOUBLE [2; 3; 2; 3])) (Some vis) = true /\
  check_params_v01 (Some dirs) (Some flux) (Some (arr MEM_DOUBLE [2; 3; 3])) (Some vis) SUCCESS = SUCCESS /\
  types_ok (Some dirs) (Some flux) (Some (arr MEM_DOUBLE [2; 3; 3])) (Some vis) = true.
Proof.
  cbv zeta.
  assert (H1 : holds (arr MEM_COMPLEX_DOUBLE [2; 3; 2; 4]) (mk_nd [48] (fun _ => C0))).
  { unfold holds. change (m_shape _) with [2; 3; 2; 4]. split; [reflexivity|]. rewrite !Forall_cons_iff. repeat split; try lia; try constructor. discriminate. }
  assert (H2 : holds (arr MEM_DOUBLE [2; 3]) (mk_nd [6] (fun _ => 0%R))).
  { unfold holds. change (m_shape _) with [2; 3]. split; [reflexivity|]. rewrite !Forall_cons_iff. repeat split; try lia; try constructor. discriminate. }
  repeat match goal with |- _ /\ _ => split end; try assumption; try (vm_compute; reflexivity); repeat constructor.
Qed.
