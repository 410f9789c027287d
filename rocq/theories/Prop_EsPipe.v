(** The exponential-of-semicircle gridder on the GPU: C85 (image kernels), C86 (gridding and degridding kernels), C87 (the two entry points). *)
From Coq Require Import Lra.
From Verif Require Import Base BaseFacts Sum CRing Clamp Cplx Legendre FftSpec FftFacts Gpu GpuFacts EsKernels EsKernelsSpec EsKernelsFacts EsKernelsFacts2 GpuFacts2 EsKernelsFacts3
  EsScreenSpec EsScreenFacts EsScreenFacts2 EsPipe EsPipeSpec EsPipeFacts EsPipeFacts2 EsPipeFacts3.
Open Scope Z_scope.

Lemma for_first {S} lo hi (f : Z -> S -> option S) s : lo < hi -> for_ lo hi f s = (let* t := f lo s in for_ (lo + 1) hi f t).
Proof. intro H. unfold for_. replace (Z.to_nat (hi - lo)) with (Datatypes.S (Z.to_nat (hi - (lo + 1)))) by lia. reflexivity. Qed.

(** C85.  Every pixel within n/2 of the centre is updated exactly once, however the threads of the launch interleave, and nothing else is touched.  Adding the
    planes of a stack to the image: *)
Theorem C85_apply (n g start subset : Z) (px ivs minw : R) (shift do_w : bool) (stack : nd C) :
  2 <= n -> n / 2 + g / 2 < g -> 1 <= subset -> subset * (g * g) <= 2147483647 -> n * n <= 2147483647 -> (do_w = true -> in_sky n px) -> shape stack = [subset * (g * g)] ->
  (forall m : Z -> R, exists m', runs Z.eqb Rplus (image_threads n) (apply_w_screen_and_sum n g start subset px ivs minw shift do_w stack (n * n)) m m') /\
  forall m m', runs Z.eqb Rplus (image_threads n) (apply_w_screen_and_sum n g start subset px ivs minw shift do_w stack (n * n)) m m' ->
    (forall dy dx, - (n / 2) <= dy < n / 2 -> - (n / 2) <= dx < n / 2 ->
      m' ((n / 2 + dy) * n + (n / 2 + dx)) = (m ((n / 2 + dy) * n + (n / 2 + dx))%Z + shift_sign shift (dy + dx) * rsumf start (start + subset) (fun k =>
        re (Cmul (elem stack [cell g (k - start) (g / 2 + dy) (g / 2 + dx)]) (Cconj (screen do_w px ivs minw k dy dx)))))%R) /\
    (forall l, (forall dy dx, - (n / 2) <= dy < n / 2 -> - (n / 2) <= dx < n / 2 -> l <> (n / 2 + dy) * n + (n / 2 + dx)) -> m' l = m l).
Proof.
  intros H1 H2 H3 H4 H5 H6 H7. destruct (apply_result n g start subset px ivs minw shift do_w H1 H2 H3 H4 H5 H6 stack H7) as (D & Q).
  assert (Ce : forall a b, cell n 0 a b = a * n + b) by (intros; unfold cell; ring). split.
  - intro m. exact (runs_exists Z.eqb Rplus _ _ m D).
  - intros m m' Rn. destruct (Q m m' Rn) as (Q1 & Q2). split.
    + intros dy dx Hy Hx. rewrite <- !Ce. now apply Q1.
    + intros l Hl. apply Q2. intros dy dx Hy Hx. rewrite Ce. now apply Hl.
Qed.
Print Assumptions C85_apply.

(** Spreading the image over the planes of a stack (even image sizes) *)
Theorem C85_spread (n g start subset : Z) (px ivs minw : R) (shift do_w : bool) (image : nd R) :
  2 <= n -> Z.even n = true -> n / 2 + g / 2 < g -> 1 <= subset -> subset * (g * g) <= 2147483647 -> n * n <= 2147483647 -> (do_w = true -> in_sky n px) -> shape image = [n * n] ->
  (forall m : Z -> C, exists m', runs Z.eqb Cadd (image_threads n) (reverse_w_screen_to_stack n g start subset px ivs minw shift do_w image (subset * (g * g))) m m') /\
  forall m m', runs Z.eqb Cadd (image_threads n) (reverse_w_screen_to_stack n g start subset px ivs minw shift do_w image (subset * (g * g))) m m' ->
    (forall p dy dx, 0 <= p < subset -> - (n / 2) <= dy < n / 2 -> - (n / 2) <= dx < n / 2 ->
      m' (cell g p (g / 2 + dy) (g / 2 + dx)) =
        Cmul (RtoC (shift_sign shift (dy + dx) * elem image [(n / 2 + dy) * n + (n / 2 + dx)])) (screen do_w px ivs minw (start + p) dy dx)) /\
    (forall l, (forall p dy dx, 0 <= p < subset -> - (n / 2) <= dy < n / 2 -> - (n / 2) <= dx < n / 2 -> l <> cell g p (g / 2 + dy) (g / 2 + dx)) -> m' l = m l).
Proof.
  intros H1 He H2 H3 H4 H5 H6 H7. apply Z.even_spec in He. destruct He as [q He].
  destruct (reverse_result n g start subset px ivs minw shift do_w H1 H2 H3 H4 H5 H6 image) as (D & Q); [rewrite He, Z.mul_comm; apply Z.mod_mul; lia|exact H7|].
  assert (Ce : forall a b, cell n 0 a b = a * n + b) by (intros; unfold cell; ring). split.
  - intro m. exact (runs_exists Z.eqb Cadd _ _ m D).
  - intros m m' Rn. destruct (Q m m' _ Rn) as (Q1 & Q2). split; [|exact Q2]. intros p dy dx Hp Hy Hx. rewrite Q1, Ce by assumption. reflexivity.
Qed.
Print Assumptions C85_spread.

(** The correction for the shape of the gridding kernel *)
Theorem C85_correction P uvw freq npix pixels nvis : plan_ok P uvw freq npix pixels nvis ->
  (forall img, exists img', correct P npix pixels img img') /\
  forall img img', correct P npix pixels img img' ->
    (forall dy dx, inside P dy -> inside P dx -> img' (pixel P dy dx) = (img (pixel P dy dx) * correction P dy dx)%R) /\
    (forall l, (forall dy dx, inside P dy -> inside P dx -> l <> pixel P dy dx) -> img' l = img l).
Proof. apply correct_result. Qed.
Print Assumptions C85_correction.

(** With an odd image size the last row and the last column are never written. *)
Theorem C85_odd_refuted (n g start subset : Z) (px ivs minw : R) (shift do_w : bool) (stack : nd C) :
  2 <= n -> Z.odd n = true -> n / 2 + g / 2 < g -> 1 <= subset -> subset * (g * g) <= 2147483647 -> n * n <= 2147483647 -> (do_w = true -> in_sky n px) -> shape stack = [subset * (g * g)] ->
  forall m m', runs Z.eqb Rplus (image_threads n) (apply_w_screen_and_sum n g start subset px ivs minw shift do_w stack (n * n)) m m' ->
    forall y x, 0 <= y < n -> 0 <= x < n -> y = n - 1 \/ x = n - 1 -> m' (y * n + x) = m (y * n + x).
Proof.
  intros H1 Ho H2 H3 H4 H5 H6 H7 m m' Rn y x Hy Hx L. apply Z.odd_spec in Ho. destruct Ho as [q Ho].
  destruct (C85_apply n g start subset px ivs minw shift do_w stack H1 H2 H3 H4 H5 H6 H7) as (_ & Q). destruct (Q m m' Rn) as (_ & Q2). apply Q2.
  intros dy dx Dy Dx E. assert (n / 2 = q) by lia.
  assert (E2 : cell n 0 y x = cell n 0 (n / 2 + dy) (n / 2 + dx)) by (unfold cell; lia). apply cell_inj in E2; lia.
Qed.
Print Assumptions C85_odd_refuted.

(** From 65536 pixels on the index of the centre of the grid does not fit the int that holds it. *)
Theorem C85_overflow_refuted (n g start subset : Z) (px ivs minw : R) (shift do_w : bool) (stack : nd C) (pixels : Z) : 2 <= n -> 65536 <= g -> 1 <= subset ->
  apply_w_screen_and_sum n g start subset px ivs minw shift do_w stack pixels (0, 0) = None.
Proof.
  intros Hn Hg Hs. unfold apply_w_screen_and_sum. cbv beta zeta. replace (negb ((0 <=? n / 2) && (0 <=? n / 2))) with false by lia.
  assert (C : plane_centre g (start - start) = None).
  { unfold plane_centre, centre. cbv zeta. assert (B : 2147483647 < g / 2 * g) by nia. unfold to_int at 1. replace ((-2147483648 <=? g / 2 * g) && (g / 2 * g <=? 2147483647)) with false by lia. reflexivity. }
  rewrite for_first by lia. rewrite C. reflexivity.
Qed.
Print Assumptions C85_overflow_refuted.

(** C86.  Gridding adds to every cell of the planes the sum over all visibilities of weight times visibility (conjugated when w is negative) times the
    gridding kernel at the distance to the cell - however the threads interleave. *)
Theorem C86_gridding P uvw freq nvis cells vis weight : es_ok P uvw freq nvis cells -> shape vis = [nvis] -> shape weight = [nvis] ->
  (forall m, exists m', runs loc_eqb Rplus (vis_threads P) (gridding P vis weight uvw freq cells) m m') /\
  forall m m', runs loc_eqb Rplus (vis_threads P) (gridding P vis weight uvw freq cells) m m' ->
    forall p a b i, 0 <= p < num_w_grids_subset P -> 0 <= a < grid_size P -> 0 <= b < grid_size P ->
      m' (cell (grid_size P) p a b, i) = (m (cell (grid_size P) p a b, i) + rsumf 0 (num_vis_rows P) (fun r => rsumf 0 (num_vis_chan P) (fun c =>
        coef P uvw freq r c (grid_start_w P + p)%Z a b *
          (elem weight [(c + num_vis_chan P * r)%Z] * part i (elem vis [(c + num_vis_chan P * r)%Z]) * (if i then turned P uvw r else 1)))))%R.
Proof.
  intros OK Sv Sw. destruct (gridding_result P uvw freq nvis cells OK vis weight Sv Sw) as (D & Q). split; [|exact Q]. intro m. exact (runs_exists loc_eqb Rplus _ _ m D).
Qed.
Print Assumptions C86_gridding.

(** Degridding adds to every visibility the sum of the cells with the same factors, and changes nothing else. *)
Theorem C86_degridding P uvw freq nvis cells grid : es_ok P uvw freq nvis cells -> shape grid = [cells] ->
  (forall m, exists m', runs loc_eqb Rplus (vis_threads P) (degridding P grid nvis uvw freq) m m') /\
  forall m m', runs loc_eqb Rplus (vis_threads P) (degridding P grid nvis uvw freq) m m' ->
    forall r c i, 0 <= r < num_vis_rows P -> 0 <= c < num_vis_chan P ->
      m' (c + num_vis_chan P * r, i) = (m (c + num_vis_chan P * r, i)%Z + (if i then turned P uvw r else 1) *
        rsumf 0 (num_w_grids_subset P) (fun p => rsumf 0 (grid_size P) (fun a => rsumf 0 (grid_size P) (fun b =>
          part i (elem grid [cell (grid_size P) p a b]) * coef P uvw freq r c (grid_start_w P + p)%Z a b))))%R.
Proof.
  intros OK Sg. destruct (degridding_result P uvw freq nvis cells OK grid Sg) as (D & Q). split; [|exact Q]. intro m. exact (runs_exists loc_eqb Rplus _ _ m D).
Qed.
Print Assumptions C86_degridding.

(** C87.  Gridding: the image becomes (its old contents + the sum over all visibilities of weight times the real part of visibility times response), times the
    correction.  The result is the same for all schedules of the threads. *)
Theorem C87_gridding P uvw freq npix pixels nvis vis weight : plan_ok P uvw freq npix pixels nvis -> shape vis = [nvis] -> shape weight = [nvis] ->
  (forall img, exists img', grid_exec P uvw freq npix pixels vis weight img img') /\
  forall img img', grid_exec P uvw freq npix pixels vis weight img img' ->
    (forall dy dx, inside P dy -> inside P dx -> img' (pixel P dy dx) = (correction P dy dx * (img (pixel P dy dx) +
       rsumf 0 (p_rows P) (fun r => rsumf 0 (p_chan P) (fun c => elem weight [vis_at P r c] * re (Cmul (elem vis [vis_at P r c]) (response P uvw freq r c dy dx))))))%R) /\
    (forall l, (forall dy dx, inside P dy -> inside P dx -> l <> pixel P dy dx) -> img' l = img l).
Proof. intro OK. now apply grid_result. Qed.
Print Assumptions C87_gridding.

(** Degridding: the image is multiplied with the correction in place, and every visibility grows by the sum over the pixels of the corrected image times the
    conjugate of the same response. *)
Theorem C87_degridding P uvw freq npix pixels nvis : plan_ok P uvw freq npix pixels nvis ->
  (forall img v, exists img' v', degrid_exec P uvw freq npix pixels nvis img v img' v') /\
  forall img v img' v', degrid_exec P uvw freq npix pixels nvis img v img' v' ->
    (forall dy dx, inside P dy -> inside P dx -> img' (pixel P dy dx) = (img (pixel P dy dx) * correction P dy dx)%R) /\
    (forall l, (forall dy dx, inside P dy -> inside P dx -> l <> pixel P dy dx) -> img' l = img l) /\
    forall r c i, 0 <= r < p_rows P -> 0 <= c < p_chan P -> v' (vis_at P r c, i) = (v (vis_at P r c, i) + part i (predicted P uvw freq img' r c))%R.
Proof. intro OK. now apply degrid_result. Qed.
Print Assumptions C87_degridding.

(** Degridding is the adjoint of gridding: with weights 1 and from zeros, the inner product of any image with the gridded visibilities equals that of the
    visibilities with the degridded image. *)
Theorem C87_adjoint P uvw freq npix pixels nvis vis weight img dirty img' v' : plan_ok P uvw freq npix pixels nvis -> shape vis = [nvis] -> shape weight = [nvis] ->
  (forall r c, 0 <= r < p_rows P -> 0 <= c < p_chan P -> elem weight [vis_at P r c] = 1%R) ->
  grid_exec P uvw freq npix pixels vis weight (fun _ => 0%R) dirty -> degrid_exec P uvw freq npix pixels nvis img (fun _ => 0%R) img' v' ->
  let h := p_image P / 2 in
  rsumf (- h) h (fun dy => rsumf (- h) h (fun dx => img (pixel P dy dx) * dirty (pixel P dy dx)))%R =
  rsumf 0 (p_rows P) (fun r => rsumf 0 (p_chan P) (fun c => re (elem vis [vis_at P r c]) * v' (vis_at P r c, false) + im (elem vis [vis_at P r c]) * v' (vis_at P r c, true)))%R.
Proof.
  intros OK Sv Sw W1 G D h. destruct (C87_gridding P uvw freq npix pixels nvis vis weight OK Sv Sw) as (_ & GR). destruct (GR _ _ G) as (G1 & _).
  destruct (C87_degridding P uvw freq npix pixels nvis OK) as (_ & DR). destruct (DR _ _ _ _ D) as (D1 & _ & D2).
  transitivity (rsumf (- h) h (fun dy => rsumf (- h) h (fun dx => rsumf 0 (p_rows P) (fun r => rsumf 0 (p_chan P) (fun c =>
    img' (pixel P dy dx) * re (Cmul (elem vis [vis_at P r c]) (response P uvw freq r c dy dx)))))))%R.
  - apply rsumf_ext. intros dy Hy. apply rsumf_ext. intros dx Hx. rewrite G1, D1 by assumption. rewrite Rplus_0_l, <- Rmult_assoc, rsumf_mul_l. apply rsumf_ext. intros r Hr. rewrite rsumf_mul_l.
    apply rsumf_ext. intros c Hc. rewrite W1 by assumption. ring.
  - transitivity (rsumf 0 (p_rows P) (fun r => rsumf 0 (p_chan P) (fun c => rsumf (- h) h (fun dy => rsumf (- h) h (fun dx =>
      img' (pixel P dy dx) * re (Cmul (elem vis [vis_at P r c]) (response P uvw freq r c dy dx)))))))%R.
    + transitivity (rsumf (- h) h (fun dy => rsumf 0 (p_rows P) (fun r => rsumf 0 (p_chan P) (fun c => rsumf (- h) h (fun dx =>
        img' (pixel P dy dx) * re (Cmul (elem vis [vis_at P r c]) (response P uvw freq r c dy dx)))))))%R.
      * apply rsumf_ext. intros dy _. rewrite rsumf_swap. apply rsumf_ext. intros r _. apply rsumf_swap.
      * rewrite rsumf_swap. apply rsumf_ext. intros r _. apply rsumf_swap.
    + apply rsumf_ext. intros r Hr. apply rsumf_ext. intros c Hc. rewrite !D2, !Rplus_0_l by assumption. unfold predicted. rewrite !part_csum, !rsumf_mul_l, <- rsumf_add. fold h.
      apply rsumf_ext. intros dy _. rewrite !part_csum, !rsumf_mul_l, <- rsumf_add. apply rsumf_ext. intros dx _. unfold part, Cmul, Cconj, RtoC, re, im. cbn [fst snd]. ring.
Qed.
Print Assumptions C87_adjoint.

(** The buffers described as outputs are read: what is in them before the call changes the result. *)
Theorem C87_output_refuted P uvw freq npix pixels nvis vis weight img1 img2 d1 d2 dy dx : plan_ok P uvw freq npix pixels nvis -> shape vis = [nvis] -> shape weight = [nvis] ->
  inside P dy -> inside P dx -> correction P dy dx <> 0%R -> img1 (pixel P dy dx) <> img2 (pixel P dy dx) ->
  grid_exec P uvw freq npix pixels vis weight img1 d1 -> grid_exec P uvw freq npix pixels vis weight img2 d2 -> d1 (pixel P dy dx) <> d2 (pixel P dy dx).
Proof.
  intros OK Sv Sw Hy Hx Nz N G1 G2 E. destruct (C87_gridding P uvw freq npix pixels nvis vis weight OK Sv Sw) as (_ & GR). destruct (GR _ _ G1) as (E1 & _). destruct (GR _ _ G2) as (E2 & _).
  rewrite E1, E2 in E by assumption. apply Rmult_eq_reg_l in E; [|exact Nz]. apply N. lra.
Qed.
Print Assumptions C87_output_refuted.

(** A zero baseline, in 2D *)
Definition zero_row (P : es_args) (uvw : nd R) (r : Z) : Prop :=
  wstack P = false /\ grid_start_w P = 0 /\ num_w_grids_subset P = 1 /\ forall k, 0 <= k < 3 -> elem uvw [r; k] = 0%R.

Lemma zero_place P uvw freq r c : zero_row P uvw r -> shape uvw = [num_vis_rows P; 3] -> shape freq = [num_vis_chan P] -> 0 <= r < num_vis_rows P -> 0 <= c < num_vis_chan P -> 0 <= support P <= 1000 -> 3 <= grid_size P ->
  exists L, get_place P uvw freq (c, r) = Some L /\ pos_u L = 0%R /\ u_min L = Z.max (- (support P / 2)) (cdiv (- grid_size P) 2) /\ u_max L = Z.min (support P / 2) (cdiv (grid_size P - 1) 2) /\
    v_min L <= 0 <= v_max L /\ w_min L = 0 /\ w_max L = 0.
Proof.
  intros (Hw & Hs & Hn & Hz) Su Sf Hr Hc Hsup Hg. unfold get_place. cbn [fst snd]. rewrite !rd_some by (rewrite ?Su, ?Sf, ?in_shape_2, ?in_shape_1; lia). cbn [bind]. rewrite Hw, !Hz by lia.
  set (x := (0 * (1 * elem freq [c] / 299792458) * uv_scale P)%R). assert (Ex : x = 0%R) by (unfold x; ring). rewrite Ex.
  assert (Lo : ceilZ (0 - IZR (support P) / 2) = - (support P / 2)).
  { apply Z.le_antisymm.
    - apply ceilZ_iff. rewrite opp_IZR. assert (A : 2 * (support P / 2) <= support P) by lia. apply IZR_le in A. rewrite mult_IZR in A. lra.
    - assert (A : ~ (ceilZ (0 - IZR (support P) / 2) <= - (support P / 2) - 1)); [|lia]. intro L. apply ceilZ_iff in L. rewrite minus_IZR, opp_IZR in L.
      assert (B : support P <= 2 * (support P / 2) + 1) by lia. apply IZR_le in B. rewrite plus_IZR, mult_IZR in B. lra. }
  assert (Hi : floorZ (0 + IZR (support P) / 2) = support P / 2).
  { apply Z.le_antisymm.
    - assert (A : ~ (support P / 2 + 1 <= floorZ (0 + IZR (support P) / 2))); [|lia]. intro L. apply floorZ_iff in L. rewrite plus_IZR in L.
      assert (B : support P <= 2 * (support P / 2) + 1) by lia. apply IZR_le in B. rewrite plus_IZR, mult_IZR in B. lra.
    - apply floorZ_iff. assert (A : 2 * (support P / 2) <= support P) by lia. apply IZR_le in A. rewrite mult_IZR in A. lra. }
  rewrite !Lo, !Hi. rewrite !to_int_in by lia. cbn [bind]. eexists. split; [reflexivity|]. cbn [pos_u u_min u_max v_min v_max w_min w_max]. rewrite Hs, Hn.
  assert (Q1 : cdiv (- grid_size P) 2 <= 0) by (unfold cdiv; pose proof (Z.quot_opp_l (grid_size P) 2); pose proof (Z.quot_pos (grid_size P) 2); lia).
  assert (Q2 : 1 <= cdiv (grid_size P - 1) 2) by (unfold cdiv; rewrite Z.quot_div_nonneg by lia; lia).
  repeat (split; [reflexivity||lia|]).
  change (u32 (0 + 1 - 1)) with 0. unfold u32. rewrite Z.mod_small by lia. replace (Z.min (support P / 2) 0) with 0 by lia. reflexivity.
Qed.

Lemma table_overrun P pos lo hi : lo + 16 <= hi -> kernel_table P pos lo hi = None.
Proof.
  intro H. unfold kernel_table. match goal with |- ?X = None => destruct X as [t|] eqn:E; [exfalso|reflexivity] end.
  set (F := fun g k => wr k [g - lo] (Some (exp_semicircle (beta P) ((IZR g - pos) * (1 / (IZR (support P) / 2)))))) in E.
  assert (N : for_ lo (lo + 16 + 1) F (mk_nd [KERNEL_SUPPORT_BOUND] (fun _ => None)) = None).
  { rewrite for_snoc by lia. destruct (for_ lo (lo + 16) F (mk_nd [KERNEL_SUPPORT_BOUND] (fun _ => None))) as [k|] eqn:E1; [|reflexivity]. cbn [bind].
    apply (for_inv_partial (fun _ (k : nd (option R)) => shape k = [16])) in E1; [|lia|reflexivity|].
    - unfold F. destruct (wr k _ _) eqn:E2; [|reflexivity]. apply wr_inv in E2. destruct E2 as [E2 _]. rewrite E1, in_shape_1 in E2. lia.
    - intros i s s' Hi Ss Es. unfold F in Es. apply wr_inv in Es. destruct Es as [_ ->]. now rewrite shape_upd. }
  assert (Sp : forall b, lo + 17 <= b -> for_ lo b F (mk_nd [KERNEL_SUPPORT_BOUND] (fun _ => None)) = None).
  { intros b Hb. replace b with (lo + 17 + (b - lo - 17)) by lia. assert (K : 0 <= b - lo - 17) by lia. revert K. generalize (b - lo - 17). intros d K. pattern d. apply natlike_ind; [| |exact K].
    - replace (lo + 17 + 0) with (lo + 16 + 1) by lia. exact N.
    - intros x Hx IH. replace (lo + 17 + Z.succ x) with (lo + 17 + x + 1) by lia. rewrite for_snoc by lia. now rewrite IH. }
  rewrite Sp in E by lia. discriminate.
Qed.

(** With the kernels of support 16, which the parameter choice does select, a zero baseline (an autocorrelation) overruns the table of 16 kernel values. *)
Theorem C86_support_refuted P uvw freq r c vis weight grid nvis cells : zero_row P uvw r -> shape uvw = [num_vis_rows P; 3] -> shape freq = [num_vis_chan P] -> 0 <= r < num_vis_rows P -> 0 <= c < num_vis_chan P ->
  support P = 16 -> 18 <= grid_size P -> gridding P vis weight uvw freq cells (c, r) = None /\ degridding P grid nvis uvw freq (c, r) = None.
Proof.
  intros Hz Su Sf Hr Hc Hs Hg. destruct (zero_place P uvw freq r c Hz Su Sf Hr Hc ltac:(lia) ltac:(lia)) as (L & E & Eu & E1 & E2 & E3 & E4 & E5).
  assert (D1 : cdiv (- grid_size P) 2 <= -8) by (unfold cdiv; rewrite Z.quot_opp_l, Z.quot_div_nonneg by lia; lia).
  assert (D2 : 8 <= cdiv (grid_size P - 1) 2) by (unfold cdiv; rewrite Z.quot_div_nonneg by lia; lia).
  rewrite Hs in E1, E2. change (16 / 2) with 8 in E1, E2. assert (T : kernel_table P (pos_u L) (u_min L) (u_max L) = None) by (apply table_overrun; lia).
  unfold gridding, degridding. cbn [fst snd]. unfold out_of_range. cbn [fst snd]. replace ((c >=? num_vis_chan P) || (r >=? num_vis_rows P)) with false by lia.
  assert (No : no_overlap L = false) by (unfold no_overlap; lia). rewrite E. cbn [bind]. rewrite No. unfold visit. rewrite T. cbn [bind].
  split; [|now destruct (vis_index P (c, r))]. destruct (vis_index P (c, r)); [|reflexivity]. cbn [bind]. destruct (rd vis _); [|reflexivity]. cbn [bind]. now destruct (rd weight _).
Qed.
Print Assumptions C86_support_refuted.

(** From 46341 cells on, the number of cells of a plane does not fit the int it is computed in. *)
Theorem C86_overflow_refuted P uvw freq r c vis weight grid nvis cells : zero_row P uvw r -> shape uvw = [num_vis_rows P; 3] -> shape freq = [num_vis_chan P] -> 0 <= r < num_vis_rows P -> 0 <= c < num_vis_chan P ->
  0 <= support P <= 16 -> 46341 <= grid_size P -> gridding P vis weight uvw freq cells (c, r) = None /\ degridding P grid nvis uvw freq (c, r) = None.
Proof.
  intros Hz Su Sf Hr Hc Hs Hg. destruct (zero_place P uvw freq r c Hz Su Sf Hr Hc ltac:(lia) ltac:(lia)) as (L & E & Eu & E1 & E2 & E3 & E4 & E5).
  assert (D1 : cdiv (- grid_size P) 2 <= -8) by (unfold cdiv; rewrite Z.quot_opp_l, Z.quot_div_nonneg by lia; lia).
  assert (D2 : 8 <= cdiv (grid_size P - 1) 2) by (unfold cdiv; rewrite Z.quot_div_nonneg by lia; lia).
  assert (T : to_int (grid_size P * grid_size P) = None) by (unfold to_int; replace ((-2147483648 <=? grid_size P * grid_size P) && (grid_size P * grid_size P <=? 2147483647)) with false by nia; reflexivity).
  assert (No : no_overlap L = false) by (unfold no_overlap; lia).
  assert (V : forall S (f : Z -> R -> S -> option S) s, visit P L f s = None).
  { intros S f s. unfold visit. destruct (kernel_table P (pos_u L) (u_min L) (u_max L)); [|reflexivity]. cbn [bind]. destruct (kernel_table P (pos_v L) (v_min L) (v_max L)); [|reflexivity]. cbn [bind].
    rewrite for_first by lia. rewrite T. reflexivity. }
  unfold gridding, degridding. cbn [fst snd]. unfold out_of_range. cbn [fst snd]. replace ((c >=? num_vis_chan P) || (r >=? num_vis_rows P)) with false by lia.
  rewrite E. cbn [bind]. rewrite No. rewrite V. cbn [bind].
  split; [|now destruct (vis_index P (c, r))]. destruct (vis_index P (c, r)); [|reflexivity]. cbn [bind]. destruct (rd vis _); [|reflexivity]. cbn [bind]. destruct (rd weight _); [|reflexivity]. cbn [bind]. apply V.
Qed.
Print Assumptions C86_overflow_refuted.

(** The calls do not compare the buffers with those the plan was made for: fewer visibilities than planned, and the kernel reads outside of them; an image
    smaller than planned, and it is written outside. *)
Theorem C87_other_sizes_refuted : (forall P uvw freq vis weight cells N, shape vis = [N] -> 0 <= N -> N < num_vis_chan P * num_vis_rows P -> num_vis_chan P * num_vis_rows P <= 2147483647 -> 1 <= num_vis_chan P ->
    gridding P vis weight uvw freq cells (num_vis_chan P - 1, num_vis_rows P - 1) = None) /\
  (forall n g start subset px ivs minw shift do_w stack pixels, 4 <= n -> n * n <= 2147483647 -> pixels <= n / 2 * n + n / 2 ->
    apply_w_screen_and_sum n g start subset px ivs minw shift do_w stack pixels (0, 0) = None).
Proof.
  split.
  - intros P uvw freq vis weight cells N Sv H0 H1 H2 H3. unfold gridding, vis_index. cbn [fst snd]. assert (1 <= num_vis_rows P) by nia.
    rewrite to_int_in by nia. cbn [bind]. rewrite to_int_in by nia. cbn [bind]. unfold out_of_range. cbn [fst snd]. replace (_ || _) with false by lia.
    destruct (get_place _ _ _ _); [|reflexivity]. cbn [bind]. destruct (rd vis _) eqn:E; [|reflexivity]. apply rd_inv in E. destruct E as [E _]. rewrite Sv, in_shape_1 in E. lia.
  - intros n g start subset px ivs minw shift do_w stack pixels Hn Hn2 Hp. unfold apply_w_screen_and_sum. cbv beta zeta. replace (negb ((0 <=? n / 2) && (0 <=? n / 2))) with false by lia.
    destruct (for_ _ _ _ _) as [[[[pp pn] np] nn]|]; [|reflexivity]. cbn [bind]. rewrite centre_ok by lia. cbn [bind]. replace ((0 <? n / 2) && (0 <? n / 2)) with true by lia.
    rewrite lin0_ok by lia. cbn [bind]. unfold within. replace (_ && _) with false; [reflexivity|]. symmetry. apply andb_false_intro2. unfold cell. lia.
Qed.
Print Assumptions C87_other_sizes_refuted.

(** *** The hypotheses can be met: one visibility with negative w, a 4 x 4 image on an 8 x 8 grid, three planes *)
Definition some_uvw : nd R := mk_nd [1; 3] (fun i => match i with [0; 0] => 1/2 | [0; 1] => -1/4 | _ => -1 end)%R.
Definition some_freq : nd R := mk_nd [1] (fun _ => 299792458%R).
Definition some_plan : es_plan :=
  mk_plan 1 1 4 8 4 3 true 2 (1/10) (8/10) 1 1 0 1 (mk_nd [3] (fun _ => 1%R)) (mk_nd [32] (fun _ => 1%R)) (mk_nd [32] (fun _ => 0%R)) (mk_nd [32] (fun _ => 1/10)%R).
Example C87_hyps : plan_ok some_plan some_uvw some_freq 4 16 1 /\ inside some_plan (-2) /\ turned (args0 some_plan) some_uvw 0 = (-1)%R /\ correction some_plan (-2) 1 <> 0%R.
Proof.
  assert (T : turned (args0 some_plan) some_uvw 0 = (-1)%R) by (unfold turned, args0, some_plan, some_uvw; cbn; destruct (Rlt_dec (-1) 0); [reflexivity|lra]).
  split; [|split; [|split; [exact T|]]].
  - constructor; cbn [p_image p_grid p_num_w p_do_w p_px p_support p_conv p_qk p_qn p_qw some_plan]; try reflexivity; try lia; try discriminate.
    + intros _. unfold in_sky. change (4 / 2) with 2. replace (2 * (1 / 10 * 2) * (1 / 10 * 2))%R with (8 / 100)%R by field. lra.
    + intros k Hk. assert (Sb : subset_of 3 k = 1) by (unfold subset_of, cmod; rewrite Z.rem_small by lia; lia).
      constructor; cbn [args_of num_vis_rows num_vis_chan grid_size grid_start_w num_w_grids_subset support p_rows p_chan p_grid p_support p_num_w some_plan]; rewrite ?Sb; try reflexivity; try lia.
      intros r c Hr Hc. replace r with 0 by lia. replace c with 0 by lia. split; [left; cbn [args_of support p_support some_plan]; lia|].
      assert (W : forall j, waves (args_of some_plan k) some_uvw some_freq 0 0 j = (- elem some_uvw [0%Z; j])%R).
      { intro j. unfold waves. change (turned (args_of some_plan k) some_uvw 0) with (turned (args0 some_plan) some_uvw 0). rewrite T. unfold some_freq. cbn [elem]. field. }
      unfold near, at_u, at_v, at_w. rewrite !W. unfold some_plan, some_uvw. cbn [args_of wstack uv_scale w_scale min_plane_w p_do_w p_uv_scale p_w_scale p_min_plane_w elem].
      repeat split; unfold Rabs; destruct (Rcase_abs _); lra.
  - unfold inside, some_plan. cbn [p_image]. change (4 / 2) with 2. lia.
  - unfold correction, some_plan, kernel_transform. cbn [p_px p_do_w p_conv p_qk p_qn p_qw p_support p_inv_w_scale p_norm elem]. apply Rinv_neq_0_compat.
    assert (E : rsumf 0 (quadrature_points 4) (fun i => 1 * cos (PI * ((sqrt (1 - 1 / 10 * IZR 1 * (1 / 10 * IZR 1) - 1 / 10 * IZR (-2) * (1 / 10 * IZR (-2))) - 1) * 1) * IZR 4 * 0) * (1 / 10))%R = (8 / 10)%R).
    { rewrite (rsumf_ext _ _ _ (fun _ => (1 / 10)%R)) by (intros; rewrite Rmult_0_r, cos_0; field). unfold rsumf, sum. change (quadrature_points 4) with 8. change (zrange 0 8) with [0; 1; 2; 3; 4; 5; 6; 7]. cbn [map fold_right]. field. }
    rewrite E. change (Z.abs 1) with 1. change (Z.abs (-2)) with 2. lra.
Qed.
