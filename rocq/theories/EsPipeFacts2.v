From Coq Require Import Lra.
From Verif Require Import Base BaseFacts Sum CRing Clamp Cplx Legendre FftSpec FftFacts FftFacts2 FftConvFacts2 Sets Gpu GpuFacts EsKernels EsKernelsSpec EsKernelsFacts EsKernelsFacts2 GpuFacts2 EsKernelsFacts3
  EsScreenSpec EsScreenFacts EsScreenFacts2 EsPipe EsPipeSpec EsPipeFacts.
Open Scope Z_scope.

Section Exec.
Context (P : es_plan) (uvw freq : nd R) (npix pixels nvis : Z) (OK : plan_ok P uvw freq npix pixels nvis).
Notation n := (p_image P).
Notation g := (p_grid P).
Notation h := (n / 2).
Notation o := (g / 2).
Notation nw := (p_num_w P).
Notation tm k r c dy dx := (Cmul (waves_sum P uvw freq k r c dy dx) (Cconj (sky P k dy dx))).

Lemma pixel_cell dy dx : cell n 0 (h + dy) (h + dx) = pixel P dy dx.
Proof. unfold cell, pixel. ring. Qed.

Lemma stack_elem (vis : nd C) (weight : nd R) k st s t : 0 <= k < nw -> shape vis = [nvis] -> shape weight = [nvis] -> 0 <= s < g -> 0 <= t < g ->
  runs loc_eqb Rplus (vis_threads (args_of P k)) (gridding (args_of P k) vis weight uvw freq (g * g)) (fun _ => 0%R) st ->
  elem (stack_of (g * g) st) [s * g + t] = csum 0 (p_rows P) (fun r => csum 0 (p_chan P) (fun c =>
    Cmul (Cmul (RtoC (elem weight [vis_at P r c])) (orient P uvw r (elem vis [vis_at P r c]))) (RtoC (coef (args_of P k) uvw freq r c k s t)))).
Proof.
  intros Hk Sv Sw Hs Ht Rn. pose proof (pk_args _ _ _ _ _ _ OK k Hk) as A. destruct (gridding_result (args_of P k) uvw freq nvis (g * g) A vis weight Sv Sw) as (_ & G).
  specialize (G _ _ Rn 0 s t). cbn [grid_size num_w_grids_subset args_of num_vis_rows num_vis_chan grid_start_w] in G. rewrite (subset_1 P k Hk) in G.
  assert (Ce : cell g 0 s t = s * g + t) by (unfold cell; ring). rewrite Ce in G. unfold stack_of. cbn [elem].
  apply C_eq.
  - rewrite re_csum. change (re (st (s * g + t, false), st (s * g + t, true))) with (st (s * g + t, false)). rewrite (G false) by lia. rewrite Rplus_0_l. apply rsumf_ext. intros r _.
    rewrite re_csum. apply rsumf_ext. intros c _. rewrite Z.add_0_r. unfold part, orient, Cmul, RtoC, re, im, vis_at. cbn [fst snd]. ring.
  - rewrite im_csum. change (im (st (s * g + t, false), st (s * g + t, true))) with (st (s * g + t, true)). rewrite (G true) by lia. rewrite Rplus_0_l. apply rsumf_ext. intros r _.
    rewrite im_csum. apply rsumf_ext. intros c _. rewrite Z.add_0_r. unfold part, orient, Cmul, RtoC, re, im, vis_at. cbn [fst snd].
    change (turned (args_of P k) uvw r) with (turned (args0 P) uvw r). ring.
Qed.

Definition batch_value (vis : nd C) (weight : nd R) (k dy dx : Z) : R :=
  rsumf 0 (p_rows P) (fun r => rsumf 0 (p_chan P) (fun c => (elem weight [vis_at P r c] * re (Cmul (orient P uvw r (elem vis [vis_at P r c])) (tm k r c dy dx)))%R)).

Lemma dims : 2 <= n /\ h + g / 2 < g /\ n * n <= 2147483647 /\ 1 * (g * g) <= 2147483647.
Proof. pose proof (half_lt _ _ _ _ _ _ OK). pose proof (g_even _ _ _ _ _ _ OK). pose proof (g2 _ _ _ _ _ _ OK). pose proof (pk_image _ _ _ _ _ _ OK). pose proof (pk_image2 _ _ _ _ _ _ OK). lia. Qed.

Lemma grid_batch_result (vis : nd C) (weight : nd R) k : 0 <= k < nw -> shape vis = [nvis] -> shape weight = [nvis] ->
  (forall img, exists img', grid_batch P uvw freq npix pixels vis weight k img img') /\
  forall img img', grid_batch P uvw freq npix pixels vis weight k img img' ->
    (forall dy dx, inside P dy -> inside P dx -> img' (pixel P dy dx) = (img (pixel P dy dx) + batch_value vis weight k dy dx)%R) /\
    (forall l, (forall dy dx, inside P dy -> inside P dx -> l <> pixel P dy dx) -> img' l = img l).
Proof.
  intros Hk Sv Sw. destruct dims as (D1 & D2 & D3 & D4). pose proof (pk_args _ _ _ _ _ _ OK k Hk) as A.
  pose proof (pk_npix _ _ _ _ _ _ OK) as En. pose proof (pk_pixels _ _ _ _ _ _ OK) as Ep. rewrite En, Ep.
  destruct (gridding_result (args_of P k) uvw freq nvis (g * g) A vis weight Sv Sw) as (Df & _).
  assert (AR := fun st => apply_result n g k 1 (p_px P) (p_inv_w_scale P) (p_min_plane_w P) true (p_do_w P) D1 D2 ltac:(lia) D4 D3 (pk_sky _ _ _ _ _ _ OK) (fft true g (stack_of (g * g) st))).
  split.
  - intro img. destruct (runs_exists loc_eqb Rplus _ _ (fun _ => 0%R) Df) as (st & R1). destruct (AR st) as (Df2 & _); [unfold fft; cbn [shape]; f_equal; ring|].
    destruct (runs_exists Z.eqb Rplus _ _ img Df2) as (img' & R2). exists img', st. split; [exact R1|]. rewrite (subset_1 P k Hk). exact R2.
  - intros img img' (st & R1 & R2). rewrite (subset_1 P k Hk) in R2. destruct (AR st) as (_ & Q); [unfold fft; cbn [shape]; f_equal; ring|].
    destruct (Q _ _ R2) as (Q1 & Q2). split.
    + intros dy dx Hy Hx. rewrite <- pixel_cell. rewrite Q1 by assumption. f_equal. unfold shift_sign, seen.
      rewrite (rsumf_one _ _ k) by (intros; lia). rewrite Z.sub_diag. pose proof (half_lt _ _ _ _ _ _ OK). pose proof (g_even _ _ _ _ _ _ OK). unfold inside in *.
      rewrite fft_elem by lia.
      rewrite (DFT2_ext true g g _ (fun s t => csum 0 (p_rows P) (fun r => csum 0 (p_chan P) (fun c =>
        Cmul (Cmul (RtoC (elem weight [vis_at P r c])) (orient P uvw r (elem vis [vis_at P r c]))) (RtoC (coef (args_of P k) uvw freq r c k s t)))))) by (intros; now apply stack_elem).
      rewrite DFT2_csum. 
      assert (X : forall z, (sign (dy + dx) * re (Cmul z (Cconj (sky P k dy dx))) = re (Cmul (Cmul (RtoC (sign (dy + dx))) z) (Cconj (sky P k dy dx))))%R) by (intro; unfold Cmul, RtoC, re, im; cbn [fst snd]; ring).
      unfold sky in X at 1. rewrite X. rewrite csum_mul_l, csum_mul_r, re_csum. apply rsumf_ext. intros r _. rewrite DFT2_csum, csum_mul_l, csum_mul_r, re_csum. apply rsumf_ext. intros c _.
      rewrite DFT2_mul_l. rewrite <- (waves_dft P uvw freq npix pixels nvis OK k r c dy dx). set (D := DFT2 _ _ _ _ _ _). unfold Cmul, RtoC, re, im. cbn [fst snd]. ring.
    + intros l Hl. apply Q2. intros dy dx Hy Hx. rewrite pixel_cell. now apply Hl.
Qed.

(** *** The correction *)
Lemma ceil_points s : ceilZ (IZR 3 / IZR 2 * IZR s + 2) = quadrature_points s.
Proof.
  unfold quadrature_points. apply Z.le_antisymm.
  - apply ceilZ_iff. rewrite plus_IZR. assert (X : 3 * s <= 2 * ((3 * s + 1) / 2)) by lia. apply IZR_le in X. rewrite !mult_IZR in X. lra.
  - assert (X : ~ (ceilZ (IZR 3 / IZR 2 * IZR s + 2) <= (3 * s + 1) / 2 + 1)); [|lia]. intro L. apply ceilZ_iff in L. rewrite plus_IZR in L.
    assert (Y : 2 * ((3 * s + 1) / 2) <= 3 * s + 1) by lia. apply IZR_le in Y. rewrite plus_IZR, !mult_IZR in Y. lra.
Qed.
Lemma conv_corr_ok k : conv_corr (p_support P) k (p_qk P) (p_qn P) (p_qw P) = Some (kernel_transform P k).
Proof.
  pose proof (pk_support _ _ _ _ _ _ OK) as S16. pose proof (pk_num_w _ _ _ _ _ _ OK). pose proof (ok_support _ _ _ _ _ (pk_args _ _ _ _ _ _ OK 0 ltac:(lia))) as S1. cbn [support args_of] in S1.
  unfold conv_corr. rewrite ceil_points. assert (Q : quadrature_points (p_support P) <= 26) by (unfold quadrature_points; lia).
  pose (T i := (elem (p_qk P) [i] * cos (PI * k * IZR (p_support P) * elem (p_qn P) [i]) * elem (p_qw P) [i])%R).
  match goal with |- bind (for_ _ _ ?F ?s0) _ = _ => destruct (for_inv (fun i s => s = rsumf 0 i T) 0 (quadrature_points (p_support P)) F s0) as (s' & -> & ->) end.
  - unfold quadrature_points. lia.
  - unfold rsumf. now rewrite sum_empty by lia.
  - intros i s Hi ->. rewrite (rd_ok _ 32) by (try apply (pk_qk _ _ _ _ _ _ OK); lia). rewrite (rd_ok (p_qn P) 32) by (try apply (pk_qn _ _ _ _ _ _ OK); lia). rewrite (rd_ok (p_qw P) 32) by (try apply (pk_qw _ _ _ _ _ _ OK); lia).
    cbn [bind]. eexists. split; [reflexivity|]. rewrite rsumf_snoc by lia. reflexivity.
  - cbn [bind]. unfold kernel_transform. fold T. f_equal. ring.
Qed.

Lemma correct_result :
  (forall img, exists img', correct P npix pixels img img') /\
  forall img img', correct P npix pixels img img' ->
    (forall dy dx, inside P dy -> inside P dx -> img' (pixel P dy dx) = (img (pixel P dy dx) * correction P dy dx)%R) /\
    (forall l, (forall dy dx, inside P dy -> inside P dx -> l <> pixel P dy dx) -> img' l = img l).
Proof.
  destruct dims as (D1 & D2 & D3 & D4). pose proof (pk_npix _ _ _ _ _ _ OK) as En. pose proof (pk_pixels _ _ _ _ _ _ OK) as Ep. rewrite En, Ep. unfold correct.
  pose proof (pk_conv _ _ _ _ _ _ OK) as Sc.
  destruct (correction_result n g (p_px P) (p_inv_w_scale P) (p_min_plane_w P) (p_do_w P) D1 D3 (pk_sky _ _ _ _ _ _ OK) (p_support P) (p_norm P) (p_conv P) (p_qk P) (p_qn P) (p_qw P)
    (fun i j => (1 / (if p_do_w P then elem (p_conv P) [i] * elem (p_conv P) [j] * (kernel_transform P ((sqrt (1 - p_px P * IZR i * (p_px P * IZR i) - p_px P * IZR j * (p_px P * IZR j)) - 1) * p_inv_w_scale P) * (p_norm P * p_norm P))
       else elem (p_conv P) [i] * elem (p_conv P) [j] * p_norm P * p_norm P))%R)) as (Df & Q).
  - intros i j Hi Hj. exists (elem (p_conv P) [i]), (elem (p_conv P) [j]). eexists. split; [apply (rd_ok _ _ _ Sc); lia|]. split; [apply (rd_ok _ _ _ Sc); lia|]. split; [apply conv_corr_ok|reflexivity].
  - split.
    + intro img. exact (runs_exists Z.eqb Rplus _ _ img Df).
    + intros img img' Rn. destruct (Q _ _ _ Rn) as (Q1 & Q2). split.
      * intros dy dx Hy Hx. rewrite <- pixel_cell. rewrite Q1 by assumption. f_equal. unfold correction. unfold Rdiv. rewrite Rmult_1_l. apply f_equal.
        assert (E : forall d, (p_px P * IZR (Z.abs d) * (p_px P * IZR (Z.abs d)) = p_px P * IZR d * (p_px P * IZR d))%R) by (intro d; destruct (Z.abs_eq_or_opp d) as [-> | ->]; rewrite ?opp_IZR; ring).
        rewrite !E. destruct (p_do_w P); ring.
      * intros l Hl. apply Q2. intros dy dx Hy Hx. rewrite pixel_cell. now apply Hl.
Qed.

(** *** Gridding *)
Lemma chain {S} (R0 : Z -> S -> S -> Prop) N s : 0 <= N -> (forall k x, 0 <= k < N -> exists y, R0 k x y) -> exists f : Z -> S, f 0 = s /\ forall k, 0 <= k < N -> R0 k (f k) (f (k + 1)).
Proof.
  intro H. pattern N. apply natlike_ind; [| |exact H].
  - intros _. exists (fun _ => s). split; [reflexivity|]. intros; lia.
  - intros M HM IH T. destruct IH as (f & F0 & F). { intros; apply T; lia. } destruct (T M (f M)) as (y & Y); [lia|]. exists (fun k => if k =? M + 1 then y else f k). split.
    + replace (0 =? M + 1) with false by lia. exact F0.
    + intros k Hk. replace (k =? M + 1) with false by lia. destruct (Z.eqb_spec (k + 1) (M + 1)) as [E|E]; [replace k with M by lia; exact Y|apply F; lia].
Qed.

Lemma rsumf_batches (vis : nd C) (weight : nd R) dy dx :
  rsumf 0 nw (fun k => batch_value vis weight k dy dx) =
  rsumf 0 (p_rows P) (fun r => rsumf 0 (p_chan P) (fun c => (elem weight [vis_at P r c] * re (Cmul (elem vis [vis_at P r c]) (response P uvw freq r c dy dx)))%R)).
Proof.
  unfold batch_value. rewrite rsumf_swap. apply rsumf_ext. intros r _. rewrite rsumf_swap. apply rsumf_ext. intros c _. rewrite <- rsumf_mul_l. f_equal. rewrite response_eq.
  transitivity (re (Cmul (orient P uvw r (elem vis [vis_at P r c])) (csum 0 nw (fun k => tm k r c dy dx)))).
  - rewrite csum_mul_l, re_csum. reflexivity.
  - unfold orient, Cmul, re, im. cbn [fst snd]. ring.
Qed.

Theorem grid_result (vis : nd C) (weight : nd R) : shape vis = [nvis] -> shape weight = [nvis] ->
  (forall img, exists img', grid_exec P uvw freq npix pixels vis weight img img') /\
  forall img img', grid_exec P uvw freq npix pixels vis weight img img' ->
    (forall dy dx, inside P dy -> inside P dx -> img' (pixel P dy dx) = (correction P dy dx * (img (pixel P dy dx) +
       rsumf 0 (p_rows P) (fun r => rsumf 0 (p_chan P) (fun c => elem weight [vis_at P r c] * re (Cmul (elem vis [vis_at P r c]) (response P uvw freq r c dy dx))))))%R) /\
    (forall l, (forall dy dx, inside P dy -> inside P dx -> l <> pixel P dy dx) -> img' l = img l).
Proof.
  intros Sv Sw. pose proof (pk_num_w _ _ _ _ _ _ OK) as Hw. destruct correct_result as (CD & CR). split.
  - intro img. destruct (chain (grid_batch P uvw freq npix pixels vis weight) nw img ltac:(lia)) as (f & F0 & F).
    { intros k x Hk. now apply (grid_batch_result vis weight k Hk Sv Sw). }
    destruct (CD (f nw)) as (img' & C). exists img', f. auto.
  - intros img img' (f & F0 & F & C). destruct (CR _ _ C) as (C1 & C2).
    assert (X : forall k, 0 <= k <= nw -> (forall dy dx, inside P dy -> inside P dx -> f k (pixel P dy dx) = (img (pixel P dy dx) + rsumf 0 k (fun k => batch_value vis weight k dy dx))%R) /\
       (forall l, (forall dy dx, inside P dy -> inside P dx -> l <> pixel P dy dx) -> f k l = img l)).
    { intros k [Hk Hk2]. revert Hk2. pattern k. apply natlike_ind; [| |exact Hk].
      - intros _. rewrite F0. split; [|reflexivity]. intros. unfold rsumf. rewrite sum_empty by lia. ring.
      - intros j Hj IH Lj. destruct IH as (I1 & I2); [lia|]. destruct (grid_batch_result vis weight j ltac:(lia) Sv Sw) as (_ & B). destruct (B _ _ (F j ltac:(lia))) as (B1 & B2). replace (Z.succ j) with (j + 1) by lia. split.
        + intros dy dx Hy Hx. rewrite B1, I1, rsumf_snoc by (assumption || lia). ring.
        + intros l Hl. rewrite B2, I2 by exact Hl. reflexivity. }
    destruct (X nw ltac:(lia)) as (X1 & X2). split.
    + intros dy dx Hy Hx. rewrite C1, X1 by assumption. rewrite rsumf_batches. ring.
    + intros l Hl. rewrite C2, X2 by exact Hl. reflexivity.
Qed.
End Exec.
