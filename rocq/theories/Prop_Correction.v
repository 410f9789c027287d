(** C89: the grid correction of every plan is positive and bounded *)
From Coq Require Import QArith Qreals Qround Reals Lia Lra.
From Verif Require Import Base BaseFacts Sum Clamp Cplx Legendre EsKernels EsKernelsSpec EsKernelsFacts EsScreenSpec EsScreenFacts2 EsParams EsParamsSpec EsParamsFacts EsPipe EsPipeSpec EsPlan EsPlanSpec EsPlanFacts EsPlanFacts2 EsPlanFacts3
  CosQ CorrectionFacts2 Prop_EsPlan.
Open Scope Z_scope.

Lemma pixel_reach image r g l : 0 <= image -> In r KernelDB -> grid_size_for image r g -> - (image / 2) <= l <= image / 2 -> (Rabs (IZR l / IZR g) <= reach r)%R.
Proof.
  intros Hi I (h & (_ & Lh & _) & ->) Hl. destruct (fine r I) as (_ & O & _).
  assert (O1 : (115 / 100 <= Q2R (k_os r))%R). { apply Qle_Rle in O. eapply Rle_trans; [|exact O]. right. unfold Q2R. cbn. lra. }
  assert (G : (IZR image * Q2R (k_os r) <= IZR (2 * h))%R).
  { assert (Q : (IZR image * Q2R (k_os r) * Q2R (1 # 2) <= IZR h)%R). { rewrite <- Q2R_Z, <- !Q2R_mult, <- Q2R_Z. apply Qle_Rle. pose proof (Qlt_floor (inject_Z image * k_os r * (1 # 2))) as F. apply Qlt_le_weak. eapply Qlt_le_trans; [exact F|]. rewrite <- Zle_Qle. exact Lh. }
    rewrite mult_IZR. replace (Q2R (1 # 2)) with (1 / 2)%R in Q by (unfold Q2R; cbn; lra). lra. }
  eapply Rle_trans; [|apply Rmax_l]. set (o := Q2R (k_os r)) in *. destruct (Z.eq_dec l 0) as [->|Nl].
  { unfold Rdiv at 1. rewrite Rmult_0_l, Rabs_R0. apply Rlt_le. apply Rdiv_lt_0_compat; lra. }
  assert (Al : (1 <= IZR (Z.abs l))%R) by (apply IZR_le; lia). assert (Bl : (2 * IZR (Z.abs l) <= IZR image)%R). { rewrite <- mult_IZR. apply IZR_le. pose proof (Z.mul_div_le image 2 ltac:(lia)). lia. }
  assert (Gp : (0 < IZR (2 * h))%R) by nra. unfold Rdiv at 1. rewrite Rabs_mult, <- abs_IZR, Rabs_inv, (Rabs_right (IZR (2 * h))) by lra.
  apply Rmult_le_reg_r with (IZR (2 * h)); [exact Gp|]. rewrite Rmult_assoc, Rinv_l, Rmult_1_r by lra. apply Rmult_le_reg_l with (2 * o)%R; [lra|].
  replace (2 * o * (1 / (2 * o) * IZR (2 * h)))%R with (IZR (2 * h)) by (field; lra). nra.
Qed.

(** The tables of the l and m corrections are between 1/175 and 1. *)
Theorem C89_table rows chan image dbl px epsilon mn mx do_w P l : 0 <= image <= 78000000 -> make_plan rows chan image dbl px epsilon mn mx do_w = Some P ->
  0 <= l <= image / 2 -> (1 / 175 <= elem (p_conv P) [l] <= 1)%R.
Proof.
  intros Hi M Hl. pose proof (C84_tables _ _ _ _ _ _ _ _ _ _ Hi M) as T. destruct T as (_ & _ & _ & _ & _ & _ & _ & _ & Cv & _). apply make_ok in M; [|exact Hi]. pose proof (norm_pos _ _ _ _ _ _ _ _ _ _ M) as Np.
  destruct (transform_bounds _ _ _ _ _ _ _ _ _ _ M) as (r & _ & I & Gs & B). rewrite Cv by exact Hl. destruct (B (IZR l / IZR (p_grid P))%R) as [B1 B2]; [apply (pixel_reach image); [lia|exact I|exact Gs|lia]|].
  set (T := kernel_transform P _) in *. assert (E : (T / p_norm P * p_norm P = T)%R) by (field; lra). split; apply Rmult_le_reg_r with (p_norm P); try exact Np; rewrite E; lra.
Qed.
Print Assumptions C89_table.

(** The correction of every pixel is positive and bounded, relative to the norm: no division by zero or by a tiny number. *)
Theorem C89_correction rows chan image dbl px epsilon mn mx do_w P dy dx : 0 <= image <= 78000000 -> make_plan rows chan image dbl px epsilon mn mx do_w = Some P ->
  (do_w = true -> (mn < mx)%R /\ (2 * (px * (IZR image / 2)) * (px * (IZR image / 2)) <= 1)%R) ->
  - (image / 2) <= dy <= image / 2 -> - (image / 2) <= dx <= image / 2 ->
  let f := (if do_w then p_norm P * p_norm P * p_norm P else p_norm P * p_norm P)%R in
  (0 < p_norm P)%R /\ (0 < correction P dy dx)%R /\ (1 <= correction P dy dx * f <= if do_w then 175 * 175 * 175 else 175 * 175)%R.
Proof.
  intros Hi M Hw Hy Hx f. pose proof M as M0. apply make_ok in M; [|exact Hi]. pose proof (norm_pos _ _ _ _ _ _ _ _ _ _ M) as Np. rewrite (C84_correction _ _ _ _ _ _ _ _ _ _ dy dx Hi M0) by (assumption || lra).
  destruct (transform_bounds _ _ _ _ _ _ _ _ _ _ M) as (r & _ & I & Gs & B).
  destruct (B (IZR dx / IZR (p_grid P))%R) as [X1 X2]; [apply (pixel_reach image); (assumption || lia)|]. destruct (B (IZR dy / IZR (p_grid P))%R) as [Y1 Y2]; [apply (pixel_reach image); (assumption || lia)|].
  split; [exact Np|]. set (X := kernel_transform P (IZR dx / _)) in *. set (Y := kernel_transform P (IZR dy / _)) in *. set (N := p_norm P) in *.
  assert (Px : (0 < X)%R) by lra. assert (Py : (0 < Y)%R) by lra. assert (XY : (X * Y <= N * N)%R) by (apply Rmult_le_compat; lra). assert (NXY : (N * N <= (175 * X) * (175 * Y))%R) by (apply Rmult_le_compat; lra). assert (Pxy : (0 < X * Y)%R) by (apply Rmult_lt_0_compat; assumption).
  assert (Inv : forall D F c, (0 < D)%R -> (D <= F)%R -> (F <= c * D)%R -> (0 < / D /\ 1 <= / D * F <= c)%R).
  { intros D F c D0 D1 D2. split; [now apply Rinv_0_lt_compat|]. split; apply Rmult_le_reg_l with D; try exact D0; rewrite <- Rmult_assoc, Rinv_r, ?Rmult_1_l by lra; lra. }
  unfold f. destruct do_w.
  - destruct (Hw eq_refl) as [Lt Sk]. destruct (C82_spacing _ _ _ _ _ _ _ _ _ Hi Lt Sk M0) as [_ Sp]. specialize (Sp dy dx Hy Hx). set (k := (n_minus_1 P dy dx * p_inv_w_scale P)%R) in *.
    destruct (B k) as [Z1 Z2]; [eapply Rle_trans; [|apply Rmax_r]; apply Rabs_le; lra|]. set (Z := kernel_transform P k) in *. assert (Pz : (0 < Z)%R) by lra.
    apply Inv; [apply Rmult_lt_0_compat; assumption|apply Rmult_le_compat; lra|]. replace (175 * 175 * 175 * (X * Y * Z))%R with ((175 * X) * (175 * Y) * (175 * Z))%R by ring. apply Rmult_le_compat; nra.
  - rewrite Rmult_1_r. apply Inv; [assumption|assumption|]. lra.
Qed.
Print Assumptions C89_correction.

(** Satisfied hypotheses: the plan of C82_hyps, pixel (3, -4) *)
Example C89_hyps : exists P, make_plan 1 1 10 true (1 / 20) (1 # 100000) 0 100 true = Some P /\ (0 < correction P 3 (-4))%R.
Proof.
  destruct C82_hyps as (P & M). exists P. split; [exact M|]. destruct (C89_correction 1 1 10 true (1 / 20) (1 # 100000) 0 100 true P 3 (-4) ltac:(lia) M) as (_ & C & _).
  - intros _. lra.
  - change (10 / 2) with 5. lia.
  - change (10 / 2) with 5. lia.
  - exact C.
Qed.
