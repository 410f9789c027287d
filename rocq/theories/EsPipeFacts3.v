From Coq Require Import Lra.
From Verif Require Import Base BaseFacts Sum CRing Clamp Cplx Legendre FftSpec FftFacts FftFacts2 FftConvFacts2 Sets Gpu GpuFacts EsKernels EsKernelsSpec EsKernelsFacts EsKernelsFacts2 GpuFacts2 EsKernelsFacts3
  EsScreenSpec EsScreenFacts EsScreenFacts2 EsPipe EsPipeSpec EsPipeFacts EsPipeFacts2.
Open Scope Z_scope.

Lemma csum_shift lo hi d f : csum (lo + d) (hi + d) f = csum lo hi (fun i => f (i + d)).
Proof. apply sum_shift. Qed.
Lemma csum_none lo hi f : (forall i, lo <= i < hi -> f i = C0) -> csum lo hi f = C0.
Proof. apply (sum_none _ _ (Rcm (A := Cring))). Qed.
(** Only the window around the centre counts *)
Lemma csum_centre g o h f : 0 <= h -> h <= o -> o + h <= g -> (forall s, 0 <= s < g -> s < o - h \/ o + h <= s -> f s = C0) -> csum 0 g f = csum (- h) h (fun d => f (o + d)).
Proof.
  intros H1 H2 H3 H4. rewrite (csum_window g (o - h) (2 * h) f) by (lia || (intros; apply H4; lia)).
  pose proof (csum_shift (- h) h h (fun i => f (i + (o - h)))) as X. replace (- h + h) with 0 in X by lia. replace (h + h) with (2 * h) in X by lia. rewrite X.
  apply csum_ext. intros i _. f_equal. lia.
Qed.
Lemma root_conj inv n m : root (negb inv) n m = Cconj (root inv n m).
Proof. rewrite W_neg_inv. apply W_neg. Qed.

Section Exec.
Context (P : es_plan) (uvw freq : nd R) (npix pixels nvis : Z) (OK : plan_ok P uvw freq npix pixels nvis).
Notation n := (p_image P).
Notation g := (p_grid P).
Notation h := (n / 2).
Notation o := (g / 2).
Notation nw := (p_num_w P).
Notation tm k r c dy dx := (Cmul (waves_sum P uvw freq k r c dy dx) (Cconj (sky P k dy dx))).

Lemma conj_waves k r c dy dx : Cconj (waves_sum P uvw freq k r c dy dx) =
  csum 0 g (fun a => csum 0 g (fun b => Cmul (RtoC (sign (dy + dx) * coef (args_of P k) uvw freq r c k a b)) (Cmul (root false g (a * (o + dy))) (root false g (b * (o + dx)))))).
Proof.
  unfold waves_sum. rewrite conj_csum. apply csum_ext. intros a _. rewrite conj_csum. apply csum_ext. intros b _. rewrite coef_EEE.
  pose proof (half_lt _ _ _ _ _ _ OK). pose proof (centred_root false o dy dx a b ltac:(lia)) as E. rewrite <- (g_even _ _ _ _ _ _ OK) in E. rewrite (Z.mul_comm a), (Z.mul_comm b).
  assert (Q : Cconj (root true g ((a - o) * dy + (b - o) * dx)) = root false g ((a - o) * dy + (b - o) * dx)) by (symmetry; apply (root_conj true)).
  rewrite <- Q in E. clear Q. set (z := root true g _) in *. set (A := root false g _) in *. set (B := root false g _) in *.
  transitivity (Cmul (RtoC (EEE P uvw freq k r c a b)) (Cconj z)); [apply C_eq; unfold Cmul, Cconj, RtoC, re, im; cbn [fst snd]; ring|]. rewrite <- E.
  apply C_eq; unfold Cmul, RtoC, re, im; cbn [fst snd]; ring.
Qed.

Definition batch_vis (img : Z -> R) (k r c : Z) : C := csum (- h) h (fun dy => csum (- h) h (fun dx => Cmul (RtoC (img (pixel P dy dx))) (Cconj (tm k r c dy dx)))).

Lemma image_elem img dy dx : elem (image_of pixels img) [cell n 0 (h + dy) (h + dx)] = img (pixel P dy dx).
Proof. unfold image_of. cbn [elem]. now rewrite pixel_cell. Qed.

Lemma csum_deal {f : Z -> Z -> Z -> Z -> C} {lo hi lo' hi' A B A' B'} :
  csum lo hi (fun a => csum lo' hi' (fun b => csum A B (fun s => csum A' B' (fun t => f a b s t)))) = csum A B (fun s => csum A' B' (fun t => csum lo hi (fun a => csum lo' hi' (fun b => f a b s t)))).
Proof.
  transitivity (csum lo hi (fun a => csum A B (fun s => csum A' B' (fun t => csum lo' hi' (fun b => f a b s t))))).
  - apply csum_ext. intros a _. rewrite csum_swap. apply csum_ext. intros s _. apply csum_swap.
  - rewrite csum_swap. apply csum_ext. intros s _. apply csum_swap.
Qed.

Lemma degrid_batch_result img k : 0 <= k < nw ->
  (forall v, exists v', degrid_batch P uvw freq npix pixels nvis img k v v') /\
  forall v v', degrid_batch P uvw freq npix pixels nvis img k v v' ->
    forall r c i, 0 <= r < p_rows P -> 0 <= c < p_chan P -> v' (vis_at P r c, i) = (v (vis_at P r c, i) + part i (orient P uvw r (batch_vis img k r c)))%R.
Proof.
  intros Hk. destruct (dims _ _ _ _ _ _ OK) as (D1 & D2 & D3 & D4). pose proof (pk_args _ _ _ _ _ _ OK k Hk) as A. pose proof (n_even _ _ _ _ _ _ OK) as Ev. pose proof (half_lt _ _ _ _ _ _ OK) as Hl.
  pose proof (g_even _ _ _ _ _ _ OK) as Ge. pose proof (pk_npix _ _ _ _ _ _ OK) as En. pose proof (pk_pixels _ _ _ _ _ _ OK) as Ep.
  assert (RR := reverse_result n g k 1 (p_px P) (p_inv_w_scale P) (p_min_plane_w P) true (p_do_w P) D1 D2 ltac:(lia) D4 D3 (pk_sky _ _ _ _ _ _ OK) (image_of pixels img)).
  destruct RR as (Df & Q); [rewrite Ev, Z.mul_comm; apply Z.mod_mul; lia|unfold image_of; cbn [shape]; now rewrite Ep|]. rewrite Z.mul_1_l in Df, Q.
  assert (DR := fun st => degridding_result (args_of P k) uvw freq nvis (g * g) A (fft false g (mk_nd [g * g] (fun i => match i with [k] => st k | _ => C0 end))) eq_refl).
  unfold degrid_batch. rewrite En, (subset_1 P k Hk). split.
  - intro v. destruct (runs_exists Z.eqb Cadd _ _ (fun _ => C0) Df) as (st & R1). destruct (DR st) as (Df2 & _). destruct (runs_exists loc_eqb Rplus _ _ v Df2) as (v' & R2). exists v', st. auto.
  - intros v v' (st & R1 & R2) r c i Hr Hc. destruct (Q _ _ _ R1) as (Q1 & Q2). destruct (DR st) as (_ & DV). pose proof (DV _ _ R2 r c i Hr Hc) as X. cbn [num_vis_chan args_of] in X. unfold vis_at. rewrite X. f_equal. clear DV X.
    unfold degrid_value. cbn [num_w_grids_subset args_of grid_size grid_start_w]. rewrite (subset_1 P k Hk). change (turned (args_of P k) uvw r) with (turned (args0 P) uvw r).
    rewrite (rsumf_one 0 1 0) by (intros; lia). rewrite Z.add_0_r.
    set (G := fft false g _).
    assert (GE : forall a b, 0 <= a < g -> 0 <= b < g -> elem G [cell g 0 a b] =
      csum (- h) h (fun dy => csum (- h) h (fun dx => Cmul (Cmul (root false g (a * (o + dy))) (root false g (b * (o + dx)))) (Cmul (RtoC (sign (dy + dx) * img (pixel P dy dx))) (sky P k dy dx))))).
    { intros a b Ha Hb. unfold G. rewrite fft_elem by assumption. unfold DFT2. cbn [elem].
      assert (Out : forall s t, 0 <= s < g -> 0 <= t < g -> s < o - h \/ o + h <= s \/ t < o - h \/ o + h <= t -> st (s * g + t) = C0).
      { intros s t Hs Ht Hout. apply Q2. intros p dy dx Hp Hy Hx Ec. assert (Ec2 : cell g 0 s t = cell g p (o + dy) (o + dx)) by (rewrite <- Ec; unfold cell; ring). apply cell_inj in Ec2; lia. }
      rewrite (csum_centre g o h) by (lia || (intros s Hs Hout; apply csum_none; intros t Ht; rewrite Out by lia; apply C_eq; unfold Cmul, C0, re, im; cbn [fst snd]; ring)).
      apply csum_ext. intros dy Hy.
      rewrite (csum_centre g o h) by (lia || (intros t Ht Hout; rewrite Out by lia; apply C_eq; unfold Cmul, C0, re, im; cbn [fst snd]; ring)).
      apply csum_ext. intros dx Hx. f_equal.
      replace ((o + dy) * g + (o + dx)) with (cell g 0 (o + dy) (o + dx)) by (unfold cell; ring). rewrite Q1 by lia. rewrite image_elem, Z.add_0_r. reflexivity. }
    set (V := csum 0 g (fun a => csum 0 g (fun b => Cmul (RtoC (coef (args_of P k) uvw freq r c k a b)) (elem G [cell g 0 a b])))).
    assert (EV : ((if i then turned (args0 P) uvw r else 1) * rsumf 0 g (fun a => rsumf 0 g (fun b => part i (elem G [cell g 0 a b]) * coef (args_of P k) uvw freq r c k a b)) = part i (orient P uvw r V))%R).
    { assert (Y : rsumf 0 g (fun a => rsumf 0 g (fun b => part i (elem G [cell g 0 a b]) * coef (args_of P k) uvw freq r c k a b))%R = part i V).
      { unfold V. rewrite part_csum. apply rsumf_ext. intros a _. rewrite part_csum. apply rsumf_ext. intros b _. destruct i; unfold part, Cmul, RtoC, re, im; cbn [fst snd]; ring. }
      rewrite Y. destruct i; unfold orient, part, re, im; cbn [fst snd]; ring. }
    rewrite EV. f_equal. f_equal. unfold V, batch_vis.
    transitivity (csum 0 g (fun a => csum 0 g (fun b => csum (- h) h (fun dy => csum (- h) h (fun dx =>
       Cmul (Cmul (RtoC (img (pixel P dy dx))) (sky P k dy dx)) (Cmul (RtoC (sign (dy + dx) * coef (args_of P k) uvw freq r c k a b)) (Cmul (root false g (a * (o + dy))) (root false g (b * (o + dx)))))))))).
    { apply csum_ext. intros a Ha. apply csum_ext. intros b Hb. rewrite GE by assumption. rewrite csum_mul_l. apply csum_ext. intros dy _. rewrite csum_mul_l. apply csum_ext. intros dx _.
      set (A0 := root _ _ _). set (B0 := root _ _ _). apply C_eq; unfold Cmul, RtoC, re, im; cbn [fst snd]; ring. }
    rewrite csum_deal. apply csum_ext. intros dy _. apply csum_ext. intros dx _.
    transitivity (Cmul (Cmul (RtoC (img (pixel P dy dx))) (sky P k dy dx)) (Cconj (waves_sum P uvw freq k r c dy dx))).
    + rewrite conj_waves, csum_mul_l. apply csum_ext. intros a _. rewrite csum_mul_l. reflexivity.
    + set (w := waves_sum _ _ _ _ _ _ _ _). apply C_eq; unfold Cmul, Cconj, RtoC, re, im; cbn [fst snd]; ring.
Qed.

Notation predicted := (predicted P uvw freq).

Lemma orient_csum r lo hi f : orient P uvw r (csum lo hi f) = csum lo hi (fun i => orient P uvw r (f i)).
Proof.
  apply C_eq.
  - rewrite re_csum. unfold orient. cbn [re fst]. apply re_csum.
  - rewrite im_csum. unfold orient at 1. cbn [im snd]. rewrite im_csum, rsumf_mul_r. reflexivity.
Qed.
Lemma batches_vis img r c : csum 0 nw (fun k => orient P uvw r (batch_vis img k r c)) = predicted img r c.
Proof.
  unfold EsPipeSpec.predicted. rewrite <- orient_csum. unfold batch_vis.
  assert (E : csum 0 nw (fun k => csum (- h) h (fun dy => csum (- h) h (fun dx => Cmul (RtoC (img (pixel P dy dx))) (Cconj (tm k r c dy dx))))) =
    csum (- h) h (fun dy => csum (- h) h (fun dx => Cmul (RtoC (img (pixel P dy dx))) (Cconj (csum 0 nw (fun k => tm k r c dy dx)))))).
  { rewrite csum_swap. apply csum_ext. intros dy _. rewrite csum_swap. apply csum_ext. intros dx _. rewrite conj_csum, csum_mul_l. reflexivity. }
  rewrite E. rewrite orient_csum. apply csum_ext. intros dy _. rewrite orient_csum. apply csum_ext. intros dx _. rewrite response_eq.
  set (z := csum _ _ _). destruct (turned_cases P uvw r) as [E1|E1]; unfold orient; rewrite E1; apply C_eq; unfold Cmul, Cconj, RtoC, re, im; cbn [fst snd]; ring.
Qed.

Theorem degrid_result :
  (forall img v, exists img' v', degrid_exec P uvw freq npix pixels nvis img v img' v') /\
  forall img v img' v', degrid_exec P uvw freq npix pixels nvis img v img' v' ->
    (forall dy dx, inside P dy -> inside P dx -> img' (pixel P dy dx) = (img (pixel P dy dx) * correction P dy dx)%R) /\
    (forall l, (forall dy dx, inside P dy -> inside P dx -> l <> pixel P dy dx) -> img' l = img l) /\
    forall r c i, 0 <= r < p_rows P -> 0 <= c < p_chan P -> v' (vis_at P r c, i) = (v (vis_at P r c, i) + part i (predicted img' r c))%R.
Proof.
  pose proof (pk_num_w _ _ _ _ _ _ OK) as Hw. destruct (correct_result P uvw freq npix pixels nvis OK) as (CD & CR). split.
  - intros img v. destruct (CD img) as (img' & C). destruct (chain (degrid_batch P uvw freq npix pixels nvis img') nw v ltac:(lia)) as (f & F0 & F).
    { intros k x Hk. now apply (degrid_batch_result img' k Hk). } exists img', (f nw). split; [exact C|]. exists f. auto.
  - intros img v img' v' (C & f & F0 & F & Fn). destruct (CR _ _ C) as (C1 & C2). split; [exact C1|]. split; [exact C2|]. intros r c i Hr Hc.
    assert (X : forall k, 0 <= k <= nw -> f k (vis_at P r c, i) = (v (vis_at P r c, i) + rsumf 0 k (fun k => part i (orient P uvw r (batch_vis img' k r c))))%R).
    { intros k [Hk Hk2]. revert Hk2. pattern k. apply natlike_ind; [| |exact Hk].
      - intros _. rewrite F0. unfold rsumf. rewrite sum_empty by lia. ring.
      - intros j Hj IH Lj. destruct (degrid_batch_result img' j ltac:(lia)) as (_ & B). replace (Z.succ j) with (j + 1) by lia. rewrite (B _ _ (F j ltac:(lia)) r c i Hr Hc), IH, rsumf_snoc by lia. ring. }
    rewrite <- Fn, X by lia. f_equal. rewrite <- batches_vis. now rewrite part_csum.
Qed.
End Exec.
