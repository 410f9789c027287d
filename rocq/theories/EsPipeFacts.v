From Coq Require Import Lra.
From Verif Require Import Base BaseFacts Sum CRing Clamp Cplx Legendre FftSpec FftFacts FftFacts2 FftConvFacts2 Sets Gpu GpuFacts EsKernels EsKernelsSpec EsKernelsFacts EsKernelsFacts2 GpuFacts2 EsKernelsFacts3
  EsScreenSpec EsScreenFacts EsScreenFacts2 EsPipe EsPipeSpec.
Open Scope Z_scope.

Lemma centred_root inv o dy dx a b : o <> 0 ->
  Cmul (RtoC (sign (dy + dx) * sign ((a - o) + (b - o)))) (Cmul (root inv (2 * o) ((o + dy) * a)) (root inv (2 * o) ((o + dx) * b))) = root inv (2 * o) ((a - o) * dy + (b - o) * dx).
Proof.
  intro H. replace ((a - o) * dy + (b - o) * dx) with ((o + dy - o) * (a - o) + (o + dx - o) * (b - o)) by ring. rewrite W_add, !W_centred by exact H.
  assert (E : (sign o * sign (o + dy + a) * (sign o * sign (o + dx + b)) = sign (dy + dx) * sign (a - o + (b - o)))%R).
  { replace (a - o) with (a + - o) by lia. replace (b - o) with (b + - o) by lia. rewrite !sign_add, !sign_neg. assert (sign o = 1 \/ sign o = -1)%R as [-> | ->] by (unfold sign; destruct (Z.even o); auto); ring. }
  set (A := root _ _ _). set (B := root _ _ _). transitivity (Cmul (RtoC (sign o * sign (o + dy + a) * (sign o * sign (o + dx + b)))) (Cmul A B)); [now rewrite E|].
  apply C_eq; unfold Cmul, RtoC, re, im; cbn [fst snd]; ring.
Qed.

Lemma re_csum lo hi f : re (csum lo hi f) = rsumf lo hi (fun i => re (f i)).
Proof. unfold csum, rsumf, sum. induction (zrange lo hi) as [|x l IH]; [reflexivity|]. cbn [map fold_right]. rewrite <- IH. reflexivity. Qed.
Lemma im_csum lo hi f : im (csum lo hi f) = rsumf lo hi (fun i => im (f i)).
Proof. unfold csum, rsumf, sum. induction (zrange lo hi) as [|x l IH]; [reflexivity|]. cbn [map fold_right]. rewrite <- IH. reflexivity. Qed.
Lemma part_csum i lo hi f : part i (csum lo hi f) = rsumf lo hi (fun k => part i (f k)).
Proof. destruct i; [apply im_csum|apply re_csum]. Qed.
Lemma conj_csum lo hi f : Cconj (csum lo hi f) = csum lo hi (fun i => Cconj (f i)).
Proof. apply C_eq; [|]. - change (re (csum lo hi f) = re (csum lo hi (fun i => Cconj (f i)))). now rewrite !re_csum.
  - change ((- im (csum lo hi f))%R = im (csum lo hi (fun i => Cconj (f i)))). rewrite !im_csum. replace (- rsumf lo hi (fun i => im (f i)))%R with ((-1) * rsumf lo hi (fun i => im (f i)))%R by ring.
    rewrite rsumf_mul_l. apply rsumf_ext. intros. change (im (Cconj (f i))) with (- im (f i))%R. ring. Qed.

Lemma DFT2_csum inv n m lo hi (x : Z -> Z -> Z -> C) k l : DFT2 inv n m (fun s t => csum lo hi (fun r => x r s t)) k l = csum lo hi (fun r => DFT2 inv n m (x r) k l).
Proof.
  unfold DFT2. transitivity (csum 0 n (fun s => csum lo hi (fun r => csum 0 m (fun t => Cmul (Cmul (root inv n (k * s)) (root inv m (l * t))) (x r s t))))).
  - apply csum_ext. intros s _. rewrite csum_swap. apply csum_ext. intros t _. apply csum_mul_l.
  - apply csum_swap.
Qed.
Lemma DFT2_mul_l inv n m q (x : Z -> Z -> C) k l : DFT2 inv n m (fun s t => Cmul q (x s t)) k l = Cmul q (DFT2 inv n m x k l).
Proof.
  unfold DFT2. rewrite csum_mul_l. apply csum_ext. intros s _. rewrite csum_mul_l. apply csum_ext. intros t _. apply C_eq; unfold Cmul, re, im; cbn [fst snd]; ring.
Qed.
Lemma DFT2_ext inv n m (x y : Z -> Z -> C) k l : (forall s t, 0 <= s < n -> 0 <= t < m -> x s t = y s t) -> DFT2 inv n m x k l = DFT2 inv n m y k l.
Proof. intro H. unfold DFT2. apply csum_ext. intros s Hs. apply csum_ext. intros t Ht. now rewrite H. Qed.

Lemma fft_elem inv g a p q : 0 <= p < g -> 0 <= q < g -> elem (fft inv g a) [cell g 0 p q] = DFT2 inv g g (fun s t => elem a [s * g + t]) p q.
Proof. intros. unfold fft. cbn [elem]. unfold cell. rewrite Z.mul_0_l, Z.add_0_l. rewrite Z.div_add_l, Z.div_small, Z.add_0_r, (Z.add_comm (p * g)), Z.mod_add, Z.mod_small by lia. reflexivity. Qed.

Section Exec.
Context (P : es_plan) (uvw freq : nd R) (npix pixels nvis : Z) (OK : plan_ok P uvw freq npix pixels nvis).
Notation n := (p_image P).
Notation g := (p_grid P).
Notation h := (n / 2).
Notation o := (g / 2).
Notation nw := (p_num_w P).

Lemma n_even : n = 2 * h.
Proof. pose proof (pk_even _ _ _ _ _ _ OK) as E. apply Z.even_spec in E. destruct E as [q E]. rewrite E. rewrite Z.mul_comm, Z.div_mul by lia. lia. Qed.
Lemma g_even : g = 2 * o.
Proof. pose proof (pk_geven _ _ _ _ _ _ OK) as E. apply Z.even_spec in E. destruct E as [q E]. rewrite E. rewrite Z.mul_comm, Z.div_mul by lia. lia. Qed.
Lemma half_lt : 1 <= h < o.
Proof. pose proof n_even. pose proof g_even. pose proof (pk_image _ _ _ _ _ _ OK). pose proof (pk_grid _ _ _ _ _ _ OK). lia. Qed.
Lemma subset_1 k : 0 <= k < nw -> subset_of nw k = 1.
Proof. intro H. unfold subset_of, cmod. rewrite Z.rem_small by lia. lia. Qed.
Lemma g2 : g * g <= 2147483647.
Proof. pose proof (pk_num_w _ _ _ _ _ _ OK). exact (ok_grid2 _ _ _ _ _ (pk_args _ _ _ _ _ _ OK 0 ltac:(lia))). Qed.

Definition EEE (k r c a b : Z) : R :=
  (es (p_beta P) (p_support P) (IZR (a - o) - at_u (args0 P) uvw freq r c) * es (p_beta P) (p_support P) (IZR (b - o) - at_v (args0 P) uvw freq r c) * es (p_beta P) (p_support P) (IZR k - at_w (args0 P) uvw freq r c))%R.
Lemma coef_EEE k r c a b : coef (args_of P k) uvw freq r c k a b = (sign ((a - o) + (b - o)) * EEE k r c a b)%R.
Proof. unfold coef, EEE. cbn [grid_size args_of beta support]. change (at_u (args_of P k)) with (at_u (args0 P)). change (at_v (args_of P k)) with (at_v (args0 P)). change (at_w (args_of P k)) with (at_w (args0 P)). ring. Qed.

Definition waves_sum (k r c dy dx : Z) : C := csum 0 g (fun a => csum 0 g (fun b => Cmul (RtoC (EEE k r c a b)) (root true g ((a - o) * dy + (b - o) * dx)))).
Lemma waves_dft k r c dy dx :
  Cmul (RtoC (sign (dy + dx))) (DFT2 true g g (fun a b => RtoC (coef (args_of P k) uvw freq r c k a b)) (o + dy) (o + dx)) = waves_sum k r c dy dx.
Proof.
  unfold DFT2, waves_sum. rewrite csum_mul_l. apply csum_ext. intros a Ha. rewrite csum_mul_l. apply csum_ext. intros b Hb. rewrite coef_EEE.
  pose proof half_lt. pose proof (centred_root true o dy dx a b ltac:(lia)) as E. rewrite <- g_even in E. rewrite <- E.
  set (A := root _ _ _). set (B := root _ _ _). apply C_eq; unfold Cmul, RtoC, re, im; cbn [fst snd]; ring.
Qed.

Definition sky k dy dx := screen (p_do_w P) (p_px P) (p_inv_w_scale P) (p_min_plane_w P) k dy dx.
Definition orient (r : Z) (z : C) : C := (re z, (im z * turned (args0 P) uvw r)%R).
Lemma turned_cases r : turned (args0 P) uvw r = 1%R \/ turned (args0 P) uvw r = (-1)%R.
Proof. unfold turned. destruct (wstack _); [|auto]. destruct (Rlt_dec _ _); auto. Qed.
Lemma response_eq r c dy dx : response P uvw freq r c dy dx = orient r (csum 0 nw (fun k => Cmul (waves_sum k r c dy dx) (Cconj (sky k dy dx)))).
Proof.
  unfold response. cbv zeta.
  assert (E : csum 0 nw (fun k => csum 0 g (fun a => csum 0 g (fun b => Cmul (Cmul (RtoC (es (p_beta P) (p_support P) (IZR (a - o) - at_u (args0 P) uvw freq r c) *
     es (p_beta P) (p_support P) (IZR (b - o) - at_v (args0 P) uvw freq r c) * es (p_beta P) (p_support P) (IZR k - at_w (args0 P) uvw freq r c)))
     (root true g ((a - o) * dy + (b - o) * dx))) (Cconj (screen (p_do_w P) (p_px P) (p_inv_w_scale P) (p_min_plane_w P) k dy dx))))) =
     csum 0 nw (fun k => Cmul (waves_sum k r c dy dx) (Cconj (sky k dy dx)))).
  { apply csum_ext. intros k _. unfold waves_sum. rewrite csum_mul_r. apply csum_ext. intros a _. rewrite csum_mul_r. reflexivity. }
  rewrite E. set (z := csum _ _ _). unfold orient. destruct (turned_cases r) as [-> | ->].
  - destruct (Rlt_dec 1 0); [lra|]. apply C_eq; unfold re, im; cbn [fst snd]; ring.
  - destruct (Rlt_dec (-1) 0); [|lra]. apply C_eq; unfold Cconj, re, im; cbn [fst snd]; ring.
Qed.
End Exec.
