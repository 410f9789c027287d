(** The w-stacking drivers (proofs only). *)
From Coq Require Import Lia Lra Permutation Qreals.
From Verif Require Import Base BaseFacts Sum CRing Cplx Clamp QNum Fft FftSpec FftFacts FftFacts3 GridUtils GridUtilsSpec GridUtilsFacts Subgrid SubgridSpec SubgridFacts Prop_Subgrid
  WTower WTowerSpec WTowerDrv WTowerDrvSpec WTowerDrvFacts WTowerDrvFacts3 Prop_WTowerDrv WStack WStackSpec.
Open Scope Z_scope.

(** *** Hermitian products *)
Definition at2 (a : nd C) : Z -> Z -> C := fun i j => elem a [i; j].
Lemma Cmul_add_l a b c : Cmul (Cadd a b) c = Cadd (Cmul a c) (Cmul b c). Proof. csolve. Qed.
Lemma herm2_ext n m a b a' b' : (forall i j, 0 <= i < n -> 0 <= j < m -> a i j = a' i j) -> (forall i j, 0 <= i < n -> 0 <= j < m -> b i j = b' i j) -> herm2 n m a b = herm2 n m a' b'.
Proof. intros A B. apply total2_ext. intros i j Hi Hj. rewrite A, B by assumption. reflexivity. Qed.
Lemma herm2_scale n m k a b : herm2 n m (fun i j => Cmul k (a i j)) b = Cmul k (herm2 n m a b).
Proof. unfold herm2. rewrite !total2_csum. rewrite csum_mul_l. apply csum_ext; intros i Hi. rewrite csum_mul_l. apply csum_ext; intros j Hj. csolve. Qed.
Lemma herm2_scale_r n m r a b : herm2 n m a (fun i j => Cmul (RtoC r) (b i j)) = Cmul (RtoC r) (herm2 n m a b).
Proof. unfold herm2. rewrite !total2_csum. rewrite csum_mul_l. apply csum_ext; intros i Hi. rewrite csum_mul_l. apply csum_ext; intros j Hj. csolve. Qed.
Lemma herm2_add n m a a' b : herm2 n m (fun i j => Cadd (a i j) (a' i j)) b = Cadd (herm2 n m a b) (herm2 n m a' b).
Proof. unfold herm2. rewrite <- total2_add. apply total2_ext. intros i j _ _. csolve. Qed.
Lemma herm2_add_r n m a b b' : herm2 n m a (fun i j => Cadd (b i j) (b' i j)) = Cadd (herm2 n m a b) (herm2 n m a b').
Proof. unfold herm2. rewrite <- total2_add. apply total2_ext. intros i j _ _. csolve. Qed.
Lemma herm2_sym n m a b : herm2 n m a b = Cconj (herm2 n m b a).
Proof. unfold herm2. rewrite !total2_csum, Cconj_csum. apply csum_ext; intros i Hi. rewrite Cconj_csum. apply csum_ext; intros j Hj. csolve. Qed.
Lemma herm2_zero n m a b : (forall i j, 0 <= i < n -> 0 <= j < m -> a i j = C0) -> herm2 n m a b = C0.
Proof. intro H. apply total2_zero. intros i j Hi Hj. rewrite H by assumption. csolve. Qed.
Lemma centred2_adjoint' S g h : herm2 S S (centred2 false S S g) h = herm2 S S g (centred2 true S S h).
Proof. rewrite herm2_sym, <- centred2_adjoint, <- herm2_sym. reflexivity. Qed.

(** *** The steps *)
Lemma shifted_fft_ok is_forward norm d temp S T : 0 < S -> S mod 2 = 0 -> shape d = [S; S] -> shape temp = [T] -> S * S <= T -> S * S <= 2147483647 ->
  exists r, shifted_fft is_forward norm d temp = Some r /\ shape r = [S; S] /\
    forall k l, 0 <= k < S -> 0 <= l < S -> elem r [k; l] = Cmul (RtoC (norm_scale norm S S)) (centred2 (inverse_of is_forward) S S (at2 d) k l).
Proof.
  intros HS Ev Sd St HT HI. assert (D : S = 2 * (S / 2)) by (rewrite (Z.div_mod S 2) at 1; lia).
  set (n := S / 2) in *. clearbody n. subst S.
  destruct (shift_2d is_forward norm d temp n n T) as (r & E & Sr & P); auto; try lia.
  unfold shifted_fft. rewrite E. cbn [bind failed]. exists r. split; [reflexivity|]. split; [exact Sr|].
  intros k l Hk Hl. rewrite P by assumption. replace (n + n) with (2 * n) by lia.
  replace (sign (2 * n)) with 1%R by (unfold sign; now rewrite Z.even_mul). now rewrite Rmult_1_l.
Qed.
Lemma scale_pos n : 0 < n -> (IZR (n * n) * / IZR (n * n))%R = 1%R.
Proof. intro H. apply Rinv_r. apply not_0_IZR. nia. Qed.

(** The factor and the phase of the correction *)
Definition corr_scale (s : wstack) (i j : Z) : R :=
  let N := s_image_size s in
  (1 / (elem (s_pswf s) [(i - N / 2 + 0 + N / 2)%Z] * elem (s_pswf s) [(j - N / 2 + 0 + N / 2)%Z] *
    s_pswf_n s (lm_to_n (IZR (i - N / 2 + 0) * Q2R (theta (s_plan s)) / IZR N) (IZR (j - N / 2 + 0) * Q2R (theta (s_plan s)) / IZR N) (s_shear_u s) (s_shear_v s))))%R.
Definition corr_phase (s : wstack) (w i j : Z) : R :=
  let N := s_image_size s in
  (2 * PI * Q2R (w_step (s_plan s)) * lm_to_n (IZR (i - N / 2 + 0) * Q2R (theta (s_plan s)) / IZR N) (IZR (j - N / 2 + 0) * Q2R (theta (s_plan s)) / IZR N) (s_shear_u s) (s_shear_v s) * IZR w)%R.
Lemma correct_ok inverse s f w : let N := s_image_size s in 0 < N -> shape (s_pswf s) = [N] -> shape f = [N; N] ->
  exists r, wtower_correct inverse s f 0 0 w = Some r /\ shape r = [N; N] /\
    forall i j, 0 <= i < N -> 0 <= j < N -> elem r [i; j] = Cmul (Cmul (elem f [i; j]) (RtoC (corr_scale s i j))) (cis (if inverse then corr_phase s w i j else - corr_phase s w i j)%R).
Proof.
  intros N HN Sp Sf. unfold wtower_correct.
  destruct (pswf_lemma N (Q2R (theta (s_plan s))) (s_shear_u s) (s_shear_v s) (s_pswf s) (s_pswf_n s) f 0 0 N N) as (f1 & E1 & S1 & V1 & _); try assumption; try lia.
  fold N. rewrite E1. cbn [bind].
  destruct (w_stack_lemma N (Q2R (theta (s_plan s))) (Q2R (w_step (s_plan s))) (s_shear_u s) (s_shear_v s) f1 0 0 w inverse N N) as (f2 & E2 & S2 & V2 & _); try assumption; try lia.
  exists f2. split; [exact E2|]. split; [exact S2|]. intros i j Hi Hj. rewrite V2, V1 by assumption. reflexivity.
Qed.
Lemma correct_herm s w (a b a' b' : Z -> Z -> C) : let N := s_image_size s in
  (forall i j, 0 <= i < N -> 0 <= j < N -> a' i j = Cmul (Cmul (a i j) (RtoC (corr_scale s i j))) (cis (corr_phase s w i j))) ->
  (forall i j, 0 <= i < N -> 0 <= j < N -> b' i j = Cmul (Cmul (b i j) (RtoC (corr_scale s i j))) (cis (- corr_phase s w i j))) ->
  herm2 N N a' b = herm2 N N a b'.
Proof.
  intros N A B. apply total2_ext. intros i j Hi Hj. rewrite A, B by assumption. generalize (corr_scale s i j) (corr_phase s w i j). intros t p. rewrite cis_neg. csolve.
Qed.

(** Cutting out is the adjoint of adding *)
Lemma cut_ok (G sub0 : nd C) N n ou ov : 0 < N -> 0 < n -> shape G = [N; N] -> shape sub0 = [n; n] ->
  exists c, subgrid_cut_out (A := Cring) G ou ov sub0 = Some c /\ shape c = [n; n] /\ forall i j, 0 <= i < n -> 0 <= j < n -> elem c [i; j] = elem G [pixel N n ou i; pixel N n ov j].
Proof. intros HN Hn SG S0. apply (C29_cut_out Cring); auto; lia. Qed.
Lemma add_ok (g sub G : nd C) N n ou ov f : 0 < N -> 0 < n -> shape g = [N; N] -> shape sub = [n; n] ->
  exists g', subgrid_add (A := Cring) g (- ou) (- ov) sub f = Some g' /\ shape g' = [N; N] /\
    herm2 N N (at2 g') (at2 G) = Cadd (herm2 N N (at2 g) (at2 G)) (Cmul f (herm2 n n (at2 sub) (fun i j => elem G [pixel N n ou i; pixel N n ov j]))).
Proof.
  intros HN Hn Sg Ss. destruct (C29_add Cring g sub N N n n (- ou) (- ov) f Sg Ss) as (g' & E & S' & V); try lia.
  exists g'. split; [exact E|]. split; [exact S'|]. unfold herm2 at 1. unfold at2 at 1.
  transitivity (total2 (A := Cring) N N (fun x y => Cadd (Cmul (elem g [x; y]) (Cconj (elem G [x; y]))) (Cmul (csum 0 n (fun i => csum 0 n (fun j =>
     if (pixel N n ou i =? x) && (pixel N n ov j =? y) then Cmul (elem sub [i; j]) f else C0))) (Cconj (elem G [x; y]))))).
  { apply total2_ext. intros x y Hx Hy. rewrite V. rewrite !Z.opp_involutive. unfold at2.
    exact (Cmul_add_l _ _ _). }
  rewrite total2_add. f_equal. rewrite total2_csum.
  transitivity (csum 0 N (fun x => csum 0 N (fun y => csum 0 n (fun i => csum 0 n (fun j =>
    if (pixel N n ou i =? x) && (pixel N n ov j =? y) then Cmul (Cmul (elem sub [i; j]) f) (Cconj (elem G [x; y])) else C0))))).
  { apply csum_ext; intros x Hx. apply csum_ext; intros y Hy. rewrite csum_mul_r. apply csum_ext; intros i Hi. rewrite csum_mul_r. apply csum_ext; intros j Hj.
    destruct ((pixel N n ou i =? x) && (pixel N n ov j =? y)); [reflexivity|csolve]. }
  transitivity (csum 0 n (fun i => csum 0 n (fun j => csum 0 N (fun x => csum 0 N (fun y =>
    if (pixel N n ou i =? x) && (pixel N n ov j =? y) then Cmul (Cmul (elem sub [i; j]) f) (Cconj (elem G [x; y])) else C0))))).
  { transitivity (csum 0 N (fun x => csum 0 n (fun i => csum 0 N (fun y => csum 0 n (fun j =>
      if (pixel N n ou i =? x) && (pixel N n ov j =? y) then Cmul (Cmul (elem sub [i; j]) f) (Cconj (elem G [x; y])) else C0))))).
    { apply csum_ext; intros x Hx. apply csum_swap. }
    rewrite csum_swap. apply csum_ext; intros i Hi.
    transitivity (csum 0 N (fun x => csum 0 n (fun j => csum 0 N (fun y =>
      if (pixel N n ou i =? x) && (pixel N n ov j =? y) then Cmul (Cmul (elem sub [i; j]) f) (Cconj (elem G [x; y])) else C0)))).
    { apply csum_ext; intros x Hx. apply csum_swap. }
    apply csum_swap. }
  unfold herm2. rewrite total2_csum, csum_mul_l. apply csum_ext; intros i Hi. rewrite csum_mul_l. apply csum_ext; intros j Hj.
  pose proof (pixel_range N n ou i HN). pose proof (pixel_range N n ov j HN).
  rewrite (sum_one _ _ (Rcm (A := Cring)) 0 N (pixel N n ou i)); [|lia|].
  2:{ intros x Hx Nx. apply (sum_none _ _ (Rcm (A := Cring))). intros y Hy. replace (pixel N n ou i =? x) with false by lia. reflexivity. }
  rewrite (sum_one _ _ (Rcm (A := Cring)) 0 N (pixel N n ov j)); [|lia|].
  2:{ intros y Hy Ny. replace (pixel N n ov j =? y) with false by lia. now rewrite andb_false_r. }
  rewrite !Z.eqb_refl. cbn [andb]. unfold at2. generalize (elem sub [i; j]) (elem G [pixel N n ou i; pixel N n ov j]). intros u v. csolve.
Qed.
