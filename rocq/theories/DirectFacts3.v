(** Corrections, adjointness and failures of the direct gridder (proofs only). *)
From Coq Require Import Lia Lra.
From Verif Require Import Base BaseFacts Mem Checks ChecksFacts Sum CRing Cplx GridUtils GridUtilsSpec GridUtilsFacts Flmn FlmnSpec FlmnFacts Direct DirectSpec DirectFacts DirectFacts2.
Open Scope Z_scope.

Lemma some_total S img : some_pixel S img -> total img S S <> 0.
Proof.
  intros (i & j & Hi & Hj & N). pose proof (rank_total img S S i j Hi Hj) as L. destruct (nonzero (elem img [i; j])) eqn:E.
  - specialize (L eq_refl). lia.
  - destruct (N (nonzero_false _ E)).
Qed.
Lemma no_total S img : 0 <= S -> no_pixel S img -> total img S S = 0.
Proof.
  intros HS H. unfold total, zs. apply (sum_none _ _ Zcm). intros i Hi. unfold rowsum, zs. apply (sum_none _ _ Zcm). intros j Hj. unfold nz. rewrite (H i j) by lia.
  unfold nonzero. cbn [re im fst snd]. destruct (Req_EM_T (re C0) 0) as [A|A]; [|destruct A; reflexivity]. destruct (Req_EM_T (im C0) 0) as [B|B]; [reflexivity|destruct B; reflexivity].
Qed.
Lemma correct_lemma inverse p pswf complex facet off_l off_m w_offset n m :
  shape facet = [n; m] -> 0 <= n -> 0 <= m -> 0 <= p_image_size p -> shape pswf = [p_image_size p] -> facet_in p n m off_l off_m ->
  exists r, direct_correct inverse p pswf complex facet off_l off_m w_offset = Some r /\ shape r = [n; m] /\
    forall i j, 0 <= i < n -> 0 <= j < m -> elem r [i; j] = Cmul (Cmul (elem facet [i; j]) (RtoC (/ facet_taper p pswf n m off_l off_m i j)))
      (if complex then cis (if inverse then facet_phase p n m off_l off_m w_offset i j else - facet_phase p n m off_l off_m w_offset i j)%R else C1).
Proof.
  intros Sf Hn Hm H0 Sp (L1 & L2 & M1 & M2). unfold direct_correct.
  destruct (pswf_lemma (p_image_size p) (p_theta p) (p_shear_u p) (p_shear_v p) pswf (fun _ => 1%R) facet off_l off_m n m) as (f1 & E1 & S1 & V1 & _); try assumption.
  rewrite E1. cbn [bind]. assert (V : forall i j, 0 <= i < n -> 0 <= j < m -> elem f1 [i; j] = Cmul (elem facet [i; j]) (RtoC (/ facet_taper p pswf n m off_l off_m i j))).
  { intros i j Hi Hj. rewrite V1 by assumption. f_equal. f_equal. unfold facet_taper. rewrite Rmult_1_r. unfold Rdiv. apply Rmult_1_l. }
  destruct complex.
  - destruct (w_stack_lemma (p_image_size p) (p_theta p) (p_w_step p) (p_shear_u p) (p_shear_v p) f1 off_l off_m w_offset inverse n m) as (f2 & E2 & S2 & V2 & _); try assumption.
    exists f2. split; [exact E2|]. split; [exact S2|]. intros i j Hi Hj. rewrite V2, V by assumption. reflexivity.
  - exists f1. split; [reflexivity|]. split; [exact S1|]. intros i j Hi Hj. rewrite V by assumption. csolve.
Qed.
Lemma inner_ext n m a b a' b' : (forall i j, 0 <= i < n -> 0 <= j < m -> Cmul (Cconj (elem a [i; j])) (elem b [i; j]) = Cmul (Cconj (elem a' [i; j])) (elem b' [i; j])) -> inner n m a b = inner n m a' b'.
Proof. intro H. unfold inner. apply sum_ext. intros i Hi. apply sum_ext. intros j Hj. now apply H. Qed.
Lemma correct_pair inverse p pswf complex a b a' b' off_l off_m w_offset n m :
  shape a = [n; m] -> shape b = [n; m] -> 0 <= n -> 0 <= m -> 0 <= p_image_size p -> shape pswf = [p_image_size p] -> facet_in p n m off_l off_m ->
  direct_correct inverse p pswf complex a off_l off_m w_offset = Some a' -> direct_correct (negb inverse) p pswf complex b off_l off_m w_offset = Some b' -> inner n m a' b = inner n m a b'.
Proof.
  intros Sa Sb Hn Hm H0 Sp F A B. destruct (correct_lemma inverse p pswf complex a off_l off_m w_offset n m) as (x & Ex & _ & Vx); try assumption.
  destruct (correct_lemma (negb inverse) p pswf complex b off_l off_m w_offset n m) as (y & Ey & _ & Vy); try assumption. rewrite Ex in A. rewrite Ey in B. injection A as <-. injection B as <-.
  apply inner_ext. intros i j Hi Hj. rewrite Vx, Vy by assumption. set (f := facet_phase p n m off_l off_m w_offset i j). generalize (/ facet_taper p pswf n m off_l off_m i j)%R. intro t. clearbody f.
  destruct complex, inverse; cbn [negb]; rewrite ?cis_neg; csolve.
Qed.

(** Exchange of the sums *)
Lemma over_swap used n nc S F : over_vis used n nc (fun i c => over_pixels S (fun x y => F i c x y)) = over_pixels S (fun x y => over_vis used n nc (fun i c => F i c x y)).
Proof.
  unfold over_vis, over_pixels. transitivity (Csum 0 n (fun i => Csum 0 S (fun x => Csum 0 S (fun y => if used i then Csum 0 nc (fun c => F i c x y) else C0)))).
  - apply (sum_ext Cadd C0). intros i _. destruct (used i).
    + rewrite (sum_swap _ _ Ccm). apply (sum_ext Cadd C0). intros x _. apply (sum_swap _ _ Ccm).
    + symmetry. apply (sum_none _ _ Ccm). intros x _. apply (sum_none _ _ Ccm). reflexivity.
  - rewrite (sum_swap _ _ Ccm). apply (sum_ext Cadd C0). intros x _. rewrite (sum_swap _ _ Ccm). apply (sum_ext Cadd C0). reflexivity.
Qed.
Lemma over_vis_ext used n nc F G : (forall i c, 0 <= i < n -> 0 <= c < nc -> used i = true -> F i c = G i c) -> over_vis used n nc F = over_vis used n nc G.
Proof. intro H. unfold over_vis. apply (sum_ext Cadd C0). intros i Hi. destruct (used i) eqn:U; [|reflexivity]. apply (sum_ext Cadd C0). intros c Hc. now apply H. Qed.
Lemma over_vis_mul used n nc F k : Cmul k (over_vis used n nc F) = over_vis used n nc (fun i c => Cmul k (F i c)).
Proof.
  unfold over_vis. rewrite (rsum_mul_l (A := Cring)). apply (sum_ext Cadd C0). intros i Hi. cbn [rmul Cring]. destruct (used i); [|csolve]. rewrite (rsum_mul_l (A := Cring)). reflexivity.
Qed.
Lemma over_pixels_conj S F k : Cmul (Cconj (over_pixels S F)) k = over_pixels S (fun x y => Cmul (Cconj (F x y)) k).
Proof.
  unfold over_pixels. rewrite Cconj_sum, (rsum_mul_r (A := Cring)). apply (sum_ext Cadd C0). intros x Hx. rewrite Cconj_sum. cbn [rmul Cring]. rewrite (rsum_mul_r (A := Cring)). reflexivity.
Qed.
Lemma adjoint_lemma used S n nc (a t : Z -> Z -> R) (turns : Z -> Z -> Z -> Z -> R) (w : Z -> Z -> C) :
  over_vis used n nc (fun i c => Cmul (Cconj (over_pixels S (fun x y => Cmul (RtoC (a x y * t x y)) (cis (-2 * PI * turns i c x y)%R)))) (w i c)) =
  over_pixels S (fun x y => Cmul (RtoC (a x y)) (Cmul (over_vis used n nc (fun i c => Cmul (w i c) (cis (2 * PI * turns i c x y)%R))) (RtoC (t x y)))).
Proof.
  rewrite (over_vis_ext _ _ _ _ (fun i c => over_pixels S (fun x y => Cmul (Cconj (Cmul (RtoC (a x y * t x y)) (cis (-2 * PI * turns i c x y)%R))) (w i c)))) by (intros; apply over_pixels_conj).
  rewrite over_swap. unfold over_pixels. apply (sum_ext Cadd C0). intros x Hx. apply (sum_ext Cadd C0). intros y Hy.
  replace (Cmul (RtoC (a x y)) (Cmul (over_vis used n nc (fun i c => Cmul (w i c) (cis (2 * PI * turns i c x y)%R))) (RtoC (t x y)))) with
    (Cmul (RtoC (a x y * t x y)) (over_vis used n nc (fun i c => Cmul (w i c) (cis (2 * PI * turns i c x y)%R)))) by csolve.
  rewrite over_vis_mul. apply over_vis_ext. intros i c Hi Hc U. replace (-2 * PI * turns i c x y)%R with (- (2 * PI * turns i c x y))%R by ring. rewrite cis_neg. csolve.
Qed.

(** Single precision coordinates *)
Lemma dft_single uvws start end_ flux lmn vis uvw_d sd ed fl ln vis_d su sv sw th ws f0 df st st' v :
  mtype lmn = MEM_FLOAT -> dft_call uvws start end_ flux lmn vis uvw_d sd ed fl ln vis_d su sv sw th ws f0 df st = Some (st', v) -> failed st' = true /\ v = vis_d.
Proof.
  intro T. unfold dft_call. destruct (failed st) eqn:F; [intro E; injection E as <- <-; split; [exact F|reflexivity]|]. destruct (negb (location vis =? MEM_CPU)); [intro E; injection E as <- <-; split; reflexivity|].
  cbv zeta. rewrite T. change (MEM_FLOAT =? MEM_DOUBLE) with false. rewrite ?andb_false_r, ?andb_false_l. cbn [orb andb]. intro E. injection E as <- <-. split; reflexivity.
Qed.
