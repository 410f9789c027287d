From Coq Require Import Lra.
From Verif Require Import Base BaseFacts Sum CRing Cplx Clamp Sets LegendreSpec SphericalWave SphericalWaveSpec SphericalWaveFacts.
Open Scope Z_scope.

Definition quad : Type := ((C * C) * (C * C))%type.
Definition add2 (a b : C * C) : C * C := (Cadd (fst a) (fst b), Cadd (snd a) (snd b)).
Definition add4 (a b : quad) : quad := (add2 (fst a) (fst b), add2 (snd a) (snd b)).
Definition zero4 : quad := ((C0, C0), (C0, C0)).
Lemma Cadd_assoc a b c : Cadd a (Cadd b c) = Cadd (Cadd a b) c. Proof. csolve. Qed.
Lemma Cadd_comm a b : Cadd a b = Cadd b a. Proof. csolve. Qed.
Lemma Cadd_0 a : Cadd C0 a = a. Proof. csolve. Qed.
Lemma cm4 : cmonoid add4 zero4.
Proof.
  constructor; unfold add4, add2, zero4.
  - intros [[a b] [c d]] [[a' b'] [c' d']] [[a'' b''] [c'' d'']]. cbn [fst snd]. now rewrite !Cadd_assoc.
  - intros [[a b] [c d]] [[a' b'] [c' d']]. cbn [fst snd]. rewrite (Cadd_comm a), (Cadd_comm b), (Cadd_comm c), (Cadd_comm d). reflexivity.
  - intros [[a b] [c d]]. cbn [fst snd]. now rewrite !Cadd_0.
Qed.
Lemma sum_proj (f : Z -> quad) lo hi : sum add4 zero4 lo hi f =
  ((sum Cadd C0 lo hi (fun i => fst (fst (f i))), sum Cadd C0 lo hi (fun i => snd (fst (f i)))), (sum Cadd C0 lo hi (fun i => fst (snd (f i))), sum Cadd C0 lo hi (fun i => snd (snd (f i))))).
Proof. unfold sum. induction (zrange lo hi) as [|x l IH]; [reflexivity|]. cbn [map fold_right]. rewrite IH. reflexivity. Qed.

(** Folding the order sum *)
Definition both (T : Z -> quad) (m : Z) : quad := if m =? 0 then T 0 else add4 (T (- m)) (T m).
Lemma sum_both T (n : nat) : sum add4 zero4 0 (Z.of_nat n + 1) (fun k => both T (Z.of_nat n - k)) = sum add4 zero4 (- Z.of_nat n) (Z.of_nat n + 1) T.
Proof.
  induction n as [|n IH]; [reflexivity|]. rewrite (sum_cons _ _) by lia. rewrite Z.sub_0_r.
  rewrite (sum_ext _ _ (0 + 1) _ _ (fun k => both T (Z.of_nat n - (k - 1)))). 2:{ intros i Hi. f_equal. lia. }
  replace (Z.of_nat (S n) + 1) with ((Z.of_nat n + 1) + 1) at 1 by lia. rewrite sum_shift.
  rewrite (sum_ext _ _ 0 _ _ (fun k => both T (Z.of_nat n - k))). 2:{ intros i Hi. f_equal. lia. }
  rewrite IH. rewrite (sum_cons _ _ (- Z.of_nat (S n))) by lia. replace (- Z.of_nat (S n) + 1) with (- Z.of_nat n) by lia.
  rewrite (sum_snoc _ _ cm4 (- Z.of_nat n) (Z.of_nat (S n))) by lia. unfold both. replace (Z.of_nat (S n) =? 0) with false by lia. replace (Z.of_nat n + 1) with (Z.of_nat (S n)) by lia.
  rewrite <- (cm_assoc _ _ cm4). apply f_equal. apply (cm_comm _ _ cm4).
Qed.

Lemma fact_ok n : (0 <= n)%Z -> factorial n = Some (factorialR n).
Proof.
  intro H. unfold factorial, factorialR. destruct (Z.eq_dec n 0) as [->|N]; [reflexivity|].
  destruct (for_inv (fun k f => f = INR (fact (Z.to_nat (k - 1)))) 2 (n + 1) (fun i f => Some (f * IZR i)%R) 1%R) as (f & E & P).
  - lia.
  - change (Z.to_nat (2 - 1)) with 1%nat. cbn. ring.
  - intros i f Hi ->. eexists. split; [reflexivity|]. replace (Z.to_nat (i + 1 - 1)) with (S (Z.to_nat (i - 1))) by lia.
    rewrite fact_simpl, mult_INR, Rmult_comm. f_equal. rewrite INR_IZR_INZ. f_equal. lia.
  - rewrite E, P. do 3 f_equal. lia.
Qed.
Lemma fact_pos n : (0 < factorialR n)%R.
Proof. apply INR_fact_lt_0. Qed.

Section Pattern.
Context (alpha : nd C) (na l_max : Z) (t px py : R).
Context (Sa : shape alpha = [na]) (Ha : 4 * (l_max * l_max + 2 * l_max) <= na) (Hi : 4 * (l_max * l_max + 2 * l_max) <= 2147483647).
Context (Ht : sin t <> 0%R).

Definition al1 (i : Z) : C := elem alpha [i].
Definition T (l M : Z) : quad :=
  let q := q_lm dalZ l M t in let d := d_lm alZ l M t in let a k := coeff_at al1 l M k in
  ((Cadd (Cmul (d px) (a 1)) (Cmul (q px) (a 0)), Csub (Cmul (q px) (a 1)) (Cmul (d px) (a 0))),
   (Cadd (Cmul (d py) (a 3)) (Cmul (q py) (a 2)), Csub (Cmul (q py) (a 3)) (Cmul (d py) (a 2)))).

Lemma read_alpha l M k : 1 <= l <= l_max -> - l <= M <= l -> 0 <= k < 4 ->
  rd alpha [4 * (l * l - 1 + l + M) + k] = Some (coeff_at al1 l M k).
Proof.
  intros Hl HM Hk. rewrite rd_some by (rewrite Sa; apply in_shape_1; nia). unfold coeff_at, al1. do 3 f_equal. lia.
Qed.

Lemma wave l M te tm pt phi s : 
  SPH_WAVE_HARP (IZR M) te tm (alZ l (Z.abs M) pt / sin pt) (- dalZ l (Z.abs M) pt) (norm_lm l M * sin (IZR M * phi)) (norm_lm l M * cos (IZR M * phi)) s =
  add2 s (Cadd (Cmul (d_lm alZ l M pt phi) tm) (Cmul (q_lm dalZ l M pt phi) te), Csub (Cmul (q_lm dalZ l M pt phi) tm) (Cmul (d_lm alZ l M pt phi) te)).
Proof.
  unfold SPH_WAVE_HARP, add2. cbn [fst snd].
  replace (- (norm_lm l M * cos (IZR M * phi)) * - dalZ l (Z.abs M) pt, - (norm_lm l M * sin (IZR M * phi)) * - dalZ l (Z.abs M) pt)%R with (q_lm dalZ l M pt phi).
  2:{ unfold q_lm, cis. csolve. }
  replace (- (norm_lm l M * sin (IZR M * phi)) * (alZ l (Z.abs M) pt / sin pt) * IZR M, norm_lm l M * cos (IZR M * phi) * (alZ l (Z.abs M) pt / sin pt) * IZR M)%R with (d_lm alZ l M pt phi).
  2:{ unfold d_lm, cis, Rdiv. csolve. }
  reflexivity.
Qed.

Lemma neg_phase z phi : (IZR (- z) * phi = - (IZR z * phi))%R.
Proof. rewrite opp_IZR. ring. Qed.

Lemma add_lm_ok l m (s : quad) : 1 <= l <= l_max -> 0 <= m <= l -> add_lm alpha l m (cos t) (sin t) px py s = Some (add4 s (both (T l) m)).
Proof.
  intros Hl Hm. destruct s as [x y]. unfold add_lm. unfold to_int at 1. replace ((-2147483648 <=? l * l) && (l * l <=? 2147483647)) with true by nia. cbn [bind].
  rewrite legendre2_Z by lia. cbn [bind]. destruct (Req_EM_T (sin t) 0) as [|_]; [contradiction|].
  unfold both. destruct (Z.eqb_spec m 0) as [->|N].
  - unfold to_int. replace ((-2147483648 <=? 4 * (l * l - 1 + l) + 3) && (4 * (l * l - 1 + l) + 3 <=? 2147483647)) with true by nia. cbn [bind].
    pose proof (read_alpha l 0) as R. replace (l * l - 1 + l) with (l * l - 1 + l + 0) by lia.
    pose proof (R 0) as R0. rewrite Z.add_0_r in R0. rewrite R0, !R by lia. cbn [bind]. unfold T, add4. cbn [fst snd].
    assert (E : (sqrt (IZR (2 * l + 1) / (4 * PI * IZR l * IZR (l + 1))) = norm_lm l 0)%R).
    { unfold norm_lm. cbn [Z.abs]. rewrite Z.sub_0_r, Z.add_0_r. f_equal. field. assert (IZR l <> 0%R) by (apply not_0_IZR; lia). assert (IZR (l + 1) <> 0%R) by (apply not_0_IZR; lia). pose proof PI_neq0. pose proof (fact_pos l). split; [lra|]. auto. }
    rewrite E. assert (A : forall te tm phi s, SPH_WAVE_HARP 0 te tm (alZ l 0 t / sin t) (- dalZ l 0 t) 0 (norm_lm l 0) s =
      add2 s (Cadd (Cmul (d_lm alZ l 0 t phi) tm) (Cmul (q_lm dalZ l 0 t phi) te), Csub (Cmul (q_lm dalZ l 0 t phi) tm) (Cmul (d_lm alZ l 0 t phi) te))).
    { intros te tm phi s. rewrite <- wave. cbn [Z.abs]. rewrite Rmult_0_l, sin_0, cos_0, Rmult_0_r, Rmult_1_r. reflexivity. }
    rewrite (A _ _ px), (A _ _ py). reflexivity.
  - rewrite !fact_ok by lia. cbn [bind]. 
    assert (E : forall M, Z.abs M = m -> (sqrt (IZR (2 * l + 1) / (4 * PI * IZR l * IZR (l + 1)) * factorialR (l - m) / factorialR (l + m)) = norm_lm l M)%R).
    { intros M <-. unfold norm_lm. f_equal. unfold Rdiv. ring. }
    unfold to_int. replace ((-2147483648 <=? 4 * (l * l - 1 + l - m)) && (4 * (l * l - 1 + l - m) <=? 2147483647)) with true by nia. cbn [bind].
    replace ((-2147483648 <=? 4 * (l * l - 1 + l + m)) && (4 * (l * l - 1 + l + m) <=? 2147483647)) with true by nia. cbn [bind].
    assert (Rm : forall k, 0 <= k < 4 -> rd alpha [4 * (l * l - 1 + l - m) + k] = Some (coeff_at al1 l (- m) k)) by (intros; rewrite <- read_alpha by lia; do 2 f_equal; lia).
    assert (Rp : forall k, 0 <= k < 4 -> rd alpha [4 * (l * l - 1 + l + m) + k] = Some (coeff_at al1 l m k)) by (intros; apply read_alpha; lia).
    pose proof (Rm 0) as Rm0. pose proof (Rp 0) as Rp0. rewrite Z.add_0_r in Rm0, Rp0. rewrite Rm0, Rp0, !Rm, !Rp by lia. cbn [bind].
    assert (Wm : forall te tm phi s, SPH_WAVE_HARP (IZR (- m)) te tm (alZ l m t / sin t) (- dalZ l m t)
      (sin (IZR (- m) * phi) * sqrt (IZR (2 * l + 1) / (4 * PI * IZR l * IZR (l + 1)) * factorialR (l - m) / factorialR (l + m)))
      (cos (IZR (- m) * phi) * sqrt (IZR (2 * l + 1) / (4 * PI * IZR l * IZR (l + 1)) * factorialR (l - m) / factorialR (l + m))) s =
      add2 s (Cadd (Cmul (d_lm alZ l (- m) t phi) tm) (Cmul (q_lm dalZ l (- m) t phi) te), Csub (Cmul (q_lm dalZ l (- m) t phi) tm) (Cmul (d_lm alZ l (- m) t phi) te))).
    { intros te tm phi s. rewrite <- wave. rewrite (E (- m)) by lia. replace (Z.abs (- m)) with m by lia. rewrite (Rmult_comm (sin _)), (Rmult_comm (cos _)). reflexivity. }
    assert (Wp : forall te tm phi s, SPH_WAVE_HARP (IZR m) te tm (alZ l m t / sin t) (- dalZ l m t)
      (- (sin (IZR (- m) * phi) * sqrt (IZR (2 * l + 1) / (4 * PI * IZR l * IZR (l + 1)) * factorialR (l - m) / factorialR (l + m))))
      (cos (IZR (- m) * phi) * sqrt (IZR (2 * l + 1) / (4 * PI * IZR l * IZR (l + 1)) * factorialR (l - m) / factorialR (l + m))) s =
      add2 s (Cadd (Cmul (d_lm alZ l m t phi) tm) (Cmul (q_lm dalZ l m t phi) te), Csub (Cmul (q_lm dalZ l m t phi) tm) (Cmul (d_lm alZ l m t phi) te))).
    { intros te tm phi s. rewrite <- wave. rewrite (E m) by lia. replace (Z.abs m) with m by lia. rewrite neg_phase, sin_neg, cos_neg. f_equal; ring. }
    rewrite !Wm, !Wp. unfold T, add4. cbn [fst snd]. f_equal. unfold add2. cbn [fst snd]. f_equal; f_equal; symmetry; apply Cadd_assoc.
Qed.

Lemma all_lm : for_ 1 (l_max + 1) (fun l => for_ 0 (l + 1) (fun k => add_lm alpha l (l - k) (cos t) (sin t) px py)) ((C0, C0), (C0, C0)) =
  Some ((harp_theta alZ dalZ al1 l_max 0 t px, harp_phi alZ dalZ al1 l_max 0 t px), (harp_theta alZ dalZ al1 l_max 2 t py, harp_phi alZ dalZ al1 l_max 2 t py)).
Proof.
  rewrite (for_ext _ _ _ (fun l (s : quad) => Some (add4 s (sum add4 zero4 (- l) (l + 1) (T l))))).
  2:{ intros l s Hl. rewrite (for_ext _ _ _ (fun k (s : quad) => Some (add4 s (both (T l) (l - k))))) by (intros; apply add_lm_ok; lia).
      rewrite (for_sum _ _ cm4). pose proof (sum_both (T l) (Z.to_nat l)) as B. rewrite Z2Nat.id in B by lia. now rewrite B. }
  rewrite (for_sum _ _ cm4). rewrite (cm_unit _ _ cm4). f_equal. rewrite sum_proj. unfold harp_theta, harp_phi.
  apply f_equal2; apply f_equal2; apply sum_ext; intros l Hl; rewrite sum_proj; reflexivity.
Qed.
End Pattern.
