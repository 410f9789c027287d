From Coq Require Import Lra Permutation.
From Verif Require Import Base BaseFacts Sum CRing Clamp Cplx Legendre FftSpec Sets Gpu GpuFacts EsKernels EsKernelsSpec EsKernelsFacts EsKernelsFacts2 GpuFacts2 EsKernelsFacts3 EsScreenSpec.
Open Scope Z_scope.

Lemma nodup_flat_map {X Y} (e : X -> list Y) l : NoDup l -> (forall x, In x l -> NoDup (e x)) ->
  (forall x y z, In x l -> In y l -> In z (e x) -> In z (e y) -> x = y) -> NoDup (flat_map e l).
Proof.
  induction l as [|x l IH]; intros N N1 D; [constructor|]. inversion N; subst. cbn [flat_map]. apply nodup_app.
  - apply N1. now left.
  - apply IH; auto.
    + intros; apply N1; now right.
    + intros a b z Ia Ib. apply D; now right.
  - intros z I1 I2. apply in_flat_map in I2. destruct I2 as (y & Iy & I2). assert (x = y) by (apply (D x y z); auto; [now left|now right]). subst. contradiction.
Qed.

Definition sg (d : Z) : Z := if d <? 0 then -1 else 1.

Lemma ths_range n i j : In (i, j) (image_threads n) -> 0 <= i /\ 0 <= j.
Proof. unfold image_threads. rewrite threads_in. lia. Qed.
Lemma ths_cover n i j : 2 <= n -> 0 <= i <= n / 2 -> 0 <= j <= n / 2 -> In (i, j) (image_threads n).
Proof.
  intros. unfold image_threads. apply threads_in. set (nt := Z.min 32 ((n + 1) / 2)). assert (1 <= nt) by lia.
  pose proof (Z.mul_succ_div_gt (n / 2 + 1 + nt - 1) nt ltac:(lia)). split; split; try lia; nia.
Qed.

Section Quadrants.
Context {A : Type} (plus : A -> A -> A) (n s planes : Z) (f : Z -> Z -> Z -> Z -> Z -> A -> A) (sw : bool).
Notation h := (n / 2).
Context (Hn : 2 <= n) (Hs : h <= s / 2).

Definition one (i j p sj si : Z) (b : bool) : list (op Z A) := if b then [Update (cell s p (s / 2 + sj * j) (s / 2 + si * i)) (f p i j sj si)] else [].
Definition quad (i j p : Z) : list (op Z A) :=
  one i j p 1 1 ((i <? h) && (j <? h)) ++
  (if sw then one i j p (-1) 1 ((j >? 0) && (i <? h)) ++ one i j p 1 (-1) ((i >? 0) && (j <? h))
   else one i j p 1 (-1) ((i >? 0) && (j <? h)) ++ one i j p (-1) 1 ((j >? 0) && (i <? h))) ++
  one i j p (-1) (-1) ((i >? 0) && (j >? 0)).
Definition body_quad (t : Z * Z) : option (list (op Z A)) :=
  if (fst t <=? h) && (snd t <=? h) then Some (flat_map (quad (fst t) (snd t)) (zrange 0 planes)) else Some [].

Lemma in_quad o i j p : In o (quad i j p) -> exists sj si, (sj = 1 /\ j < h \/ sj = -1 /\ 0 < j) /\ (si = 1 /\ i < h \/ si = -1 /\ 0 < i) /\
  o = Update (cell s p (s / 2 + sj * j) (s / 2 + si * i)) (f p i j sj si).
Proof.
  unfold quad, one. intro I.
  destruct ((i <? h) && (j <? h)) eqn:B1, ((i >? 0) && (j <? h)) eqn:B2, ((j >? 0) && (i <? h)) eqn:B3, ((i >? 0) && (j >? 0)) eqn:B4, sw; cbn [app In] in I;
    repeat (destruct I as [I|I]); try contradiction; subst o;
    first [exists 1, 1; split; [left; lia|split; [left; lia|reflexivity]] | exists 1, (-1); split; [left; lia|split; [right; lia|reflexivity]]
          | exists (-1), 1; split; [right; lia|split; [left; lia|reflexivity]] | exists (-1), (-1); split; [right; lia|split; [right; lia|reflexivity]]].
Qed.
Lemma quad_in i j p sj si : (sj = 1 /\ j < h \/ sj = -1 /\ 0 < j) -> (si = 1 /\ i < h \/ si = -1 /\ 0 < i) ->
  In (Update (cell s p (s / 2 + sj * j) (s / 2 + si * i)) (f p i j sj si)) (quad i j p).
Proof.
  intros Hj Hi. unfold quad, one. destruct Hj as [[-> Hj]|[-> Hj]], Hi as [[-> Hi]|[-> Hi]].
  - replace ((i <? h) && (j <? h)) with true by lia. now left.
  - replace ((i >? 0) && (j <? h)) with true by lia. apply in_or_app. right. apply in_or_app. left. destruct sw; apply in_or_app; [right|left]; now left.
  - replace ((j >? 0) && (i <? h)) with true by lia. apply in_or_app. right. apply in_or_app. left. destruct sw; apply in_or_app; [left|right]; now left.
  - replace ((i >? 0) && (j >? 0)) with true by lia. apply in_or_app. right. apply in_or_app. right. now left.
Qed.

Lemma coord_range i sj : 0 <= i <= h -> (sj = 1 /\ i < h \/ sj = -1 /\ 0 < i) -> 0 <= s / 2 + sj * i < s.
Proof. lia. Qed.

Lemma quad_nodup i j p : 0 <= i <= h -> 0 <= j <= h -> NoDup (map loc (quad i j p)).
Proof.
  intros Hi Hj. assert (R1 : forall sj si sj' si', (sj = 1 /\ j < h \/ sj = -1 /\ 0 < j) -> (si = 1 /\ i < h \/ si = -1 /\ 0 < i) -> (sj' = 1 /\ j < h \/ sj' = -1 /\ 0 < j) -> (si' = 1 /\ i < h \/ si' = -1 /\ 0 < i) ->
    cell s p (s / 2 + sj * j) (s / 2 + si * i) = cell s p (s / 2 + sj' * j) (s / 2 + si' * i) -> sj * j = sj' * j /\ si * i = si' * i).
  { intros sj si sj' si' A1 A2 A3 A4 E. apply cell_inj in E; try (apply coord_range; auto; lia). lia. }
  unfold quad, one.
  destruct ((i <? h) && (j <? h)) eqn:B1, ((i >? 0) && (j <? h)) eqn:B2, ((j >? 0) && (i <? h)) eqn:B3, ((i >? 0) && (j >? 0)) eqn:B4, sw; cbn [app map loc];
    repeat (apply NoDup_cons; [cbn [In]; intros K; repeat (destruct K as [K|K]; [apply R1 in K; lia|]); exact K|]); apply NoDup_nil.
Qed.

Lemma body_in i j k o : In (i, j) (image_threads n) -> body_quad (i, j) = Some k -> In o k -> i <= h /\ j <= h /\ exists p sj si, 0 <= p < planes /\
  (sj = 1 /\ j < h \/ sj = -1 /\ 0 < j) /\ (si = 1 /\ i < h \/ si = -1 /\ 0 < i) /\ o = Update (cell s p (s / 2 + sj * j) (s / 2 + si * i)) (f p i j sj si).
Proof.
  intros It E Io. unfold body_quad in E. cbn [fst snd] in E. destruct ((i <=? h) && (j <=? h)) eqn:B; injection E as <-; [|destruct Io].
  split; [lia|]. split; [lia|]. apply in_flat_map in Io. destruct Io as (p & Ip & Io). apply in_zrange in Ip. apply in_quad in Io. destruct Io as (sj & si & X). exists p, sj, si. tauto.
Qed.

Theorem quadrants m m' : runs Z.eqb plus (image_threads n) body_quad m m' ->
  (forall p dy dx, 0 <= p < planes -> - h <= dy < h -> - h <= dx < h ->
    m' (cell s p (s / 2 + dy) (s / 2 + dx)) = f p (Z.abs dx) (Z.abs dy) (sg dy) (sg dx) (m (cell s p (s / 2 + dy) (s / 2 + dx)))) /\
  (forall l, (forall p dy dx, 0 <= p < planes -> - h <= dy < h -> - h <= dx < h -> l <> cell s p (s / 2 + dy) (s / 2 + dx)) -> m' l = m l).
Proof.
  intro Rn. destruct (disjoint_result Z.eqb plus Z.eqb_spec (image_threads n) body_quad m m' Rn) as (U & K).
  - apply threads_nodup.
  - intros [i j] k It E. pose proof (ths_range n i j It). unfold body_quad in E. cbn [fst snd] in E. destruct ((i <=? h) && (j <=? h)) eqn:B; injection E as <-; [|constructor].
    assert (X : map loc (flat_map (quad i j) (zrange 0 planes)) = flat_map (fun p => map loc (quad i j p)) (zrange 0 planes)).
    { induction (zrange 0 planes) as [|p l IH]; [reflexivity|]. cbn [flat_map]. now rewrite map_app, IH. }
    rewrite X. apply nodup_flat_map; [apply NoDup_zrange| |].
    + intros p Ip. apply quad_nodup; lia.
    + intros p q z Ip Iq I1 I2. apply in_map_iff in I1, I2. destruct I1 as (o1 & <- & I1), I2 as (o2 & E2 & I2). apply in_quad in I1, I2.
      destruct I1 as (sj & si & A1 & A2 & ->), I2 as (sj' & si' & A3 & A4 & ->). cbn [loc] in E2. apply cell_inj in E2; try (apply coord_range; auto; lia). lia.
  - intros [i j] k o [i' j'] k' o' It It' E E' Io Io' Q. destruct (body_in _ _ _ _ It E Io) as (L1 & L2 & p & sj & si & Hp & A1 & A2 & ->).
    destruct (body_in _ _ _ _ It' E' Io') as (L1' & L2' & p' & sj' & si' & Hp' & A1' & A2' & ->). cbn [loc] in Q. apply ths_range in It, It'.
    apply cell_inj in Q; try (apply coord_range; auto; lia). destruct Q as (_ & Q1 & Q2).
    assert (i = i') by (destruct A2 as [[-> ?]|[-> ?]], A2' as [[-> ?]|[-> ?]]; lia). assert (j = j') by (destruct A1 as [[-> ?]|[-> ?]], A1' as [[-> ?]|[-> ?]]; lia). congruence.
  - split.
    + intros p dy dx Hp Hy Hx. set (i := Z.abs dx). set (j := Z.abs dy).
      assert (E : body_quad (i, j) = Some (flat_map (quad i j) (zrange 0 planes))) by (unfold body_quad; cbn [fst snd]; replace ((i <=? h) && (j <=? h)) with true by lia; reflexivity).
      assert (Io : In (Update (cell s p (s / 2 + sg dy * j) (s / 2 + sg dx * i)) (f p i j (sg dy) (sg dx))) (flat_map (quad i j) (zrange 0 planes))).
      { apply in_flat_map. exists p. split; [apply in_zrange; lia|]. unfold sg. destruct (Z.ltb_spec dy 0), (Z.ltb_spec dx 0); apply quad_in; lia. }
      pose proof (U (i, j) _ _ (ths_cover n i j Hn ltac:(lia) ltac:(lia)) E Io) as R1. cbn [loc apply] in R1.
      replace (sg dy * j) with dy in R1 by (unfold sg; destruct (Z.ltb_spec dy 0); lia). replace (sg dx * i) with dx in R1 by (unfold sg; destruct (Z.ltb_spec dx 0); lia). exact R1.
    + intros l Hl. apply K. intros [i j] k o It E Io Q. destruct (body_in _ _ _ _ It E Io) as (L1 & L2 & p & sj & si & Hp & A1 & A2 & ->). cbn [loc] in Q. apply ths_range in It.
      apply (Hl p (sj * j) (si * i) Hp); [| |symmetry; exact Q]; lia.
Qed.
End Quadrants.

(** Runs depend only on what the threads do *)
Lemma runs_ext {L A T} (eqb : L -> L -> bool) (plus : A -> A -> A) (ths : list T) b1 b2 m m' : (forall t, In t ths -> b1 t = b2 t) -> runs eqb plus ths b1 m m' -> runs eqb plus ths b2 m m'.
Proof.
  intros H (ops & F & X). exists ops. split; [|exact X]. clear X. induction F as [|t o l os E F IH]; [constructor|]. constructor; [rewrite <- H; [exact E|now left]|]. apply IH. intros; apply H; now right.
Qed.

Lemma w_phase_code w l m sgn : (l * l + m * m < 1)%R -> sgn = 1%R \/ sgn = (-1)%R -> phase_shift w l m sgn = (if Rlt_dec sgn 0 then Cconj (w_phase w l m) else w_phase w l m).
Proof.
  intros H Hs. unfold phase_shift, w_phase. replace (1 - l * l - m * m)%R with (1 - (l * l + m * m))%R by ring. set (sos := (l * l + m * m)%R) in *. set (n := sqrt (1 - sos)).
  assert (Pn : (0 < n)%R) by (apply sqrt_lt_R0; lra). assert (E : (n * n = 1 - sos)%R) by (apply sqrt_sqrt; lra).
  assert (Q : (- sos / (n + 1) = n - 1)%R) by (apply Rmult_eq_reg_r with (n + 1)%R; [|lra]; field_simplify; [|lra]; nra).
  rewrite Q. replace (n - 1 + 1)%R with n by ring. destruct Hs as [-> | ->].
  - destruct (Rlt_dec 1 0); [lra|]. rewrite Rmult_1_l. apply C_eq; unfold Cmul, RtoC, cis, re, im; cbn [fst snd]; ring.
  - destruct (Rlt_dec (-1) 0); [|lra]. replace (-1 * (2 * PI * w * (n - 1)))%R with (- (2 * PI * w * (n - 1)))%R by ring. rewrite cos_neg, sin_neg.
    apply C_eq; unfold Cmul, Cconj, RtoC, cis, re, im; cbn [fst snd]; ring.
Qed.

Lemma sky_lm n px i j : in_sky n px -> 0 <= i <= n / 2 -> 0 <= j <= n / 2 -> ((px * IZR i) * (px * IZR i) + (px * IZR j) * (px * IZR j) < 1)%R.
Proof.
  unfold in_sky. intros H [A1 A2] [B1 B2]. apply IZR_le in A1, A2, B1, B2. set (H0 := IZR (n / 2)) in *. set (x := IZR i) in *. set (y := IZR j) in *.
  assert ((px * px) * (x * x) <= (px * px) * (H0 * H0))%R by (apply Rmult_le_compat_l; nra). assert ((px * px) * (y * y) <= (px * px) * (H0 * H0))%R by (apply Rmult_le_compat_l; nra). nra.
Qed.
Lemma w_phase_even w l m : w_phase w (- l) m = w_phase w l m /\ w_phase w l (- m) = w_phase w l m.
Proof. unfold w_phase. split; f_equal; f_equal; [f_equal; f_equal; f_equal; ring| |f_equal; f_equal; f_equal; ring|]; f_equal; f_equal; f_equal; ring. Qed.
Lemma screen_abs do_w px a b k dy dx : screen do_w px a b k (Z.abs dy) (Z.abs dx) = screen do_w px a b k dy dx.
Proof.
  unfold screen. destruct do_w; [|reflexivity]. set (w := (IZR k * a + b)%R).
  assert (E : forall d, (px * IZR (Z.abs d) = px * IZR d \/ px * IZR (Z.abs d) = - (px * IZR d))%R) by (intro d; destruct (Z.abs_eq_or_opp d) as [-> | ->]; [now left|right; rewrite opp_IZR; ring]).
  destruct (E dx) as [-> | ->], (E dy) as [-> | ->]; rewrite ?(proj1 (w_phase_even w _ _)), ?(proj2 (w_phase_even w _ _)); reflexivity.
Qed.
Lemma get_shift_code n do_w k i j px ivs minw sgn : (do_w = true -> in_sky n px) -> 0 <= i <= n / 2 -> 0 <= j <= n / 2 -> sgn = 1%R \/ sgn = (-1)%R ->
  get_shift do_w k i j px ivs minw sgn = if Rlt_dec sgn 0 then Cconj (screen do_w px ivs minw k j i) else screen do_w px ivs minw k j i.
Proof.
  intros Sk Hi Hj Hs. unfold get_shift, screen. destruct do_w.
  - apply w_phase_code; [|exact Hs]. now apply (sky_lm n); auto.
  - assert (Cconj C1 = C1) by (apply C_eq; unfold Cconj, C1, re, im; cbn [fst snd]; ring). destruct (Rlt_dec sgn 0); congruence.
Qed.

Lemma centre_ok n : 1 <= n -> n * n <= 2147483647 -> centre n = Some (n / 2 * n + n / 2).
Proof. intros. unfold centre. assert (0 <= n / 2 < n) by lia. rewrite to_int_in by nia. cbn [bind]. apply to_int_in. nia. Qed.
Lemma plane_centre_ok n planes p : 1 <= n -> planes * (n * n) <= 2147483647 -> 0 <= p < planes -> plane_centre n p = Some (p * (n * n) + (n / 2 * n + n / 2)).
Proof.
  intros Hn Hp H. assert (n * n <= 2147483647) by nia. unfold plane_centre. rewrite centre_ok by lia. cbn [bind]. assert (0 <= n / 2 < n) by lia. assert (0 < n * n) by nia.
  assert (E : s32 (u32 (n * n)) = n * n) by (unfold u32; rewrite Z.mod_small by lia; apply s32_id; lia). rewrite E.
  assert (p * (n * n) + n * n <= planes * (n * n)) by nia. rewrite to_int_in by nia. cbn [bind]. apply to_int_in. nia.
Qed.
Lemma lin_ok n planes p sj si i j : 1 <= n -> planes * (n * n) <= 2147483647 -> 0 <= p < planes -> (sj = 1 \/ sj = -1) -> (si = 1 \/ si = -1) -> 0 <= i <= n / 2 -> 0 <= j <= n / 2 ->
  0 <= n / 2 + sj * j < n -> 0 <= n / 2 + si * i < n ->
  lin (p * (n * n) + (n / 2 * n + n / 2)) sj j n si i = Some (cell n p (n / 2 + sj * j) (n / 2 + si * i)).
Proof.
  intros Hn Hp H Hsj Hsi Hi Hj R1 R2. unfold lin. assert (0 < n * n) by nia. assert (p * (n * n) + n * n <= planes * (n * n)) by nia. assert (0 <= j * n <= n * n) by nia.
  assert (E : cell n p (n / 2 + sj * j) (n / 2 + si * i) = p * (n * n) + (n / 2 * n + n / 2) + sj * (j * n) + si * i) by (unfold cell; ring).
  assert (B : 0 <= cell n p (n / 2 + sj * j) (n / 2 + si * i) < planes * (n * n)) by (unfold cell; nia).
  assert (B1 : 0 <= p * (n * n)) by nia. assert (B2 : 0 <= (n / 2 + sj * j) * n <= (n - 1) * n) by (split; [apply Z.mul_nonneg_nonneg|apply Z.mul_le_mono_nonneg_r]; lia).
  assert (B3 : p * (n * n) + (n / 2 * n + n / 2) + sj * (j * n) = p * (n * n) + (n / 2 + sj * j) * n + n / 2) by ring.
  rewrite to_int_in by lia. cbn [bind]. rewrite to_int_in by lia. cbn [bind]. rewrite E. apply to_int_in. lia.
Qed.
Lemma sign_sg i j sj si : (sj = 1 \/ sj = -1) -> (si = 1 \/ si = -1) -> sign (sj * j + si * i) = sign (i + j).
Proof.
  intros Hj Hi. unfold sign. assert (E : Z.even (sj * j + si * i) = Z.even (i + j)); [|now rewrite E].
  rewrite !Z.even_add. destruct Hj as [-> | ->], Hi as [-> | ->]; rewrite ?Z.mul_1_l; try replace (-1 * j) with (- j) by lia; try replace (-1 * i) with (- i) by lia; rewrite ?Z.even_opp;
    destruct (Z.even i), (Z.even j); reflexivity.
Qed.
