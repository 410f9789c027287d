From Coq Require Import Lra Permutation.
From Verif Require Import Base BaseFacts Sum CRing Clamp Cplx Legendre FftSpec Sets Gpu GpuFacts EsKernels EsKernelsSpec EsKernelsFacts EsKernelsFacts2 GpuFacts2 EsKernelsFacts3 EsScreenSpec EsScreenFacts.
Open Scope Z_scope.

Lemma lin0_ok n sj si i j : 1 <= n -> n * n <= 2147483647 -> (sj = 1 \/ sj = -1) -> (si = 1 \/ si = -1) -> 0 <= i <= n / 2 -> 0 <= j <= n / 2 ->
  0 <= n / 2 + sj * j < n -> 0 <= n / 2 + si * i < n -> lin (n / 2 * n + n / 2) sj j n si i = Some (cell n 0 (n / 2 + sj * j) (n / 2 + si * i)).
Proof.
  intros. pose proof (lin_ok n 1 0 sj si i j) as X. rewrite Z.mul_0_l, Z.add_0_l in X. apply X; auto; lia.
Qed.
Lemma cell_in n planes p a b : 0 <= p < planes -> 0 <= a < n -> 0 <= b < n -> 0 <= cell n p a b < planes * (n * n).
Proof.
  intros. unfold cell. assert (0 <= p * n + a <= planes * n - 1) by nia. nia.
Qed.
Lemma within_ok N i : 0 <= i < N -> within N i = Some i.
Proof. intro. unfold within. replace ((0 <=? i) && (i <? N)) with true by lia. reflexivity. Qed.
Lemma neg_sign shift i j x : (if shift && Z.odd (i + j) then (- x)%R else x) = (shift_sign shift (i + j) * x)%R.
Proof. unfold shift_sign, sign. rewrite <- Z.negb_even. destruct shift, (Z.even (i + j)); cbn [andb negb]; ring. Qed.

Lemma rd_ok {A} (a : nd A) N k : shape a = [N] -> 0 <= k < N -> rd a [k] = Some (elem a [k]).
Proof. intros E H. apply rd_some. rewrite E, in_shape_1. lia. Qed.

Lemma rsumf_snoc lo hi f : lo <= hi -> rsumf lo (hi + 1) f = (rsumf lo hi f + f hi)%R.
Proof. intro. unfold rsumf. rewrite (sum_split _ _ rcm lo hi (hi + 1)) by lia. f_equal. rewrite (sum_one _ _ rcm hi (hi + 1) hi); [reflexivity|lia|intros; lia]. Qed.

Section Image.
Context (n g start subset : Z) (px ivs minw : R) (shift do_w : bool).
Notation h := (n / 2).
Context (Hn : 2 <= n) (Hg : h + g / 2 < g) (Hc : 1 <= subset) (Hint : subset * (g * g) <= 2147483647) (Hn2 : n * n <= 2147483647) (Hsky : do_w = true -> in_sky n px).

Lemma g_pos : 1 <= g /\ h <= g / 2.
Proof. lia. Qed.

(** The sum over the planes at one pixel *)
Definition seen (stack : nd C) (dy dx : Z) : R :=
  rsumf start (start + subset) (fun k => re (Cmul (elem stack [cell g (k - start) (g / 2 + dy) (g / 2 + dx)]) (Cconj (screen do_w px ivs minw k dy dx)))).

Lemma screen_sg k sj si i j : (sj = 1 \/ sj = -1) -> (si = 1 \/ si = -1) -> 0 <= i -> 0 <= j -> screen do_w px ivs minw k (sj * j) (si * i) = screen do_w px ivs minw k j i.
Proof.
  intros A B Hi Hj. rewrite <- (screen_abs do_w px ivs minw k (sj * j)). assert (E1 : Z.abs (sj * j) = j) by (destruct A; subst sj; lia). assert (E2 : Z.abs (si * i) = i) by (destruct B; subst si; lia).
  now rewrite E1, E2.
Qed.

(** As the code computes it *)
Definition raw (stack : nd C) (i j sj si : Z) : R :=
  rsumf start (start + subset) (fun k => let v := elem stack [cell g (k - start) (g / 2 + sj * j) (g / 2 + si * i)] in let s := get_shift do_w k i j px ivs minw (-1) in (re v * re s - im v * im s)%R).
Lemma raw_seen stack i j sj si : (sj = 1 \/ sj = -1) -> (si = 1 \/ si = -1) -> 0 <= i <= h -> 0 <= j <= h -> raw stack i j sj si = seen stack (sj * j) (si * i).
Proof.
  intros A B Hi Hj. unfold raw, seen. apply rsumf_ext. intros k Hk. cbv zeta. rewrite (get_shift_code n) by (auto; lra). destruct (Rlt_dec (-1) 0); [|lra]. rewrite screen_sg by (auto; lia).
  unfold Cmul, re, im. reflexivity.
Qed.

Lemma stack_get (stack : nd C) k sj si i j : shape stack = [subset * (g * g)] -> start <= k < start + subset -> (sj = 1 \/ sj = -1) -> (si = 1 \/ si = -1) -> 0 <= i <= h -> 0 <= j <= h ->
  exists c, plane_centre g (k - start) = Some c /\ lin c sj j g si i = Some (cell g (k - start) (g / 2 + sj * j) (g / 2 + si * i)) /\
    0 <= cell g (k - start) (g / 2 + sj * j) (g / 2 + si * i) < subset * (g * g).
Proof.
  intros E Hk A B Hi Hj. pose proof g_pos. assert (0 <= g / 2 + sj * j < g) by (destruct A; subst sj; lia). assert (0 <= g / 2 + si * i < g) by (destruct B; subst si; lia).
  eexists. split; [apply (plane_centre_ok g subset); lia|]. split; [apply (lin_ok g subset); auto; lia|]. apply cell_in; lia.
Qed.

Lemma apply_sums (stack : nd C) i j : shape stack = [subset * (g * g)] -> 0 <= i <= h -> 0 <= j <= h ->
  for_ start (start + subset) (fun gw '(pp, pn, np, nn) =>
    let shift := get_shift do_w gw i j px ivs minw (-1) in
    let* c := plane_centre g (gw - start) in
    let get sj si := let* k := lin c sj j g si i in let* v := rd stack [k] in Some (re v * re shift - im v * im shift)%R in
    let* a := get 1 1 in let* b := get (-1) 1 in let* d := get 1 (-1) in let* e := get (-1) (-1) in
    Some (pp + a, pn + b, np + d, nn + e)%R) (0, 0, 0, 0)%R = Some (raw stack i j 1 1, raw stack i j (-1) 1, raw stack i j 1 (-1), raw stack i j (-1) (-1)).
Proof.
  intros E Hi Hj.
  pose (T k sj si := let v := elem stack [cell g (k - start) (g / 2 + sj * j) (g / 2 + si * i)] in let s := get_shift do_w k i j px ivs minw (-1) in (re v * re s - im v * im s)%R).
  match goal with |- for_ _ _ ?F ?s0 = _ => destruct (for_inv (fun k s => s = (rsumf start k (fun k => T k 1 1), rsumf start k (fun k => T k (-1) 1), rsumf start k (fun k => T k 1 (-1)), rsumf start k (fun k => T k (-1) (-1)))) start (start + subset) F s0) as (s' & -> & ->) end.
  - lia.
  - unfold rsumf. rewrite !sum_empty by lia. reflexivity.
  - intros k s Hk ->. cbv zeta.
    destruct (stack_get stack k 1 1 i j E Hk ltac:(auto) ltac:(auto) Hi Hj) as (c & Ec & L1 & I1).
    destruct (stack_get stack k (-1) 1 i j E Hk ltac:(auto) ltac:(auto) Hi Hj) as (c2 & Ec2 & L2 & I2).
    destruct (stack_get stack k 1 (-1) i j E Hk ltac:(auto) ltac:(auto) Hi Hj) as (c3 & Ec3 & L3 & I3).
    destruct (stack_get stack k (-1) (-1) i j E Hk ltac:(auto) ltac:(auto) Hi Hj) as (c4 & Ec4 & L4 & I4).
    rewrite Ec in *. injection Ec2 as <-. injection Ec3 as <-. injection Ec4 as <-. cbn [bind]. rewrite L1, L2, L3, L4. cbn [bind].
    rewrite !(rd_ok stack _ _ E) by assumption. cbn [bind]. eexists. split; [reflexivity|]. rewrite !rsumf_snoc by lia. reflexivity.
  - reflexivity.
Qed.

Definition neg (i j : Z) (x : R) : R := if shift && Z.odd (i + j) then (- x)%R else x.
Definition f_apply (stack : nd C) (_ i j sj si : Z) (old : R) : R := (old + neg i j (raw stack i j sj si))%R.

Lemma upd_one (F : Z -> Z -> R -> R) (b : bool) sj si i j : (sj = 1 \/ sj = -1) -> (si = 1 \/ si = -1) -> 0 <= i <= h -> 0 <= j <= h ->
  (b = true -> 0 <= h + sj * j < n /\ 0 <= h + si * i < n) ->
  (if b then let* k := lin (n / 2 * n + n / 2) sj j n si i in let* k := within (n * n) k in Some [Update k (F sj si)] else Some []) =
  Some (if b then [Update (cell n 0 (h + sj * j) (h + si * i)) (F sj si)] else []).
Proof.
  intros A B Hi Hj R1. destruct b; [|reflexivity]. destruct R1; [reflexivity|]. rewrite lin0_ok by (auto; lia). cbn [bind]. rewrite within_ok; [reflexivity|].
  pose proof (cell_in n 1 0 (h + sj * j) (h + si * i)). lia.
Qed.

Lemma apply_body (stack : nd C) t : shape stack = [subset * (g * g)] -> 0 <= fst t -> 0 <= snd t ->
  apply_w_screen_and_sum n g start subset px ivs minw shift do_w stack (n * n) t = body_quad n n 1 (f_apply stack) false t.
Proof.
  intros E Hi Hj. destruct t as [i j]. cbn [fst snd] in Hi, Hj. unfold apply_w_screen_and_sum, body_quad. cbv beta zeta. cbn [fst snd].
  destruct ((i <=? h) && (j <=? h)) eqn:B; [|reflexivity]. change (negb true) with false. cbv iota. assert (0 <= i <= h /\ 0 <= j <= h) as [Hi' Hj'] by lia.
  pose proof (apply_sums stack i j E Hi' Hj') as Sm. cbv beta zeta in Sm. rewrite Sm. cbn [bind]. rewrite centre_ok by lia. cbn [bind].
  pose proof (upd_one (f_apply stack 0 i j) ((i <? h) && (j <? h)) 1 1 i j) as U1.
  pose proof (upd_one (f_apply stack 0 i j) ((i >? 0) && (j <? h)) 1 (-1) i j) as U2.
  pose proof (upd_one (f_apply stack 0 i j) ((j >? 0) && (i <? h)) (-1) 1 i j) as U3.
  pose proof (upd_one (f_apply stack 0 i j) ((i >? 0) && (j >? 0)) (-1) (-1) i j) as U4.
  unfold f_apply, neg in *. rewrite U1, U2, U3, U4 by (auto; intros; lia). cbn [bind].
  rewrite (zrange_cons 0 1) by lia. rewrite zrange_empty by lia. cbn [flat_map]. rewrite app_nil_r. unfold quad, one. cbv iota. rewrite <- !app_assoc. reflexivity.
Qed.

Theorem apply_result stack : shape stack = [subset * (g * g)] ->
  (forall t, In t (image_threads n) -> exists ops, apply_w_screen_and_sum n g start subset px ivs minw shift do_w stack (n * n) t = Some ops) /\
  forall m m', runs Z.eqb Rplus (image_threads n) (apply_w_screen_and_sum n g start subset px ivs minw shift do_w stack (n * n)) m m' ->
    (forall dy dx, - h <= dy < h -> - h <= dx < h ->
      m' (cell n 0 (h + dy) (h + dx)) = (m (cell n 0 (h + dy) (h + dx)) + shift_sign shift (dy + dx) * seen stack dy dx)%R) /\
    (forall l, (forall dy dx, - h <= dy < h -> - h <= dx < h -> l <> cell n 0 (h + dy) (h + dx)) -> m' l = m l).
Proof.
  intro E. assert (B : forall t, In t (image_threads n) -> apply_w_screen_and_sum n g start subset px ivs minw shift do_w stack (n * n) t = body_quad n n 1 (f_apply stack) false t).
  { intros [i j] It. apply ths_range in It. now apply apply_body. }
  split.
  - intros t It. rewrite B by exact It. unfold body_quad. destruct (_ && _); eauto.
  - intros m m' Rn. apply (runs_ext _ _ _ _ _ _ _ B) in Rn. assert (H1 : h <= h) by lia. assert (H2 : h + h <= n) by lia. destruct (quadrants Rplus n n 1 (f_apply stack) false Hn H1 m m' Rn) as (Q & K). split.
    + intros dy dx Hy Hx. rewrite (Q 0 dy dx) by lia. unfold f_apply, neg. rewrite neg_sign. f_equal.
      assert (Sy : sg dy = 1 \/ sg dy = -1) by (unfold sg; destruct (dy <? 0); auto). assert (Sx : sg dx = 1 \/ sg dx = -1) by (unfold sg; destruct (dx <? 0); auto).
      rewrite raw_seen by (auto; lia). replace (sg dy * Z.abs dy) with dy by (unfold sg; destruct (Z.ltb_spec dy 0); lia). replace (sg dx * Z.abs dx) with dx by (unfold sg; destruct (Z.ltb_spec dx 0); lia).
      f_equal. unfold shift_sign. destruct shift; [|reflexivity]. rewrite <- (sign_sg (Z.abs dx) (Z.abs dy) (sg dy) (sg dx) Sy Sx). f_equal. unfold sg. destruct (Z.ltb_spec dy 0), (Z.ltb_spec dx 0); lia.
    + intros l Hl. apply K. intros p dy dx Hp Hy Hx. replace p with 0 by lia. now apply Hl.
Qed.
(** *** The inverse: spread the image over the planes *)
Definition f_rev (image : nd R) (p i j sj si : Z) (_ : C) : C :=
  let s := get_shift do_w (start + p) i j px ivs minw 1 in let x := elem image [cell n 0 (h + sj * j) (h + si * i)] in (re s * neg i j x, im s * neg i j x)%R.

Lemma image_get (image : nd R) b sj si i j : shape image = [n * n] -> (sj = 1 \/ sj = -1) -> (si = 1 \/ si = -1) -> 0 <= i <= h -> 0 <= j <= h ->
  (b = true -> 0 <= h + sj * j < n /\ 0 <= h + si * i < n) ->
  (if b then let* k := lin (n / 2 * n + n / 2) sj j n si i in rd image [k] else Some 0%R) = Some (if b then elem image [cell n 0 (h + sj * j) (h + si * i)] else 0%R).
Proof.
  intros E A B Hi Hj R1. destruct b; [|reflexivity]. destruct R1; [reflexivity|]. rewrite lin0_ok by (auto; lia). cbn [bind]. apply (rd_ok image (n * n)); [exact E|].
  pose proof (cell_in n 1 0 (h + sj * j) (h + si * i)). lia.
Qed.
Lemma store_one (F : Z -> Z -> C -> C) (G : C -> C) (b : bool) c k sj si i j : plane_centre g (k - start) = Some c -> start <= k < start + subset -> (sj = 1 \/ sj = -1) -> (si = 1 \/ si = -1) -> 0 <= i <= h -> 0 <= j <= h ->
  (b = true -> G = F sj si) ->
  (if b then let* k := lin c sj j g si i in let* k := within (subset * (g * g)) k in Some [Update k G] else Some []) =
  Some (if b then [Update (cell g (k - start) (g / 2 + sj * j) (g / 2 + si * i)) (F sj si)] else []).
Proof.
  intros Ec Hk A B Hi Hj R1. destruct b; [|reflexivity]. rewrite R1 by reflexivity.
  destruct (stack_get (mk_nd [subset * (g * g)] (fun _ => C0)) k sj si i j eq_refl Hk A B Hi Hj) as (c' & Ec' & L & I). rewrite Ec in Ec'. injection Ec' as <-.
  rewrite L. cbn [bind]. rewrite within_ok by exact I. reflexivity.
Qed.

Lemma rev_body (image : nd R) t : n mod 2 = 0 -> shape image = [n * n] -> 0 <= fst t -> 0 <= snd t ->
  reverse_w_screen_to_stack n g start subset px ivs minw shift do_w image (subset * (g * g)) t = body_quad n g subset (f_rev image) true t.
Proof.
  intros Ev E Hi Hj. destruct t as [i j]. cbn [fst snd] in Hi, Hj. unfold reverse_w_screen_to_stack, body_quad. cbv beta zeta. cbn [fst snd].
  destruct ((i <=? h) && (j <=? h)) eqn:B; [|reflexivity]. change (negb true) with false. cbv iota. assert (0 <= i <= h /\ 0 <= j <= h) as [Hi' Hj'] by lia.
  rewrite centre_ok by lia. cbn [bind].
  rewrite (image_get image ((j <? h) && (i <? h)) 1 1 i j E) by (auto; intros; lia). cbn [bind].
  rewrite (image_get image (j <? h) 1 (-1) i j E) by (auto; intros; lia). cbn [bind].
  rewrite (image_get image (i <? h) (-1) 1 i j E) by (auto; intros; lia). cbn [bind].
  pose proof (image_get image true (-1) (-1) i j E) as G4. rewrite G4 by (auto; intros; lia). cbn [bind]. clear G4.
  match goal with |- for_ _ _ ?F ?s0 = _ => destruct (for_inv (fun k s => s = flat_map (quad n g (f_rev image) true i j) (zrange 0 (k - start))) start (start + subset) F s0) as (s' & Es & Ps) end.
  - lia.
  - rewrite zrange_empty by lia. reflexivity.
  - intros k s Hk ->.
    assert (exists c, plane_centre g (k - start) = Some c) as (c & Ec) by (eexists; apply (plane_centre_ok g subset); lia). rewrite Ec. cbn [bind].
    pose proof (fun b sj si G => store_one (f_rev image (k - start) i j) G b c k sj si i j Ec Hk) as St.
    rewrite (St ((i <? h) && (j <? h)) 1 1) by
      (auto; intro Q; unfold f_rev, neg; replace (start + (k - start)) with k by lia; replace ((j <? h) && (i <? h)) with true by lia; reflexivity). cbn [bind].
    rewrite (St ((j >? 0) && (i <? h)) (-1) 1) by
      (auto; intro Q; unfold f_rev, neg; replace (start + (k - start)) with k by lia; replace (i <? h) with true by lia; reflexivity). cbn [bind].
    rewrite (St ((i >? 0) && (j <? h)) 1 (-1)) by
      (auto; intro Q; unfold f_rev, neg; replace (start + (k - start)) with k by lia; replace (j <? h) with true by lia; reflexivity). cbn [bind].
    rewrite (St ((i >? 0) && (j >? 0)) (-1) (-1)) by
      (auto; intro Q; unfold f_rev, neg; replace (start + (k - start)) with k by lia; reflexivity). cbn [bind].
    eexists. split; [reflexivity|]. replace (k + 1 - start) with (k - start + 1) by lia. rewrite zrange_snoc by lia. rewrite flat_map_app. cbn [flat_map]. rewrite app_nil_r.
    unfold quad, one. cbv iota. rewrite <- !app_assoc. reflexivity.
  - etransitivity; [exact Es|]. rewrite Ps. replace (start + subset - start) with subset by lia. reflexivity.
Qed.

Theorem reverse_result image : n mod 2 = 0 -> shape image = [n * n] ->
  (forall t, In t (image_threads n) -> exists ops, reverse_w_screen_to_stack n g start subset px ivs minw shift do_w image (subset * (g * g)) t = Some ops) /\
  forall m m' plus, runs Z.eqb plus (image_threads n) (reverse_w_screen_to_stack n g start subset px ivs minw shift do_w image (subset * (g * g))) m m' ->
    (forall p dy dx, 0 <= p < subset -> - h <= dy < h -> - h <= dx < h ->
      m' (cell g p (g / 2 + dy) (g / 2 + dx)) =
        Cmul (RtoC (shift_sign shift (dy + dx) * elem image [cell n 0 (h + dy) (h + dx)])) (screen do_w px ivs minw (start + p) dy dx)) /\
    (forall l, (forall p dy dx, 0 <= p < subset -> - h <= dy < h -> - h <= dx < h -> l <> cell g p (g / 2 + dy) (g / 2 + dx)) -> m' l = m l).
Proof.
  intros Ev E. assert (B : forall t, In t (image_threads n) -> reverse_w_screen_to_stack n g start subset px ivs minw shift do_w image (subset * (g * g)) t = body_quad n g subset (f_rev image) true t).
  { intros [i j] It. apply ths_range in It. now apply rev_body. }
  split.
  - intros t It. rewrite B by exact It. unfold body_quad. destruct (_ && _); eauto.
  - intros m m' plus Rn. apply (runs_ext _ _ _ _ _ _ _ B) in Rn. pose proof (proj2 g_pos) as H1. assert (H2 : g / 2 + h <= g) by lia.
    destruct (quadrants plus n g subset (f_rev image) true Hn H1 m m' Rn) as (Q & K). split; [|exact K].
    intros p dy dx Hp Hy Hx. rewrite (Q p dy dx) by lia. unfold f_rev, neg. cbv zeta. rewrite neg_sign.
    assert (Sy : sg dy = 1 \/ sg dy = -1) by (unfold sg; destruct (dy <? 0); auto). assert (Sx : sg dx = 1 \/ sg dx = -1) by (unfold sg; destruct (dx <? 0); auto).
    rewrite (get_shift_code n) by (auto; lia). destruct (Rlt_dec 1 0); [lra|].
    replace (sg dy * Z.abs dy) with dy by (unfold sg; destruct (Z.ltb_spec dy 0); lia). replace (sg dx * Z.abs dx) with dx by (unfold sg; destruct (Z.ltb_spec dx 0); lia).
    rewrite screen_abs.
    assert (Sg : shift_sign shift (Z.abs dx + Z.abs dy) = shift_sign shift (dy + dx)).
    { unfold shift_sign. destruct shift; [|reflexivity]. rewrite <- (sign_sg (Z.abs dx) (Z.abs dy) (sg dy) (sg dx) Sy Sx). f_equal. unfold sg. destruct (Z.ltb_spec dy 0), (Z.ltb_spec dx 0); lia. }
    rewrite Sg. apply C_eq; unfold Cmul, RtoC, re, im; cbn [fst snd]; ring.
Qed.

(** *** The correction *)
Theorem correction_result support cc (K qk qn qw : nd R) (corr : Z -> Z -> R) :
  (forall i j, 0 <= i <= h -> 0 <= j <= h -> exists lc mc nc, rd K [i] = Some lc /\ rd K [j] = Some mc /\
     conv_corr support ((sqrt (1 - px * IZR i * (px * IZR i) - px * IZR j * (px * IZR j)) - 1) * ivs) qk qn qw = Some nc /\
     corr i j = (1 / (if do_w then lc * mc * (nc * (cc * cc)) else lc * mc * cc * cc))%R) ->
  (forall t, In t (image_threads n) -> exists ops, conv_corr_and_scaling n px ivs do_w support cc K qk qn qw (n * n) t = Some ops) /\
  forall m m' plus, runs Z.eqb plus (image_threads n) (conv_corr_and_scaling n px ivs do_w support cc K qk qn qw (n * n)) m m' ->
    (forall dy dx, - h <= dy < h -> - h <= dx < h -> m' (cell n 0 (h + dy) (h + dx)) = (m (cell n 0 (h + dy) (h + dx)) * corr (Z.abs dx) (Z.abs dy))%R) /\
    (forall l, (forall dy dx, - h <= dy < h -> - h <= dx < h -> l <> cell n 0 (h + dy) (h + dx)) -> m' l = m l).
Proof.
  intro C. set (F := fun (_ i j sj si : Z) (old : R) => (old * corr i j)%R).
  assert (B : forall t, In t (image_threads n) -> conv_corr_and_scaling n px ivs do_w support cc K qk qn qw (n * n) t = body_quad n n 1 F false t).
  { intros [i j] It. apply ths_range in It. unfold conv_corr_and_scaling, body_quad. cbv beta zeta. cbn [fst snd].
    destruct ((i <=? h) && (j <=? h)) eqn:B; [|reflexivity]. change (negb true) with false. cbv iota. assert (0 <= i <= h /\ 0 <= j <= h) as [Hi' Hj'] by lia.
    destruct (C i j Hi' Hj') as (lc & mc & nc & E1 & E2 & E3 & E4). rewrite E1, E2. cbn [bind]. rewrite E3. cbn [bind]. rewrite <- E4. rewrite centre_ok by lia. cbn [bind].
    pose proof (upd_one (F 0 i j) ((i <? h) && (j <? h)) 1 1 i j) as U1.
    pose proof (upd_one (F 0 i j) ((i >? 0) && (j <? h)) 1 (-1) i j) as U2.
    pose proof (upd_one (F 0 i j) ((j >? 0) && (i <? h)) (-1) 1 i j) as U3.
    pose proof (upd_one (F 0 i j) ((i >? 0) && (j >? 0)) (-1) (-1) i j) as U4.
    unfold F in *. rewrite U1, U2, U3, U4 by (auto; intros; lia). cbn [bind].
    rewrite (zrange_cons 0 1) by lia. rewrite zrange_empty by lia. cbn [flat_map]. rewrite app_nil_r. unfold quad, one. cbv iota. rewrite <- !app_assoc. reflexivity. }
  split.
  - intros t It. rewrite B by exact It. unfold body_quad. destruct (_ && _); eauto.
  - intros m m' plus Rn. apply (runs_ext _ _ _ _ _ _ _ B) in Rn. assert (H1 : h <= h) by lia. assert (H2 : h + h <= n) by lia.
    destruct (quadrants plus n n 1 F false Hn H1 m m' Rn) as (Q & K'). split.
    + intros dy dx Hy Hx. apply (Q 0 dy dx); lia.
    + intros l Hl. apply K'. intros p dy dx Hp Hy Hx. replace p with 0 by lia. now apply Hl.
Qed.
End Image.
