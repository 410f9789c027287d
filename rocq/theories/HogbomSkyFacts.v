(** The restored image of CLEAN (proofs only). *)
From Coq Require Import Lia Lra.
From Verif Require Import Base BaseFacts Sum CRing Cplx FftSpec FftConv FftConvSpec Prop_FftConv Hogbom HogbomSpec HogbomFacts HogbomSky HogbomSkySpec.
Open Scope Z_scope.

Lemma truncated_IZR z : truncated (IZR z) = z.
Proof.
  unfold truncated. assert (P : forall k, 0 <= k -> Int_part (IZR k) = k).
  { intros k Hk. pose proof (base_Int_part (IZR k)) as [A B]. assert (IZR (Int_part (IZR k)) <= IZR k)%R by exact A. apply le_IZR in H. assert (IZR (k - 1) < IZR (Int_part (IZR k)))%R by (rewrite minus_IZR; lra). apply lt_IZR in H0. lia. }
  destruct (Rle_dec 0 (IZR z)) as [H|H].
  - apply P. now apply le_IZR.
  - assert (z < 0). { apply lt_IZR. lra. } rewrite <- opp_IZR, P by lia. lia.
Qed.
Lemma gaussian_form sx sy t X Y : sx <> 0%R -> sy <> 0%R ->
  gaussian sx sy t X Y = (1 * exp (- ((cos t ^ 2 / (2 * sx ^ 2) + sin t ^ 2 / (2 * sy ^ 2)) * X ^ 2 + 2 * (sin (2 * t) / (4 * sx ^ 2) - sin (2 * t) / (4 * sy ^ 2)) * X * Y + (sin t ^ 2 / (2 * sx ^ 2) + cos t ^ 2 / (2 * sy ^ 2)) * Y ^ 2)))%R.
Proof. intros Hx Hy. unfold gaussian. rewrite Rmult_1_l. f_equal. rewrite sin_2a. field. auto. Qed.

Lemma cbeam_lemma details s cb : describes details s -> 0 <= s -> shape cb = [s * s] ->
  exists r, create_cbeam details s cb = Some r /\ shape r = [s * s] /\ forall x y, 0 <= x < s -> 0 <= y < s -> elem r [s * x + y] = RtoC (beam details (x - s / 2) (y - s / 2)).
Proof.
  intros (Sd & N0 & N1 & _) Hs Sc. unfold create_cbeam. cbv zeta.
  rewrite !(rd_some details) by (rewrite Sd; reflexivity). cbn [bind]. replace (cdiv s 2) with (s / 2) by (symmetry; apply Z.quot_div_nonneg; lia).
  assert (V : forall x y, RtoC (1 * exp (- ((cos (PI / 180 * elem details [2%Z]) ^ 2 / (2 * elem details [0%Z] ^ 2) + sin (PI / 180 * elem details [2%Z]) ^ 2 / (2 * elem details [1%Z] ^ 2)) * IZR (x - s / 2) ^ 2 +
      2 * (sin (2 * (PI / 180 * elem details [2%Z])) / (4 * elem details [0%Z] ^ 2) - sin (2 * (PI / 180 * elem details [2%Z])) / (4 * elem details [1%Z] ^ 2)) * IZR (x - s / 2) * IZR (y - s / 2) +
      (sin (PI / 180 * elem details [2%Z]) ^ 2 / (2 * elem details [0%Z] ^ 2) + cos (PI / 180 * elem details [2%Z]) ^ 2 / (2 * elem details [1%Z] ^ 2)) * IZR (y - s / 2) ^ 2)))%R = RtoC (beam details (x - s / 2) (y - s / 2))).
  { intros x y. f_equal. unfold beam. rewrite gaussian_form by assumption. replace (PI * elem details [2%Z] / 180)%R with (PI / 180 * elem details [2%Z])%R by field. reflexivity. }
  match goal with |- context [for_ 0 s ?b cb] => destruct (for_inv (fun k r => shape r = [s * s] /\ forall x y, 0 <= x < k -> 0 <= y < s -> elem r [s * x + y] = RtoC (beam details (x - s / 2) (y - s / 2))) 0 s b cb Hs) as (r & E & S1 & P) end.
  - split; [exact Sc|]. lia.
  - intros k r Hk (Sr & P).
    match goal with |- context [for_ 0 s ?b r] => destruct (for_inv (fun m r' => shape r' = [s * s] /\ (forall x y, 0 <= x < k -> 0 <= y < s -> elem r' [s * x + y] = RtoC (beam details (x - s / 2) (y - s / 2))) /\
      (forall y, 0 <= y < m -> elem r' [s * k + y] = RtoC (beam details (k - s / 2) (y - s / 2)))) 0 s b r Hs) as (r' & E & S1 & P1 & P2) end.
    + split; [exact Sr|]. split; [exact P|]. lia.
    + intros m r1 Hm (S1 & P1 & P2). rewrite wr_some by (rewrite S1; apply in_shape_1; nia). eexists. split; [reflexivity|]. split; [exact S1|]. split.
      * intros x y Hx Hy. rewrite elem_upd_other by (intro Q; injection Q as Q; nia). now apply P1.
      * intros y Hy. destruct (Z.eq_dec y m) as [->|N]; [rewrite elem_upd_same; apply V|]. rewrite elem_upd_other by (intro Q; injection Q as Q; lia). apply P2. lia.
    + exists r'. split; [exact E|]. split; [exact S1|]. intros x y Hx Hy. destruct (Z.eq_dec x k) as [->|N]; [now apply P2|apply P1; lia].
  - exists r. auto.
Qed.
Lemma re_sum lo hi f : re (csum lo hi f) = sum Rplus 0%R lo hi (fun i => re (f i)).
Proof. unfold csum, sum. induction (zrange lo hi) as [|x l IH]; [reflexivity|]. cbn [map fold_right]. rewrite <- IH. reflexivity. Qed.

Section Restore.
Context (n s : Z) (details comp residual model sky : nd R).
Context (Hn : 0 < n) (Hs : 0 < s <= 32767) (En : Z.even n = true) (Es : Z.even s = true) (D : describes details s).
Context (Sc : shape comp = [n * n]) (Sr : shape residual = [n * n]) (Sm : shape model = [n * n]) (Ss : shape sky = [n * n]).
Lemma restore_lemma : exists model' sky', restore details n comp residual model sky = Some (model', sky') /\ shape model' = [n * n] /\ shape sky' = [n * n] /\
  (forall i, 0 <= i < n * n -> elem model' [i] = elem comp [i]) /\
  forall i j, 0 <= i < n -> 0 <= j < n -> elem sky' [i * n + j] = (beams 1 n s details (fun k => elem comp [k]) i j + elem residual [(i * n + j)%Z])%R.
Proof.
  unfold restore. pose proof D as (Sd & _ & _ & D3). rewrite (rd_some details) by (rewrite Sd; reflexivity). cbn [bind]. rewrite D3, truncated_IZR. cbv zeta.
  replace (s <? 0) with false by lia. replace (32767 <? s) with false by lia. cbn [orb].
  destruct (cbeam_lemma details s (mk_nd [s * s] (fun _ => C0)) D ltac:(lia) eq_refl) as (cb & Ecb & Scb & Pcb). rewrite Ecb. cbn [bind].
  destruct (C43_even_partial n s (mk_nd (shape comp) (fun i => RtoC (elem comp i))) cb (mk_nd [n * n] (fun _ => C0)) (n * n) (s * s) (n * n)) as (cv & Ecv & Scv & Pcv & _); try assumption; try lia; try reflexivity.
  rewrite Ecv. cbn [bind].
  assert (N2 : 0 <= n * n) by nia.
  match goal with |- context [for_ 0 (n * n) ?b sky] => destruct (for_inv (fun k r => shape r = [n * n] /\ forall i, 0 <= i < k -> elem r [i] = re (elem cv [i])) 0 (n * n) b sky N2) as (s1 & E1 & S1 & P1) end.
  { split; [exact Ss|lia]. }
  { intros k r Hk (A & B). rewrite rd_some by (rewrite Scv; apply in_shape_1; lia). cbn [bind]. rewrite wr_some by (rewrite A; apply in_shape_1; lia). eexists. split; [reflexivity|]. split; [exact A|].
    intros i Hi. destruct (Z.eq_dec i k) as [->|N]; [apply elem_upd_same|]. rewrite elem_upd_other by (intro Q; injection Q as Q; lia). apply B. lia. }
  rewrite E1. cbn [bind].
  match goal with |- context [for_ 0 (n * n) ?b s1] => destruct (for_inv (fun k r => shape r = [n * n] /\ forall i, 0 <= i < n * n -> elem r [i] = if i <? k then (re (elem cv [i]) + elem residual [i])%R else re (elem cv [i])) 0 (n * n) b s1 N2) as (s2 & E2 & S2 & P2) end.
  { split; [exact S1|]. intros i Hi. replace (i <? 0) with false by lia. now apply P1. }
  { intros k r Hk (A & B). rewrite rd_some by (rewrite A; apply in_shape_1; lia). cbn [bind]. rewrite (rd_some residual) by (rewrite Sr; apply in_shape_1; lia). cbn [bind]. rewrite wr_some by (rewrite A; apply in_shape_1; lia). eexists. split; [reflexivity|]. split; [exact A|].
    intros i Hi. destruct (Z.eq_dec i k) as [->|N].
    - rewrite elem_upd_same, B by lia. replace (k <? k) with false by lia. replace (k <? k + 1) with true by lia. reflexivity.
    - rewrite elem_upd_other by (intro Q; injection Q as Q; lia). rewrite B by lia. destruct (Z.ltb_spec i k), (Z.ltb_spec i (k + 1)); try reflexivity; lia. }
  rewrite E2. cbn [bind].
  match goal with |- context [for_ 0 (n * n) ?b model] => destruct (for_inv (fun k r => shape r = [n * n] /\ forall i, 0 <= i < k -> elem r [i] = elem comp [i]) 0 (n * n) b model N2) as (m1 & E3 & S3 & P3) end.
  { split; [exact Sm|lia]. }
  { intros k r Hk (A & B). rewrite rd_some by (rewrite Sc; apply in_shape_1; lia). cbn [bind]. rewrite wr_some by (rewrite A; apply in_shape_1; lia). eexists. split; [reflexivity|]. split; [exact A|].
    intros i Hi. destruct (Z.eq_dec i k) as [->|N]; [apply elem_upd_same|]. rewrite elem_upd_other by (intro Q; injection Q as Q; lia). apply B. lia. }
  rewrite E3. cbn [bind]. exists m1, s2. split; [reflexivity|]. split; [exact S3|]. split; [exact S2|]. split; [exact P3|].
  intros i j Hi Hj. rewrite P2 by nia. replace (i * n + j <? n * n) with true by nia. f_equal. rewrite Pcv by assumption. unfold full_conv, beams. rewrite re_sum.
  apply (sum_ext Rplus 0%R). intros p Hp. rewrite re_sum. apply (sum_ext Rplus 0%R). intros q Hq. cbn [elem].
  assert (H2 : s = 2 * (s / 2)). { apply Zeven_div2_eq || idtac. rewrite Z.even_spec in Es. destruct Es as (h & ->). rewrite Z.mul_comm, Z.div_mul by lia. lia. }
  set (h := s / 2) in *. assert (O : (s - 1) / 2 = h - 1). { rewrite H2. replace (2 * h - 1) with (1 + (h - 1) * 2) by lia. rewrite Z.div_add by lia. reflexivity. }
  rewrite O. unfold at0, in_beam. fold h.
  replace ((0 <=? i + (h - 1) - p) && (i + (h - 1) - p <? s) && (0 <=? j + (h - 1) - q) && (j + (h - 1) - q <? s)) with
    ((- h <=? i - (p + 1)) && (i - (p + 1) <? h) && (- h <=? j - (q + 1)) && (j - (q + 1) <? h)).
  2:{ f_equal; [f_equal; [f_equal|]|].
      - destruct (Z.leb_spec (- h) (i - (p + 1))), (Z.leb_spec 0 (i + (h - 1) - p)); try reflexivity; lia.
      - destruct (Z.ltb_spec (i - (p + 1)) h), (Z.ltb_spec (i + (h - 1) - p) s); try reflexivity; lia.
      - destruct (Z.leb_spec (- h) (j - (q + 1))), (Z.leb_spec 0 (j + (h - 1) - q)); try reflexivity; lia.
      - destruct (Z.ltb_spec (j - (q + 1)) h), (Z.ltb_spec (j + (h - 1) - q) s); try reflexivity; lia. }
  destruct ((- h <=? i - (p + 1)) && (i - (p + 1) <? h) && (- h <=? j - (q + 1)) && (j - (q + 1) <? h)) eqn:W.
  - apply andb_prop in W. destruct W as (W & W4). apply andb_prop in W. destruct W as (W & W3). apply andb_prop in W. destruct W as (W1 & W2).
    replace ((i + (h - 1) - p) * s + (j + (h - 1) - q)) with (s * (i + (h - 1) - p) + (j + (h - 1) - q)) by ring. rewrite Pcb by lia. fold h.
    replace (i + (h - 1) - p - h) with (i - (p + 1)) by lia. replace (j + (h - 1) - q - h) with (j - (q + 1)) by lia. unfold Cmul, RtoC, re, im. cbn [fst snd]. ring.
  - unfold Cmul, RtoC, C0, re, im. cbn [fst snd]. ring.
Qed.
End Restore.

(** *** The whole call *)
Lemma hogbom_shapes n cb1 mo sk dirty psf gain threshold limit comp res :
  0 < n -> 1 <= limit -> (0 < gain)%Qc -> nth0 cb1 0 = 4 -> nth0 mo 0 = n -> nth0 sk 0 = n ->
  hogbom [n; n] [2 * n; 2 * n] cb1 mo [n; n] sk dirty psf gain threshold limit = Some (SUCCESS, (comp, res)) -> shape comp = [n * n] /\ shape res = [n * n].
Proof.
  intros Hn Hl Hg C4 Cm Cs. set (psf_a := mk_nd [2 * n * (2 * n)] (fun idx => psf (nth0 idx 0))). set (dirty_a := mk_nd [n * n] (fun idx => dirty (nth0 idx 0))).
  unfold hogbom, hogbom_checks. rewrite C4, Cm, Cs.
  cbn [nth0 nth size_of fold_right]. unfold nth0. cbn [nth]. rewrite !Z.eqb_refl. cbn [negb].
  replace (2 * n =? n * 2) with true by lia. replace (limit <? 1) with false by lia. cbn [negb].
  destruct (Qcltb_spec 0 gain) as [_|N]; [|contradiction]. cbn [failed].
  rewrite !Z.mul_1_r.
  destruct (copy_lemma (n * n) (n * n) dirty_a (mk_nd [n * n] (fun _ => 0%Qc)) (n * n)) as (res0 & E0 & S0 & P0); try reflexivity; try nia.
  unfold dirty_a, nth0 in E0. rewrite E0. cbn [bind].
  destruct (clean_lemma n psf_a gain threshold (Z.to_nat limit) eq_refl Hn (mk_nd [n * n] (fun _ => 0%Qc)) res0 eq_refl S0)
    as (comp' & res' & k & E & A & B & C & D & G).
  unfold psf_a, nth0 in E. rewrite E. cbn [bind]. intro Q. injection Q as <- <-. auto.
Qed.
