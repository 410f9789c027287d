(** C115: the restored image of Hogbom CLEAN. *)
From Coq Require Import Reals Lra Lia Qreals.
From Verif Require Import Base BaseFacts Sum CRing Cplx FftConv FftConvSpec EsKernelsFacts Prop_FftConv Hogbom HogbomSpec HogbomFacts Prop_Hogbom HogbomSky HogbomSkySpec HogbomSkyFacts.
Open Scope Z_scope.

(** ** C115.  For even image and beam sizes the call succeeds; the CLEAN components and residual are those of the minor cycles (C34, C35), the CLEAN model is the
    components, and the restored image is the residual plus the beams of all components, each centred one pixel further than its component in both directions. *)
Theorem C115_sky n s mo sk dirty psf details gain threshold limit model sky :
  0 < n -> Z.even n = true -> 0 < s <= 32767 -> Z.even s = true -> describes details s -> 1 <= limit -> (0 < gain)%Qc -> nth0 mo 0 = n -> nth0 sk 0 = n ->
  shape model = [n * n] -> shape sky = [n * n] ->
  exists comp res model' sky', hogbom_sky [n; n] [2 * n; 2 * n] (shape details) mo [n; n] sk dirty psf details gain threshold limit model sky = Some (SUCCESS, (res, model', sky')) /\
    hogbom [n; n] [2 * n; 2 * n] (shape details) mo [n; n] sk dirty psf gain threshold limit = Some (SUCCESS, (comp, res)) /\
    (forall k, 0 <= k < n * n -> elem model' [k] = Q2R (this (elem comp [k]))) /\
    forall i j, 0 <= i < n -> 0 <= j < n ->
      elem sky' [i * n + j] = (beams 1 n s details (fun k => Q2R (this (elem comp [k]))) i j + Q2R (this (elem res [(i * n + j)%Z])))%R.
Proof.
  intros Hn En Hs Es D Hl Hg Cm Cs Sm Ss. pose proof D as (Sd & _).
  assert (C4 : nth0 (shape details) 0 = 4) by (rewrite Sd; reflexivity).
  destruct (C34_result n (shape details) mo sk dirty psf gain threshold limit Hn Hl Hg C4 Cm Cs) as (comp & res & E & _).
  destruct (hogbom_shapes n (shape details) mo sk dirty psf gain threshold limit comp res Hn Hl Hg C4 Cm Cs E) as (S1 & S2).
  destruct (restore_lemma n s details (to_reals comp) (to_reals res) model sky Hn Hs En Es D S1 S2 Sm Ss) as (m' & s' & R & _ & _ & Pm & Ps).
  exists comp, res, m', s'. split.
  - unfold hogbom_sky. rewrite E. cbn [bind]. cbn [failed]. replace (nth0 [n; n] 0) with n by reflexivity. rewrite R. reflexivity.
  - split; [exact E|]. split; [exact Pm|exact Ps].
Qed.
Print Assumptions C115_sky.

(** The CLEAN beam is an elliptical Gaussian: 1 at its centre, positive and less than 1 elsewhere. *)
Theorem C115_beam details s X Y : describes details s -> beam details 0 0 = 1%R /\ (0 < beam details X Y)%R /\ ((X, Y) <> (0, 0) -> (beam details X Y < 1)%R).
Proof.
  intros (_ & N0 & N1 & _). unfold beam, gaussian. split; [|split].
  - replace (- ((0 * cos (PI * elem details [2%Z] / 180) + 0 * sin (PI * elem details [2%Z] / 180)) ^ 2 / (2 * elem details [0%Z] ^ 2) + (0 * cos (PI * elem details [2%Z] / 180) - 0 * sin (PI * elem details [2%Z] / 180)) ^ 2 / (2 * elem details [1%Z] ^ 2)))%R with 0%R by (field; auto). apply exp_0.
  - apply exp_pos.
  - intro N. rewrite <- exp_0 at 1. apply exp_increasing. set (t := (PI * elem details [2%Z] / 180)%R). set (u := (IZR X * cos t + IZR Y * sin t)%R). set (v := (IZR Y * cos t - IZR X * sin t)%R).
    assert (Q : (u ^ 2 + v ^ 2 = IZR X ^ 2 + IZR Y ^ 2)%R). { unfold u, v. pose proof (sin2_cos2 t) as T. unfold Rsqr in T. replace (IZR X ^ 2 + IZR Y ^ 2)%R with ((IZR X ^ 2 + IZR Y ^ 2) * (sin t * sin t + cos t * cos t))%R by (rewrite T; ring). ring. }
    assert (P : (0 < IZR X ^ 2 + IZR Y ^ 2)%R). { assert (0 < X * X + Y * Y) by (assert (X <> 0 \/ Y <> 0) by (destruct (Z.eq_dec X 0), (Z.eq_dec Y 0); subst; auto; now contradiction N); nia). apply IZR_lt in H. rewrite plus_IZR, !mult_IZR in H. lra. }
    assert (A0 : (0 < 2 * elem details [0%Z] ^ 2)%R) by (pose proof (Rsqr_pos_lt _ N0) as T; unfold Rsqr in T; lra). assert (A1 : (0 < 2 * elem details [1%Z] ^ 2)%R) by (pose proof (Rsqr_pos_lt _ N1) as T; unfold Rsqr in T; lra).
    assert (U : (0 <= u ^ 2 / (2 * elem details [0%Z] ^ 2))%R) by (apply Rmult_le_pos; [apply pow2_ge_0|now apply Rlt_le, Rinv_0_lt_compat]).
    assert (V : (0 <= v ^ 2 / (2 * elem details [1%Z] ^ 2))%R) by (apply Rmult_le_pos; [apply pow2_ge_0|now apply Rlt_le, Rinv_0_lt_compat]).
    destruct (Req_dec u 0) as [Zu|Zu].
    + assert (0 < v ^ 2 / (2 * elem details [1%Z] ^ 2))%R; [|lra]. apply Rmult_lt_0_compat; [rewrite Zu in Q; lra|now apply Rinv_0_lt_compat].
    + assert (0 < u ^ 2 / (2 * elem details [0%Z] ^ 2))%R; [|lra]. apply Rmult_lt_0_compat; [pose proof (Rsqr_pos_lt _ Zu) as T; unfold Rsqr in T; lra|now apply Rinv_0_lt_compat].
Qed.
Print Assumptions C115_beam.

Lemma cycles_none n psf gain threshold s s' : cycles n psf gain threshold 0 s s' -> s = s'.
Proof. intro H. inversion H. reflexivity. Qed.
Lemma cycles_1 n psf gain threshold s s' : cycles n psf gain threshold 1 s s' -> minor_cycle n psf gain threshold s s'.
Proof. intro H. inversion H as [|k a b c M T]. apply cycles_none in T. now subst. Qed.

(** Refuted: the restored image has its sources where the components are.  A single point source at the pixel (p, q), observed with a perfect PSF, is found in one
    cycle, with the component at (p, q) and no residual; the restored image is its beam centred at (p+1, q+1), for every even image and beam size. *)
Theorem C115_shift_refuted n s mo sk details model sky p q :
  0 < n -> Z.even n = true -> 0 < s <= 32767 -> Z.even s = true -> describes details s -> nth0 mo 0 = n -> nth0 sk 0 = n -> shape model = [n * n] -> shape sky = [n * n] ->
  0 <= p -> 0 <= q -> p + 1 < n -> q + 1 < n ->
  let point k := if k =? p * n + q then 1%Qc else 0%Qc in
  let delta k := if k =? n * (2 * n) + n then 1%Qc else 0%Qc in
  exists res model' sky', hogbom_sky [n; n] [2 * n; 2 * n] (shape details) mo [n; n] sk point delta details 1 1 1 model sky = Some (SUCCESS, (res, model', sky')) /\
    (forall k, 0 <= k < n * n -> elem res [k] = 0%Qc /\ elem model' [k] = (if k =? p * n + q then 1 else 0)%R) /\
    (forall i j, 0 <= i < n -> 0 <= j < n -> elem sky' [i * n + j] = if in_beam s (i - (p + 1)) (j - (q + 1)) then beam details (i - (p + 1)) (j - (q + 1)) else 0%R) /\
    elem sky' [(p + 1) * n + (q + 1)] = 1%R /\ (elem sky' [(p * n + q)%Z] < 1)%R.
Proof.
  intros Hn En Hs Es D Cm Cs Sm Ss Hp Hq Hp1 Hq1 point delta. pose proof D as (Sd & _).
  assert (C4 : nth0 (shape details) 0 = 4) by (rewrite Sd; reflexivity). assert (G1 : (0 < 1)%Qc) by reflexivity.
  destruct (C115_sky n s mo sk point delta details 1 1 1 model sky Hn En Hs Es D ltac:(lia) G1 Cm Cs Sm Ss) as (comp & res & m' & s' & E & H & Pm & Ps).
  destruct (C35_partial n (shape details) mo sk point delta 1 1 1 Hn ltac:(lia) G1 C4 Cm Cs) as (comp2 & res2 & k & H2 & (res0 & R0 & Cy) & Kl & Kt).
  rewrite H in H2. injection H2 as <- <-.
  assert (IB : 0 <= p * n + q < n * n) by nia.
  assert (K : k = 1%nat).
  { destruct k as [|[|k]]; [|reflexivity|lia]. exfalso. apply cycles_none in Cy. injection Cy as _ Cy. specialize (Kt ltac:(lia) (p * n + q) IB). rewrite <- Cy, R0 in Kt by exact IB. unfold point in Kt. rewrite Z.eqb_refl in Kt. now apply (Qclt_not_le _ _ Kt), Qcle_refl. }
  subst k. apply cycles_1 in Cy. destruct Cy as (x & y & Hx & Hy & (_ & Pmax & _) & Th & Pc & Pr). cbn [fst snd] in *.
  assert (XY : n * x + y = p * n + q).
  { destruct (Z.eq_dec (n * x + y) (p * n + q)) as [Q|Q]; [exact Q|exfalso]. rewrite R0 in Th by nia. unfold point in Th. replace (n * x + y =? p * n + q) with false in Th by lia. now apply (Qcle_not_lt _ _ Th). }
  assert (X : x = p) by nia. assert (Y : y = q) by (subst x; nia). subst x y.
  assert (V1 : elem res0 [n * p + q] = 1%Qc). { rewrite R0 by nia. unfold point. now replace (n * p + q =? p * n + q) with true by nia. }
  rewrite V1 in Pc, Pr.
  assert (Vc : forall k, 0 <= k < n * n -> elem comp [k] = if k =? p * n + q then 1%Qc else 0%Qc).
  { intros k Hk. rewrite Pc by exact Hk. cbn [elem]. replace (n * p + q) with (p * n + q) by ring. destruct (k =? p * n + q); ring. }
  assert (Vr : forall k, 0 <= k < n * n -> elem res [k] = 0%Qc).
  { intros k Hk. assert (K : k = n * (k / n) + k mod n) by (apply Z.div_mod; lia). pose proof (Z.mod_pos_bound k n Hn). assert (0 <= k / n < n) by (split; [apply Z.div_pos; lia|apply Z.div_lt_upper_bound; lia]).
    set (i := k / n) in *. set (j := k mod n) in *. rewrite K, Pr by assumption. rewrite R0 by nia. cbn [elem]. unfold point, delta, nth0. cbn [nth].
    destruct (Z.eqb_spec (n * i + j) (p * n + q)) as [Q|Q].
    - replace (2 * n * (n - p + i) + (n - q + j) =? n * (2 * n) + n) with true by (assert (i = p) by nia; assert (j = q) by nia; subst i j; nia). ring.
    - replace (2 * n * (n - p + i) + (n - q + j) =? n * (2 * n) + n) with false; [ring|]. destruct (Z.eqb_spec (2 * n * (n - p + i) + (n - q + j)) (n * (2 * n) + n)) as [Q2|]; [|reflexivity]. exfalso. apply Q. assert (2 * n * (i - p) = q - j) by lia. assert (i = p) by nia. assert (j = q) by nia. subst i. nia. }
  assert (One : Q2R (this 1%Qc) = 1%R) by (unfold Q2R; cbn; lra). assert (Zero : Q2R (this 0%Qc) = 0%R) by (unfold Q2R; cbn; lra).
  assert (Vs : forall i j, 0 <= i < n -> 0 <= j < n -> elem s' [i * n + j] = if in_beam s (i - (p + 1)) (j - (q + 1)) then beam details (i - (p + 1)) (j - (q + 1)) else 0%R).
  { intros i j Hi Hj. rewrite Ps, Vr, Zero by (try assumption; nia). rewrite Rplus_0_r. unfold beams.
    rewrite (sum_one _ _ rcm 0 n p).
    2:lia. 2:{ intros a Ha Na. apply (sum_none _ _ rcm). intros b Hb. rewrite Vc by nia. replace (a * n + b =? p * n + q) with false by (symmetry; apply Z.eqb_neq; intro Q; apply Na; nia). rewrite Zero. ring. }
    rewrite (sum_one _ _ rcm 0 n q).
    2:lia. 2:{ intros b Hb Nb. rewrite Vc by nia. replace (p * n + b =? p * n + q) with false by lia. rewrite Zero. ring. }
    rewrite Vc by nia. rewrite Z.eqb_refl, One. ring. }
  exists res, m', s'. split; [exact E|]. split; [|split; [exact Vs|split]].
  - intros k Hk. split; [now apply Vr|]. rewrite Pm, Vc by exact Hk. now destruct (k =? p * n + q).
  - rewrite Vs by lia. replace (p + 1 - (p + 1)) with 0 by lia. replace (q + 1 - (q + 1)) with 0 by lia.
    assert (S2 : 1 <= s / 2). { rewrite Z.even_spec in Es. destruct Es as (h & Q). rewrite Q, Z.mul_comm, Z.div_mul by lia. lia. }
    unfold in_beam. replace (- (s / 2) <=? 0) with true by lia. replace (0 <? s / 2) with true by lia. cbn [andb]. exact (proj1 (C115_beam details s 0 0 D)).
  - rewrite Vs by lia. destruct (in_beam s (p - (p + 1)) (q - (q + 1))); [|lra]. apply (proj2 (proj2 (C115_beam details s _ _ D))). intro Q. injection Q as Q1 Q2. lia.
Qed.
Print Assumptions C115_shift_refuted.

(** Refuted: every image is restored.  If the image has odd size, the last step of the convolution accesses memory outside the arrays (no outcome), whatever the data are. *)
Theorem C115_odd_refuted n s mo sk dirty psf details gain threshold limit model sky :
  0 < n -> Z.odd n = true -> 0 < s <= 32767 -> describes details s -> 1 <= limit -> (0 < gain)%Qc -> nth0 mo 0 = n -> nth0 sk 0 = n ->
  hogbom_sky [n; n] [2 * n; 2 * n] (shape details) mo [n; n] sk dirty psf details gain threshold limit model sky = None.
Proof.
  intros Hn On Hs D Hl Hg Cm Cs. pose proof D as (Sd & _ & _ & D3).
  assert (C4 : nth0 (shape details) 0 = 4) by (rewrite Sd; reflexivity).
  destruct (C34_result n (shape details) mo sk dirty psf gain threshold limit Hn Hl Hg C4 Cm Cs) as (comp & res & E & _).
  unfold hogbom_sky. rewrite E. cbn [bind]. cbn [failed]. replace (nth0 [n; n] 0) with n by reflexivity.
  unfold restore. rewrite (rd_some details) by (rewrite Sd; reflexivity). cbn [bind]. rewrite D3, truncated_IZR. cbv zeta.
  replace (s <? 0) with false by lia. replace (32767 <? s) with false by lia. cbn [orb].
  destruct (cbeam_lemma details s (mk_nd [s * s] (fun _ => C0)) D ltac:(lia) eq_refl) as (cb & Ecb & Scb & _). rewrite Ecb. cbn [bind].
  rewrite (C43_odd_refuted n s _ cb (mk_nd [n * n] (fun _ => C0)) (n * n)); try assumption; try lia; reflexivity.
Qed.
Print Assumptions C115_odd_refuted.

Example C115_hyps : let details := mk_nd [4] (fun i => match i with [0] => 3%R | [1] => 2%R | [2] => 30%R | _ => 16%R end) in
  describes details 16 /\ Z.even 16 = true /\ Z.even 64 = true /\ nth0 [64; 64] 0 = 64 /\ in_beam 16 (-8) 7 = true /\ in_beam 16 8 0 = false.
Proof.
  cbv zeta. split; [|repeat split; reflexivity]. split; [reflexivity|]. split; [change (3 <> 0)%R; lra|]. split; [change (2 <> 0)%R; lra|reflexivity].
Qed.
