(** Plans of the exponential-of-semicircle gridder: C82 w planes, C83 w range, C84 tables *)
From Coq Require Lqa.
From Coq Require Import QArith Qreals Lia Lra.
From Verif Require Import Base BaseFacts Sum Clamp Cplx Legendre EsKernels EsKernelsSpec EsKernelsFacts EsScreenSpec EsScreenFacts2 EsParams EsParamsSpec EsParamsFacts EsPipe EsPipeSpec EsPlan EsPlanSpec EsPlanFacts EsPlanFacts2 EsPlanFacts3 Prop_EsParams Prop_EsPipe.
Open Scope Z_scope.

(** C82.  A plan exists for a range of w of positive width when the image is above the horizon. *)
Theorem C82_create rows chan image dbl px epsilon mn mx : 1 <= image <= 39999 -> px <> 0%R -> (2 * (px * (IZR image / 2)) * (px * (IZR image / 2)) <= 1)%R ->
  (mn < mx)%R -> ((mx - mn) * 4 <= 2147483600)%R -> exists P, make_plan rows chan image dbl px epsilon mn mx true = Some P.
Proof.
  intros Hi Hp Sk Lt B. destruct (make_ok rows chan image dbl px epsilon mn mx true ltac:(lia)) as [_ M]. apply M.
  destruct (C56_entry_partial epsilon image dbl ltac:(lia)) as (r & g & _ & I & _ & E & _). exists g, (k_support r), (k_beta r). split; [exact E|]. intros _.
  destruct (fine r I) as (F & _). apply w_exists; auto. lia.
Qed.
Print Assumptions C82_create.

(** Every plane to which the gridding kernel of a visibility reaches belongs to the stack, when |w| is above the minimum and not above the maximum. *)
Theorem C82_planes rows chan image dbl px epsilon mn mx P uvw freq b r c k : 0 <= image <= 78000000 -> (mn < mx)%R ->
  make_plan rows chan image dbl px epsilon mn mx true = Some P -> (mn < abs_w uvw freq r c <= mx)%R ->
  es (p_beta P) (p_support P) (IZR k - at_w (args_of P b) uvw freq r c) <> 0%R -> 0 <= k < p_num_w P.
Proof.
  intros Hi Lt M Hw Ne. apply make_ok in M; [|exact Hi]. pose proof (made_support _ _ _ _ _ _ _ _ _ _ M) as Hs.
  destruct M as (ro & xp & _ & _ & _ & _ & _ & _ & Do & _ & _ & _ & _ & W & _). destruct (planes_ok _ _ _ _ _ _ _ _ _ W Lt) as (N & HN & Enw & _ & Pw & E1 & E2 & _).
  rewrite at_w_eq in Ne by exact Do. set (w := abs_w uvw freq r c) in *. set (ws := p_w_scale P) in *. set (mp := p_min_plane_w P) in *.
  assert (D : (Rabs (IZR k - (w - mp) * ws) <= IZR (p_support P) / 2)%R).
  { destruct (Rle_dec (Rabs (IZR k - (w - mp) * ws)) (IZR (p_support P) / 2)) as [|X]; [assumption|]. exfalso. apply Ne. apply es_zero. lra. }
  apply Rabs_def2 with (a := (IZR (p_support P) / 2 + 0)%R) in D || idtac.
  assert (D1 : (- (IZR (p_support P) / 2) <= IZR k - (w - mp) * ws <= IZR (p_support P) / 2)%R) by (revert D; unfold Rabs; destruct (Rcase_abs _); lra).
  assert (T : (0 < (w - mn) * ws <= (mx - mn) * ws)%R) by (split; [apply Rmult_lt_0_compat; lra|apply Rmult_le_compat_r; lra]).
  assert (Pd : (0 < 1 / 10 ^ 13)%R) by (apply Rdiv_lt_0_compat; [lra|apply pow_lt; lra]).
  assert (T2 : (IZR (N - 1) / (1 + 1 / 10 ^ 13) < IZR (N - 1))%R).
  { assert (1 <= IZR (N - 1))%R by (apply IZR_le; lia). apply Rmult_lt_reg_r with (1 + 1 / 10 ^ 13)%R; [lra|]. unfold Rdiv at 1. rewrite Rmult_assoc, Rinv_l by lra. nra. }
  assert (S1 : ((w - mp) * ws = (w - mn) * ws + (1 / 2 * IZR (p_support P) - 1))%R) by (rewrite <- E2; ring).
  split; [assert (- 1 < k); [apply lt_IZR|lia]; lra|]. rewrite Enw. apply lt_IZR. rewrite !minus_IZR, plus_IZR in *. lra.
Qed.
Print Assumptions C82_planes.

(** No plane is useless: each is reached from some w in the range. *)
Theorem C82_needed rows chan image dbl px epsilon mn mx P k : 0 <= image <= 78000000 -> (mn < mx)%R ->
  make_plan rows chan image dbl px epsilon mn mx true = Some P -> 0 <= k < p_num_w P ->
  exists w, (mn <= w <= mx)%R /\ es (p_beta P) (p_support P) (IZR k - (w - p_min_plane_w P) * p_w_scale P) <> 0%R.
Proof.
  intros Hi Lt M Hk. apply make_ok in M; [|exact Hi]. pose proof (made_support _ _ _ _ _ _ _ _ _ _ M) as Hs.
  destruct M as (ro & xp & _ & _ & _ & _ & _ & _ & Do & _ & _ & _ & _ & W & _). destruct (planes_ok _ _ _ _ _ _ _ _ _ W Lt) as (N & HN & Enw & Bnw & Pw & E1 & E2 & _).
  set (ws := p_w_scale P) in *. set (mp := p_min_plane_w P) in *. set (T := ((mx - mn) * ws)%R) in *.
  assert (PT : (0 < T)%R) by (unfold T; apply Rmult_lt_0_compat; lra).
  assert (E10 : (0 < 1 / 10 ^ 13 <= 1 / 10000000000000)%R) by (split; [apply Rdiv_lt_0_compat; [lra|apply pow_lt; lra]|right; f_equal; ring]).
  assert (TN : (IZR N - 2 <= T)%R).
  { rewrite E1. apply Rmult_le_reg_r with (1 + 1 / 10 ^ 13)%R; [lra|]. unfold Rdiv at 2. rewrite Rmult_assoc, Rinv_l by lra. rewrite minus_IZR. assert (IZR N <= 2147483647)%R by (apply IZR_le; lia). assert (2 <= IZR N)%R by (apply IZR_le; lia). nra. }
  assert (K0 : (0 <= IZR k)%R) by (apply IZR_le; lia).
  assert (K1 : (IZR k <= IZR N + IZR (p_support P) - 3)%R). { rewrite <- plus_IZR, <- minus_IZR. apply IZR_le. lia. }
  assert (S4 : (4 <= IZR (p_support P))%R) by (apply IZR_le; lia).
  assert (exists t, (0 <= t <= T)%R /\ (IZR k - IZR (p_support P) + 1 <= t <= IZR k + 1)%R) as (t & Ht & Hd).
  { destruct (Rle_dec (IZR k) T); [exists (IZR k)|exists T]; lra. }
  exists (mn + t / ws)%R. assert (Tw : (t / ws * ws = t)%R) by (field; lra). split.
  - assert (0 <= t / ws)%R by (apply Rmult_le_pos; [lra|left; now apply Rinv_0_lt_compat]). split; [lra|]. assert (t / ws <= mx - mn)%R; [|lra]. apply Rmult_le_reg_r with ws; [exact Pw|]. rewrite Tw. unfold T in Ht. lra.
  - replace ((mn + t / ws - mp) * ws)%R with ((mn - mp) * ws + t / ws * ws)%R by ring. rewrite Tw, E2. unfold es. destruct (Rle_dec _ _) as [_|X].
    + pose proof (exp_pos (p_beta P * (sqrt (1 - (IZR k - (1 / 2 * IZR (p_support P) - 1 + t)) / (IZR (p_support P) / 2) * ((IZR k - (1 / 2 * IZR (p_support P) - 1 + t)) / (IZR (p_support P) / 2))) - 1))). lra.
    + exfalso. apply X. unfold Rabs. destruct (Rcase_abs _); lra.
Qed.
Print Assumptions C82_needed.

(** Position of a visibility between the planes, and the distance of the planes: at most a quarter of a wavelength of path difference for every pixel of the
    image (up to the factor 1 + 10^-13 of the code). *)
Theorem C82_spacing rows chan image dbl px epsilon mn mx P : 0 <= image <= 78000000 -> (mn < mx)%R -> (2 * (px * (IZR image / 2)) * (px * (IZR image / 2)) <= 1)%R ->
  make_plan rows chan image dbl px epsilon mn mx true = Some P ->
  (forall uvw freq b r c, abs_w uvw freq r c = at_w (args_of P b) uvw freq r c * p_inv_w_scale P + p_min_plane_w P)%R /\
  (forall dy dx, - (image / 2) <= dy <= image / 2 -> - (image / 2) <= dx <= image / 2 -> (- (1 / 4 * (1 + 1 / 10 ^ 13)) <= n_minus_1 P dy dx * p_inv_w_scale P <= 0)%R).
Proof.
  intros Hi Lt Sk M. apply make_ok in M; [|exact Hi]. destruct M as (ro & xp & _ & _ & _ & _ & _ & _ & Do & Epx & _ & _ & _ & W & Ei & _).
  destruct (planes_ok _ _ _ _ _ _ _ _ _ W Lt) as (N & HN & Enw & Bnw & Pw & E1 & E2 & E3). split.
  - intros. rewrite at_w_eq by exact Do. rewrite Ei. field. lra.
  - intros dy dx Hy Hx. rewrite Ei. unfold n_minus_1. rewrite Epx. set (h := (IZR image / 2)%R) in *.
    assert (Hh : 0 <= image / 2) by (apply Z.div_pos; lia).
    assert (B : forall k, - (image / 2) <= k <= image / 2 -> ((px * IZR k) * (px * IZR k) <= (px * h) * (px * h))%R).
    { intros k Hk. assert (IZR k * IZR k <= h * h)%R. { assert (2 * (image / 2) <= image) by lia. assert (K : (IZR (image / 2) <= h)%R). { unfold h. apply IZR_le in H. rewrite mult_IZR in H. lra. }
        destruct Hk as [A1 A2]. apply IZR_le in A1, A2. rewrite opp_IZR in A1. nra. }
      replace (px * IZR k * (px * IZR k))%R with (px * px * (IZR k * IZR k))%R by ring. replace (px * h * (px * h))%R with (px * px * (h * h))%R by ring. apply Rmult_le_compat_l; [|assumption]. nra. }
    pose proof (B dx Hx) as Bx. pose proof (B dy Hy) as By. set (a := (px * IZR dx * (px * IZR dx))%R) in *. set (bb := (px * IZR dy * (px * IZR dy))%R) in *.
    assert (Pa : (0 <= a)%R) by (unfold a; nra). assert (Pb : (0 <= bb)%R) by (unfold bb; nra).
    rewrite (nmin_sky image px Sk) in E3. fold h in E3. set (q := (px * h)%R) in *.
    assert (L1 : (sqrt (1 - 2 * q * q) <= sqrt (1 - a - bb))%R) by (apply sqrt_le_1_alt; lra).
    assert (L2 : (sqrt (1 - a - bb) <= 1)%R) by (rewrite <- sqrt_1 at 2; apply sqrt_le_1_alt; lra).
    rewrite Rabs_left1 in E3 by lra. assert (Pi : (0 < 1 / p_w_scale P)%R) by (apply Rdiv_lt_0_compat; lra). nra.
Qed.
Print Assumptions C82_spacing.

(** At the minimum itself the kernel also reaches the plane below the first one, where its weight is exp(-beta). *)
Theorem C82_edge_refuted rows chan image dbl px epsilon mn mx P uvw freq b r c : 0 <= image <= 78000000 -> (mn < mx)%R ->
  make_plan rows chan image dbl px epsilon mn mx true = Some P -> abs_w uvw freq r c = mn ->
  es (p_beta P) (p_support P) (IZR (-1) - at_w (args_of P b) uvw freq r c) = exp (- p_beta P).
Proof.
  intros Hi Lt M Hw. apply make_ok in M; [|exact Hi]. pose proof (made_support _ _ _ _ _ _ _ _ _ _ M) as Hs.
  destruct M as (ro & xp & _ & _ & _ & _ & _ & _ & Do & _ & _ & _ & _ & W & _). destruct (planes_ok _ _ _ _ _ _ _ _ _ W Lt) as (N & HN & Enw & _ & Pw & E1 & E2 & _).
  rewrite at_w_eq by exact Do. rewrite Hw, E2. assert (S4 : (4 <= IZR (p_support P))%R) by (apply IZR_le; lia).
  replace (-1 - (1 / 2 * IZR (p_support P) - 1))%R with (- (IZR (p_support P) / 2))%R by field. unfold es.
  rewrite Rabs_Ropp, Rabs_right by lra. destruct (Rle_dec _ _) as [_|X]; [|exfalso; apply X; lra].
  replace (- (IZR (p_support P) / 2) / (IZR (p_support P) / 2))%R with (-1)%R by (field; lra). replace (1 - -1 * -1)%R with 0%R by ring. rewrite sqrt_0. f_equal. ring.
Qed.
Print Assumptions C82_edge_refuted.

(** A range of zero width, as for a single baseline in a single channel, gives no finite scale. *)
Theorem C82_width_refuted rows chan image dbl px epsilon w : 0 <= image <= 78000000 -> make_plan rows chan image dbl px epsilon w w true = None.
Proof.
  intro Hi. destruct (make_plan rows chan image dbl px epsilon w w true) as [P|] eqn:M; [|reflexivity]. exfalso. apply make_ok in M; [|exact Hi].
  destruct M as (ro & xp & _ & _ & _ & _ & _ & _ & Do & _ & _ & _ & _ & W & _). apply planes_form in W. destruct W as (_ & N & _ & _ & X & _). easy.
Qed.
Print Assumptions C82_width_refuted.

(** C83.  The range found covers all visibilities when the frequencies are in ascending order, and is attained. *)
Lemma range_loop rows uvw mn0 mx0 : 0 <= rows -> shape uvw = [rows; 3] ->
  exists mn mx, for_ 0 rows (fun i (s : R * R) => let* w := rd uvw [i; 2] in let a := Rabs w in
    let mn := if Rltb a (fst s) then a else fst s in let mx := if Rltb (snd s) a then a else snd s in Some (mn, mx)) (mn0, mx0) = Some (mn, mx) /\
    (mn <= mn0 /\ mx0 <= mx)%R /\ (forall r, 0 <= r < rows -> (mn <= Rabs (elem uvw [r; 2%Z]) <= mx)%R) /\
    (mn = mn0 \/ exists r, 0 <= r < rows /\ mn = Rabs (elem uvw [r; 2%Z])) /\ (mx = mx0 \/ exists r, 0 <= r < rows /\ mx = Rabs (elem uvw [r; 2%Z])).
Proof.
  intros Hr S. match goal with |- context [for_ 0 rows ?F ?s0] =>
    destruct (for_inv (fun k (s : R * R) => (fst s <= mn0 /\ mx0 <= snd s)%R /\ (forall r, 0 <= r < k -> (fst s <= Rabs (elem uvw [r; 2%Z]) <= snd s)%R) /\
      (fst s = mn0 \/ exists r, 0 <= r < k /\ fst s = Rabs (elem uvw [r; 2%Z])) /\ (snd s = mx0 \/ exists r, 0 <= r < k /\ snd s = Rabs (elem uvw [r; 2%Z]))) 0 rows F s0) as ([mn mx] & E & I) end.
  - lia.
  - cbn [fst snd]. split; [lra|]. split; [intros; lia|]. auto.
  - intros i [a b] Hi (L & A & B & D). rewrite rd_some by (rewrite S; apply in_shape_2; lia). cbn [bind fst snd] in *. eexists. split; [reflexivity|]. cbn [fst snd]. set (w := Rabs (elem uvw [i; 2%Z])).
    assert (Hk : forall r, 0 <= r < i + 1 -> 0 <= r < i \/ r = i) by (intros; lia). unfold Rltb. destruct (Rlt_dec w a) as [X1|X1], (Rlt_dec b w) as [X2|X2].
    + split; [lra|]. split; [|split; right; exists i; split; try reflexivity; lia]. intros r Hr'. destruct (Hk r Hr') as [Q| ->]; [specialize (A r Q)|]; fold w; lra.
    + split; [lra|]. split; [|split; [right; exists i; split; [lia|reflexivity]|destruct D as [|(r & Q & ->)]; [auto|right; exists r; split; [lia|reflexivity]]]]. intros r Hr'. destruct (Hk r Hr') as [Q| ->]; [specialize (A r Q)|]; fold w; lra.
    + split; [lra|]. split; [|split; [destruct B as [|(r & Q & ->)]; [auto|right; exists r; split; [lia|reflexivity]]|right; exists i; split; [lia|reflexivity]]]. intros r Hr'. destruct (Hk r Hr') as [Q| ->]; [specialize (A r Q)|]; fold w; lra.
    + split; [lra|]. split; [|split; [destruct B as [|(r & Q & ->)]; [auto|right; exists r; split; [lia|reflexivity]]|destruct D as [|(r & Q & ->)]; [auto|right; exists r; split; [lia|reflexivity]]]]. intros r Hr'. destruct (Hk r Hr') as [Q| ->]; [specialize (A r Q)|]; fold w; lra.
  - exists mn, mx. rewrite E. split; [reflexivity|]. exact I.
Qed.

Theorem C83_range rows chan uvw freq mn0 mx0 : 1 <= rows -> 1 <= chan -> shape uvw = [rows; 3] -> shape freq = [chan] ->
  (0 <= elem freq [0%Z])%R -> (forall c d, 0 <= c <= d -> d < chan -> (elem freq [c] <= elem freq [d])%R) ->
  exists mn mx, get_w_range rows chan uvw freq mn0 mx0 = Some (mn, mx) /\
    (forall r c, 0 <= r < rows -> 0 <= c < chan -> (mn <= abs_w uvw freq r c <= mx)%R) /\
    ((forall r, 0 <= r < rows -> (mx0 <= Rabs (elem uvw [r; 2%Z]) <= mn0)%R) ->
      (exists r, 0 <= r < rows /\ mn = abs_w uvw freq r 0) /\ (exists r, 0 <= r < rows /\ mx = abs_w uvw freq r (chan - 1))).
Proof.
  intros Hr Hc Su Sf F0 Up. unfold get_w_range. destruct (range_loop rows uvw mn0 mx0 ltac:(lia) Su) as (mn & mx & E & L & A & B & D). match type of E with ?l = _ => match goal with |- context [for_ ?a ?b ?c ?d] => change (for_ a b c d) with l end end. rewrite E. cbn [bind].
  rewrite (rd_ok freq chan), (rd_ok freq chan) by (assumption || lia). cbn [bind fst snd]. do 2 eexists. split; [reflexivity|]. split.
  - intros r c H1 H2. unfold abs_w. specialize (A r H1). pose proof (Up 0 c ltac:(lia) ltac:(lia)). pose proof (Up c (chan - 1) ltac:(lia) ltac:(lia)).
    pose proof (Rabs_pos (elem uvw [r; 2%Z])). set (w := Rabs _) in *.
    assert (elem freq [0%Z] / 299792458 <= elem freq [c] / 299792458)%R by lra. assert (elem freq [c] / 299792458 <= elem freq [(chan - 1)%Z] / 299792458)%R by lra. assert (0 <= elem freq [0%Z] / 299792458)%R by lra. split.
    + apply Rle_trans with (w * (elem freq [0%Z] / 299792458))%R; [apply Rmult_le_compat_r; lra|apply Rmult_le_compat_l; lra].
    + apply Rle_trans with (w * (elem freq [(chan - 1)%Z] / 299792458))%R; [apply Rmult_le_compat_l; lra|apply Rmult_le_compat_r; lra].
  - intro Q. split.
    + destruct B as [-> |(r & H1 & ->)]; [|exists r; split; [lia|reflexivity]]. exists 0. split; [lia|]. unfold abs_w. f_equal. specialize (A 0 ltac:(lia)). specialize (Q 0 ltac:(lia)). lra.
    + destruct D as [-> |(r & H1 & ->)]; [|exists r; split; [lia|reflexivity]]. exists 0. split; [lia|]. unfold abs_w. f_equal. specialize (A 0 ltac:(lia)). specialize (Q 0 ltac:(lia)). lra.
Qed.
Print Assumptions C83_range.

(** The Python function finds the range that the C++ function finds from the first row. *)
Theorem C83_python rows chan uvw freq : 1 <= rows -> 1 <= chan -> shape uvw = [rows; 3] -> shape freq = [chan] ->
  py_w_range rows chan uvw freq = get_w_range rows chan uvw freq (Rabs (elem uvw [0; 2]%Z)) (Rabs (elem uvw [0; 2]%Z)).
Proof.
  intros Hr Hc Su Sf. unfold py_w_range, get_w_range. rewrite rd_some by (rewrite Su; apply in_shape_2; lia). cbn [bind]. set (w0 := Rabs _).
  match goal with |- bind (for_ 1 rows ?F ?s0) ?K = bind (for_ 0 rows ?G ?s1) ?K' => assert (E : for_ 1 rows F s0 = for_ 0 rows G s1) end; [|now rewrite E].
  match goal with |- for_ 1 rows ?F ?s0 = for_ 0 rows ?G ?s1 => rewrite (for_ext 1 rows F G) end.
  - rewrite (for_first 0 rows) by lia. rewrite rd_some by (rewrite Su; apply in_shape_2; lia). cbn [bind fst snd]. fold w0. unfold Rltb. destruct (Rlt_dec w0 w0); [lra|]. reflexivity.
  - intros i [a b] Hi. rewrite rd_some by (rewrite Su; apply in_shape_2; lia). cbn [bind fst snd]. unfold Rltb, Rmin, Rmax. f_equal. f_equal.
    + destruct (Rle_dec a _), (Rlt_dec _ a); lra.
    + destruct (Rle_dec b _), (Rlt_dec b _); lra.
Qed.
Print Assumptions C83_python.

(** With descending frequencies visibilities are outside of the range. *)
Theorem C83_order_refuted : exists uvw freq mn mx, shape uvw = [1; 3] /\ shape freq = [2] /\ (0 < elem freq [1%Z] < elem freq [0%Z])%R /\
  py_w_range 1 2 uvw freq = Some (mn, mx) /\ (mx < abs_w uvw freq 0 0)%R /\ (abs_w uvw freq 0 1 < mn)%R.
Proof.
  exists (mk_nd [1; 3] (fun _ => 1%R)), (mk_nd [2] (fun i => match i with [0] => 2%R | _ => 1%R end)). exists (Rabs 1 * (2 / 299792458))%R, (Rabs 1 * (1 / 299792458))%R. split; [reflexivity|]. split; [reflexivity|]. split; [cbn [elem]; lra|].
  split; [reflexivity|]. unfold abs_w. cbn [elem]. rewrite Rabs_R1. split; lra.
Qed.
Print Assumptions C83_order_refuted.

(** C84.  The tables of a plan: nothing is written outside of them; the quadrature entries; the tables of the l and m corrections are the transform of the
    gridding kernel, relative to its norm, as the device computes it for n. *)
Theorem C84_tables rows chan image dbl px epsilon mn mx do_w P : 0 <= image <= 78000000 -> make_plan rows chan image dbl px epsilon mn mx do_w = Some P ->
  shape (p_qk P) = [32] /\ shape (p_qn P) = [32] /\ shape (p_qw P) = [32] /\ shape (p_conv P) = [image / 2 + 1] /\ 4 <= p_support P <= 16 /\
  (forall i, 0 <= i < host_points (p_support P) -> quadrature_entry P i) /\ (forall i, host_points (p_support P) <= i < 32 -> no_entry P i) /\
  p_norm P = kernel_transform P 0 /\
  (forall l, 0 <= l <= image / 2 -> elem (p_conv P) [l] = (kernel_transform P (IZR l / IZR (p_grid P)) / p_norm P)%R) /\
  (0 < p_norm P)%R /\ elem (p_conv P) [0] = 1%R.
Proof.
  intros Hi M. apply make_ok in M; [|exact Hi]. pose proof (norm_pos _ _ _ _ _ _ _ _ _ _ M) as Np. pose proof (made_support _ _ _ _ _ _ _ _ _ _ M) as Hs.
  destruct M as (ro & xp & _ & _ & _ & _ & _ & _ & _ & _ & _ & _ & _ & _ & _ & Sk & Sn & Sw & Sc & En & No & Nm & Cv).
  assert (N0 : p_norm P = kernel_transform P 0).
  { rewrite <- transform_eq by assumption. rewrite Nm. unfold transform. rewrite Rmult_comm. f_equal. apply rsumf_ext. intros i _. rewrite Rmult_0_r, !Rmult_0_l, cos_0. ring. }
  assert (C0 : forall l, 0 <= l <= image / 2 -> elem (p_conv P) [l] = (kernel_transform P (IZR l / IZR (p_grid P)) / p_norm P)%R).
  { intros l Hl. rewrite Cv by exact Hl. rewrite transform_eq by assumption. f_equal. f_equal. unfold Rdiv. now rewrite Rmult_1_l. }
  repeat (split; [assumption|]). rewrite C0 by (split; [lia|apply Z.div_pos; lia]). unfold Rdiv at 2. rewrite Rmult_0_l, <- N0. field. lra.
Qed.
Print Assumptions C84_tables.

(** The correction of a created plan is the inverse of the product of the transforms in l, m and n. *)
Theorem C84_correction rows chan image dbl px epsilon mn mx do_w P dy dx : 0 <= image <= 78000000 -> make_plan rows chan image dbl px epsilon mn mx do_w = Some P ->
  - (image / 2) <= dy <= image / 2 -> - (image / 2) <= dx <= image / 2 ->
  correction P dy dx = (/ (kernel_transform P (IZR dx / IZR (p_grid P)) * kernel_transform P (IZR dy / IZR (p_grid P)) *
    (if do_w then kernel_transform P (n_minus_1 P dy dx * p_inv_w_scale P) else 1)))%R.
Proof.
  intros Hi M Hy Hx. assert (K := M). apply C84_tables in K; [|exact Hi]. destruct K as (_ & _ & _ & _ & _ & _ & _ & _ & Cv & Np & _). assert (Nz : p_norm P <> 0%R) by lra.
  apply make_ok in M; [|exact Hi]. destruct M as (ro & xp & _ & _ & _ & _ & _ & _ & Do & _). unfold correction. rewrite Do, !Cv by lia. cbv zeta.
  assert (Ev : forall d, kernel_transform P (IZR (Z.abs d) / IZR (p_grid P)) = kernel_transform P (IZR d / IZR (p_grid P))).
  { intro d. destruct (Z.abs_eq_or_opp d) as [-> | ->]; [reflexivity|]. unfold kernel_transform. f_equal. apply rsumf_ext. intros i _. f_equal. f_equal.
    rewrite opp_IZR. rewrite <- cos_neg. f_equal. unfold Rdiv. ring. }
  rewrite !Ev. fold (n_minus_1 P dy dx). f_equal.
  replace (p_px P * IZR dx * (p_px P * IZR dx))%R with ((p_px P * IZR dx) * (p_px P * IZR dx))%R by ring.
  set (A := kernel_transform P (IZR dx / _)). set (B := kernel_transform P (IZR dy / _)). unfold n_minus_1. set (D := if do_w then _ else _). field. exact Nz.
Qed.
Print Assumptions C84_correction.

(** A created plan is ready for gridding and degridding (C87): together with buffers of the sizes it was made for, positions that fit an int, and all |w| in
    the range it was made for. *)
Theorem C84_ready rows chan image dbl px epsilon mn mx do_w P uvw freq : 2 <= image <= 46340 -> Z.even image = true ->
  make_plan rows chan image dbl px epsilon mn mx do_w = Some P -> p_grid P <= 46340 ->
  0 <= rows -> 0 <= chan -> chan * (rows + 256) <= 2147483647 -> shape uvw = [rows; 3] -> shape freq = [chan] ->
  (do_w = true -> in_sky image px /\ (mn < mx)%R /\ p_num_w P <= 2147483600 /\ forall r c, 0 <= r < rows -> 0 <= c < chan -> (mn <= abs_w uvw freq r c <= mx)%R) ->
  (forall r c, 0 <= r < rows -> 0 <= c < chan -> fits (args_of P 0) uvw freq r c /\ near (at_u (args_of P 0) uvw freq r c) /\ near (at_v (args_of P 0) uvw freq r c)) ->
  plan_ok P uvw freq image (image * image) (rows * chan).
Proof.
  intros Hi Ev M Hg Hr Hc Hrc Su Sf Hw Hp. apply make_ok in M; [|lia]. pose proof (made_support _ _ _ _ _ _ _ _ _ _ M) as Hs.
  destruct M as (ro & xp & Cd & In0 & Gs & Er & Ec & Ei & Do & Epx & Es & _ & _ & W & _ & Sk & Sn & Sw & Sc & _).
  assert (Hnw : 1 <= p_num_w P <= 2147483600 /\ (do_w = false -> p_num_w P = 1)).
  { destruct do_w.
    - destruct (Hw eq_refl) as (_ & Lt & B & _). destruct (planes_ok _ _ _ _ _ _ _ _ _ W Lt) as (N & HN & Enw & _). split; [lia|discriminate].
    - injection W as W _ _ _. split; [lia|auto]. }
  destruct Hnw as [Hnw Hnw1].
  assert (Hgi : image < p_grid P /\ Z.even (p_grid P) = true).
  { destruct Gs as (h & (_ & Lh & _) & ->). split; [|now rewrite Z.even_mul]. destruct (fine ro In0) as (_ & O & _).
    assert (Q : image / 2 <= Qfloor (inject_Z image * k_os ro * (1 # 2))).
    { rewrite <- (Qfloor_Z (image / 2)). apply Qfloor_resp_le. apply Z.even_spec in Ev. destruct Ev as [k ->]. replace (2 * k / 2) with k by (rewrite Z.mul_comm, Z.div_mul; lia).
      rewrite inject_Z_mult. change (inject_Z 2) with 2%Q. assert (0 <= inject_Z k)%Q by (change 0%Q with (inject_Z 0); rewrite <- Zle_Qle; lia). Lqa.nra. }
    apply Z.even_spec in Ev. destruct Ev as [k ->]. replace (2 * k / 2) with k in Q by (rewrite Z.mul_comm, Z.div_mul; lia). lia. }
  destruct Hgi as [Hgi Hge].
  constructor; rewrite ?Ei, ?Epx, ?Do; try assumption; try lia; try reflexivity.
  - apply Z.le_trans with (46340 * 46340); [|lia]. apply Z.mul_le_mono_nonneg; lia.
  - intro D. destruct (Hw D) as (S & _). exact S.
  - intros k Hk. assert (Sub : subset_of (p_num_w P) k = 1). { unfold subset_of, cmod. rewrite Z.rem_small by lia. lia. }
    constructor; cbn [num_vis_rows num_vis_chan grid_size grid_start_w num_w_grids_subset support args_of]; rewrite ?Er, ?Ec, ?Sub; try assumption; try lia.
    + apply Z.le_trans with (46340 * 46340); [|lia]. apply Z.mul_le_mono_nonneg; lia.
    + intros r c H1 H2. destruct (Hp r c H1 H2) as (F & Nu & Nv). split; [exact F|]. split; [exact Nu|]. split; [exact Nv|]. destruct do_w.
      * destruct (Hw eq_refl) as (_ & Lt & B & R). specialize (R r c H1 H2). destruct (planes_ok _ _ _ _ _ _ _ _ _ W Lt) as (N & HN & Enw & _ & Pw & E1 & E2 & _).
        rewrite at_w_eq by exact Do. unfold near. set (w := abs_w uvw freq r c) in *.
        replace ((w - p_min_plane_w P) * p_w_scale P)%R with ((w - mn) * p_w_scale P + (mn - p_min_plane_w P) * p_w_scale P)%R by ring. rewrite E2.
        assert (T : (0 <= (w - mn) * p_w_scale P <= (mx - mn) * p_w_scale P)%R) by (split; [apply Rmult_le_pos; lra|apply Rmult_le_compat_r; lra]).
        assert (Pd : (0 < 1 / 10 ^ 13)%R) by (apply Rdiv_lt_0_compat; [lra|apply pow_lt; lra]).
        assert (T2 : (IZR (N - 1) / (1 + 1 / 10 ^ 13) < IZR (N - 1))%R).
        { assert (1 <= IZR (N - 1))%R by (apply IZR_le; lia). apply Rmult_lt_reg_r with (1 + 1 / 10 ^ 13)%R; [lra|]. unfold Rdiv at 1. rewrite Rmult_assoc, Rinv_l by lra. nra. }
        assert (S4 : (4 <= IZR (p_support P) <= 16)%R) by (split; apply IZR_le; lia). assert (K : (IZR (N - 1) + IZR (p_support P) - 1 <= 2147483600)%R). { rewrite <- plus_IZR, <- minus_IZR. apply IZR_le. lia. }
        rewrite Rabs_right by lra. lra.
      * unfold at_w. cbn [wstack args_of]. rewrite Do. unfold near. rewrite Rabs_R0. lra.
Qed.
Print Assumptions C84_ready.

(** A plan with 10 x 10 pixels, pixels of 0.05 and w from 0 to 100 *)
Example C82_hyps : exists P, make_plan 1 1 10 true (1 / 20) (1 # 100000) 0 100 true = Some P.
Proof. apply C82_create; try lra; lia. Qed.
(** One visibility at u = v = 0.3 m and w = 50 m in one channel of 299792458 Hz *)
Example C84_hyps : exists P, let uvw := mk_nd [1; 3] (fun i => match i with [_; 2] => 50%R | _ => (3 / 10)%R end) in let freq := mk_nd [1] (fun _ => 299792458%R) in
  make_plan 1 1 10 true (1 / 20) (1 # 100000) 0 100 true = Some P /\ plan_ok P uvw freq 10 (10 * 10) (1 * 1).
Proof.
  destruct C82_hyps as (P & M). exists P. cbv zeta. split; [exact M|].
  assert (E : exists b, calculate_params (1 # 100000) 10 true SUCCESS = Some (SUCCESS, Some (16, 9, b))) by (eexists; vm_compute; reflexivity). destruct E as (b & E).
  assert (K := M). unfold make_plan in K. rewrite E in K. cbn [bind snd] in K.
  destruct (w_planes 10 9 (1 / 20) 0 100) as [[[[nw ws] mp] xp]|] eqn:W; [|discriminate]. cbn [bind] in K.
  destruct (conv_kernel _ _ _ _) as [[[[qk qn] qw] cv]|]; [|discriminate]. cbn [bind] in K. destruct (int_of_double _); [|discriminate]. cbn [bind] in K. destruct (for_ _ _ _ _) as [nrm|]; [|discriminate]. cbn [bind] in K.
  injection K as K. assert (Pg : p_grid P = 16) by now rewrite <- K. assert (Ps : p_support P = 9) by now rewrite <- K. assert (Pu : p_uv_scale P = (16 * (1 / 20))%R) by now rewrite <- K.
  assert (Pn : p_num_w P = nw) by now rewrite <- K. assert (Pd : p_do_w P = true) by now rewrite <- K. clear K.
  apply (C84_ready 1 1 10 true (1 / 20) (1 # 100000) 0 100 true); try lia; try reflexivity; try exact M.
  - intros _. split; [unfold in_sky; change (10 / 2) with 5; lra|]. split; [lra|]. split.
    + rewrite Pn. destruct (planes_form _ _ _ _ _ _ _ _ _ W) as (_ & N & T & _ & _ & _ & _ & -> & _).
      rewrite nmin_sky in T by lra. set (m := Rabs _) in T. assert (Bm : (0 <= m <= 1)%R).
      { unfold m. split; [apply Rabs_pos|]. assert (sqrt (1 - 2 * (1 / 20 * (10 / 2)) * (1 / 20 * (10 / 2))) <= 1)%R by (apply Rle_trans with (sqrt 1); [apply sqrt_le_1_alt; lra|rewrite sqrt_1; lra]).
        pose proof (sqrt_pos (1 - 2 * (1 / 20 * (10 / 2)) * (1 / 20 * (10 / 2)))). rewrite Rabs_left1; lra. }
      assert (Q : ((100 - 0) / (1 / 4 / m) <= 400)%R). { destruct (Req_EM_T m 0) as [->|X]; [unfold Rdiv; rewrite Rinv_0, !Rmult_0_r, Rinv_0; lra|]. replace ((100 - 0) / (1 / 4 / m))%R with (400 * m)%R by (field; lra). lra. }
      assert (Q0 : (0 <= (100 - 0) / (1 / 4 / m))%R). { destruct (Req_EM_T m 0) as [->|X]; [unfold Rdiv; rewrite Rinv_0, !Rmult_0_r, Rinv_0; lra|]. replace ((100 - 0) / (1 / 4 / m))%R with (400 * m)%R by (field; lra). lra. }
      revert T. unfold int_of_double. rewrite trunc_pos by lra. unfold to_int. destruct (_ && _); [|discriminate]. intro Z. injection Z as <-.
      assert (L : ~ (403 <= floorZ ((100 - 0) / (1 / 4 / m) + 2))); [|lia]. rewrite floorZ_iff. lra.
    + intros r c H1 H2. replace r with 0 by lia. unfold abs_w. cbn [elem]. rewrite Rabs_right by lra. lra.
  - intros r c H1 H2. replace r with 0 by lia. split; [left; cbn [support args_of]; lia|].
    unfold near, at_u, at_v, waves, turned. cbn [wstack args_of uv_scale elem]. rewrite Pd, Pu. destruct (Rlt_dec 50 0); [lra|]. rewrite Rabs_right by lra. lra.
Qed.
Example C83_hyps : let uvw := mk_nd [1; 3] (fun i => match i with [_; 2] => (-50)%R | _ => 0%R end) in let freq := mk_nd [2] (fun i => match i with [0] => 1%R | _ => 2%R end) in
  shape uvw = [1; 3] /\ shape freq = [2] /\ (0 <= elem freq [0%Z])%R /\ (forall c d, 0 <= c <= d -> d < 2 -> (elem freq [c] <= elem freq [d])%R).
Proof.
  cbv zeta. split; [reflexivity|]. split; [reflexivity|]. split; [cbn [elem]; lra|]. intros c d H1 H2. assert (c = 0 /\ d = 0 \/ c = 0 /\ d = 1 \/ c = 1 /\ d = 1) as [[-> ->]|[[-> ->]|[-> ->]]] by lia; cbn [elem]; lra.
Qed.
