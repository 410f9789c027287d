(** Facts about w planes, w ranges and the correction of a created plan *)
From Coq Require Import QArith Qreals Lia Lra.
From Verif Require Import Base BaseFacts Sum Clamp Cplx Legendre EsKernels EsKernelsSpec EsKernelsFacts EsScreenSpec EsScreenFacts2 EsParams EsParamsSpec EsParamsFacts EsPipe EsPipeSpec EsPlan EsPlanSpec EsPlanFacts.
Open Scope Z_scope.

Lemma nmin_sky image px : (2 * (px * (IZR image / 2)) * (px * (IZR image / 2)) <= 1)%R -> (get_nmin image px = sqrt (1 - 2 * (px * (IZR image / 2)) * (px * (IZR image / 2))) - 1)%R.
Proof.
  intro H. unfold get_nmin, Rltb. set (a := (px * (IZR image / 2))%R) in *. replace (- (1 / 2) * IZR image * px)%R with (- a)%R by (unfold a; field).
  destruct (Rlt_dec 1 _) as [X|X]; [nra|]. rewrite Rmax_left by nra. f_equal. f_equal. ring.
Qed.
Lemma nmin_neg image px : image <> 0 -> px <> 0%R -> (get_nmin image px < 0)%R.
Proof.
  intros Hi Hp. assert (IZR image <> 0)%R by (intro X; apply Hi; now apply eq_IZR). unfold get_nmin, Rltb. set (x := (- (1 / 2) * IZR image * px)%R).
  assert (x <> 0)%R. { unfold x. intro X. apply Rmult_integral in X. destruct X as [X|X]; [|easy]. apply Rmult_integral in X. destruct X; [lra|easy]. }
  assert (0 < x * x)%R by nra. destruct (Rlt_dec 1 _).
  - pose proof (sqrt_pos (Rabs (1 - x * x - x * x))). lra.
  - rewrite Rmax_left by lra. enough (sqrt (1 - x * x - x * x) < 1)%R by lra. rewrite <- sqrt_1 at 2. apply sqrt_lt_1; lra.
Qed.

(** What the code computes for a range of w *)
Section Planes.
Context (image s nw : Z) (px mn mx ws mp xp : R).
Context (W : w_planes image s px mn mx = Some (nw, ws, mp, xp)).
Notation d := (1 / 10 ^ 13)%R.

Lemma planes_form : get_nmin image px <> 0%R /\ exists N, int_of_double ((mx - mn) / (1 / 4 / Rabs (get_nmin image px)) + 2) = Some N /\ N - 1 <> 0 /\ mx <> mn /\
  ws = (1 / ((1 + d) * (mx - mn) / IZR (N - 1)))%R /\ mp = (mn - (1 / 2 * IZR s - 1) / ws)%R /\ nw = N + (s - 2) /\ nw <= 2147483647.
Proof.
  revert W. unfold w_planes. destruct (Req_EM_T _ 0) as [|X]; [discriminate|]. destruct (int_of_double _) as [N|] eqn:E; [|discriminate]. cbn [bind].
  destruct (N - 1 =? 0) eqn:E1; [discriminate|]. destruct (Req_EM_T _ 0) as [|Y]; [discriminate|]. destruct (to_int _) eqn:T; [|discriminate]. cbn [bind]. intro Z. injection Z as <- <- <- <-.
  split; [exact X|]. exists N. split; [reflexivity|]. split; [lia|]. split; [intros ->; apply Y; ring|]. split; [reflexivity|]. split; [reflexivity|].
  unfold to_int in T. destruct (_ && _) eqn:B; [|discriminate]. injection T as <-. lia.
Qed.

Context (Lt : (mn < mx)%R).
Lemma planes_ok : exists N, 2 <= N /\ nw = N + s - 2 /\ nw <= 2147483647 /\ (0 < ws)%R /\ ((mx - mn) * ws = IZR (N - 1) / (1 + d))%R /\ ((mn - mp) * ws = 1 / 2 * IZR s - 1)%R /\
  (1 / ws * Rabs (get_nmin image px) <= 1 / 4 * (1 + d))%R.
Proof.
  destruct planes_form as (X & N & E & _ & _ & Ew & Em & En & Bn). set (m := Rabs (get_nmin image px)) in *.
  assert (Pm : (0 < m)%R) by (apply Rabs_pos_lt; exact X).
  assert (Q : (0 < (mx - mn) / (1 / 4 / m))%R) by (apply Rdiv_lt_0_compat; [lra|apply Rdiv_lt_0_compat; lra]).
  assert (N = floorZ ((mx - mn) / (1 / 4 / m) + 2)).
  { revert E. unfold int_of_double. rewrite trunc_pos by lra. unfold to_int. destruct (_ && _); [|discriminate]. intro Z. now injection Z. }
  pose proof (floorZ_spec ((mx - mn) / (1 / 4 / m) + 2)) as F. rewrite <- H in F.
  assert (HN : 2 <= N) by (rewrite H; apply floorZ_iff; lra). assert (PN : (1 <= IZR (N - 1))%R) by (apply IZR_le; lia).
  assert (Pd : (0 < d)%R) by (apply Rdiv_lt_0_compat; [lra|apply pow_lt; lra]).
  assert (Pws : (0 < ws)%R). { rewrite Ew. apply Rdiv_lt_0_compat; [lra|]. apply Rdiv_lt_0_compat; [|lra]. apply Rmult_lt_0_compat; lra. }
  exists N. split; [exact HN|]. split; [lia|]. split; [exact Bn|]. split; [exact Pws|]. split; [rewrite Ew; field; lra|]. split; [rewrite Em; field; lra|].
  replace (1 / ws)%R with ((1 + d) * (mx - mn) / IZR (N - 1))%R by (rewrite Ew; field; lra).
  assert (K : ((mx - mn) * m * 4 < IZR (N - 1))%R). { rewrite minus_IZR. replace ((mx - mn) * m * 4)%R with ((mx - mn) / (1 / 4 / m))%R by (field; lra). lra. }
  replace ((1 + d) * (mx - mn) / IZR (N - 1) * m)%R with (1 / 4 * (1 + d) * ((mx - mn) * m * 4 / IZR (N - 1)))%R by (field; lra).
  rewrite <- (Rmult_1_r (1 / 4 * (1 + d))) at 2. apply Rmult_le_compat_l; [lra|]. apply Rmult_le_reg_r with (IZR (N - 1)); [lra|]. unfold Rdiv. rewrite Rmult_assoc, Rinv_l by lra. lra.
Qed.
End Planes.

Lemma at_w_eq P b uvw freq r c : p_do_w P = true -> at_w (args_of P b) uvw freq r c = ((abs_w uvw freq r c - p_min_plane_w P) * p_w_scale P)%R.
Proof.
  intro D. unfold at_w, waves, turned, abs_w. cbn [wstack args_of min_plane_w w_scale]. rewrite D. f_equal. f_equal. unfold Rabs. destruct (Rlt_dec _ 0), (Rcase_abs _); try lra; field.
Qed.

Lemma w_exists image s px mn mx : (2 * (px * (IZR image / 2)) * (px * (IZR image / 2)) <= 1)%R -> image <> 0 -> px <> 0%R -> (mn < mx)%R -> ((mx - mn) * 4 <= 2147483600)%R -> 4 <= s <= 16 ->
  exists w, w_planes image s px mn mx = Some w.
Proof.
  intros Sk Hi Hp Lt B Hs. unfold w_planes. pose proof (nmin_neg image px Hi Hp) as Neg. destruct (Req_EM_T _ 0); [lra|].
  assert (Bm : (0 < Rabs (get_nmin image px) <= 1)%R).
  { split; [apply Rabs_pos_lt; lra|]. rewrite Rabs_left by exact Neg. rewrite (nmin_sky image px Sk). pose proof (sqrt_pos (1 - 2 * (px * (IZR image / 2)) * (px * (IZR image / 2)))). lra. }
  set (m := Rabs (get_nmin image px)) in *.
  assert (Q : ((mx - mn) / (1 / 4 / m) = (mx - mn) * 4 * m)%R) by (field; lra). unfold int_of_double. rewrite Q.
  assert (Q1 : (0 <= (mx - mn) * 4 * m <= 2147483600)%R) by (split; [apply Rmult_le_pos; [lra|lra]|nra]).
  rewrite trunc_pos by lra. set (N := floorZ _). assert (HN : 2 <= N <= 2147483602).
  { split; [apply floorZ_iff; lra|]. assert (K : ~ (2147483603 <= N)); [|lia]. unfold N. rewrite floorZ_iff. lra. }
  rewrite to_int_in by lia. cbn [bind]. replace (N - 1 =? 0) with false by lia.
  assert (Pd : (0 < 1 / 10 ^ 13)%R) by (apply Rdiv_lt_0_compat; [lra|apply pow_lt; lra]).
  destruct (Req_EM_T _ 0) as [X|_].
  - exfalso. assert (0 < (1 + 1 / 10 ^ 13) * (mx - mn))%R by (apply Rmult_lt_0_compat; lra). lra.
  - rewrite to_int_in by lia. cbn [bind]. eauto.
Qed.

(** The transform of the kernel *)
Lemma transform_eq P k : 4 <= p_support P <= 16 -> (forall i, host_points (p_support P) <= i < 32 -> no_entry P i) ->
  transform (p_support P) (p_qk P) (p_qn P) (p_qw P) k = kernel_transform P k.
Proof.
  intros Hs No. unfold transform, kernel_transform. f_equal. rewrite (rsumf_extend 0 (host_points (p_support P)) 0 (quadrature_points (p_support P))).
  - apply rsumf_ext. intros. ring.
  - unfold host_points, quadrature_points. intros. lia.
  - intros i H1 H2. destruct (No i) as (-> & _); [unfold host_points, quadrature_points in *; lia|]. ring.
Qed.
