(** Facts about plan creation *)
From Coq Require Import QArith Qreals Lia Lra.
From Verif Require Import Base BaseFacts Sum Clamp Cplx Legendre LegendreFacts EsKernels EsKernelsSpec EsKernelsFacts EsScreenFacts2 EsParams EsParamsSpec EsParamsFacts EsPipe EsPipeSpec EsPlan EsPlanSpec.
Open Scope Z_scope.

Lemma trunc_pos x : (0 <= x)%R -> truncZ x = floorZ x.
Proof. intro H. unfold truncZ, Rltb. destruct (Rlt_dec x 0); [lra|reflexivity]. Qed.
Lemma floor_eq x k : (IZR k <= x < IZR k + 1)%R -> floorZ x = k.
Proof. intros [A B]. apply Z.le_antisymm; [|now apply floorZ_iff]. assert (X : ~ (k + 1 <= floorZ x)); [|lia]. rewrite floorZ_iff, plus_IZR. lra. Qed.
Lemma host_points_ok s : 0 <= s <= 1000 -> int_of_double (3 / 2 * IZR s + 2) = Some (host_points s).
Proof.
  intro H. unfold int_of_double. assert (0 <= IZR s)%R by (apply IZR_le; lia). rewrite trunc_pos by lra. rewrite (floor_eq _ (host_points s)).
  - apply to_int_in. unfold host_points. lia.
  - unfold host_points. rewrite plus_IZR. assert (A : 2 * (3 * s / 2) <= 3 * s < 2 * (3 * s / 2) + 2) by lia. destruct A as [A B].
    apply IZR_le in A. apply IZR_lt in B. rewrite ?plus_IZR, !mult_IZR in *. lra.
Qed.
Lemma wr_ok {A} (a : nd A) N k v : shape a = [N] -> 0 <= k < N -> wr a [k] v = Some (upd a [k] v).
Proof. intros S H. apply wr_some. rewrite S. now apply in_shape_1. Qed.

Lemma get_total x n : 0 <= n -> exists v, get_legendre x n = Some v.
Proof. intro H. rewrite <- (Z2Nat.id n H). eexists. apply get_ok. Qed.
Lemma newton_total k n acc x d : 0 <= n -> exists v, newton k n acc x d = Some v.
Proof.
  intro H. revert x d. induction k as [|k IH]; intros x d; cbn [newton]; destruct (get_total x n H) as (v & ->); cbn [bind]; [eauto|].
  destruct (Rltb _ _); [apply IH|eauto].
Qed.
Lemma root_total i n acc : 0 <= n -> exists x w, calculate_legendre_root i n acc = Some (x, w).
Proof.
  intro H. unfold calculate_legendre_root. destruct (newton_total (MAX_NEWTON_RAPHSON_ITERATIONS - 1) n acc (get_approx_legendre_root i n) 1%R H) as ([[a b] d] & ->). cbn [bind].
  destruct (get_total b n H) as (v & ->). cbn [bind]. eauto.
Qed.

Section Kernel.
Context (image grid s : Z) (beta : R) (Hi : 0 <= image) (Hs : 4 <= s <= 16).
Notation p := (host_points s).
Definition entry (qk qn qw : nd R) (i : Z) : Prop :=
  calculate_legendre_root (i + 1) (2 * p) (1 / 10 ^ 16) = Some (elem qn [i], elem qw [i]) /\ elem qk [i] = exp (beta * (sqrt (1 - elem qn [i] * elem qn [i]) - 1)).
Definition absent (qk qn qw : nd R) (i : Z) : Prop := elem qk [i] = 0%R /\ elem qw [i] = 0%R /\ elem qn [i] = 0%R.
Lemma p_range : 8 <= p <= 26. Proof. unfold host_points. lia. Qed.

Lemma norm_loop (qk qw : nd R) : shape qk = [32] -> shape qw = [32] ->
  for_ 0 p (fun i c => let* a := rd qk [i] in let* w := rd qw [i] in Some (c + a * w)%R) 0%R = Some (rsumf 0 p (fun i => elem qk [i] * elem qw [i])%R).
Proof.
  intros S1 S2. pose proof p_range. match goal with |- for_ _ _ ?F ?s0 = _ => destruct (for_inv (fun i s => s = rsumf 0 i (fun i => elem qk [i] * elem qw [i])%R) 0 p F s0) as (s' & -> & ->) end.
  - lia.
  - unfold rsumf. now rewrite sum_empty by lia.
  - intros i c H1 ->. rewrite (rd_ok _ 32), (rd_ok qw 32) by (assumption || lia). cbn [bind]. eexists. split; [reflexivity|]. now rewrite rsumf_snoc by lia.
  - reflexivity.
Qed.

Definition transform (qk qn qw : nd R) (k : R) : R := (IZR s * rsumf 0 p (fun i => elem qk [i] * elem qw [i] * cos (PI * k * IZR s * elem qn [i])))%R.

Lemma conv_kernel_ok : exists qk qn qw conv, conv_kernel image grid s beta = Some (qk, qn, qw, conv) /\
  shape qk = [32] /\ shape qn = [32] /\ shape qw = [32] /\ shape conv = [image / 2 + 1] /\
  (forall i, 0 <= i < p -> entry qk qn qw i) /\ (forall i, p <= i < 32 -> absent qk qn qw i) /\
  (forall l, 0 <= l <= image / 2 -> elem conv [l] = (transform qk qn qw (IZR l * (1 / IZR grid)) / (rsumf 0 p (fun i => elem qk [i] * elem qw [i]) * IZR s))%R).
Proof.
  pose proof p_range as Hp. unfold conv_kernel. rewrite host_points_ok by lia. cbn [bind]. cbv zeta.
  replace (2 * p / 2 + 1) with (p + 1) by (rewrite Z.mul_comm, Z.div_mul by lia; reflexivity).
  match goal with |- context [for_ 1 (p + 1) ?F ?s0] =>
    destruct (for_inv (fun j (t : nd R * nd R * nd R) => let '(qk, qn, qw) := t in shape qk = [32] /\ shape qn = [32] /\ shape qw = [32] /\
      (forall i, 0 <= i < j - 1 -> entry qk qn qw i) /\ (forall i, j - 1 <= i < 32 -> absent qk qn qw i)) 1 (p + 1) F s0) as ([[qk qn] qw] & -> & Sk & Sn & Sw & En & Ab) end.
  - lia.
  - split; [reflexivity|]. split; [reflexivity|]. split; [reflexivity|]. split; [intros i H1; lia|]. intros i H1. now split.
  - intros j [[qk qn] qw] Hj (Sk & Sn & Sw & En & Ab). destruct (root_total j (2 * p) (1 / 10 ^ 16) ltac:(lia)) as (x & w & E). rewrite E. cbn [bind].
    unfold QUADRATURE_SUPPORT_BOUND in *.
    rewrite (wr_ok qn 32) by (assumption || lia). cbn [bind]. rewrite (wr_ok qw 32) by (assumption || lia). cbn [bind]. rewrite (wr_ok qk 32) by (assumption || lia). cbn [bind].
    eexists. split; [reflexivity|]. cbv beta iota. rewrite !shape_upd. split; [exact Sk|]. split; [exact Sn|]. split; [exact Sw|]. split; intros i Hi'.
    + unfold entry. destruct (Z.eq_dec i (j - 1)) as [->|N].
      * rewrite !elem_upd_same. replace (j - 1 + 1) with j by lia. split; [exact E|reflexivity].
      * rewrite !elem_upd_other by (intro X; injection X; lia). apply En. lia.
    + unfold absent. rewrite !elem_upd_other by (intro X; injection X; lia). apply Ab. lia.
  - cbn [bind]. rewrite norm_loop by assumption. cbn [bind]. set (N := (rsumf 0 p _ * IZR s)%R).
    match goal with |- context [for_ 0 (image / 2 + 1) ?F ?s0] =>
      destruct (for_inv (fun j (t : nd R) => shape t = [image / 2 + 1] /\ forall l, 0 <= l < j -> elem t [l] = (transform qk qn qw (IZR l * (1 / IZR grid)) / N)%R) 0 (image / 2 + 1) F s0) as (conv & -> & Sc & Ec) end.
    + assert (0 <= image / 2) by (apply Z.div_pos; lia). lia.
    + split; [reflexivity|]. intros l Hl. lia.
    + intros l t Hl (St & Et).
      match goal with |- context [for_ 0 p ?F ?s0] => destruct (for_inv (fun i s1 => s1 = rsumf 0 i (fun i => elem qk [i] * elem qw [i] * cos (PI * (IZR l * (1 / IZR grid)) * IZR s * elem qn [i]))%R) 0 p F s0) as (s' & -> & ->) end.
      * lia.
      * unfold rsumf. now rewrite sum_empty by lia.
      * intros i c H1 ->. rewrite (rd_ok _ 32), (rd_ok qw 32), (rd_ok qn 32) by (assumption || lia). cbn [bind]. eexists. split; [reflexivity|]. now rewrite rsumf_snoc by lia.
      * cbn [bind]. rewrite (wr_ok t (image / 2 + 1)) by (assumption || lia). eexists. split; [reflexivity|]. rewrite shape_upd. split; [exact St|]. intros l' Hl'.
        destruct (Z.eq_dec l' l) as [->|Ne]; [rewrite elem_upd_same; unfold transform; f_equal; ring|]. rewrite elem_upd_other by (intro X; injection X; lia). apply Et. lia.
    + cbn [bind]. exists qk, qn, qw, conv. split; [reflexivity|]. repeat (split; [assumption|]). split; [intros i H1; apply En; lia|]. split; [intros i H1; apply Ab; lia|].
      intros l Hl. apply Ec. lia.
Qed.
End Kernel.

(** The parts of a plan *)
Definition made (rows chan image : Z) (px : R) (epsilon : Q) (dbl : bool) (mn mx : R) (do_w : bool) (P : es_plan) : Prop :=
  exists r maxp, candidate epsilon dbl r /\ In r KernelDB /\ grid_size_for image r (p_grid P) /\
  p_rows P = rows /\ p_chan P = chan /\ p_image P = image /\ p_do_w P = do_w /\ p_px P = px /\
  p_support P = k_support r /\ p_beta P = (Q2R (k_beta r) * IZR (k_support r))%R /\ p_uv_scale P = (IZR (p_grid P) * px)%R /\
  (if do_w then w_planes image (p_support P) px mn mx else Some (1%Z, 1%R, 0%R, 0%R)) = Some (p_num_w P, p_w_scale P, p_min_plane_w P, maxp) /\
  p_inv_w_scale P = (1 / p_w_scale P)%R /\
  shape (p_qk P) = [32] /\ shape (p_qn P) = [32] /\ shape (p_qw P) = [32] /\ shape (p_conv P) = [image / 2 + 1] /\
  (forall i, 0 <= i < host_points (p_support P) -> quadrature_entry P i) /\ (forall i, host_points (p_support P) <= i < 32 -> no_entry P i) /\
  p_norm P = (rsumf 0 (host_points (p_support P)) (fun i => elem (p_qk P) [i] * elem (p_qw P) [i]) * IZR (p_support P))%R /\
  (forall l, 0 <= l <= image / 2 -> elem (p_conv P) [l] = (transform (p_support P) (p_qk P) (p_qn P) (p_qw P) (IZR l * (1 / IZR (p_grid P))) / p_norm P)%R).

Lemma make_ok rows chan image dbl px epsilon mn mx do_w : 0 <= image <= 78000000 ->
  (forall P, make_plan rows chan image dbl px epsilon mn mx do_w = Some P -> made rows chan image px epsilon dbl mn mx do_w P) /\
  ((exists g s b, calculate_params epsilon image dbl SUCCESS = Some (SUCCESS, Some (g, s, b)) /\ (do_w = true -> exists w, w_planes image s px mn mx = Some w)) <->
   exists P, make_plan rows chan image dbl px epsilon mn mx do_w = Some P).
Proof.
  intro H. unfold make_plan. destruct (params_ok epsilon dbl image H) as [[E _]|(r & g & C & G & L & E & M)]; rewrite E; cbn [bind snd].
  { split; [discriminate|]. split; [intros (? & ? & ? & X & _); discriminate|intros (? & X); discriminate]. }
  assert (I : In r KernelDB) by (destruct C as [(I & _)| ->]; [exact I|apply (row_in 243); exact row_last]).
  destruct (fine r I) as (F & _).
  destruct (conv_kernel_ok image g (k_support r) (Q2R (k_beta r) * IZR (k_support r))%R ltac:(lia) F) as (qk & qn & qw & conv & K & Sk & Sn & Sw & Sc & En & Ab & Ec).
  destruct (if do_w then w_planes image (k_support r) px mn mx else Some (1%Z, 1%R, 0%R, 0%R)) as [[[[nw ws] mp] xp]|] eqn:W; cbn [bind].
  - rewrite K. cbn [bind]. rewrite host_points_ok by lia. cbn [bind]. rewrite norm_loop by assumption. cbn [bind]. split.
    + intros P X. injection X as <-. exists r, xp. cbn [p_rows p_chan p_image p_grid p_support p_num_w p_do_w p_beta p_px p_uv_scale p_w_scale p_inv_w_scale p_min_plane_w p_norm p_conv p_qk p_qn p_qw].
      split; [exact C|]. split; [exact I|]. split; [exact G|]. repeat (split; [reflexivity|]). split; [exact W|]. split; [reflexivity|]. repeat (split; [assumption|]).
      split; [reflexivity|]. exact Ec.
    + split; [eauto|]. intros _. do 3 eexists. split; [reflexivity|]. intros ->. eauto.
  - split; [discriminate|]. split; [|intros (? & X); discriminate]. intros (g' & s' & b' & X & Y). injection X as <- <- <-. destruct do_w; [|discriminate]. destruct (Y eq_refl) as (w & Z). congruence.
Qed.
