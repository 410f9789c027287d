(** C79: associated Legendre functions; C58: spherical-wave element patterns, over the real and complex numbers *)
From Coq Require Import Lra.
From Verif Require Import Base BaseFacts Sum CRing Cplx Clamp Mem Sets LegendreSpec LegendreFacts SphericalWave SphericalWaveSpec SphericalWaveFacts SphericalWaveFacts2.
Open Scope Z_scope.

(** The three outputs are P_l^m(cos theta), P_l^m(cos theta) / sin theta and minus the derivative of P_l^m(cos theta) by theta
    (which is sin theta times the derivative by cos theta). *)
Theorem C79_functions l m : 0 <= m <= l -> exists P dP, is_assoc_legendre l m P /\ (forall t, derivable_pt_lim P t (dP t)) /\
  forall t, sin t <> 0%R -> legendre2 l m (cos t) (sin t) = Some (P t, (P t / sin t)%R, (- dP t)%R).
Proof.
  intro H. exists (alZ l m), (dalZ l m). destruct (alZ_family l m H) as [A D]. split; [exact A|]. split; [exact D|].
  intros t Ht. rewrite legendre2_Z by exact H. now destruct (Req_EM_T (sin t) 0).
Qed.
Print Assumptions C79_functions.

(** On the axis the value is still P_l^m, and the other two outputs are zero. *)
Theorem C79_axis l m t : 0 <= m <= l -> sin t = 0%R -> exists P, is_assoc_legendre l m P /\ legendre2 l m (cos t) (sin t) = Some (P t, 0%R, 0%R).
Proof.
  intros H Z. exists (alZ l m). split; [now apply alZ_family|]. rewrite legendre2_Z by exact H. now destruct (Req_EM_T (sin t) 0).
Qed.
Print Assumptions C79_axis.

(** The documented third output, sin theta d/d(cos theta) P_l^m, has a limit on the axis that is not zero when m = 1: for l = m = 1 it is
    cos theta = 1, but the function returns 0. *)
Theorem C79_axis_refuted : exists P dP, is_assoc_legendre 1 1 P /\ (forall t, derivable_pt_lim P t (dP t)) /\ dP 0%R = (-1)%R /\
  (forall t, sin t <> 0%R -> exists a b, legendre2 1 1 (cos t) (sin t) = Some (a, b, (- dP t)%R)) /\ exists a b, legendre2 1 1 (cos 0) (sin 0) = Some (a, b, 0%R).
Proof.
  exists (alZ 1 1), (dalZ 1 1). destruct (alZ_family 1 1 ltac:(lia)) as [A D]. split; [exact A|]. split; [exact D|]. split.
  - unfold dalZ, dal. change (Z.to_nat 1) with 1%nat. change (Z.to_nat (1 - 1)) with 0%nat. rewrite geg_0. cbn. rewrite sin_0, cos_0. ring.
  - split.
    + intros t Ht. rewrite legendre2_Z by lia. destruct (Req_EM_T (sin t) 0); [contradiction|]. eauto.
    + rewrite legendre2_Z by lia. destruct (Req_EM_T (sin 0) 0) as [|N]; [eauto|]. rewrite sin_0 in N. lra.
Qed.
Print Assumptions C79_axis_refuted.

Example C79_hyps : legendre2 2 1 (cos (PI / 2)) (sin (PI / 2)) = Some (0, 0, -3)%R.
Proof.
  rewrite legendre2_Z by lia. destruct (Req_EM_T (sin (PI / 2)) 0) as [E|_]; [rewrite sin_PI2 in E; lra|]. unfold alZ, dalZ, al, dal.
  change (Z.to_nat 1) with 1%nat. change (Z.to_nat (2 - 1)) with 1%nat. rewrite sin_PI2, cos_PI2. cbn [dgeg]. rewrite geg_0, geg_1. cbn.
  apply f_equal. apply f_equal2; [apply f_equal2|]; field.
Qed.

(** Every coefficient has its own place and every place belongs to one coefficient: degree l = 1 .. l_max, order M = -l .. l, kind k. *)
Theorem C58_coefficients l_max j : 0 <= l_max -> 0 <= j < 4 * (l_max * l_max + 2 * l_max) ->
  exists l M k, (1 <= l <= l_max /\ - l <= M <= l /\ 0 <= k < 4 /\ j = 4 * (l * l + l - 1 + M) + k) /\
  forall l' M' k', 1 <= l' -> - l' <= M' <= l' -> 0 <= k' < 4 -> j = 4 * (l' * l' + l' - 1 + M') + k' -> l' = l /\ M' = M /\ k' = k.
Proof.
  intros Hl Hj. set (n := j / 4). assert (En : j = 4 * n + j mod 4) by (unfold n; lia). pose proof (Z.mod_pos_bound j 4 ltac:(lia)).
  pose proof (Z.sqrt_spec (n + 1) ltac:(lia)) as S. set (l := Z.sqrt (n + 1)) in *. assert (0 <= l) by apply Z.sqrt_nonneg. cbn zeta in S.
  exists l, (n + 1 - l * l - l), (j mod 4). split.
  - assert (1 <= l) by nia. assert (l <= l_max) by nia. lia.
  - intros l' M' k' H1 H2 H3 E. assert (n = l' * l' + l' - 1 + M' /\ j mod 4 = k') as [N <-] by lia.
    assert (l' = l). { destruct (Z.lt_trichotomy l' l) as [L|[L|L]]; [|exact L|]; nia. } subst l'. lia.
Qed.
Print Assumptions C58_coefficients.

Definition at_point (pattern : nd C) (i k : Z) : C := elem pattern [4 * i + k].

(** For every point the four outputs are the phi and theta components of the X and of the Y dipole; nothing else changes. *)
Theorem C58_pattern : exists P dP, assoc_family P dP /\
  forall num_points theta phi_x phi_y l_max alpha offset pattern nt nx ny na n,
  0 <= num_points -> 0 <= offset -> shape theta = [nt] -> shape phi_x = [nx] -> shape phi_y = [ny] -> shape alpha = [na] -> shape pattern = [n] ->
  num_points <= nt -> num_points <= nx -> num_points <= ny -> 4 * (l_max * l_max + 2 * l_max) <= na -> 4 * (num_points + offset) <= n ->
  4 * (l_max * l_max + 2 * l_max) <= 2147483647 -> 4 * (num_points + offset) <= 2147483647 ->
  (forall i, 0 <= i < num_points -> sin (clip_theta (elem theta [i])) <> 0%R) ->
  exists r, spherical_wave_pattern_harp num_points theta phi_x phi_y l_max alpha offset pattern = Some r /\ shape r = shape pattern /\
  (forall i, 0 <= i < num_points -> let t := clip_theta (elem theta [i]) in let a j := elem alpha [j] in
    at_point r (i + offset) 0 = harp_phi P dP a l_max 0 t (elem phi_x [i]) /\ at_point r (i + offset) 1 = harp_theta P dP a l_max 0 t (elem phi_x [i]) /\
    at_point r (i + offset) 2 = harp_phi P dP a l_max 2 t (elem phi_y [i]) /\ at_point r (i + offset) 3 = harp_theta P dP a l_max 2 t (elem phi_y [i])) /\
  (forall idx, (forall j, 4 * offset <= j < 4 * (offset + num_points) -> idx <> [j]) -> elem r idx = elem pattern idx).
Proof.
  exists alZ, dalZ. split; [apply alZ_family|].
  intros np theta px py lm alpha off pat nt nx ny na n H0 Ho St Sx Sy Sa Sp Lt Lx Ly La Ln Ia In Hs.
  set (a := fun j => elem alpha [j]). set (t := fun i => clip_theta (elem theta [i])).
  pose (V := fun i k => if k =? 0 then harp_phi alZ dalZ a lm 0 (t i) (elem px [i]) else if k =? 1 then harp_theta alZ dalZ a lm 0 (t i) (elem px [i])
    else if k =? 2 then harp_phi alZ dalZ a lm 2 (t i) (elem py [i]) else harp_theta alZ dalZ a lm 2 (t i) (elem py [i])).
  pose (own := fun i (idx : list Z) => idx_eqb [4 * (i + off)] idx || idx_eqb [4 * (i + off) + 1] idx || idx_eqb [4 * (i + off) + 2] idx || idx_eqb [4 * (i + off) + 3] idx).
  pose (VV := fun (idx : list Z) v => forall i k, 0 <= i < np -> 0 <= k < 4 -> idx = [4 * (i + off) + k] -> v = V i k).
  assert (W : sets [n] (own_all 0 np own) VV (fun p => spherical_wave_pattern_harp np theta px py lm alpha off p)).
  { apply sets_for. intros i Hi.
    apply (sets_ext _ (own i) _ _ (fun p => bind (bind (bind (wr p [4 * (i + off)] (V i 0)) (fun p => wr p [4 * (i + off) + 1] (V i 1))) (fun p => wr p [4 * (i + off) + 2] (V i 2))) (fun p => wr p [4 * (i + off) + 3] (V i 3)))); [|reflexivity|].
    - assert (G : forall k, 0 <= k < 4 -> VV [4 * (i + off) + k] (V i k)).
      { intros k Hk i' k' Hi' Hk' E. injection E as E. assert (i' = i) by lia. subst i'. now replace k' with k by lia. }
      assert (Q : forall k, 0 <= k < 4 -> in_shape [n] [4 * (i + off) + k] = true) by (intros; apply in_shape_1; lia).
      pose proof (G 0 ltac:(lia)) as G0. pose proof (Q 0 ltac:(lia)) as Q0. rewrite Z.add_0_r in G0, Q0.
      unfold own. apply sets_seq; [apply sets_seq; [apply sets_seq; [apply sets_wr; auto|]|]|]; apply sets_wr; auto; (apply Q || apply G); lia.
    - intros p _. rewrite rd_some by (rewrite St; apply in_shape_1; lia). cbn [bind].
      rewrite rd_some by (rewrite Sx; apply in_shape_1; lia). cbn [bind]. rewrite rd_some by (rewrite Sy; apply in_shape_1; lia). cbn [bind].
      assert (Ec : (if Rlt_dec (elem theta [i]) (1 / 100000) then (1 / 100000)%R else elem theta [i]) = t i).
      { unfold t, clip_theta, Rmax. destruct (Rlt_dec (elem theta [i]) (1 / 100000)), (Rle_dec (elem theta [i]) (1 / 100000)); lra. }
      rewrite Ec. rewrite (all_lm alpha na lm (t i) (elem px [i]) (elem py [i]) Sa La Ia (Hs i Hi)). cbn [bind].
      unfold to_int. replace ((-2147483648 <=? 4 * (i + off)) && (4 * (i + off) <=? 2147483647)) with true by lia. cbn [bind].
      fold al1. change (al1 alpha) with a. unfold V. cbn [Z.eqb Pos.eqb].
      destruct (wr p [4 * (i + off)] _) as [p1|]; cbn [bind]; [|reflexivity]. destruct (wr p1 _ _) as [p2|]; cbn [bind]; [|reflexivity]. destruct (wr p2 _ _); reflexivity. }
  destruct (W pat Sp) as (r & E & S & P1 & P2). exists r. split; [exact E|]. split; [now rewrite S|]. split.
  - intros i Hi. cbv zeta. fold (t i). fold a.
    assert (G : forall k, 0 <= k < 4 -> at_point r (i + off) k = V i k).
    { intros k Hk. unfold at_point. apply (P1 [4 * (i + off) + k]); auto. apply own_all_true. exists i. split; [exact Hi|]. unfold own.
      assert (k = 0 \/ k = 1 \/ k = 2 \/ k = 3) as [ -> |[ -> |[ -> | -> ]]] by lia; rewrite ?Z.add_0_r, idx_eqb_refl, ?orb_true_r; reflexivity. }
    rewrite !G by lia. repeat split; reflexivity.
  - intros idx Hx. apply P2. apply own_all_false. intros i Hi. unfold own. rewrite !idx_eqb_neq; [reflexivity| | | |]; intro K; symmetry in K; revert K; apply Hx; lia.
Qed.
Print Assumptions C58_pattern.

(** Accepted arguments: the pattern is computed; otherwise nothing is written and an error is set. *)
Theorem C58_api num_points theta phi_x phi_y coeffs beam theta_d phi_x_d phi_y_d l_max alpha offset beam_d :
  m_loc beam = MEM_CPU ->
  let ok := m_loc theta = MEM_CPU /\ m_loc phi_x = MEM_CPU /\ m_loc phi_y = MEM_CPU /\ m_loc coeffs = MEM_CPU /\ is_complex4 (Some beam) = true /\
            (m_type beam = MEM_COMPLEX_FLOAT \/ m_type beam = MEM_COMPLEX_DOUBLE) in
  let call st := element_beam_harp num_points (Some theta) (Some phi_x) (Some phi_y) (Some coeffs) (Some beam) theta_d phi_x_d phi_y_d l_max alpha offset beam_d st in
  (ok -> call SUCCESS = bind (spherical_wave_pattern_harp num_points theta_d phi_x_d phi_y_d l_max alpha offset beam_d) (fun r => Some (SUCCESS, r))) /\
  (~ ok -> exists e, e <> SUCCESS /\ call SUCCESS = Some (e, beam_d)) /\ (forall st, st <> SUCCESS -> call st = Some (st, beam_d)).
Proof.
  intro Lb. cbv zeta. unfold element_beam_harp. cbn [failed location mtype]. rewrite Lb. split; [|split].
  - intros (-> & -> & -> & -> & C4 & T). change (MEM_CPU =? MEM_CPU) with true. rewrite C4. unfold is_complex4 in C4. apply andb_prop in C4. destruct C4 as [Cx _]. rewrite Cx.
    replace ((m_type beam =? MEM_COMPLEX_FLOAT) || (m_type beam =? MEM_COMPLEX_DOUBLE)) with true by (destruct T as [ -> | -> ]; reflexivity). reflexivity.
  - intro N. destruct (m_loc theta =? MEM_CPU) eqn:E1; [|eexists; split; [|reflexivity]; discriminate]. destruct (m_loc phi_x =? MEM_CPU) eqn:E2; [|eexists; split; [|reflexivity]; discriminate].
    destruct (m_loc phi_y =? MEM_CPU) eqn:E3; [|eexists; split; [|reflexivity]; discriminate]. destruct (m_loc coeffs =? MEM_CPU) eqn:E4; [|eexists; split; [|reflexivity]; discriminate]. cbn [negb orb].
    destruct (is_complex (Some beam)) eqn:Ex; [|eexists; split; [|reflexivity]; discriminate]. change (MEM_CPU =? MEM_CPU) with true. cbn [negb].
    destruct (is_complex4 (Some beam)) eqn:E5; [|eexists; split; [|reflexivity]; discriminate]. cbn [negb].
    destruct ((m_type beam =? MEM_COMPLEX_FLOAT) || (m_type beam =? MEM_COMPLEX_DOUBLE)) eqn:T; [|eexists; split; [|reflexivity]; discriminate].
    exfalso. apply N. apply orb_prop in T. repeat (split; [now apply Z.eqb_eq|]). split; [reflexivity|]. destruct T as [T|T]; apply Z.eqb_eq in T; auto.
  - intros st N. replace (failed st) with true; [reflexivity|]. destruct st; cbn; congruence.
Qed.
Print Assumptions C58_api.

(** The API does not compare the sizes of the arrays with num_points and l_max: with too few coefficients, the accepted call reads outside the array. *)
Theorem C58_sizes_refuted : exists theta phi coeffs beam theta_d phi_d alpha beam_d,
  m_shape coeffs = [0] /\ shape alpha = [0] /\
  element_beam_harp 1 (Some theta) (Some phi) (Some phi) (Some coeffs) (Some beam) theta_d phi_d phi_d 1 alpha 0 beam_d SUCCESS = None.
Proof.
  pose (arr := fun ty sh => fst (create_wrapper (Some (1, 0)) ty MEM_CPU sh None SUCCESS)).
  exists (arr MEM_DOUBLE [1]), (arr MEM_DOUBLE [1]), (arr MEM_COMPLEX_DOUBLE [0]), (arr MEM_COMPLEX_DOUBLE [1; 4]).
  exists (mk_nd [1] (fun _ => 1%R)), (mk_nd [1] (fun _ => 1%R)), (mk_nd [0] (fun _ => C0)), (mk_nd [4] (fun _ => C0)).
  split; [reflexivity|]. split; [reflexivity|].
  match goal with |- context [element_beam_harp 1 (Some ?a) (Some ?b) (Some ?b) (Some ?c) (Some ?d) ?e ?f ?f 1 ?g 0 ?h SUCCESS] =>
    destruct (C58_api 1 a b b c d e f f 1 g 0 h eq_refl) as [K _] end. cbv zeta in K. rewrite K. 2:{ repeat split; auto. }
  unfold spherical_wave_pattern_harp. unfold for_ at 1. change (Z.to_nat (1 - 0)) with 1%nat. cbn [for_nat]. rewrite !rd_some by reflexivity. cbn [bind elem].
  destruct (Rlt_dec 1 (1 / 100000)) as [L|_]; [exfalso; lra|].
  match goal with |- context [for_ 1 (1 + 1) ?f ?s] => assert (E : for_ 1 (1 + 1) f s = None); [|rewrite E; reflexivity] end.
  unfold for_ at 1. change (Z.to_nat (1 + 1 - 1)) with 1%nat. cbn [for_nat]. unfold for_ at 1. change (Z.to_nat (1 + 1 - 0)) with 2%nat. cbn [for_nat].
  match goal with |- context [add_lm ?a ?l ?m ?c ?s ?x ?y ?q] => assert (E : add_lm a l m c s x y q = None); [|rewrite E; reflexivity] end.
  unfold add_lm. change (1 - 0) with 1. change (to_int (1 * 1)) with (Some 1). cbn [bind]. rewrite legendre2_Z by lia. cbn [bind].
  match goal with |- context [if Req_EM_T ?x 0 then ?p else ?q] => destruct (if Req_EM_T x 0 then p else q) as [[p0 p1] p2] end.
  change (1 =? 0) with false. cbv iota. rewrite !fact_ok by lia. cbn [bind]. reflexivity.
Qed.
Print Assumptions C58_sizes_refuted.

Lemma sin_clip_1 : sin (clip_theta 1) <> 0%R.
Proof.
  unfold clip_theta, Rmax. destruct (Rle_dec 1 (1 / 100000)) as [L|L]; [exfalso; lra|]. assert (0 < sin 1)%R; [|lra]. apply sin_gt_0; [lra|]. pose proof PI2_1. lra.
Qed.
Example C58_hyps : exists r, spherical_wave_pattern_harp 1 (mk_nd [1] (fun _ => 1%R)) (mk_nd [1] (fun _ => 0%R)) (mk_nd [1] (fun _ => 0%R)) 1 (mk_nd [12] (fun _ => C1)) 1 (mk_nd [12] (fun _ => C0)) = Some r.
Proof.
  destruct C58_pattern as (P & dP & _ & H).
  edestruct (H 1 (mk_nd [1] (fun _ => 1%R)) (mk_nd [1] (fun _ => 0%R)) (mk_nd [1] (fun _ => 0%R)) 1 (mk_nd [12] (fun _ => C1)) 1 (mk_nd [12] (fun _ => C0))) as (r & E & _);
    try reflexivity; try lia; eauto. intros. apply sin_clip_1.
Qed.
