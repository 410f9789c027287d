(** C72: strided arrays. *)
From Coq Require Import Reals Lra Lia.
From Verif Require Import Base BaseFacts Mem MemSpec MemFacts Checks ChecksFacts CRing Cplx Sets Dft DftSpec DftFacts2 PhaseRotate PhaseRotateSpec PhaseRotateFacts ContigSpec Prop_PhaseRotate.
Open Scope Z_scope.

Lemma contiguous_flat m : wrapped m -> is_c_contiguous (Some m) = true -> flat_ok m.
Proof.
  intros (data & ty & loc & sh & stride & st & Ht & Hs & ->) H idx Hl.
  rewrite (create_wrapper_eq data ty loc sh stride st Ht Hs) in *. cbn [fst m_shape m_stride m_type] in *.
  unfold is_c_contiguous in H. cbn [m_contig] in H. apply andb_prop in H. destruct H as [_ H]. apply strides_eqb_true in H. unfold strided_pos. cbn [m_stride m_type]. rewrite H. clear H Hs.
  revert idx Hl. induction sh as [|n sh IH]; intros [|i idx] Hl; cbn [length] in Hl; try lia; [reflexivity|].
  cbn [c_strides combine map fold_right row_major fst snd]. rewrite IH by lia. rewrite Z.div_mul by lia. ring.
Qed.

Ltac ok_st H := repeat match type of H with
  | check_shape _ _ _ = SUCCESS => apply check_shape_status in H
  | check_writeable _ _ = SUCCESS => apply writeable_ok in H; destruct H as [H _]
  | check_c_contiguity _ _ = SUCCESS => let K := fresh "K" in apply check_contig_ok in H; destruct H as [H K]
  | check_location _ _ _ = SUCCESS => unfold check_location in H at 1
  end.

(** A point-source DFT that succeeds was given four arrays whose elements are where the function looks for them. *)
Theorem C72_dft dirs flux uvw vis dirs_d flux_d uvw_d vis_d st r :
  wrapped dirs -> wrapped flux -> wrapped uvw -> wrapped vis ->
  dft_point_v00 (Some dirs) (Some flux) (Some uvw) (Some vis) dirs_d flux_d uvw_d vis_d st = Some (SUCCESS, r) ->
  flat_ok dirs /\ flat_ok flux /\ flat_ok uvw /\ flat_ok vis.
Proof.
  intros W1 W2 W3 W4 H. unfold dft_point_v00 in H.
  destruct (failed (check_params_v00 (Some dirs) (Some flux) (Some uvw) (Some vis) st)) eqn:F; [injection H as H; rewrite H in F; discriminate|].
  apply failed_false in F. clear H. unfold check_params_v00 in F. destruct (failed st) eqn:G; [subst st; discriminate|]. clear G.
  destruct (get_vis_metadata _ _) as [md s]. destruct md as [[[[[[? ?] ?] ?] ?] ?]|];
    repeat match type of F with context [if ?b then _ else _] => destruct b; [discriminate|] end; ok_st F;
    repeat split; apply contiguous_flat; auto.
Qed.
Print Assumptions C72_dft.

Theorem C72_dft_v01 dirs flux uvw vis dirs_d flux_d uvw_d f0 df vis_d st r :
  wrapped dirs -> wrapped flux -> wrapped uvw -> wrapped vis ->
  dft_point_v01 (Some dirs) (Some flux) (Some uvw) (Some vis) dirs_d flux_d uvw_d f0 df vis_d st = Some (SUCCESS, r) ->
  flat_ok dirs /\ flat_ok flux /\ flat_ok uvw /\ flat_ok vis.
Proof.
  intros W1 W2 W3 W4 H. unfold dft_point_v01 in H.
  destruct (failed (check_params_v01 (Some dirs) (Some flux) (Some uvw) (Some vis) st)) eqn:F; [injection H as H; rewrite H in F; discriminate|].
  apply failed_false in F. clear H. unfold check_params_v01 in F. destruct (failed st) eqn:G; [subst st; discriminate|]. clear G.
  assert (L : forall m l s, check_location m l s = SUCCESS -> s = SUCCESS).
  { intros m l s. unfold check_location. destruct s; cbn; auto. }
  assert (U : forall m ty l nt nb s, check_uvw m ty l nt nb s = SUCCESS -> s = SUCCESS /\ is_c_contiguous m = true).
  { intros m ty l nt nb s X. unfold check_uvw in X. destruct (failed s) eqn:E; [subst; discriminate|]. apply failed_false in E.
    apply check_contig_ok in X. tauto. }
  destruct (get_vis_metadata _ _) as [md s]. destruct md as [[[[[[? ?] ?] ?] ?] ?]|];
    repeat match type of F with context [if ?b then _ else _] => let D := fresh "D" in destruct b eqn:D; [subst; try discriminate; try (rewrite F in D; discriminate)|] end; ok_st F;
    apply L in F; apply dim_size_ok in F; destruct F as [F _]; ok_st F; apply L in F; apply U in F; destruct F as [F Ku]; ok_st F;
    repeat split; apply contiguous_flat; auto.
Qed.
Print Assumptions C72_dft_v01.

(** Phase rotation looks for its input coordinates in the wrong place when they are strided, and reports success.  The table has two rows
    that are six elements apart; rotated to the same centre, the second row of the result is not the second row of the table. *)
Definition spaced : mem := fst (create_wrapper (Some (1, 0)) MEM_DOUBLE MEM_CPU [1; 2; 3] (Some [96; 48; 8]) SUCCESS).
Theorem C72_rotate_uvw_refuted :
  let buf := mk_nd [9] (fun i => match i with [k] => IZR k | _ => 0%R end) in
  wrapped spaced /\ wrapped (table 2) /\
  exists r, phase_rotate_uvw None None false (Some spaced) (Some (table 2)) buf (mk_nd [6] (fun _ => 0%R)) SUCCESS = Some (SUCCESS, r) /\
    strided_pos spaced [0; 1; 0] = 6 /\ elem r [strided_pos (table 2) [0; 1; 0]] = 3%R /\ elem buf [strided_pos spaced [0; 1; 0]] = 6%R.
Proof.
  cbv zeta. split; [eexists _, _, _, _, _, _; split; [|split]; [| |reflexivity]; [reflexivity|discriminate]|].
  split; [eexists _, _, _, _, _, _; split; [|split]; [| |reflexivity]; [reflexivity|discriminate]|].
  unfold phase_rotate_uvw. cbn [failed].
  change (get_uvw_metadata _ _) with (Some (MEM_DOUBLE, MEM_CPU, 1, 2), SUCCESS). cbv iota beta.
  change (check_uvw _ _ _ _ _ _) with SUCCESS. cbn [failed]. cbv iota beta zeta. change (_ || _) with true. cbv iota.
  match goal with |- context [rotate_uvw false ?n ?m ?i ?o] => destruct (rotate_uvw_ok false n m i o 6 9) as (r & E & S & P & _) end; try reflexivity; try lia; try discriminate.
  rewrite E. cbn [bind]. exists r. split; [reflexivity|]. split; [reflexivity|]. split; [|reflexivity].
  specialize (P 1 ltac:(lia)). apply (f_equal vx) in P. cbn [vx row] in P. change (strided_pos (table 2) [0; 1; 0]) with 3. change (3 * 1 + 0) with 3 in P. rewrite P.
  unfold rot_matrix, sky_value. cbn [Z.eqb Pos.eqb elem]. replace (- (0 - 0))%R with 0%R by ring. rewrite cos_0, sin_0. change (3 * 1 + 2) with 5. change (3 * 1 + 1) with 4. lra.
Qed.
Print Assumptions C72_rotate_uvw_refuted.

(** The same for the output visibilities of the phase rotation: two channels that are eight elements apart. *)
Definition spaced_vis : mem := fst (create_wrapper (Some (1, 0)) MEM_COMPLEX_DOUBLE MEM_CPU [1; 1; 2; 1] (Some [256; 256; 128; 16]) SUCCESS).
Definition two_vis : mem := fst (create_wrapper (Some (1, 0)) MEM_COMPLEX_DOUBLE MEM_CPU [1; 1; 2; 1] None SUCCESS).
Theorem C72_rotate_vis_refuted uvw_d in_d out_d f0 df : contents (table 1) uvw_d -> contents two_vis in_d -> shape out_d = [9] ->
  wrapped spaced_vis /\ wrapped two_vis /\ strided_pos spaced_vis [0; 0; 1; 0] = 8 /\
  exists r, phase_rotate_vis None None f0 df false (Some (table 1)) (Some two_vis) (Some spaced_vis) uvw_d in_d out_d SUCCESS = Some (SUCCESS, r) /\
    elem r [8] = elem out_d [8].
Proof.
  intros C1 C2 So. split; [eexists _, _, _, _, _, _; split; [|split]; [| |reflexivity]; [reflexivity|discriminate]|].
  split; [eexists _, _, _, _, _, _; split; [|split]; [| |reflexivity]; [reflexivity|discriminate]|]. split; [reflexivity|].
  unfold phase_rotate_vis. cbn [failed].
  change (get_vis_metadata _ _) with (Some (MEM_COMPLEX_DOUBLE, MEM_CPU, 1, 1, 2, 1), SUCCESS). cbv iota beta zeta.
  change (check_uvw _ _ _ _ _ _) with SUCCESS. cbn [failed]. cbv iota beta zeta. change (_ || _) with true. cbv iota.
  match goal with |- context [rotate_vis ?al ?a ?b ?c ?d ?f ?df ?l ?m ?n ?u ?i ?o] => destruct (rotate_vis_ok al a b c d f df l m n u i o 9) as (r & E & _ & _) end;
    [lia|exact (proj1 C1)|exact (proj1 C2)|exact So|discriminate|].
  rewrite E. cbn [bind]. exists r. split; [reflexivity|].
  unfold rotate_vis in E. revert E.
  apply (for_inv_partial (fun _ (x : nd C) => elem x [8] = elem out_d [8])); [lia|reflexivity|].
  intros t x y Ht IH. apply (for_inv_partial (fun _ (x : nd C) => elem x [8] = elem out_d [8])); [lia|exact IH|].
  clear x y IH. intros b x y Hb IH. cbv zeta. destruct (rd uvw_d _); [|discriminate]. cbn [bind]. destruct (rd uvw_d _); [|discriminate]. cbn [bind]. destruct (rd uvw_d _); [|discriminate]. cbn [bind].
  apply (for_inv_partial (fun _ (x : nd C) => elem x [8] = elem out_d [8])); [lia|exact IH|].
  clear x y IH. intros c x y Hc IH. apply (for_inv_partial (fun _ (x : nd C) => elem x [8] = elem out_d [8])); [lia|exact IH|].
  clear x y IH. intros p x y Hp IH. cbv iota. destruct (rd in_d _); [|discriminate]. cbn [bind]. intro X. apply wr_inv in X. destruct X as [_ ->].
  rewrite elem_upd_other; [exact IH|]. intro X. injection X. lia.
Qed.
Print Assumptions C72_rotate_vis_refuted.

Example C72_hyps : wrapped (table 2) /\ flat_ok (table 2) /\ ~ flat_ok spaced.
Proof.
  split; [eexists _, _, _, _, _, _; split; [|split]; [| |reflexivity]; [reflexivity|discriminate]|]. split.
  - apply contiguous_flat; [eexists _, _, _, _, _, _; split; [|split]; [| |reflexivity]; [reflexivity|discriminate]|reflexivity].
  - intro H. specialize (H [0; 1; 0] eq_refl). discriminate.
Qed.
