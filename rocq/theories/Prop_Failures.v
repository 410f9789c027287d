(** C67: a call that reports an error has not read or written any array element *)
From Coq Require Import Reals.
From Verif Require Import Base BaseFacts Mem Checks ChecksFacts CRing Cplx Clamp ClampApi FailSpec Dft PhaseRotate Weighting Flagger DegridCustom SphericalWave Station Examples WHeight.
Open Scope Z_scope.

Lemma failed_no e : failed e = false -> e = SUCCESS.
Proof. destruct e; [reflexivity|discriminate..]. Qed.
Ltac cleanly := repeat match goal with
  | H : context [if ?b then _ else _] |- _ => let E := fresh "E" in destruct b eqn:E
  | H : Some (_, _) = Some (_, _) |- _ => injection H as <- <-
  | H : Some (_, _, _) = Some (_, _) |- _ => injection H as <- <-
  | H : bind ?x _ = Some _ |- _ => destruct x; cbn [bind] in H; [|discriminate]
  | H : failed _ = false |- _ => apply failed_no in H; subst
  end; try reflexivity; try congruence.

Theorem C67_dft_v00 dirs flux uvw vis st : clean (fun '(dd, fd, ud) vd => dft_point_v00 dirs flux uvw vis dd fd ud vd st).
Proof. intros [[? ?] ?] o e o' H N [[? ?] ?] o2. unfold dft_point_v00 in *. destruct (check_params_v00 _ _ _ _ _); cleanly. Qed.
Theorem C67_dft_v01 dirs flux uvw vis f0 df st : clean (fun '(dd, fd, ud) vd => dft_point_v01 dirs flux uvw vis dd fd ud f0 df vd st).
Proof. intros [[? ?] ?] o e o' H N [[? ?] ?] o2. unfold dft_point_v01 in *. destruct (check_params_v01 _ _ _ _ _); cleanly. Qed.
Theorem C67_rotate_uvw orig new alias uvw_in uvw_out st : clean (fun id od => phase_rotate_uvw orig new alias uvw_in uvw_out id od st).
Proof.
  intros i o e o' H N i2 o2. unfold phase_rotate_uvw in *. destruct (failed st); [cleanly|]. destruct (get_uvw_metadata _ _) as [md s].
  destruct (match md with Some x => x | None => _ end) as [[[? ?] ?] ?]. destruct (check_uvw _ _ _ _ _ _); cleanly.
Qed.
Theorem C67_rotate_vis orig new f0 df alias uvw vis_in vis_out st : clean (fun '(ud, id) od => phase_rotate_vis orig new f0 df alias uvw vis_in vis_out ud id od st).
Proof.
  intros [? ?] o e o' H N [? ?] o2. unfold phase_rotate_vis in *. destruct (failed st); [cleanly|]. destruct (get_vis_metadata _ _) as [md s].
  destruct (match md with Some x => x | None => _ end) as [[[[[? ?] ?] ?] ?] ?]. destruct (check_uvw _ _ _ _ _ _); cleanly.
Qed.
(** The weighting functions have two outputs *)
Definition two_outputs {A} (r : option (error * A * A)) : option (error * (A * A)) := match r with Some (e, a, b) => Some (e, (a, b)) | None => None end.
Theorem C67_uniform (A : cring) wdiv uvw freq mx grid input output st :
  clean (fun '(ud, fd, id) '(gd, od) => two_outputs (weighting_uniform (A := A) wdiv uvw freq mx grid input output ud fd gd id od st)).
Proof.
  intros [[? ?] ?] [? ?] e [? ?] H N [[? ?] ?] [? ?]. unfold weighting_uniform, two_outputs in *. destruct (failed st); [cleanly|].
  destruct (weighting_checks _ _ _ _ _ _) as [[[[[[? ?] ?] ?] ?] ?] s]. destruct s; cbn [failed] in *; try (injection H as <- <- <-; reflexivity).
  destruct (weighting_types _ _ _ _); [|injection H as <- <- <-; reflexivity]. exfalso.
  destruct (input_as _ _ _); [|discriminate]. cbn [bind] in H. destruct (weights_grid_write _ _ _ _ _ _ _ _ _ _); [|discriminate]. cbn [bind] in H.
  destruct (uniform_weights_grid_read _ _ _ _ _ _ _ _ _ _ _); [|discriminate]. cbn [bind] in H. injection H. congruence.
Qed.
Theorem C67_briggs (A : cring) wdiv uvw freq mx strength grid input output st :
  clean (fun '(ud, fd, id) '(gd, od) => two_outputs (weighting_briggs (A := A) wdiv uvw freq mx strength grid input output ud fd gd id od st)).
Proof.
  intros [[? ?] ?] [? ?] e [? ?] H N [[? ?] ?] [? ?]. unfold weighting_briggs, two_outputs in *. destruct (failed st); [cleanly|].
  destruct (weighting_checks _ _ _ _ _ _) as [[[[[[? ?] ?] ?] ?] ?] s]. destruct s; cbn [failed] in *; try (injection H as <- <- <-; reflexivity).
  destruct (weighting_types _ _ _ _); [|injection H as <- <- <-; reflexivity]. exfalso.
  destruct (input_as _ _ _); [|discriminate]. cbn [bind] in H. destruct (weights_grid_write _ _ _ _ _ _ _ _ _ _); [|discriminate]. cbn [bind] in H.
  destruct (sum_weights_calc _ _ _ _ _ _ _ _ _ _) as [[? ?]|]; [|discriminate]. cbn [bind] in H.
  destruct (briggs_weights_grid_read _ _ _ _ _ _ _ _ _ _ _ _); [|discriminate]. cbn [bind] in H. injection H. congruence.
Qed.
Theorem C67_flagger (A : num) V (mag : V -> A) junk vis flags al t1 t2 t3 step win wmh sched st :
  clean (fun vd fd => flagger_dynamic_threshold mag junk vis flags vd fd al t1 t2 t3 step win wmh sched st).
Proof. intros i o e o' H N i2 o2. unfold flagger_dynamic_threshold in *. destruct (check_params_dynamic _ _ _); cleanly. Qed.
Theorem C67_degrid (A : cring) conj grid uvw uvk wk vis theta wstep f0 df cj st :
  clean (fun '(gd, ud, kd, wd) vd => degrid_api (A := A) conj grid uvw uvk wk vis gd ud kd wd theta wstep f0 df cj vd st).
Proof.
  intros [[[? ?] ?] ?] o e o' H N [[[? ?] ?] ?] o2. unfold degrid_api in *. destruct (failed st); [cleanly|]. destruct (get_vis_metadata _ _) as [md s].
  destruct (match md with Some x => x | None => _ end) as [[[[[? ?] ?] ?] ?] ?]. destruct (check_shape _ _ _); cleanly.
Qed.
Theorem C67_harp np theta px py co beam lmax off st : clean (fun '(td, xd, yd, al) bd => element_beam_harp np theta px py co beam td xd yd lmax al off bd st).
Proof. intros [[[? ?] ?] ?] o e o' H N [[[? ?] ?] ?] o2. unfold element_beam_harp in *. cleanly. Qed.
Theorem C67_dipole np theta phi beam f len stride off st : clean (fun '(td, pd) bd => element_beam_dipole np theta phi beam td pd f len stride off bd st).
Proof. intros [? ?] o e o' H N [? ?] o2. unfold element_beam_dipole in *. destruct (failed st) eqn:F; [cleanly|]. apply failed_no in F. subst. cleanly. Qed.
(** Which of the optional arrays are present is an argument; their contents are not. *)
Theorem C67_station k w x y bi b out off np offo norm ex ey has_z has_idx has_b st :
  clean (fun '(wd, xi, yi, zi, xo, yo, (zo, idx, bd)) od =>
    station_beam k w x y bi b out wd xi yi zi off np xo yo (if has_z : bool then Some zo else None) (if has_idx : bool then Some idx else None)
      (if has_b : bool then Some bd else None) offo od norm ex ey st).
Proof.
  intros [[[[[[wd xi] yi] zi] xo] yo] [[zo idx] bd]] o e o' H N [[[[[[wd2 xi2] yi2] zi2] xo2] yo2] [[zo2 idx2] bd2]] o2. unfold station_beam in *.
  destruct (failed st) eqn:F; [cleanly|]. apply failed_no in F. subst. destruct (to_int _); [|discriminate]. cbn [bind] in *.
  destruct (negb (is_complex w)); [cleanly|]. 
  destruct has_b, has_idx; (try (destruct (negb (is_complex b)); [cleanly|])); (try (destruct (negb (mtype bi =? MEM_INT)); [cleanly|]));
  (destruct (negb (is_complex out)); [cleanly|]); (destruct (negb (location out =? MEM_CPU)); [cleanly|]);
  (destruct (_ || _); [|cleanly]);
  match type of H with (let* _ := ?x in _) = _ => destruct x; [|discriminate] end; cbn [bind] in H; injection H; congruence.
Qed.
Theorem C67_vector_add {A} (add : A -> A -> A) a b out pa pb po st : clean (fun (_ : unit) memory => vector_add add a b out pa pb po memory st).
Proof. intros i o e o' H N i2 o2. unfold vector_add in *. destruct (failed st) eqn:F; [cleanly|]. apply failed_no in F. subst. cleanly. Qed.
Theorem C67_example {A} zero (add mul : A -> A -> A) of_int p out st : clean (fun (_ : unit) od => example_exec zero add mul of_int p out od st).
Proof.
  intros i o e o' H N i2 o2. unfold example_exec in *. destruct (failed st) eqn:F; [cleanly|]. apply failed_no in F. subst. destruct p as [p|]; cleanly.
Qed.
Print Assumptions C67_dft_v00.
Print Assumptions C67_example.
Print Assumptions C67_vector_add.
Print Assumptions C67_dipole.
Print Assumptions C67_harp.
Print Assumptions C67_degrid.
Print Assumptions C67_flagger.
Print Assumptions C67_briggs.
Print Assumptions C67_uniform.
Print Assumptions C67_rotate_vis.
Print Assumptions C67_rotate_uvw.
Print Assumptions C67_dft_v01.
Print Assumptions C67_station.

(** sdp_gridder_clamp_channels_single checks its last argument last: with a read-only end_ch_out it reports the error, but has computed and written
    start_ch_out, and has written element 0 of the read-only array (once per row). *)
Definition ints (n : Z) : mem := fst (create_wrapper (Some (2, 0)) MEM_INT MEM_CPU [n] None SUCCESS).
Definition coords (n : Z) : mem := fst (create_wrapper (Some (1, 0)) MEM_DOUBLE MEM_CPU [n; 3] None SUCCESS).
Lemma clamp_views_ro n : clamp_views MEM_DOUBLE (Some (coords n)) (Some (ints n)) (Some (ints n)) (Some (ints n)) (Some (set_read_only (ints n) true)) SUCCESS =
  (mk_view (Some (1, 0)) [n; 3] [3; 1], mk_view (Some (2, 0)) [n] [1], mk_view (Some (2, 0)) [n] [1], mk_view (Some (2, 0)) [n] [1], mk_view (Some (2, 0)) [0] [0], ERR_INVALID_ARGUMENT).
Proof. reflexivity. Qed.
Theorem C67_clamp_refuted n (uvw_d : nd Q) (si_d ei_d so_d eo_d : nd Z) dim f0 df mn mx : 1 <= n ->
  let call := clamp_single_api (Some (coords n)) dim f0 df (Some (ints n)) (Some (ints n)) mn mx (Some (ints n)) (Some (set_read_only (ints n) true)) (-1) (-1) in
  shape uvw_d = [n * 3] -> shape si_d = [n] -> shape ei_d = [n] -> shape so_d = [n] -> shape eo_d = [n] -> 0 <= dim < 3 ->
  (forall i, 0 <= i < n -> clamp1 (elem uvw_d [i * 3 + dim]) f0 df (elem si_d [i]) (elem ei_d [i]) mn mx <> None) ->
  exists so' eo', call uvw_d si_d ei_d so_d eo_d SUCCESS = Some (ERR_INVALID_ARGUMENT, (so', eo')) /\
    (forall i, 0 <= i < n -> exists e', clamp1 (elem uvw_d [i * 3 + dim]) f0 df (elem si_d [i]) (elem ei_d [i]) mn mx = Some (elem so' [i], e')) /\
    (exists s', clamp1 (elem uvw_d [(n - 1) * 3 + dim]) f0 df (elem si_d [n - 1]) (elem ei_d [n - 1]) mn mx = Some (s', elem eo' [0])).
Proof.
  intros Hn call Su Ss Se Sso Seo Hd NU. subst call. unfold clamp_single_api. cbn [failed]. change (location _ =? MEM_CPU) with true. cbn [negb].
  change (_ || (-1 <? 0)) with true. cbv iota. change (shape_dim (Some (coords n)) 0) with n. change (mtype (Some (coords n))) with MEM_DOUBLE.
  cbn [Z.eqb Pos.eqb orb MEM_DOUBLE]. change 8 with MEM_DOUBLE. rewrite clamp_views_ro. cbv iota beta.
  destruct (for_inv (fun k (o : nd Z * nd Z) => shape (fst o) = [n] /\ shape (snd o) = [n] /\
    (forall i, 0 <= i < k -> exists e', clamp1 (elem uvw_d [i * 3 + dim]) f0 df (elem si_d [i]) (elem ei_d [i]) mn mx = Some (elem (fst o) [i], e')) /\
    (0 < k -> exists s', clamp1 (elem uvw_d [(k - 1) * 3 + dim]) f0 df (elem si_d [k - 1]) (elem ei_d [k - 1]) mn mx = Some (s', elem (snd o) [0]))) 0 n
    (fun i o => let* u := vrd (mk_view (Some (1, 0)) [n; 3] [3; 1]) uvw_d [i; dim] in let* s := vrd (mk_view (Some (2, 0)) [n] [1]) si_d [i] in
       let* e := vrd (mk_view (Some (2, 0)) [n] [1]) ei_d [i] in let* (s', e') := clamp1 u f0 df s e mn mx in
       let* so_d := vwr (mk_view (Some (2, 0)) [n] [1]) (fst o) [i] s' in let* eo_d := vwr (mk_view (Some (2, 0)) [0] [0]) (snd o) [i] e' in Some (so_d, eo_d)) (so_d, eo_d))
    as ([so' eo'] & E & P); [lia| | |].
  - cbn [fst snd]. repeat apply conj; auto; intros; lia.
  - intros k [a b] Hk (Sa & Sb & V & W). cbn [fst snd] in *. unfold vrd, vwr. cbn [v_ptr v_stride dot].
    replace (3 * k + (1 * dim + 0)) with (k * 3 + dim) by ring. replace (1 * k + 0) with k by ring. replace (0 * k + 0) with 0 by ring.
    rewrite rd_some by (rewrite Su; apply in_shape_1; lia). cbn [bind]. rewrite rd_some by (rewrite Ss; apply in_shape_1; lia). cbn [bind].
    rewrite rd_some by (rewrite Se; apply in_shape_1; lia). cbn [bind].
    destruct (clamp1 (elem uvw_d [k * 3 + dim]) f0 df (elem si_d [k]) (elem ei_d [k]) mn mx) as [[s' e']|] eqn:Ck; [|exfalso; apply (NU k); [lia|exact Ck]]. cbn [bind].
    rewrite wr_some by (rewrite Sa; apply in_shape_1; lia). cbn [bind]. rewrite wr_some by (rewrite Sb; apply in_shape_1; lia). cbn [bind].
    eexists. split; [reflexivity|]. cbn [fst snd]. rewrite !shape_upd. repeat apply conj; auto.
    + intros i Hi. destruct (Z.eq_dec i k) as [->|Ni]; [rewrite elem_upd_same; eauto|]. rewrite elem_upd_other by (intro X; injection X; lia). apply V. lia.
    + intros _. replace (k + 1 - 1) with k by ring. rewrite elem_upd_same. eauto.
  - cbn [fst snd] in P. destruct P as (_ & _ & V & W). exists so', eo'. rewrite E. cbn [bind]. split; [reflexivity|]. split; [exact V|]. apply W. lia.
Qed.
Print Assumptions C67_clamp_refuted.

(** sdp_gridder_worst_case_image clears the image before it reports that it does not support the type. *)
Theorem C67_worst_case_refuted : exists image : nd Q, exists r, worst_case_image SUCCESS false 1 (3 # 4) image = Some (ERR_DATA_TYPE, r) /\ elem image [0; 0] = 1%Q /\ elem r [0; 0] = 0%Q.
Proof. exists (mk_nd [8; 8] (fun _ => 1%Q)). eexists. split; [vm_compute; reflexivity|]. split; reflexivity. Qed.
Print Assumptions C67_worst_case_refuted.

(** Failing calls exist; clamping with concrete numbers *)
Example C67_hyps (vd : nd C) dd fd ud : exists e, e <> SUCCESS /\ dft_point_v00 None None None None dd fd ud vd SUCCESS = Some (e, vd).
Proof. eexists. split; [|reflexivity]. discriminate. Qed.
Example C67_hyps_clamp : clamp1 10 (1000000 # 1) (1000000 # 1) 0 4 (-(1 # 2)) (1 # 2) = Some (0, 4).
Proof. vm_compute. reflexivity. Qed.
