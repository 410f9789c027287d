(** C54: visibility weighting.  Exact arithmetic; weights in any commutative ring. *)
From Coq Require Import Reals QArith Qround Qabs Lia Lra.
From Verif Require Import Base BaseFacts Sum Mem MemSpec Checks CRing Cplx Clamp Sets DftFacts2 Weighting WeightingSpec WeightingFacts.
Open Scope Z_scope.

Lemma weights_md_ok (m : mem) nt nb nc np st md st' : mem_wf m -> m_shape m = [nt; nb; nc; np] -> get_weights_metadata (Some m) st = (md, st') ->
  st' <> SUCCESS \/ (st = SUCCESS /\ st' = SUCCESS /\ md = Some (m_type m, m_loc m, nt, nb, nc, np)).
Proof.
  intros W S. unfold get_weights_metadata. destruct (failed st) eqn:F; [intro E; injection E as <- <-; left; intros ->; discriminate|].
  apply failed_false in F. subst st. destruct (negb _); [intro E; injection E as <- <-; left; discriminate|].
  destruct (is_complex _); [intro E; injection E as <- <-; left; discriminate|]. destruct (shape4_dims m nt nb nc np W S) as (-> & -> & -> & ->).
  intro E. injection E as <- <-. right. auto.
Qed.
Lemma location_ok m l st : check_location m l st = SUCCESS -> st = SUCCESS.
Proof. unfold check_location. destruct st; cbn; auto; discriminate. Qed.
Lemma num_dims_ok m d st : check_num_dims m d st = SUCCESS -> st = SUCCESS.
Proof. unfold check_num_dims. destruct st; cbn; auto; discriminate. Qed.

Lemma checks_ok {A : cring} uvw freq grid input output uvw_d freq_d (grid_d input_d output_d : nd A) nt nb nc np gs st r :
  fits uvw freq grid input output uvw_d freq_d grid_d input_d output_d nt nb nc np gs ->
  weighting_checks (Some uvw) (Some freq) (Some grid) (Some input) (Some output) st = r ->
  snd r <> SUCCESS \/ (r = (nt, nb, nc, np, m_type output, gs, SUCCESS) /\ shape uvw_d = [nt * nb * 3]).
Proof.
  intros [(W1 & W2 & W3 & W4) _ So Si T Sg Su _ _ _ _] E. unfold weighting_checks in E.
  destruct (get_weights_metadata (Some input) st) as [md1 s1] eqn:M1. destruct (get_weights_metadata (Some output) s1) as [md2 s2] eqn:M2.
  apply (weights_md_ok output nt nb nc np) in M2; auto.
  destruct (match md2 with Some d => d | None => _ end) as [[[[[ty loc] a] b] c] d] eqn:D. cbv zeta in E. subst r. cbn [snd].
  match goal with |- ?s <> SUCCESS \/ _ => destruct (failed s) eqn:F end; [left; intro X; rewrite X in F; discriminate|right].
  apply failed_false in F. pose proof F as F0. apply dim_size_ok in F. destruct F as [F _]. apply num_dims_ok in F. apply writeable_ok in F. destruct F as [F _].
  apply writeable_ok in F. destruct F as [F _]. apply location_ok in F. apply location_ok in F. apply uvw_ok in F; [|exact W1]. destruct F as [-> F].
  destruct M2 as [M2|(-> & _ & ->)]; [congruence|]. injection D as <- <- <- <- <- <-.
  assert (shape_dim (Some grid) 0 = gs) as G by (unfold shape_dim; destruct W2 as (_ & -> & _); rewrite Sg; reflexivity).
  rewrite F0, G. split; [reflexivity|]. rewrite Su, F. unfold product. cbn [fold_right]. f_equal. ring.
Qed.

(** Uniform weighting: no element out of range is accessed, an error changes nothing, the grid receives the sum of the weights of the
    visibilities of every cell, and every visibility on the grid gets the inverse of the value of its own cell. *)
Theorem C54_uniform {A : cring} (wdiv : A -> A -> A) uvw freq max_abs_uv grid input output uvw_d freq_d grid_d input_d output_d nt nb nc np gs st :
  fits uvw freq grid input output uvw_d freq_d grid_d input_d output_d nt nb nc np gs -> in_view nt nb nc gs uvw_d freq_d max_abs_uv ->
  exists st' g r, weighting_uniform wdiv (Some uvw) (Some freq) max_abs_uv (Some grid) (Some input) (Some output) uvw_d freq_d grid_d input_d output_d st = Some (st', g, r) /\
    (st' <> SUCCESS -> g = grid_d /\ r = output_d) /\
    (st' = SUCCESS ->
      (forall u v p, 0 <= u < gs -> 0 <= v < gs -> 0 <= p < np ->
        grid_at np gs g u v p = (grid_at np gs grid_d u v p + deposited nt nb nc np gs uvw_d freq_d max_abs_uv input_d u v p)%cr) /\
      (forall t b c p, 0 <= t < nt -> 0 <= b < nb -> 0 <= c < nc -> 0 <= p < np ->
        weight nb nc np r t b c p = if on_grid nb gs uvw_d freq_d max_abs_uv t b c then wdiv r1 (own_cell nb np gs uvw_d freq_d max_abs_uv g t b c p)
                                    else weight nb nc np output_d t b c p)).
Proof.
  intros W HV. unfold weighting_uniform. destruct (failed st) eqn:F. { eexists _, _, _. split; [reflexivity|]. split; [auto|]. intros ->. discriminate. }
  destruct (weighting_checks _ _ _ _ _ st) as [[[[[[a b] c] d] ty] g0] s] eqn:K. destruct (checks_ok _ _ _ _ _ _ _ _ _ _ _ _ _ _ _ _ _ W K) as [N|[X Su]].
  { cbn [snd] in N. destruct (failed s) eqn:F2; [|apply failed_false in F2; congruence]. eexists _, _, _. split; [reflexivity|]. split; [auto|]. congruence. }
  injection X as -> -> -> -> -> -> ->. change (failed SUCCESS) with false. cbv iota. destruct (weighting_types _ _ _ _).
  2:{ eexists _, _, _. split; [reflexivity|]. split; [auto|]. discriminate. }
  destruct W as [_ (H1 & H2 & H3 & H4 & H5) _ _ T _ _ Sf Sg Si So].
  unfold input_as. cbn [mtype]. rewrite T, Z.eqb_refl. cbn [bind].
  destruct (write_ok nt nb nc np gs uvw_d freq_d max_abs_uv H1 H2 H3 H4 H5 Su Sf HV input_d grid_d Si Sg) as (g & -> & Sg' & P). cbn [bind].
  destruct (uniform_ok wdiv nt nb nc np gs uvw_d freq_d max_abs_uv H5 Su Sf HV g output_d Sg' So) as (r & -> & Sr & Q). cbn [bind].
  eexists _, _, _. split; [reflexivity|]. split; [congruence|]. auto.
Qed.
Print Assumptions C54_uniform.

(** Briggs weighting: w / (1 + f2 g) with f2 = strength / (sum g^2 / sum g), sums over the cells of all visibilities. *)
Theorem C54_briggs {A : cring} (wdiv : A -> A -> A) strength uvw freq max_abs_uv grid input output uvw_d freq_d grid_d input_d output_d nt nb nc np gs st :
  fits uvw freq grid input output uvw_d freq_d grid_d input_d output_d nt nb nc np gs -> in_view nt nb nc gs uvw_d freq_d max_abs_uv ->
  exists st' g r, weighting_briggs wdiv (Some uvw) (Some freq) max_abs_uv strength (Some grid) (Some input) (Some output) uvw_d freq_d grid_d input_d output_d st = Some (st', g, r) /\
    (st' <> SUCCESS -> g = grid_d /\ r = output_d) /\
    (st' = SUCCESS ->
      let value := own_cell nb np gs uvw_d freq_d max_abs_uv g in
      let sum1 := total nt nb nc gs uvw_d freq_d max_abs_uv (fun t b c => rsum 0 np (fun p => value t b c p)) in
      let sum2 := total nt nb nc gs uvw_d freq_d max_abs_uv (fun t b c => rsum 0 np (fun p => (value t b c p * value t b c p)%cr)) in
      (forall u v p, 0 <= u < gs -> 0 <= v < gs -> 0 <= p < np ->
        grid_at np gs g u v p = (grid_at np gs grid_d u v p + deposited nt nb nc np gs uvw_d freq_d max_abs_uv input_d u v p)%cr) /\
      (forall t b c p, 0 <= t < nt -> 0 <= b < nb -> 0 <= c < nc -> 0 <= p < np ->
        weight nb nc np r t b c p = if on_grid nb gs uvw_d freq_d max_abs_uv t b c
          then wdiv (weight nb nc np input_d t b c p) (r1 + wdiv strength (wdiv sum2 sum1) * value t b c p)%cr
          else weight nb nc np output_d t b c p)).
Proof.
  intros W HV. unfold weighting_briggs. destruct (failed st) eqn:F. { eexists _, _, _. split; [reflexivity|]. split; [auto|]. intros ->. discriminate. }
  destruct (weighting_checks _ _ _ _ _ st) as [[[[[[a b] c] d] ty] g0] s] eqn:K. destruct (checks_ok _ _ _ _ _ _ _ _ _ _ _ _ _ _ _ _ _ W K) as [N|[X Su]].
  { cbn [snd] in N. destruct (failed s) eqn:F2; [|apply failed_false in F2; congruence]. eexists _, _, _. split; [reflexivity|]. split; [auto|]. congruence. }
  injection X as -> -> -> -> -> -> ->. change (failed SUCCESS) with false. cbv iota. destruct (weighting_types _ _ _ _).
  2:{ eexists _, _, _. split; [reflexivity|]. split; [auto|]. discriminate. }
  destruct W as [_ (H1 & H2 & H3 & H4 & H5) _ _ T _ _ Sf Sg Si So].
  unfold input_as. cbn [mtype]. rewrite T, Z.eqb_refl. cbn [bind].
  destruct (write_ok nt nb nc np gs uvw_d freq_d max_abs_uv H1 H2 H3 H4 H5 Su Sf HV input_d grid_d Si Sg) as (g & -> & Sg' & P). cbn [bind].
  rewrite (sums_ok wdiv nt nb nc np gs uvw_d freq_d max_abs_uv H1 H2 H3 H4 H5 Su Sf HV g Sg'). cbn [bind].
  match goal with |- context [robustness_calc wdiv ?x ?y strength] => destruct (briggs_ok wdiv nt nb nc np gs uvw_d freq_d max_abs_uv H5 Su Sf HV g input_d output_d (robustness_calc wdiv x y strength) Sg' Si So) as (r & -> & Sr & Q) end. cbn [bind].
  eexists _, _, _. split; [reflexivity|]. split; [congruence|]. intros _. cbv zeta. split; [exact P|exact Q].
Qed.
Print Assumptions C54_briggs.

(** Coordinates within the documented maximum are in view. *)
Theorem C54_documented_range nt nb nc gs uvw_d freq_d max : 0 <= gs <= 9223372036854775807 -> (0 < max)%Q ->
  (forall t b c i, 0 <= t < nt -> 0 <= b < nb -> 0 <= c < nc -> i = 0 \/ i = 1 -> (Qabs (wavelengths nb uvw_d freq_d t b c i) <= max)%Q) ->
  in_view nt nb nc gs uvw_d freq_d max.
Proof.
  intros Hg Hm H. split; [intro E; rewrite E in Hm; now apply Qlt_irrefl in Hm|]. intros t b c Ht Hb Hc.
  pose proof (H t b c 0 Ht Hb Hc (or_introl eq_refl)) as H0. pose proof (H t b c 1 Ht Hb Hc (or_intror eq_refl)) as H1.
  apply Qabs_Qle_condition in H0. apply Qabs_Qle_condition in H1.
  pose proof (cell_index_range gs max (wavelengths nb uvw_d freq_d t b c 0) ltac:(lia) Hm (proj1 H0) (proj2 H0)).
  pose proof (cell_index_range gs max (wavelengths nb uvw_d freq_d t b c 1) ltac:(lia) Hm (proj1 H1) (proj2 H1)). unfold cell_u, cell_v. lia.
Qed.
Print Assumptions C54_documented_range.

(** With a zero grid, the uniform weight of a visibility times the total input weight of its cell is one. *)
Theorem C54_uniform_inverse uvw freq max_abs_uv grid input output uvw_d freq_d grid_d input_d output_d nt nb nc np gs g r :
  fits uvw freq grid input output uvw_d freq_d grid_d input_d output_d nt nb nc np gs -> in_view nt nb nc gs uvw_d freq_d max_abs_uv ->
  (forall i, elem grid_d i = 0%R) ->
  weighting_uniform (A := Rring) Rdiv (Some uvw) (Some freq) max_abs_uv (Some grid) (Some input) (Some output) uvw_d freq_d grid_d input_d output_d SUCCESS = Some (SUCCESS, g, r) ->
  forall t b c p, 0 <= t < nt -> 0 <= b < nb -> 0 <= c < nc -> 0 <= p < np -> on_grid nb gs uvw_d freq_d max_abs_uv t b c = true ->
    let cell_weight := deposited (A := Rring) nt nb nc np gs uvw_d freq_d max_abs_uv input_d (cell_u nb gs uvw_d freq_d max_abs_uv t b c) (cell_v nb gs uvw_d freq_d max_abs_uv t b c) p in
    cell_weight <> 0%R -> (weight (A := Rring) nb nc np r t b c p * cell_weight = 1)%R.
Proof.
  intros W HV Z0 E t b c p Ht Hb Hc Hp O cw Nz.
  destruct (C54_uniform (A := Rring) Rdiv uvw freq max_abs_uv grid input output uvw_d freq_d grid_d input_d output_d nt nb nc np gs SUCCESS W HV) as (st & g' & r' & E' & _ & P).
  assert (X : Some (SUCCESS, g, r) = Some (st, g', r')) by (rewrite <- E; exact E'). injection X as <- <- <-. destruct (P eq_refl) as [P1 P2].
  rewrite (P2 t b c p Ht Hb Hc Hp), O. unfold own_cell.
  destruct HV as [_ HV]. specialize (HV t b c Ht Hb Hc). unfold on_grid in O. rewrite (P1 _ _ p) by lia. unfold grid_at at 1. rewrite Z0.
  unfold cw in *. cbn [radd Rring r0 r1]. change (@r1 Rring) with 1%R. rewrite Rplus_0_l. unfold Rdiv. rewrite Rmult_1_l. now apply Rinv_l.
Qed.
Print Assumptions C54_uniform_inverse.

Definition arr (ty : Z) (sh : list Z) : mem := fst (create_wrapper (Some (1, 0)) ty MEM_CPU sh None SUCCESS).
Definition dat {A} (d : A) (l : list A) : nd A := mk_nd [Z.of_nat (length l)] (fun i => nth (Z.to_nat (nth 0 i 0)) l d).
(** One time, baseline, channel and polarisation at the speed of light in Hz (coordinates in metres are wavelengths), a 4 x 4 grid over -8 .. 8,
    whole numbers as weights *)
Definition run (u v : Q) (wshape : list Z) (wty : Z) (freqs : list Q) (gridp : Z) : option (error * nd Z * nd Z) :=
  weighting_uniform (A := Zring) Z.quot (Some (arr MEM_DOUBLE [1; 1; 3])) (Some (arr MEM_DOUBLE [Z.of_nat (length freqs)])) 8
    (Some (arr MEM_DOUBLE [4; 4; gridp])) (Some (arr wty wshape)) (Some (arr MEM_DOUBLE [1; 1; 1; 2]))
    (dat 0%Q [u; v; 0%Q]) (dat 0%Q freqs) (mk_nd [16 * gridp] (fun _ => 0)) (mk_nd [fold_right Z.mul 1 wshape] (fun _ => 1)) (mk_nd [2] (fun _ => 7)) SUCCESS.
Definition c0 : Q := 299792458.

(** A coordinate below minus the maximum gives a negative cell, which is not rejected: an access before the start of the grid. *)
Theorem C54_negative_refuted : run (-9) (-9) [1; 1; 1; 2] MEM_DOUBLE [c0] 2 = None /\ run (-7) (-7) [1; 1; 1; 2] MEM_DOUBLE [c0] 2 <> None.
Proof. split; [vm_compute; reflexivity|]. vm_compute. discriminate. Qed.
Print Assumptions C54_negative_refuted.

(** A coordinate that is in the documented range and equal to the maximum has no cell: its output weight is not written. *)
Theorem C54_edge_refuted : exists g r, run 8 0 [1; 1; 1; 2] MEM_DOUBLE [c0] 2 = Some (SUCCESS, g, r) /\ elem r [0] = 7 /\ elem r [1] = 7.
Proof. eexists _, _. split; [vm_compute; reflexivity|]. vm_compute. auto. Qed.
Print Assumptions C54_edge_refuted.

(** Shapes and types that the checks accept and that lead out of the arrays: input weights of another shape or type than the output, too few
    frequencies, a grid with fewer polarisations. *)
Theorem C54_shapes_refuted : run 7 7 [1; 1; 1; 1] MEM_DOUBLE [c0] 2 = None /\ run 7 7 [1; 1; 1; 2] MEM_FLOAT [c0] 2 = None /\
  run 7 7 [1; 1; 1; 2] MEM_DOUBLE [] 2 = None /\ run 7 7 [1; 1; 1; 2] MEM_DOUBLE [c0] 1 = None /\
  exists g r, run 7 7 [1; 1; 1; 2] MEM_DOUBLE [c0] 2 = Some (SUCCESS, g, r).
Proof. repeat (split; [vm_compute; reflexivity|]). eexists _, _. vm_compute. reflexivity. Qed.
Print Assumptions C54_shapes_refuted.

Example C54_hyps : let uvw := dat 0%Q [3; -5; 0; -8; 2; 0]%Q in let freq := dat 0%Q [c0; (1 # 2) * c0]%Q in
  fits (arr MEM_DOUBLE [1; 2; 3]) (arr MEM_DOUBLE [2]) (arr MEM_DOUBLE [4; 4; 1]) (arr MEM_DOUBLE [1; 2; 2; 1]) (arr MEM_DOUBLE [1; 2; 2; 1])
    uvw freq (mk_nd [16] (fun _ => 0)) (mk_nd [4] (fun _ => 1)) (mk_nd [4] (fun _ => 0)) 1 2 2 1 4 /\
  in_view 1 2 2 4 uvw freq 8 /\ on_grid 2 4 uvw freq 8 0 1 0 = true.
Proof.
  cbv zeta. split.
  - constructor; try reflexivity; [|lia]. unfold mem_wf; repeat split; try reflexivity; repeat constructor.
  - split; [|vm_compute; reflexivity]. split; [intro E; vm_compute in E; discriminate|]. intros t b c Ht Hb Hc.
    assert (t = 0) as -> by lia. assert (b = 0 \/ b = 1) as [-> | ->] by lia; assert (c = 0 \/ c = 1) as [-> | ->] by lia; vm_compute; repeat split; discriminate.
Qed.
