(** C57: station beams; C80: dipole element patterns, over the real and complex numbers *)
From Coq Require Import Lra.
From Verif Require Import Base BaseFacts Sum CRing Cplx Clamp Mem Sets SphericalWave SphericalWaveFacts2 Station StationSpec StationFacts.
Open Scope Z_scope.

(** The output element of point j and evaluated polarisation p is norm * sum_i weight_i * e^{i k (x_i X_j + y_i Y_j + z_i Z_j)} * response_i,
    and no other element changes. *)
Theorem C57_beam pol num_in off_pts num_out off_output weights x_in y_in z_in x_out y_out z_out idx data output k norm eval_x eval_y : pol = 1 \/ pol = 4 ->
  beam_sizes pol num_in off_pts num_out off_output weights x_in y_in z_in x_out y_out z_out idx data output ->
  exists r, station_beam_dft pol k num_in weights x_in y_in z_in off_pts num_out x_out y_out z_out idx data off_output output norm eval_x eval_y = Some r /\ shape r = shape output /\
  (forall j p, 0 <= j < num_out -> evaluated pol eval_x eval_y p = true -> elem r [pol * (j + off_output) + p] =
    beam_sum num_in (fun i => elem weights [i]) (fun i => elem x_in [i]) (fun i => elem y_in [i]) (fun i => elem z_in [i]) k
      (elem x_out [j + off_pts]) (elem y_out [j + off_pts]) (direction_z z_out (j + off_pts)) (fun i => beam_response pol num_out idx data i j p) norm) /\
  (forall ix, (forall j p, 0 <= j < num_out -> evaluated pol eval_x eval_y p = true -> ix <> [pol * (j + off_output) + p]) -> elem r ix = elem output ix).
Proof.
  intros Hp B. assert (Sn : exists n, shape output = [n]). { destruct B as (_ & _ & _ & _ & _ & _ & _ & _ & _ & _ & _ & _ & (n & S & _) & _). eauto. } destruct Sn as (n & Sn).
  destruct (beam_sets pol num_in off_pts num_out off_output weights x_in y_in z_in x_out y_out z_out idx data output k norm eval_x eval_y Hp B n Sn output Sn) as (r & E & S & P & Q).
  exists r. split; [exact E|]. split; [congruence|]. split.
  - intros j p Hj Hx. apply (P [pol * (j + off_output) + p]); auto. apply own_all_true. exists j. split; [exact Hj|]. apply own_spec; eauto.
  - intros ix H. apply Q. apply own_all_false. intros j Hj. destruct (own pol off_output eval_x eval_y j ix) eqn:O; [|reflexivity].
    apply own_spec in O; [|exact Hp]. destruct O as (p & Hx & ->). exfalso. now apply (H j p).
Qed.
Print Assumptions C57_beam.

(** Linear in the weights *)
Theorem C57_linear pol num_in off_pts num_out off_output x_in y_in z_in x_out y_out z_out idx data output k norm eval_x eval_y (a b : C) w1 w2 w3 r1 r2 r3 : pol = 1 \/ pol = 4 ->
  (forall w, w = w1 \/ w = w2 \/ w = w3 -> beam_sizes pol num_in off_pts num_out off_output w x_in y_in z_in x_out y_out z_out idx data output) ->
  (forall i, 0 <= i < num_in -> elem w3 [i] = Cadd (Cmul a (elem w1 [i])) (Cmul b (elem w2 [i]))) ->
  let beam w := station_beam_dft pol k num_in w x_in y_in z_in off_pts num_out x_out y_out z_out idx data off_output output norm eval_x eval_y in
  beam w1 = Some r1 -> beam w2 = Some r2 -> beam w3 = Some r3 ->
  forall j p, 0 <= j < num_out -> evaluated pol eval_x eval_y p = true ->
  let at_ := [pol * (j + off_output) + p] in elem r3 at_ = Cadd (Cmul a (elem r1 at_)) (Cmul b (elem r2 at_)).
Proof.
  intros Hp B W beam E1 E2 E3 j p Hj Hx at_.
  destruct (C57_beam pol num_in off_pts num_out off_output w1 x_in y_in z_in x_out y_out z_out idx data output k norm eval_x eval_y Hp (B _ (or_introl eq_refl))) as (q1 & F1 & _ & V1 & _).
  destruct (C57_beam pol num_in off_pts num_out off_output w2 x_in y_in z_in x_out y_out z_out idx data output k norm eval_x eval_y Hp (B _ (or_intror (or_introl eq_refl)))) as (q2 & F2 & _ & V2 & _).
  destruct (C57_beam pol num_in off_pts num_out off_output w3 x_in y_in z_in x_out y_out z_out idx data output k norm eval_x eval_y Hp (B _ (or_intror (or_intror eq_refl)))) as (q3 & F3 & _ & V3 & _).
  unfold beam in *. rewrite F1 in E1. rewrite F2 in E2. rewrite F3 in E3. injection E1 as ->. injection E2 as ->. injection E3 as ->. unfold at_.
  rewrite V1, V2, V3 by assumption. unfold beam_sum.
  rewrite (sum_ext _ _ _ _ _ (fun i => Cadd (Cmul a (Cmul (Cmul (elem w1 [i]) (cis (k * (elem x_in [i] * elem x_out [(j + off_pts)%Z] + elem y_in [i] * elem y_out [(j + off_pts)%Z] + elem z_in [i] * direction_z z_out (j + off_pts)%Z)))) (beam_response pol num_out idx data i j p)))
    (Cmul b (Cmul (Cmul (elem w2 [i]) (cis (k * (elem x_in [i] * elem x_out [(j + off_pts)%Z] + elem y_in [i] * elem y_out [(j + off_pts)%Z] + elem z_in [i] * direction_z z_out (j + off_pts)%Z)))) (beam_response pol num_out idx data i j p))))).
  2:{ intros i Hi. rewrite W by exact Hi. csolve. }
  rewrite (sum_op _ _ Ccm). pose proof (@rsum_mul_l Cring) as ML. cbn [car radd rmul r0 Cring] in ML. rewrite <- !ML. generalize dependent (@sum C). intros. csolve.
Qed.
Print Assumptions C57_linear.

(** The order of the elements does not matter: permuting weights, positions and response indices together gives the same beam. *)
Theorem C57_order pol num_in off_pts num_out off_output x_out y_out z_out data output k norm eval_x eval_y (s : Z -> Z)
    w x y z idx w' x' y' z' idx' r r' : pol = 1 \/ pol = 4 ->
  (forall i, 0 <= i < num_in -> 0 <= s i < num_in) -> (forall i j, 0 <= i < num_in -> 0 <= j < num_in -> s i = s j -> i = j) ->
  (forall i, 0 <= i < num_in -> elem w' [i] = elem w [s i] /\ elem x' [i] = elem x [s i] /\ elem y' [i] = elem y [s i] /\ elem z' [i] = elem z [s i] /\ beam_index idx' i = beam_index idx (s i)) ->
  beam_sizes pol num_in off_pts num_out off_output w x y z x_out y_out z_out idx data output ->
  beam_sizes pol num_in off_pts num_out off_output w' x' y' z' x_out y_out z_out idx' data output ->
  station_beam_dft pol k num_in w x y z off_pts num_out x_out y_out z_out idx data off_output output norm eval_x eval_y = Some r ->
  station_beam_dft pol k num_in w' x' y' z' off_pts num_out x_out y_out z_out idx' data off_output output norm eval_x eval_y = Some r' ->
  forall ix, elem r' ix = elem r ix.
Proof.
  intros Hp S1 S2 H B B' E E' ix.
  destruct (C57_beam pol num_in off_pts num_out off_output w x y z x_out y_out z_out idx data output k norm eval_x eval_y Hp B) as (q & F & _ & V & U).
  destruct (C57_beam pol num_in off_pts num_out off_output w' x' y' z' x_out y_out z_out idx' data output k norm eval_x eval_y Hp B') as (q' & F' & _ & V' & U').
  rewrite F in E. rewrite F' in E'. injection E as ->. injection E' as ->.
  destruct (own_all 0 num_out (own pol off_output eval_x eval_y) ix) eqn:O.
  - apply own_all_true in O. destruct O as (j & Hj & O). apply own_spec in O; [|exact Hp]. destruct O as (p & Hx & ->). rewrite V, V' by assumption. unfold beam_sum. f_equal.
    etransitivity; [|apply (sum_perm _ _ Ccm s 0 num_in _ S1 S2)]. apply sum_ext. intros i Hi. cbn beta. destruct (H i Hi) as (Ew & Ex & Ey & Ez & Ei). rewrite Ew, Ex, Ey, Ez.
    f_equal. unfold beam_response. now rewrite Ei.
  - assert (N : forall j p, 0 <= j < num_out -> evaluated pol eval_x eval_y p = true -> ix <> [pol * (j + off_output) + p]).
    { intros j p Hj Hx K. pose proof (proj1 (own_all_false _ _ _ _) O j Hj) as O'. assert (own pol off_output eval_x eval_y j ix = true) by (apply own_spec; eauto). congruence. }
    now rewrite U, U' by exact N.
Qed.
Print Assumptions C57_order.

(** The normalised beam with unit weights and no element responses is 1 in the direction of the origin of the point coordinates. *)
Theorem C57_unit pol num_in off_pts num_out off_output w x y z x_out y_out z_out output k eval_x eval_y r j p : pol = 1 \/ pol = 4 -> 0 < num_in ->
  beam_sizes pol num_in off_pts num_out off_output w x y z x_out y_out z_out None None output ->
  (forall i, 0 <= i < num_in -> elem w [i] = C1) -> 0 <= j < num_out -> evaluated pol eval_x eval_y p = true ->
  elem x_out [j + off_pts] = 0%R -> elem y_out [j + off_pts] = 0%R -> direction_z z_out (j + off_pts) = 0%R ->
  station_beam_dft pol k num_in w x y z off_pts num_out x_out y_out z_out None None off_output output (1 / IZR num_in) eval_x eval_y = Some r ->
  elem r [pol * (j + off_output) + p] = C1.
Proof.
  intros Hp Hn B W Hj Hx X Y Z E.
  destruct (C57_beam pol num_in off_pts num_out off_output w x y z x_out y_out z_out None None output k (1 / IZR num_in)%R eval_x eval_y Hp B) as (q & F & _ & V & _).
  rewrite F in E. injection E as ->. rewrite V by assumption. rewrite X, Y, Z. unfold beam_sum.
  rewrite (sum_ext _ _ _ _ _ (fun _ => C1)). 2:{ intros i Hi. rewrite W by exact Hi. replace (k * (elem x [i] * 0 + elem y [i] * 0 + elem z [i] * 0))%R with 0%R by ring. rewrite cis_0. cbn [beam_response]. csolve. }
  assert (N : forall n : nat, sum Cadd C0 0 (Z.of_nat n) (fun _ => C1) = RtoC (INR n)).
  { induction n as [|n IH]; [reflexivity|]. replace (Z.of_nat (S n)) with (Z.of_nat n + 1) by lia. rewrite (sum_snoc _ _ Ccm) by lia. rewrite IH, S_INR. csolve. }
  replace num_in with (Z.of_nat (Z.to_nat num_in)) by lia. rewrite N, <- INR_IZR_INZ. assert (INR (Z.to_nat num_in) <> 0)%R by (apply not_0_INR; lia).
  apply C_eq; unfold Cmul, RtoC, C1; cbn [re im fst snd]; field; assumption.
Qed.
Print Assumptions C57_unit.

(** The API: what is computed for accepted arguments; every other call with a CPU output sets an error and writes nothing. *)
Theorem C57_api k w x y bi b out weights x_in y_in z_in off_pts num_points x_out y_out z_out idx data off_output output normalise eval_x eval_y :
  m_loc out = MEM_CPU -> 0 <= num_elements (Some x) <= 2147483647 ->
  let ok := is_complex (Some w) = true /\ (data <> None -> is_complex (Some b) = true) /\ (idx <> None -> m_type bi = MEM_INT) /\ is_complex (Some out) = true /\
            (m_type x = MEM_FLOAT \/ m_type x = MEM_DOUBLE) in
  let call st := station_beam k (Some w) (Some x) (Some y) (Some bi) (Some b) (Some out) weights x_in y_in z_in off_pts num_points x_out y_out z_out idx data off_output output normalise eval_x eval_y st in
  (ok -> call SUCCESS = bind (station_beam_dft (if is_complex4 (Some out) then 4 else 1) k (num_elements (Some x)) weights x_in y_in z_in off_pts num_points x_out y_out z_out idx data
     off_output output (if normalise then 1 / IZR (num_elements (Some x)) else 1) eval_x eval_y) (fun r => Some (SUCCESS, r))) /\
  (~ ok -> exists e, e <> SUCCESS /\ call SUCCESS = Some (e, output)) /\ (forall st, st <> SUCCESS -> call st = Some (st, output)).
Proof.
  intros Lo Hn. cbv zeta. unfold station_beam. cbn [failed]. rewrite to_int_in by exact Hn. cbn [bind mtype location]. rewrite Lo. change (MEM_CPU =? MEM_CPU) with true. split; [|split].
  - intros (-> & Hd & Hi & -> & T). cbn [negb].
    replace (match data with Some _ => negb (is_complex (Some b)) | None => false end) with false by (destruct data; [rewrite Hd by discriminate|]; reflexivity).
    replace (match idx with Some _ => negb (m_type bi =? MEM_INT) | None => false end) with false by (destruct idx; [rewrite Hi by discriminate|]; reflexivity).
    replace ((m_type x =? MEM_FLOAT) || (m_type x =? MEM_DOUBLE)) with true by (destruct T as [ -> | -> ]; reflexivity). reflexivity.
  - intro N. destruct (is_complex (Some w)) eqn:E1; [|eexists; split; [|reflexivity]; discriminate]. cbn [negb].
    destruct (match data with Some _ => negb (is_complex (Some b)) | None => false end) eqn:E2; [eexists; split; [|reflexivity]; discriminate|].
    destruct (match idx with Some _ => negb (m_type bi =? MEM_INT) | None => false end) eqn:E3; [eexists; split; [|reflexivity]; discriminate|].
    destruct (is_complex (Some out)) eqn:E4; [|eexists; split; [|reflexivity]; discriminate]. cbn [negb].
    destruct ((m_type x =? MEM_FLOAT) || (m_type x =? MEM_DOUBLE)) eqn:T; [|eexists; split; [|reflexivity]; discriminate].
    exfalso. apply N. split; [reflexivity|]. split; [destruct data; [intros _; now apply negb_false_iff in E2|congruence]|].
    split; [destruct idx; [intros _; apply negb_false_iff in E3; now apply Z.eqb_eq in E3|congruence]|]. split; [reflexivity|]. apply orb_prop in T. destruct T as [T|T]; apply Z.eqb_eq in T; auto.
  - intros st N. replace (failed st) with true; [reflexivity|]. destruct st; cbn; congruence.
Qed.
Print Assumptions C57_api.

Definition arr (ty : Z) (sh : list Z) : mem := fst (create_wrapper (Some (1, 0)) ty MEM_CPU sh None SUCCESS).
Definition dat {A} (v : A) (n : Z) : nd A := mk_nd [n] (fun _ => v).

(** The number of polarisations is taken from the output alone: a scalar element beam of the documented shape (elements, points) with a polarised
    output is accepted and read outside its bounds. *)
Theorem C57_shapes_refuted : 
  station_beam 1 (Some (arr MEM_COMPLEX_DOUBLE [1])) (Some (arr MEM_DOUBLE [1])) (Some (arr MEM_DOUBLE [1])) (Some (arr MEM_INT [1])) (Some (arr MEM_COMPLEX_DOUBLE [1; 1]))
    (Some (arr MEM_COMPLEX_DOUBLE [1; 4])) (dat C1 1) (dat 0%R 1) (dat 0%R 1) (dat 0%R 1) 0 1 (dat 0%R 1) (dat 0%R 1) None None (Some (dat C1 1)) 0 (dat C0 4) false true true SUCCESS = None.
Proof. reflexivity. Qed.
Print Assumptions C57_shapes_refuted.

(** The precision is taken from element_x alone: a single-precision output array is accepted with double-precision coordinates, and then has only half
    the bytes of the values stored (16 per point). *)
Theorem C57_types_refuted : let out := arr MEM_COMPLEX_FLOAT [3] in
  (exists r, station_beam 1 (Some (arr MEM_COMPLEX_DOUBLE [1])) (Some (arr MEM_DOUBLE [1])) (Some (arr MEM_DOUBLE [1])) (Some (arr MEM_INT [1])) (Some (arr MEM_COMPLEX_DOUBLE [1; 1]))
    (Some out) (dat C1 1) (dat 0%R 1) (dat 0%R 1) (dat 0%R 1) 0 3 (dat 0%R 3) (dat 0%R 3) None None None 0 (dat C0 3) false true true SUCCESS = Some (SUCCESS, r)) /\
  num_elements (Some out) * type_size (m_type out) < 3 * type_size MEM_COMPLEX_DOUBLE.
Proof. split; [|reflexivity]. eexists. reflexivity. Qed.
Print Assumptions C57_types_refuted.

Example C57_hyps : beam_sizes 4 2 0 1 0 (dat C1 2) (dat 0%R 2) (dat 0%R 2) (dat 0%R 2) (dat 0%R 1) (dat 0%R 1) None None (Some (dat C1 8)) (dat C0 4).
Proof.
  assert (A : forall T (v : T) n m, m <= n -> at_least (dat v n) m) by (intros; eexists; split; [reflexivity|assumption]).
  unfold beam_sizes. repeat apply conj; try (apply A; lia); try lia; try discriminate.
  intros d E i Hi. injection E as <-. cbn [beam_index]. split; [lia|]. split; [apply A; lia|lia].
Qed.

(** C80 *)
Lemma denom theta phi : (1 + cos phi * cos phi * (cos theta * cos theta - 1) = 1 - axis_cosine theta phi * axis_cosine theta phi)%R.
Proof.
  unfold axis_cosine. pose proof (sin2_cos2 theta) as T. unfold Rsqr in T. replace (cos theta * cos theta)%R with (1 - sin theta * sin theta)%R by lra. ring.
Qed.

(** The field of a dipole along x: transverse to the direction, of size |cos(kL u) - cos kL| / sqrt(1 - u^2) where u is the cosine of the angle to the
    dipole, and zero along the dipole. *)
Theorem C80_dipole kL theta phi : let u := axis_cosine theta phi in let (et, ep) := dipole kL (cos kL) phi (sin theta) (cos theta) in
  im et = 0%R /\ im ep = 0%R /\
  (u * u <> 1 -> re et = - (cos theta * cos phi) * ((cos (kL * u) - cos kL) / (1 - u * u)) /\ re ep = sin phi * ((cos (kL * u) - cos kL) / (1 - u * u)) /\
    Cnorm2 et + Cnorm2 ep = (cos (kL * u) - cos kL) * (cos (kL * u) - cos kL) / (1 - u * u))%R /\
  (u * u = 1 -> et = C0 /\ ep = C0)%R.
Proof.
  intro u. unfold dipole. cbv zeta. rewrite (denom theta phi). fold u. replace (kL * cos phi * sin theta)%R with (kL * u)%R by (unfold u, axis_cosine; ring).
  destruct (Req_EM_T (1 - u * u) 0) as [Z|N].
  - split; [reflexivity|]. split; [reflexivity|]. split; [intro H; exfalso; apply H; lra|]. intros _. split; reflexivity.
  - split; [reflexivity|]. split; [reflexivity|]. split; [|intro H; exfalso; apply N; lra]. intros _. unfold RtoC, Cnorm2. cbn [re im fst snd]. split; [ring|]. split; [ring|].
    assert (K : (cos phi * cos theta * (cos phi * cos theta) + sin phi * sin phi = 1 - u * u)%R).
    { unfold u. rewrite <- denom. pose proof (sin2_cos2 phi) as T. unfold Rsqr in T. replace (sin phi * sin phi)%R with (1 - cos phi * cos phi)%R by lra. ring. }
    set (d := (1 - u * u)%R) in *. set (c := (cos (kL * u) - cos kL)%R).
    replace (- cos phi * cos theta * (c / d) * (- cos phi * cos theta * (c / d)) + 0 * 0 + (sin phi * (c / d) * (sin phi * (c / d)) + 0 * 0))%R
      with ((cos phi * cos theta * (cos phi * cos theta) + sin phi * sin phi) * (c * c) / (d * d))%R by (field; exact N). rewrite K. field. exact N.
Qed.
Print Assumptions C80_dipole.

Lemma abs_sq x : (Rabs x * Rabs x = x * x)%R.
Proof. unfold Rabs. destruct (Rcase_abs x); ring. Qed.
Lemma cos_lip a b : (Rabs (cos a - cos b) <= Rabs (a - b))%R.
Proof.
  assert (M : forall a b, (a < b)%R -> (Rabs (cos b - cos a) <= b - a)%R).
  { intros a0 b0 L. destruct (MVT_cor2 cos (fun x => - sin x)%R a0 b0 L) as (c & E & _); [intros; apply derivable_pt_lim_cos|]. rewrite E, Rabs_mult, (Rabs_right (b0 - a0)) by lra.
    pose proof (SIN_bound c). assert (Rabs (- sin c) <= 1)%R by (apply Rabs_le; lra). pose proof (Rabs_pos (- sin c)). nra. }
  destruct (Rtotal_order a b) as [L|[->|L]].
  - rewrite Rabs_minus_sym, (Rabs_minus_sym a), (Rabs_right (b - a)) by lra. now apply M.
  - replace (cos b - cos b)%R with 0%R by ring. replace (b - b)%R with 0%R by ring. lra.
  - rewrite (Rabs_right (a - b)) by lra. now apply M.
Qed.

(** The field vanishes towards the dipole axis, so that the zero there is no jump: its squared size is at most kL^2 (1 - u^2). *)
Theorem C80_axis kL theta phi : let u := axis_cosine theta phi in let (et, ep) := dipole kL (cos kL) phi (sin theta) (cos theta) in
  (Cnorm2 et + Cnorm2 ep <= kL * kL * (1 - u * u))%R.
Proof.
  pose proof (C80_dipole kL theta phi) as D. cbv zeta in *. set (u := axis_cosine theta phi) in *. destruct (dipole _ _ _ _ _) as [et ep]. destruct D as (_ & _ & D1 & D2).
  destruct (Req_dec (u * u) 1) as [E|N].
  - destruct (D2 E) as [-> ->]. rewrite E. unfold Cnorm2, C0. cbn. lra.
  - destruct (D1 N) as (_ & _ & ->). assert (U : (u * u <= 1)%R).
    { unfold u. pose proof (denom theta phi). assert (0 <= sin phi * sin phi)%R by nra. assert (0 <= cos phi * cos phi * (cos theta * cos theta))%R by (apply Rmult_le_pos; nra).
      pose proof (sin2_cos2 phi) as T. unfold Rsqr in T. nra. }
    assert (Ea : cos (kL * u) = cos (kL * Rabs u)). { unfold Rabs. destruct (Rcase_abs u); [|reflexivity]. replace (kL * - u)%R with (- (kL * u))%R by ring. now rewrite cos_neg. }
    rewrite Ea. pose proof (cos_lip (kL * Rabs u) kL) as L. pose proof (Rabs_pos u) as P. assert (Pu : (Rabs u * Rabs u = u * u)%R) by apply abs_sq.
    set (v := Rabs u) in *. assert (v < 1)%R by nra. rewrite <- Pu.
    assert (S : ((cos (kL * v) - cos kL) * (cos (kL * v) - cos kL) <= kL * kL * ((1 - v) * (1 - v)))%R).
    { replace ((cos (kL * v) - cos kL) * (cos (kL * v) - cos kL))%R with (Rabs (cos (kL * v) - cos kL) * Rabs (cos (kL * v) - cos kL))%R by apply abs_sq.
      replace (kL * kL * ((1 - v) * (1 - v)))%R with (Rabs (kL * v - kL) * Rabs (kL * v - kL))%R by (rewrite abs_sq; ring).
      apply Rmult_le_compat; auto using Rabs_pos. }
    apply Rmult_le_reg_r with (1 - v * v)%R; [nra|]. unfold Rdiv. rewrite Rmult_assoc, Rinv_l, Rmult_1_r by nra. eapply Rle_trans; [exact S|].
    assert (0 <= kL * kL)%R by nra. assert ((1 - v) * (1 - v) <= (1 - v * v) * (1 - v * v))%R.
    { replace ((1 - v * v) * (1 - v * v))%R with ((1 - v) * (1 - v) * ((1 + v) * (1 + v)))%R by ring. rewrite <- (Rmult_1_r ((1 - v) * (1 - v))) at 1. apply Rmult_le_compat_l; nra. }
    rewrite (Rmult_assoc (kL * kL)). apply Rmult_le_compat_l; assumption.
Qed.
Print Assumptions C80_axis.

Definition value_at (kL theta phi : R) : C * C := dipole kL (cos kL) phi (sin theta) (cos theta).

(** Polarised output: theta component at stride i + offset and phi component next to it; nothing else changes. *)
Theorem C80_pattern num_points theta phi kL stride offset pattern n : at_least theta num_points -> at_least phi num_points -> shape pattern = [n] ->
  0 <= num_points -> 0 <= offset -> 2 <= stride -> num_points * stride + offset <= n -> n <= 2147483647 ->
  exists r, dipole_pattern num_points theta phi kL (cos kL) stride offset (offset + 1) pattern = Some r /\ shape r = [n] /\
  (forall i, 0 <= i < num_points -> elem r [i * stride + offset] = fst (value_at kL (elem theta [i]) (elem phi [i])) /\
     elem r [i * stride + offset + 1] = snd (value_at kL (elem theta [i]) (elem phi [i]))) /\
  (forall ix, (forall i, 0 <= i < num_points -> ix <> [i * stride + offset] /\ ix <> [i * stride + offset + 1]) -> elem r ix = elem pattern ix).
Proof.
  intros At Ap Sp H0 Ho Hs Hn Hi.
  pose (own := fun i (ix : list Z) => idx_eqb [i * stride + offset] ix || idx_eqb [i * stride + (offset + 1)] ix).
  pose (V := fun (ix : list Z) v => forall i, 0 <= i < num_points -> (ix = [i * stride + offset] -> v = fst (value_at kL (elem theta [i]) (elem phi [i]))) /\
    (ix = [i * stride + offset + 1] -> v = snd (value_at kL (elem theta [i]) (elem phi [i])))).
  assert (W : sets [n] (own_all 0 num_points own) V (fun p => dipole_pattern num_points theta phi kL (cos kL) stride offset (offset + 1) p)).
  { apply sets_for. intros i Hi'.
    apply (sets_ext _ (own i) _ _ (fun p => bind (wr p [i * stride + offset] (fst (value_at kL (elem theta [i]) (elem phi [i])))) (fun p => wr p [i * stride + (offset + 1)] (snd (value_at kL (elem theta [i]) (elem phi [i])))))); [|reflexivity|].
    - unfold own. apply sets_seq; apply sets_wr; try (apply in_shape_1; nia); intros i' H'; split; intro K; injection K as K.
      + assert (i' = i) as -> by nia. reflexivity.
      + exfalso. assert (i' < i \/ i' = i \/ i < i') as [L|[L|L]] by lia; nia.
      + exfalso. assert (i' < i \/ i' = i \/ i < i') as [L|[L|L]] by lia; nia.
      + assert (i' = i) as -> by nia. reflexivity.
    - intros p _. rewrite (rd_least phi num_points), (rd_least theta num_points) by assumption. cbn [bind]. unfold value_at. destruct (dipole _ _ _ _ _) as [et ep].
      rewrite !to_int_in by nia. reflexivity. }
  destruct (W pattern Sp) as (r & E & S & P1 & P2). exists r. split; [exact E|]. split; [exact S|]. split.
  - intros i Hi'. split.
    + apply (P1 [i * stride + offset]); [|exact Hi'|reflexivity]. apply own_all_true. exists i. split; [exact Hi'|]. unfold own. now rewrite idx_eqb_refl.
    + apply (P1 [i * stride + offset + 1]); [|exact Hi'|reflexivity]. apply own_all_true. exists i. split; [exact Hi'|]. unfold own. replace (i * stride + (offset + 1)) with (i * stride + offset + 1) by lia. now rewrite idx_eqb_refl, orb_true_r.
  - intros ix Hx. apply P2. apply own_all_false. intros i Hi'. destruct (Hx i Hi') as [N1 N2]. unfold own. replace (i * stride + (offset + 1)) with (i * stride + offset + 1) by lia. rewrite !idx_eqb_neq by congruence. reflexivity.
Qed.
Print Assumptions C80_pattern.

(** Scalar output: the root mean square of the sizes of the fields of the X and Y dipoles *)
Theorem C80_scalar num_points theta phi kL stride offset pattern n : at_least theta num_points -> at_least phi num_points -> shape pattern = [n] ->
  0 <= num_points -> 0 <= offset -> 1 <= stride -> num_points * stride + offset <= n -> n <= 2147483647 ->
  exists r, dipole_pattern_scalar num_points theta phi kL (cos kL) stride offset pattern = Some r /\ shape r = [n] /\
  (forall i, 0 <= i < num_points -> let size p := (Cnorm2 (fst (value_at kL (elem theta [i]) p)) + Cnorm2 (snd (value_at kL (elem theta [i]) p)))%R in
     elem r [i * stride + offset] = RtoC (sqrt ((size (elem phi [i]) + size (elem phi [i] + PI / 2)%R) / 2))) /\
  (forall ix, (forall i, 0 <= i < num_points -> ix <> [i * stride + offset]) -> elem r ix = elem pattern ix).
Proof.
  intros At Ap Sp H0 Ho Hs Hn Hi.
  pose (size := fun i p => (Cnorm2 (fst (value_at kL (elem theta [i]) p)) + Cnorm2 (snd (value_at kL (elem theta [i]) p)))%R).
  pose (val := fun i => RtoC (sqrt ((size i (elem phi [i]) + size i (elem phi [i] + PI / 2)%R) / 2))).
  assert (W : sets [n] (own_all 0 num_points (fun i => idx_eqb [i * stride + offset])) (fun ix v => forall i, 0 <= i < num_points -> ix = [i * stride + offset] -> v = val i)
    (fun p => dipole_pattern_scalar num_points theta phi kL (cos kL) stride offset p)).
  { apply sets_for. intros i Hi'. apply (sets_ext _ (idx_eqb [i * stride + offset]) _ _ (fun p => wr p [i * stride + offset] (val i))); [|reflexivity|].
    - apply sets_wr; [apply in_shape_1; nia|]. intros i' H' K. injection K as K. assert (i' = i) as -> by nia. reflexivity.
    - intros p _. rewrite (rd_least phi num_points), (rd_least theta num_points) by assumption. cbn [bind]. unfold val, size, value_at.
      pose proof (C80_dipole kL (elem theta [i]) (elem phi [i])) as D1. pose proof (C80_dipole kL (elem theta [i]) (elem phi [i] + PI / 2)) as D2. cbv zeta in D1, D2.
      destruct (dipole kL (cos kL) (elem phi [i]) _ _) as [xt xp]. destruct (dipole kL (cos kL) (elem phi [i] + PI / 2) _ _) as [yt yp].
      destruct D1 as (I1 & I2 & _). destruct D2 as (I3 & I4 & _). rewrite !to_int_in by nia. cbn [bind fst snd]. unfold Cnorm2. rewrite I1, I2, I3, I4. apply f_equal. apply (f_equal RtoC). apply (f_equal sqrt). field. }
  destruct (W pattern Sp) as (r & E & S & P1 & P2). exists r. split; [exact E|]. split; [exact S|]. split.
  - intros i Hi'. cbv zeta. fold (size i (elem phi [i])). fold (size i (elem phi [i] + PI / 2)%R). apply (P1 [i * stride + offset]); auto. apply own_all_true. exists i. split; [exact Hi'|]. apply idx_eqb_refl.
  - intros ix Hx. apply P2. apply own_all_false. intros i Hi'. apply idx_eqb_neq. intro K. now apply (Hx i Hi').
Qed.
Print Assumptions C80_scalar.

(** The API, with kL = pi * length * frequency / c *)
Theorem C80_api num_points theta phi beam theta_d phi_d freq len stride offset beam_d : m_loc beam = MEM_CPU ->
  let ok := m_loc theta = MEM_CPU /\ m_loc phi = MEM_CPU /\ (m_type beam = MEM_COMPLEX_FLOAT \/ m_type beam = MEM_COMPLEX_DOUBLE) /\ has_data (Some beam) = true in
  let kL := (PI * len * freq / 299792458)%R in
  let call st := element_beam_dipole num_points (Some theta) (Some phi) (Some beam) theta_d phi_d freq len stride offset beam_d st in
  (ok -> call SUCCESS = bind (if is_complex4 (Some beam) then dipole_pattern num_points theta_d phi_d kL (cos kL) stride offset (offset + 1) beam_d
     else dipole_pattern_scalar num_points theta_d phi_d kL (cos kL) stride offset beam_d) (fun r => Some (SUCCESS, r))) /\
  (~ ok -> exists e, e <> SUCCESS /\ call SUCCESS = Some (e, beam_d)) /\ (forall st, st <> SUCCESS -> call st = Some (st, beam_d)).
Proof.
  intro Lb. cbv zeta. unfold element_beam_dipole. cbn [failed location mtype]. rewrite Lb. replace (len * (PI * freq / 299792458))%R with (PI * len * freq / 299792458)%R by field.
  change (MEM_CPU =? MEM_CPU) with true. cbn [negb]. split; [|split].
  - intros (-> & -> & T & D). change (MEM_CPU =? MEM_CPU) with true. cbn [negb orb].
    replace (is_complex (Some beam)) with true by (unfold is_complex; rewrite D; destruct T as [ -> | -> ]; reflexivity). cbn [negb].
    replace ((m_type beam =? MEM_COMPLEX_FLOAT) || (m_type beam =? MEM_COMPLEX_DOUBLE)) with true by (destruct T as [ -> | -> ]; reflexivity). reflexivity.
  - intro N. destruct (m_loc theta =? MEM_CPU) eqn:E1; [|eexists; split; [|reflexivity]; discriminate]. destruct (m_loc phi =? MEM_CPU) eqn:E2; [|eexists; split; [|reflexivity]; discriminate]. cbn [negb orb].
    destruct (is_complex (Some beam)) eqn:E3; [|eexists; split; [|reflexivity]; discriminate]. cbn [negb].
    destruct ((m_type beam =? MEM_COMPLEX_FLOAT) || (m_type beam =? MEM_COMPLEX_DOUBLE)) eqn:T; [|eexists; split; [|reflexivity]; discriminate].
    exfalso. apply N. apply Z.eqb_eq in E1, E2. split; [exact E1|]. split; [exact E2|]. split; [apply orb_prop in T; destruct T as [T|T]; apply Z.eqb_eq in T; auto|].
    unfold is_complex in E3. apply andb_prop in E3. tauto.
  - intros st N. replace (failed st) with true; [reflexivity|]. destruct st; cbn; congruence.
Qed.
Print Assumptions C80_api.

Example C80_hyps : exists r, dipole_pattern 2 (dat 1%R 2) (dat 1%R 2) 1 (cos 1) 4 2 (2 + 1) (dat C0 12) = Some r.
Proof.
  destruct (C80_pattern 2 (dat 1%R 2) (dat 1%R 2) 1 4 2 (dat C0 12) 12) as (r & E & _); try (eexists; split; [reflexivity|lia]); try reflexivity; try lia. eauto.
Qed.
