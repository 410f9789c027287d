(** C49, C71: phase rotation.  Exact arithmetic (real and complex numbers). *)
From Coq Require Import Reals Lra Lia.
From Verif Require Import Base BaseFacts Mem MemSpec Checks CRing Cplx Sets Dft DftSpec DftFacts2 PhaseRotate PhaseRotateSpec PhaseRotateFacts.
Open Scope Z_scope.

(** Rotation never fails undefinedly, leaves the output alone on error and otherwise gives every row ... *)
Lemma uvw_api orig new alias uin uout in_d out_d st : mem_wf uin -> mem_wf uout -> contents uin in_d -> contents uout out_d -> (alias = true -> in_d = out_d) ->
  exists st' r, phase_rotate_uvw orig new alias (Some uin) (Some uout) in_d out_d st = Some (st', r) /\ shape r = shape out_d /\
    (st' <> SUCCESS -> r = out_d) /\
    (st' = SUCCESS -> m_shape uout = m_shape uin /\ 0 <= rows uin /\ shape r = [3 * rows uin] /\ forall i, 0 <= i < rows uin ->
      let m := rot_matrix orig new in let q := row in_d i in
      row r i = V (m 0%Z * vx q + m 1%Z * vy q + m 2%Z * vz q) (m 3%Z * vx q + m 4%Z * vy q + m 5%Z * vz q) (m 6%Z * vx q + m 7%Z * vy q + m 8%Z * vz q)).
Proof.
  intros W1 W2 (S1 & F1) (S2 & F2) Al. unfold phase_rotate_uvw.
  destruct (failed st) eqn:F. { eexists _, _. split; [reflexivity|]. split; [reflexivity|]. split; [reflexivity|]. intros ->. discriminate. }
  apply failed_false in F. subst st.
  pose proof (rotate_uvw_checks uin uout SUCCESS W1 W2) as K. cbv zeta in K |- *.
  destruct (get_uvw_metadata (Some uin) (check_writeable (Some uout) SUCCESS)) as [md s1] eqn:M.
  set (d := match md with Some x => x | None => _ end) in *. destruct d as [[[ty loc] nt] nb] eqn:Ed. subst d.
  destruct (failed (check_uvw _ _ _ _ _ _)) eqn:F.
  { eexists _, _. split; [reflexivity|]. split; [reflexivity|]. split; [reflexivity|]. intro E. rewrite E in F. discriminate. }
  apply failed_false in F. specialize (K F). destruct K as (nt' & nb' & D1 & D2).
  destruct (_ || _). 2:{ eexists _, _. split; [reflexivity|]. split; [reflexivity|]. split; [reflexivity|]. discriminate. }
  assert (s1 = SUCCESS) as ->. { destruct s1; try reflexivity; unfold check_uvw in F; cbn in F; discriminate. }
  apply uvw_md_ok in M; [|exact W1]. destruct M as (nt2 & nb2 & _ & D3 & ->). injection Ed as <- <- <- <-.
  rewrite D1 in D3. injection D3 as <- <-. unfold rows. rewrite D1 in *. rewrite D2 in *. cbn [nth] in *.
  rewrite !Forall_cons_iff in *. unfold product in *. cbn [fold_right] in *.
  destruct (rotate_uvw_ok alias (nt' * nb') (rot_matrix orig new) in_d out_d (3 * (nt' * nb')) (3 * (nt' * nb'))) as (r & E & S & P & _); auto; try nia.
  { rewrite S1. f_equal. ring. } { rewrite S2. f_equal. ring. }
  rewrite E. cbn [bind]. eexists _, _. split; [reflexivity|]. split; [rewrite S, S2; f_equal; ring|]. split; [congruence|]. intros _.
  split; [reflexivity|]. split; [nia|]. split; [exact S|]. exact P.
Qed.

Ltac eval_matrix := unfold rot_matrix; cbn [Z.eqb Pos.eqb].

Lemma sc2 t : (cos t * cos t = 1 - sin t * sin t)%R.
Proof. pose proof (sin2_cos2 t) as H. unfold Rsqr in H. lra. Qed.

(** The length of every baseline is preserved, in place or not; an error changes nothing. *)
Theorem C49_uvw_length orig new alias uin uout in_d out_d st : mem_wf uin -> mem_wf uout -> contents uin in_d -> contents uout out_d -> (alias = true -> in_d = out_d) ->
  exists st' r, phase_rotate_uvw orig new alias (Some uin) (Some uout) in_d out_d st = Some (st', r) /\
    (st' <> SUCCESS -> r = out_d) /\
    (st' = SUCCESS -> forall i, 0 <= i < rows uin -> length2 (row r i) = length2 (row in_d i)).
Proof.
  intros W1 W2 C1 C2 Al. destruct (uvw_api orig new alias uin uout in_d out_d st W1 W2 C1 C2 Al) as (st' & r & E & _ & N & P).
  exists st', r. split; [exact E|]. split; [exact N|]. intros Hs i Hi. destruct (P Hs) as (_ & _ & _ & Q). rewrite Q by auto. eval_matrix.
  set (a := (- _)%R). set (d := (_ - sky_value orig 1)%R). generalize (row in_d i). intros [x y z].
  unfold length2, inner. cbn [vx vy vz]. pose proof (sc2 a) as A. pose proof (sc2 d) as D.
  transitivity ((x * x) * (cos a * cos a + (sin a * sin a) * (sin d * sin d + cos d * cos d)) + (y * y) * (cos d * cos d + sin d * sin d) +
    (z * z) * (sin a * sin a + (cos a * cos a) * (sin d * sin d + cos d * cos d)) + 2 * x * z * (cos a * sin a) * (1 - (sin d * sin d + cos d * cos d)))%R; [ring|].
  replace (sin d * sin d + cos d * cos d)%R with 1%R by lra. rewrite D, A. ring.
Qed.
Print Assumptions C49_uvw_length.

(** Rotating to the same centre changes nothing. *)
Theorem C49_uvw_same orig new alias uin uout in_d out_d st : mem_wf uin -> mem_wf uout -> contents uin in_d -> contents uout out_d -> (alias = true -> in_d = out_d) ->
  sky_value new 0 = sky_value orig 0 -> sky_value new 1 = sky_value orig 1 ->
  exists st' r, phase_rotate_uvw orig new alias (Some uin) (Some uout) in_d out_d st = Some (st', r) /\
    (st' = SUCCESS -> forall i, 0 <= i < rows uin -> row r i = row in_d i).
Proof.
  intros W1 W2 C1 C2 Al Hr Hd. destruct (uvw_api orig new alias uin uout in_d out_d st W1 W2 C1 C2 Al) as (st' & r & E & _ & N & P).
  exists st', r. split; [exact E|]. intros Hs i Hi. destruct (P Hs) as (_ & _ & _ & Q). rewrite Q by auto. eval_matrix.
  rewrite Hr, Hd. unfold Rminus. rewrite !Rplus_opp_r, Ropp_0, sin_0, cos_0. destruct (row in_d i) as [x y z]. cbn [vx vy vz]. f_equal; ring.
Qed.
Print Assumptions C49_uvw_same.

(** Rotating there and back restores the coordinates when only one of right ascension and declination changes. *)
Theorem C49_uvw_roundtrip_partial orig new uin uout in_d out_d : mem_wf uin -> mem_wf uout -> contents uin in_d -> contents uout out_d ->
  sky_value new 0 = sky_value orig 0 \/ sky_value new 1 = sky_value orig 1 ->
  forall r, phase_rotate_uvw orig new false (Some uin) (Some uout) in_d out_d SUCCESS = Some (SUCCESS, r) ->
  forall st2 r2, phase_rotate_uvw new orig true (Some uout) (Some uout) r r SUCCESS = Some (st2, r2) ->
  st2 = SUCCESS -> forall i, 0 <= i < rows uin -> row r2 i = row in_d i.
Proof.
  intros W1 W2 C1 C2 H r E st2 r2 E2 -> i Hi.
  destruct (uvw_api orig new false uin uout in_d out_d SUCCESS W1 W2 C1 C2 ltac:(discriminate)) as (st' & r' & E' & Sh & _ & P).
  rewrite E in E'. injection E' as <- <-. destruct (P eq_refl) as (Sm & _ & _ & Q).
  assert (C3 : contents uout r) by (destruct C2 as (? & ?); split; [congruence|auto]).
  destruct (uvw_api new orig true uout uout r r SUCCESS W2 W2 C3 C3 ltac:(auto)) as (st'' & r'' & E'' & _ & _ & P2).
  rewrite E2 in E''. injection E'' as <- <-. destruct (P2 eq_refl) as (_ & _ & _ & Q2).
  assert (rows uout = rows uin) as R by (unfold rows; now rewrite Sm). rewrite R in Q2.
  rewrite Q2, Q by auto. eval_matrix. destruct (row in_d i) as [x y z]. cbn [vx vy vz].
  set (a := sky_value new 0) in *. set (b := sky_value orig 0) in *. set (c := sky_value new 1) in *. set (d := sky_value orig 1) in *.
  replace (- (b - a))%R with (a - b)%R by ring. replace (- (a - b))%R with (- (a - b))%R by ring. replace (d - c)%R with (- (c - d))%R by ring.
  rewrite !sin_neg, !cos_neg. generalize (sc2 (a - b)) (sc2 (c - d)). intros A D.
  destruct H as [H|H].
  - assert (a - b = 0)%R as -> by (rewrite H; ring). rewrite sin_0, cos_0. f_equal.
    + ring.
    + transitivity (y * (cos (c - d) * cos (c - d)) + y * (sin (c - d) * sin (c - d)))%R; [ring|rewrite D; ring].
    + transitivity (z * (cos (c - d) * cos (c - d)) + z * (sin (c - d) * sin (c - d)))%R; [ring|rewrite D; ring].
  - assert (c - d = 0)%R as -> by (rewrite H; ring). rewrite sin_0, cos_0. f_equal.
    + transitivity (x * (cos (a - b) * cos (a - b)) + x * (sin (a - b) * sin (a - b)))%R; [ring|rewrite A; ring].
    + ring.
    + transitivity (z * (cos (a - b) * cos (a - b)) + z * (sin (a - b) * sin (a - b)))%R; [ring|rewrite A; ring].
Qed.
Print Assumptions C49_uvw_roundtrip_partial.

Definition table (n : Z) : mem := fst (create_wrapper (Some (1, 0)) MEM_DOUBLE MEM_CPU [1; n; 3] None SUCCESS).
Definition one_row (x y z : R) : nd R := mk_nd [3] (fun i => match i with [0] => x | [1] => y | _ => z end).
Lemma row_one x y z : row (one_row x y z) 0 = V x y z.
Proof. reflexivity. Qed.
Definition centre (ra dec : R) : option sky_coord := Some (sky_create ra dec 0).
Lemma centre_ra a d : sky_value (centre a d) 0 = a.
Proof. reflexivity. Qed.
Lemma centre_dec a d : sky_value (centre a d) 1 = d.
Proof. reflexivity. Qed.

Lemma table_wf : mem_wf (table 1).
Proof. repeat constructor; vm_compute; congruence. Qed.
Lemma table_contents (x : nd R) : shape x = [3] -> contents (table 1) x.
Proof. intro H. split; [rewrite H; reflexivity|]. change (m_shape (table 1)) with [1; 1; 3]. repeat constructor; lia. Qed.

Lemma table_run orig new alias (x y : nd R) : shape x = [3] -> shape y = [3] -> (alias = true -> x = y) ->
  exists r, phase_rotate_uvw orig new alias (Some (table 1)) (Some (table 1)) x y SUCCESS = Some (SUCCESS, r) /\ shape r = [3] /\
    let m := rot_matrix orig new in let q := row x 0 in
      row r 0 = V (m 0%Z * vx q + m 1%Z * vy q + m 2%Z * vz q) (m 3%Z * vx q + m 4%Z * vy q + m 5%Z * vz q) (m 6%Z * vx q + m 7%Z * vy q + m 8%Z * vz q).
Proof.
  intros Sx Sy Al. destruct (uvw_api orig new alias (table 1) (table 1) x y SUCCESS table_wf table_wf (table_contents x Sx) (table_contents y Sy) Al) as (st & r & E & Sh & _ & P).
  assert (st = SUCCESS) as ->.
  { unfold phase_rotate_uvw in E. cbn [failed] in E.
    change (get_uvw_metadata _ _) with (Some (MEM_DOUBLE, MEM_CPU, 1, 1), SUCCESS) in E. cbv iota beta in E.
    change (check_uvw _ _ _ _ _ _) with SUCCESS in E. cbn [failed] in E. cbv iota beta zeta in E.
    change (_ || _) with true in E. cbv iota in E.
    destruct (rotate_uvw _ _ _ _ _); [|discriminate]. cbn [bind] in E. now injection E as <- _. }
  exists r. split; [exact E|]. split; [congruence|]. destruct (P eq_refl) as (_ & _ & _ & Q). apply Q. change (rows (table 1)) with 1. lia.
Qed.

(** In general it does not: from (0, 0) to (pi/2, pi/2) and back, the baseline (1, 0, 0) comes back as (0, 0, 1). *)
Theorem C49_uvw_roundtrip_refuted :
  exists r r2, phase_rotate_uvw (centre 0 0) (centre (PI / 2) (PI / 2)) false (Some (table 1)) (Some (table 1)) (one_row 1 0 0) (one_row 0 0 0) SUCCESS = Some (SUCCESS, r) /\
    phase_rotate_uvw (centre (PI / 2) (PI / 2)) (centre 0 0) true (Some (table 1)) (Some (table 1)) r r SUCCESS = Some (SUCCESS, r2) /\
    row r2 0 = V 0 0 1 /\ row r2 0 <> row (one_row 1 0 0) 0.
Proof.
  destruct (table_run (centre 0 0) (centre (PI / 2) (PI / 2)) false (one_row 1 0 0) (one_row 0 0 0) eq_refl eq_refl ltac:(discriminate)) as (r & E & S & P).
  destruct (table_run (centre (PI / 2) (PI / 2)) (centre 0 0) true r r S S ltac:(auto)) as (r2 & E2 & S2 & P2).
  exists r, r2. split; [exact E|]. split; [exact E2|].
  assert (X : row r2 0 = V 0 0 1).
  { rewrite P2, P, row_one. eval_matrix. rewrite !centre_ra, !centre_dec. cbn [vx vy vz].
    replace (- (0 - PI / 2))%R with (PI / 2)%R by ring. replace (- (PI / 2 - 0))%R with (- (PI / 2))%R by ring.
    replace (0 - PI / 2)%R with (- (PI / 2))%R by ring. replace (PI / 2 - 0)%R with (PI / 2)%R by ring.
    rewrite !sin_neg, !cos_neg, sin_PI2, cos_PI2. f_equal; ring. }
  split; [exact X|]. rewrite X, row_one. intro Y. injection Y. intros. lra.
Qed.
Print Assumptions C49_uvw_roundtrip_refuted.

Lemma vis_api orig new f0 df alias uvw vin vout uvw_d in_d out_d st : mem_wf uvw -> mem_wf vin -> mem_wf vout ->
  contents uvw uvw_d -> contents vin in_d -> contents vout out_d -> (alias = true -> in_d = out_d) ->
  let ra0 := sky_value orig 0 in let dec0 := sky_value orig 1 in let ra1 := sky_value new 0 in let dec1 := sky_value new 1 in
  exists st' r, phase_rotate_vis orig new f0 df alias (Some uvw) (Some vin) (Some vout) uvw_d in_d out_d st = Some (st', r) /\ shape r = shape out_d /\
    (st' <> SUCCESS -> r = out_d) /\
    (st' = SUCCESS -> exists nt nb nc np, m_shape vout = [nt; nb; nc; np] /\ m_shape vin = m_shape vout /\ m_shape uvw = [nt; nb; 3] /\
      forall t b c p, 0 <= t < nt -> 0 <= b < nb -> 0 <= c < nc -> 0 <= p < np ->
      let baseline := baseline_of ra0 dec0 (row uvw_d (nb * t + b)) in
      elem r [pos4 nb nc np t b c p] = Cmul (elem in_d [pos4 nb nc np t b c p])
        (cis (2 * PI * ((inner baseline (towards ra0 dec0) - inner baseline (towards ra1 dec1)) / (299792458 / (f0 + IZR c * df)))))).
Proof.
  intros W1 W2 W3 (S1 & F1) (S2 & F2) (S3 & F3) Al. cbv zeta. unfold phase_rotate_vis.
  destruct (failed st) eqn:F. { eexists _, _. split; [reflexivity|]. split; [reflexivity|]. split; [reflexivity|]. intros ->. discriminate. }
  apply failed_false in F. subst st. cbv zeta.
  destruct (get_vis_metadata _ _) as [md s1] eqn:M.
  set (d := match md with Some x => x | None => _ end) in *. destruct d as [[[[[ty loc] nt] nb] nc] np] eqn:Ed. subst d.
  destruct (failed (check_uvw _ _ _ _ _ _)) eqn:F.
  { eexists _, _. split; [reflexivity|]. split; [reflexivity|]. split; [reflexivity|]. intro E. rewrite E in F. discriminate. }
  apply failed_false in F. rewrite F. apply uvw_ok in F; [|exact W1]. destruct F as [F Du]. apply vis_chk_ok in F; [|exact W2]. destruct F as [-> Di].
  assert (check_location (Some vout) (location (Some uvw)) (check_writeable (Some vout) SUCCESS) = SUCCESS) as K.
  { revert M. generalize (check_location (Some vout) (location (Some uvw)) (check_writeable (Some vout) SUCCESS)). intros s0 M.
    unfold get_vis_metadata in M. destruct (failed s0) eqn:F; [injection M as _ M; rewrite M in F; discriminate|]. now apply failed_false. }
  rewrite K in M. apply vis_md_ok in M; [|exact W3]. destruct M as (nt' & nb' & nc' & np' & Do & Hp & ->). injection Ed as <- <- <- <- <- <-.
  destruct (_ || _). 2:{ eexists _, _. split; [reflexivity|]. split; [reflexivity|]. split; [reflexivity|]. discriminate. }
  rewrite Du in *. rewrite Di in *. rewrite Do in *. rewrite !Forall_cons_iff in *. unfold product in *. cbn [fold_right] in *.
  match goal with |- context [rotate_vis alias nt' nb' nc' np' f0 df ?l ?m ?n uvw_d in_d out_d] =>
    destruct (rotate_vis_ok alias nt' nb' nc' np' f0 df l m n uvw_d in_d out_d (nt' * nb' * nc' * np')) as (r & E & S & P) end; auto; [lia|..].
  { rewrite S1. f_equal. ring. } { rewrite S2. f_equal. ring. } { rewrite S3. f_equal. ring. }
  rewrite E. cbn [bind]. eexists _, _. split; [reflexivity|]. split; [rewrite S, S3; f_equal; ring|]. split; [congruence|]. intros _.
  exists nt', nb', nc', np'. split; [reflexivity|]. split; [reflexivity|]. split; [reflexivity|]. intros t b c p Ht Hb Hc Hp'.
  rewrite P by auto. do 2 f_equal. generalize (row uvw_d (nb' * t + b)). intros [u v w]. unfold c_0.
  unfold baseline_of, combine3, inner, east, north, towards. cbn [vx vy vz].
  set (a0 := sky_value orig 0). set (d0 := sky_value orig 1). set (a1 := sky_value new 0). set (d1 := sky_value new 1).
  replace (- (a1 - a0))%R with (a0 - a1)%R by ring. rewrite sin_minus, cos_minus. unfold Rdiv. rewrite Rinv_mult, Rinv_inv.
  pose proof (sc2 a0) as A. pose proof (sc2 d0) as D.
  match goal with |- (?x * ?y)%R = (2 * PI * (?z * (_ * _)))%R => assert (y = z) as -> end; [|ring].
  ring_simplify. replace (cos a0 ^ 2)%R with (1 - sin a0 ^ 2)%R by (cbn [pow]; lra). replace (cos d0 ^ 2)%R with (1 - sin d0 ^ 2)%R by (cbn [pow]; lra). ring.
Qed.

(** Every visibility is multiplied by the phasor of the path difference, in wavelengths of its channel, between the old and the new
    phase centre for its baseline; an error changes nothing. *)
Theorem C49_vis_rotation orig new f0 df alias uvw vin vout uvw_d in_d out_d st : mem_wf uvw -> mem_wf vin -> mem_wf vout ->
  contents uvw uvw_d -> contents vin in_d -> contents vout out_d -> (alias = true -> in_d = out_d) ->
  let ra0 := sky_value orig 0 in let dec0 := sky_value orig 1 in let ra1 := sky_value new 0 in let dec1 := sky_value new 1 in
  exists st' r, phase_rotate_vis orig new f0 df alias (Some uvw) (Some vin) (Some vout) uvw_d in_d out_d st = Some (st', r) /\
    (st' <> SUCCESS -> r = out_d) /\
    (st' = SUCCESS -> every_vis vout r (fun t b c p =>
      let nb := size vout 1 in let baseline := baseline_of ra0 dec0 (row uvw_d (nb * t + b)) in
      let wavelength := (299792458 / (f0 + IZR c * df))%R in
      Cmul (elem in_d [pos4 nb (size vout 2) (size vout 3) t b c p])
        (cis (2 * PI * ((inner baseline (towards ra0 dec0) - inner baseline (towards ra1 dec1)) / wavelength))))).
Proof.
  intros W1 W2 W3 C1 C2 C3 Al. cbv zeta. destruct (vis_api orig new f0 df alias uvw vin vout uvw_d in_d out_d st W1 W2 W3 C1 C2 C3 Al) as (st' & r & E & Sh & N & P).
  exists st', r. split; [exact E|]. split; [exact N|]. intro Hs. destruct (P Hs) as (nt & nb & nc & np & D1 & D2 & D3 & Q).
  exists nt, nb, nc, np. split; [exact D1|]. split.
  - rewrite Sh. destruct C3 as (-> & _). rewrite D1. unfold product. cbn [fold_right]. f_equal. ring.
  - intros t b c p Ht Hb Hc Hp. unfold size. rewrite D1. cbn [nth]. apply Q; auto.
Qed.
Print Assumptions C49_vis_rotation.

(** The amplitude of every visibility is preserved, whatever the coordinates. *)
Theorem C49_vis_amplitude orig new f0 df alias uvw vin vout uvw_d in_d out_d st : mem_wf uvw -> mem_wf vin -> mem_wf vout ->
  contents uvw uvw_d -> contents vin in_d -> contents vout out_d -> (alias = true -> in_d = out_d) ->
  exists st' r, phase_rotate_vis orig new f0 df alias (Some uvw) (Some vin) (Some vout) uvw_d in_d out_d st = Some (st', r) /\
    (st' = SUCCESS -> forall nt nb nc np, m_shape vout = [nt; nb; nc; np] -> forall t b c p, 0 <= t < nt -> 0 <= b < nb -> 0 <= c < nc -> 0 <= p < np ->
      Cnorm2 (elem r [pos4 nb nc np t b c p]) = Cnorm2 (elem in_d [pos4 nb nc np t b c p])).
Proof.
  intros W1 W2 W3 C1 C2 C3 Al. destruct (vis_api orig new f0 df alias uvw vin vout uvw_d in_d out_d st W1 W2 W3 C1 C2 C3 Al) as (st' & r & E & Sh & N & P).
  exists st', r. split; [exact E|]. intros Hs nt nb nc np D t b c p Ht Hb Hc Hp. destruct (P Hs) as (nt' & nb' & nc' & np' & D1 & D2 & D3 & Q).
  rewrite D in D1. injection D1 as <- <- <- <-. rewrite Q by auto. rewrite Cnorm2_mul, Cnorm2_cis. ring.
Qed.
Print Assumptions C49_vis_amplitude.

(** Rotating to the same centre changes nothing. *)
Theorem C49_vis_same orig new f0 df alias uvw vin vout uvw_d in_d out_d st : mem_wf uvw -> mem_wf vin -> mem_wf vout ->
  contents uvw uvw_d -> contents vin in_d -> contents vout out_d -> (alias = true -> in_d = out_d) ->
  sky_value new 0 = sky_value orig 0 -> sky_value new 1 = sky_value orig 1 ->
  exists st' r, phase_rotate_vis orig new f0 df alias (Some uvw) (Some vin) (Some vout) uvw_d in_d out_d st = Some (st', r) /\
    (st' = SUCCESS -> forall nt nb nc np, m_shape vout = [nt; nb; nc; np] -> forall t b c p, 0 <= t < nt -> 0 <= b < nb -> 0 <= c < nc -> 0 <= p < np ->
      elem r [pos4 nb nc np t b c p] = elem in_d [pos4 nb nc np t b c p]).
Proof.
  intros W1 W2 W3 C1 C2 C3 Al Hr Hd. destruct (vis_api orig new f0 df alias uvw vin vout uvw_d in_d out_d st W1 W2 W3 C1 C2 C3 Al) as (st' & r & E & Sh & N & P).
  exists st', r. split; [exact E|]. intros Hs nt nb nc np D t b c p Ht Hb Hc Hp. destruct (P Hs) as (nt' & nb' & nc' & np' & D1 & D2 & D3 & Q).
  rewrite D in D1. injection D1 as <- <- <- <-. rewrite Q by auto. rewrite Hr, Hd.
  match goal with |- context [cis ?x] => replace x with 0%R by (unfold Rdiv, Rminus; ring) end. rewrite cis_0. csolve.
Qed.
Print Assumptions C49_vis_same.

(** Orthonormal frames *)
Lemma coords_baseline ra dec q : coords_in ra dec (baseline_of ra dec q) = q.
Proof.
  destruct q as [u v w]. unfold coords_in, baseline_of, combine3, inner, east, north, towards. cbn [vx vy vz].
  pose proof (sc2 ra) as A. pose proof (sc2 dec) as D. f_equal; ring_simplify;
    replace (cos ra ^ 2)%R with (1 - sin ra ^ 2)%R by (cbn [pow]; lra);
    try replace (cos dec ^ 2)%R with (1 - sin dec ^ 2)%R by (cbn [pow]; lra); ring.
Qed.
Lemma baseline_coords ra dec b : baseline_of ra dec (coords_in ra dec b) = b.
Proof.
  destruct b as [x y z]. unfold coords_in, baseline_of, combine3, inner, east, north, towards. cbn [vx vy vz].
  pose proof (sc2 ra) as A. pose proof (sc2 dec) as D. f_equal; ring_simplify;
    try replace (cos dec ^ 2)%R with (1 - sin dec ^ 2)%R by (cbn [pow]; lra);
    try replace (cos ra ^ 2)%R with (1 - sin ra ^ 2)%R by (cbn [pow]; lra); try ring.
Qed.

(** Rotating the visibilities back, with the coordinates of the same baselines in the frame of the new centre, restores them. *)
Theorem C49_vis_roundtrip orig new f0 df uvw vin vout uvw_d uvw2_d in_d out_d r st2 r2 : mem_wf uvw -> mem_wf vin -> mem_wf vout ->
  contents uvw uvw_d -> contents uvw uvw2_d -> contents vin in_d -> contents vout out_d ->
  (forall i, 0 <= i < rows uvw -> baseline_of (sky_value new 0) (sky_value new 1) (row uvw2_d i) = baseline_of (sky_value orig 0) (sky_value orig 1) (row uvw_d i)) ->
  phase_rotate_vis orig new f0 df false (Some uvw) (Some vin) (Some vout) uvw_d in_d out_d SUCCESS = Some (SUCCESS, r) ->
  phase_rotate_vis new orig f0 df true (Some uvw) (Some vout) (Some vout) uvw2_d r r SUCCESS = Some (st2, r2) -> st2 = SUCCESS ->
  forall nt nb nc np, m_shape vout = [nt; nb; nc; np] -> forall t b c p, 0 <= t < nt -> 0 <= b < nb -> 0 <= c < nc -> 0 <= p < np ->
    elem r2 [pos4 nb nc np t b c p] = elem in_d [pos4 nb nc np t b c p].
Proof.
  intros W1 W2 W3 C1 C1' C2 C3 G E E2 -> nt nb nc np D t b c p Ht Hb Hc Hp.
  destruct (vis_api orig new f0 df false uvw vin vout uvw_d in_d out_d SUCCESS W1 W2 W3 C1 C2 C3 ltac:(discriminate)) as (st' & r' & E' & Sh & _ & P).
  rewrite E in E'. injection E' as <- <-. destruct (P eq_refl) as (? & ? & ? & ? & D1 & D2 & D3 & Q). rewrite D in D1. injection D1 as <- <- <- <-.
  assert (C4 : contents vout r) by (destruct C3 as (? & ?); split; [congruence|auto]).
  destruct (vis_api new orig f0 df true uvw vout vout uvw2_d r r SUCCESS W1 W3 W3 C1' C4 C4 ltac:(auto)) as (st'' & r'' & E'' & _ & _ & P2).
  rewrite E2 in E''. injection E'' as <- <-. destruct (P2 eq_refl) as (? & ? & ? & ? & D1 & _ & _ & Q2). rewrite D in D1. injection D1 as <- <- <- <-.
  rewrite Q2 by auto. rewrite Q by auto. rewrite G.
  2:{ unfold rows. rewrite D3. cbn [nth]. nia. }
  match goal with |- Cmul (Cmul ?v (cis ?x)) (cis ?y) = _ => replace y with (- x)%R by (unfold Rdiv, Rminus; ring); generalize x end.
  intro x.
  transitivity (Cmul (elem in_d [pos4 nb nc np t b c p]) (Cmul (cis x) (cis (- x)))); [csolve|]. rewrite cis_inv. csolve.
Qed.
Print Assumptions C49_vis_roundtrip.

(** C71: the rotated coordinates are those of the same baseline in the frame of the new centre when only the declination changes or when
    the original centre is on the equator. *)
Theorem C71_uvw_frame_partial orig new alias uin uout in_d out_d st : mem_wf uin -> mem_wf uout -> contents uin in_d -> contents uout out_d -> (alias = true -> in_d = out_d) ->
  sky_value new 0 = sky_value orig 0 \/ sky_value orig 1 = 0%R ->
  exists st' r, phase_rotate_uvw orig new alias (Some uin) (Some uout) in_d out_d st = Some (st', r) /\
    (st' = SUCCESS -> forall i, 0 <= i < rows uin ->
      row r i = coords_in (sky_value new 0) (sky_value new 1) (baseline_of (sky_value orig 0) (sky_value orig 1) (row in_d i))).
Proof.
  intros W1 W2 C1 C2 Al H. destruct (uvw_api orig new alias uin uout in_d out_d st W1 W2 C1 C2 Al) as (st' & r & E & _ & N & P).
  exists st', r. split; [exact E|]. intros Hs i Hi. destruct (P Hs) as (_ & _ & _ & Q). rewrite Q by auto. eval_matrix.
  destruct (row in_d i) as [u v w]. unfold coords_in, baseline_of, combine3, inner, east, north, towards. cbn [vx vy vz].
  set (a0 := sky_value orig 0) in *. set (d0 := sky_value orig 1) in *. set (a1 := sky_value new 0) in *. set (d1 := sky_value new 1) in *.
  clearbody a0 d0 a1 d1. replace (- (a1 - a0))%R with (a0 - a1)%R by ring. 
  pose proof (sc2 a1) as A. pose proof (sc2 d0) as D.
  destruct H as [ -> | -> ].
  - replace (a0 - a0)%R with 0%R by ring. rewrite sin_0, cos_0, sin_minus, cos_minus. pose proof (sc2 a0) as A0.
    f_equal; ring_simplify; replace (cos a0 ^ 2)%R with (1 - sin a0 ^ 2)%R by (cbn [pow]; lra); ring.
  - rewrite Rminus_0_r, sin_0, cos_0, sin_minus, cos_minus. f_equal; ring.
Qed.
Print Assumptions C71_uvw_frame_partial.

(** Elsewhere they are not: rotating by 90 degrees in right ascension at the pole, where the direction of the phase centre does not change,
    turns the baseline (0, 0, 1) towards the centre into (-1, 0, 0). *)
Theorem C71_uvw_frame_refuted :
  exists r, phase_rotate_uvw (centre 0 (PI / 2)) (centre (PI / 2) (PI / 2)) false (Some (table 1)) (Some (table 1)) (one_row 0 0 1) (one_row 0 0 0) SUCCESS = Some (SUCCESS, r) /\
    row r 0 = V (-1) 0 0 /\ towards (PI / 2) (PI / 2) = towards 0 (PI / 2) /\
    vz (coords_in (PI / 2) (PI / 2) (baseline_of 0 (PI / 2) (row (one_row 0 0 1) 0))) = 1%R.
Proof.
  destruct (table_run (centre 0 (PI / 2)) (centre (PI / 2) (PI / 2)) false (one_row 0 0 1) (one_row 0 0 0) eq_refl eq_refl ltac:(discriminate)) as (r & E & S & P).
  exists r. split; [exact E|]. split; [|split].
  - rewrite P, row_one. eval_matrix. rewrite !centre_ra, !centre_dec. cbn [vx vy vz].
    replace (- (PI / 2 - 0))%R with (- (PI / 2))%R by ring. replace (PI / 2 - PI / 2)%R with 0%R by ring.
    rewrite !sin_neg, !cos_neg, sin_PI2, cos_PI2, sin_0, cos_0. f_equal; ring.
  - unfold towards. rewrite sin_PI2, cos_PI2. f_equal; ring.
  - rewrite row_one. unfold coords_in, baseline_of, combine3, inner, east, north, towards. cbn [vx vy vz].
    rewrite sin_PI2, cos_PI2, sin_0, cos_0. ring.
Qed.
Print Assumptions C71_uvw_frame_refuted.

(** The two functions disagree there: rotating the visibilities with the original coordinates gives a phase of zero, while the rotated
    coordinates say that the path difference of the baseline to the centre has changed from 1 to 0 (see above). *)

Definition vis_table (nc : Z) : mem := fst (create_wrapper (Some (1, 0)) MEM_COMPLEX_DOUBLE MEM_CPU [1; 1; nc; 4] None SUCCESS).
(** The hypotheses are met by arrays the checks accept. *)
Example C49_hyps :
  mem_wf (table 1) /\ mem_wf (vis_table 2) /\ contents (table 1) (one_row 1 2 3) /\ contents (vis_table 2) (mk_nd [8] (fun _ => C1)) /\
  check_writeable (Some (vis_table 2)) SUCCESS = SUCCESS /\ snd (get_vis_metadata (Some (vis_table 2)) SUCCESS) = SUCCESS /\
  check_vis (Some (vis_table 2)) MEM_COMPLEX_DOUBLE MEM_CPU 1 1 2 4 SUCCESS = SUCCESS /\ check_uvw (Some (table 1)) MEM_VOID MEM_CPU 1 1 SUCCESS = SUCCESS.
Proof.
  split; [exact table_wf|]. split; [repeat constructor|]. split; [now apply table_contents|].
  split; [split; [reflexivity|]; change (m_shape (vis_table 2)) with [1; 1; 2; 4]; repeat constructor; lia|].
  repeat split.
Qed.
