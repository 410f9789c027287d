(** C27, C28: the search for the w-tower height and the worst-case image. *)
From Verif Require Import Base Clamp QNum WHeight WHeightFacts.
From Coq Require Import Lqa Lia.
Open Scope Z_scope.

(** C27.  [accuracy w] is the error measured at height w (and the status after measuring it).  If
    the error is below the target exactly up to half-height K w-steps, and K < 2^30, the search ends
    with success, returns twice K, and has no other result. *)
Theorem C27_height : forall (accuracy : Q -> error * Q) (w_step target : Q) (K : Z),
  (forall k, 0 <= k -> fst (accuracy (inject_Z k * w_step)%Q) = SUCCESS) -> ~ (target == 0)%Q ->
  0 <= K < 2 ^ 30 ->
  (forall k, 1 <= k -> (snd (accuracy (inject_Z k * w_step)%Q) < target)%Q <-> k <= K) ->
  forall r, max_w_tower_height SUCCESS SUCCESS accuracy w_step target r <-> r = (SUCCESS, 2 * K).
Proof.
  intros accuracy w_step target K OK NZ HK M r. unfold max_w_tower_height, max_height_target. cbn [failed].
  destruct (Qeq_bool target 0) eqn:Z; [apply Qeq_bool_iff in Z; contradiction|].
  assert (S : search_runs accuracy w_step target (mk_search SUCCESS 1 1 true) (SUCCESS, 2 * K)).
  { apply search_ok; auto; intros k Hk; rewrite M by lia; lia. }
  split; [intro H; eapply runs_det; eauto|intros ->; exact S].
Qed.
Print Assumptions C27_height.

(** With target 0 the target is twice the error at w = 0. *)
Theorem C27_default_target : forall (accuracy : Q -> error * Q) (w_step target : Q) (K : Z),
  (forall k, 0 <= k -> fst (accuracy (inject_Z k * w_step)%Q) = SUCCESS) ->
  fst (accuracy 0%Q) = SUCCESS -> (target == 0)%Q ->
  0 <= K < 2 ^ 30 ->
  (forall k, 1 <= k -> (snd (accuracy (inject_Z k * w_step)%Q) < 2 * snd (accuracy 0%Q))%Q <-> k <= K) ->
  forall r, max_w_tower_height SUCCESS SUCCESS accuracy w_step target r <-> r = (SUCCESS, 2 * K).
Proof.
  intros accuracy w_step target K OK OK0 NZ HK M r. unfold max_w_tower_height, max_height_target. cbn [failed].
  apply Qeq_bool_iff in NZ. rewrite NZ. destruct (accuracy 0%Q) as [st e]. cbn [fst snd] in *. subst st.
  assert (S : search_runs accuracy w_step (2 * e) (mk_search SUCCESS 1 1 true) (SUCCESS, 2 * K)).
  { apply search_ok; auto; intros k Hk; rewrite M by lia; lia. }
  split; [intro H; eapply runs_det; eauto|intros ->; exact S].
Qed.
Print Assumptions C27_default_target.

(** For any error function, also one that is not monotone: a successful result is a boundary,
    its half-height is accepted (or 0) and the next one is not. *)
Theorem C27_boundary : forall (accuracy : Q -> error * Q) (w_step target : Q) e r,
  ~ (target == 0)%Q -> max_w_tower_height SUCCESS SUCCESS accuracy w_step target (e, r) -> e = SUCCESS ->
  exists K, r = 2 * K /\ (K = 0 \/ (snd (accuracy (inject_Z K * w_step)) < target)%Q) /\
    ~ (snd (accuracy (inject_Z (K + 1) * w_step)) < target)%Q.
Proof.
  intros accuracy w_step target e r NZ. unfold max_w_tower_height, max_height_target. cbn [failed].
  destruct (Qeq_bool target 0) eqn:Z; [apply Qeq_bool_iff in Z; contradiction|].
  intros H ->. apply (runs_boundary accuracy w_step target _ SUCCESS r H); cbn; auto; try discriminate.
  exists 0. split; [reflexivity|lia].
Qed.
Print Assumptions C27_boundary.

(** When the target is never reached the function does not return. *)
Theorem C27_no_crossing : forall (accuracy : Q -> error * Q) (w_step target : Q),
  (forall k, 0 <= k -> fst (accuracy (inject_Z k * w_step)%Q) = SUCCESS) -> ~ (target == 0)%Q ->
  (forall k, 1 <= k -> (snd (accuracy (inject_Z k * w_step)) < target)%Q) ->
  forall r, ~ max_w_tower_height SUCCESS SUCCESS accuracy w_step target r.
Proof.
  intros accuracy w_step target OK NZ LO r. unfold max_w_tower_height, max_height_target. cbn [failed].
  destruct (Qeq_bool target 0) eqn:Z; [apply Qeq_bool_iff in Z; contradiction|]. now apply no_result.
Qed.
Print Assumptions C27_no_crossing.

(** An error that grows linearly with w reaches 10 at w = 20. *)
Example C27_hyps : let accuracy w := (SUCCESS, (w / 2)%Q) in
  (forall k, 0 <= k -> fst (accuracy (inject_Z k * 3)%Q) = SUCCESS) /\ ~ (10 == 0)%Q /\ 0 <= 6 < 2 ^ 30 /\
  (forall k, 1 <= k -> (snd (accuracy (inject_Z k * 3)%Q) < 10)%Q <-> k <= 6).
Proof.
  cbn. split; [reflexivity|]. split; [lra|]. split; [lia|]. intros k Hk.
  assert (E : (inject_Z k * 3 / 2 < 10)%Q <-> k <= 6); [|exact E].
  unfold Qdiv, Qlt, Qmult, inject_Z. cbn. lia.
Qed.

(** C28.  The image is completed, with four sources at distance e from the centre, when some d
    not dividing the size is within the field of view and the field of view is not the whole
    of an odd-sized image. *)
Theorem C28_completes_partial : forall (theta fov : Q) (image : nd Q) (size e0 d : Z),
  0 < size <= 2147483647 -> shape image = [size; size] -> (0 < theta)%Q -> (0 <= fov <= theta)%Q ->
  e0 = Qfloor (inject_Z size / theta * fov / 2) ->
  1 <= d <= e0 -> ~ (d | size) -> (size mod 2 = 0 \/ e0 < size / 2) ->
  exists e im, worst_case_image SUCCESS true theta fov image = Some (SUCCESS, im) /\ shape im = [size; size] /\
    d <= e <= e0 /\ ~ (e | size) /\ (forall d', e < d' <= e0 -> (d' | size)) /\
    forall i j, elem im [i; j] =
      let h := size / 2 in
      if (i =? h + e) && (j =? h + e) then 3 # 10 else
      if (i =? h - e) && (j =? h - e) then 2 # 10 else
      if (i =? h + e) && (j =? h - e - 1) then 3 # 10 else
      if (i =? h - e - 1) && (j =? h + e) then 2 # 10 else 0%Q.
Proof. intros theta fov image size e0 d H1 H2 H3 H4 H5. exact (wci_ok theta fov image size e0 H1 H2 H5 H3 H4 d). Qed.
Print Assumptions C28_completes_partial.

Example C28_hyps : 0 < 512 <= 2147483647 /\ 192 = Qfloor (inject_Z 512 / (4 # 10) * (3 # 10) / 2) /\ 1 <= 191 <= 192 /\ ~ (191 | 512).
Proof. split; [lia|]. split; [vm_compute; reflexivity|]. split; [lia|]. intro H. apply Z.mod_divide in H; [vm_compute in H; discriminate|lia]. Qed.

(** Exactly the other case divides by zero: every number within the field of view divides
    the size. *)
Theorem C28_divides : forall (theta fov : Q) (image : nd Q) (size e0 : Z),
  0 < size <= 2147483647 -> shape image = [size; size] -> (0 < theta)%Q -> (0 <= fov <= theta)%Q ->
  e0 = Qfloor (inject_Z size / theta * fov / 2) ->
  (forall d, 1 <= d <= e0 -> (d | size)) -> worst_case_image SUCCESS true theta fov image = None.
Proof. intros theta fov image size e0 H1 H2 H3 H4 H5. exact (wci_divides theta fov image size e0 H1 H2 H5 H3 H4). Qed.
Print Assumptions C28_divides.

(** A 6 x 6 image with the whole field of view divides by zero. *)
Theorem C28_division_refuted : exists theta fov (image : nd Q),
  shape image = [6; 6] /\ (0 < fov <= theta)%Q /\ worst_case_image SUCCESS true theta fov image = None /\
  find_edge 100 6 (Qfloor (inject_Z 6 / theta * fov / 2)) = None.
Proof.
  exists 1%Q, 1%Q, (mk_nd [6; 6] (fun _ => 0%Q)). split; [reflexivity|]. split; [lra|]. split; vm_compute; reflexivity.
Qed.
Print Assumptions C28_division_refuted.

(** A 5 x 5 image with the whole field of view is written at column -1. *)
Theorem C28_odd_refuted : exists theta fov (image : nd Q),
  shape image = [5; 5] /\ (0 < fov <= theta)%Q /\ worst_case_image SUCCESS true theta fov image = None /\
  find_edge 100 5 (Qfloor (inject_Z 5 / theta * fov / 2)) = Some 2 /\ 5 / 2 - 2 - 1 < 0.
Proof.
  exists 1%Q, 1%Q, (mk_nd [5; 5] (fun _ => 0%Q)). split; [reflexivity|]. split; [lra|]. split; [|split]; vm_compute; reflexivity.
Qed.
Print Assumptions C28_odd_refuted.
