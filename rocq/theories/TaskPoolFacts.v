(** Proofs about the task pool. *)
From Verif Require Import Base BaseFacts TaskPool TaskPoolSpec.
From Coq Require Import Permutation.

Lemma set_nth_length {A} (l : list A) i x : length (set_nth l i x) = length l.
Proof. revert i; induction l as [|y l IH]; intros [|i]; cbn; auto. Qed.

Lemma nth_set_nth {A} (l : list A) i j x :
  nth_error (set_nth l i x) j =
  if Nat.eqb i j then (match nth_error l i with Some _ => Some x | None => None end) else nth_error l j.
Proof.
  revert i j; induction l as [|y l IH]; intros [|i] [|j]; cbn; auto.
  destruct (Nat.eqb i j); reflexivity.
Qed.

Lemma flat_map_set_nth {A B} (f : A -> list B) l t x y :
  nth_error l t = Some y ->
  Permutation (f y ++ flat_map f (set_nth l t x)) (f x ++ flat_map f l).
Proof.
  revert t; induction l as [|z l IH]; intros [|t] H; cbn in H; try discriminate.
  - inversion H; subst. cbn. apply Permutation_app_swap_app.
  - cbn. specialize (IH t H).
    rewrite Permutation_app_swap_app, IH. apply Permutation_app_swap_app.
Qed.

(** Pieces still to be handed out. *)
Definition rem_piece (k : task) (j : nat) : piece :=
  (tk_iu k, tk_iv k, tk_start k + Z.of_nat j * tk_per k,
   Z.min (tk_start k + Z.of_nat j * tk_per k + tk_per k) (tk_total k)).
Definition remaining (k : task) : list piece := map (rem_piece k) (seq 0 (Z.to_nat (tk_chunks k))).

Lemma remaining_pick k : (tk_chunks k >? 0) = true ->
  remaining k = piece_of (task_out k) :: remaining (task_next k).
Proof.
  intro H. unfold remaining. cbn [tk_chunks task_next].
  replace (Z.to_nat (tk_chunks k)) with (S (Z.to_nat (tk_chunks k - 1))) by lia.
  cbn [seq map]. f_equal.
  - unfold rem_piece, piece_of, task_out. cbn.
    assert (E0 : tk_start k + Z.of_nat 0 * tk_per k = tk_start k) by lia. rewrite E0.
    f_equal. destruct (Z.gtb_spec (tk_start k + tk_per k) (tk_total k)); lia.
  - rewrite <- seq_shift, map_map. apply map_ext. intro j. unfold rem_piece, task_next.
    cbn [tk_iu tk_iv tk_chunks tk_per tk_total tk_vis tk_start tk_end].
    assert (E0 : tk_start k + Z.of_nat (S j) * tk_per k = tk_start k + tk_per k + Z.of_nat j * tk_per k) by lia.
    rewrite E0. reflexivity.
Qed.

Definition flight (p : pc) : list piece :=
  match p with
  | PUnlock k => if tk_chunks k <=? 0 then [] else [piece_of k]
  | PWork k => [piece_of k]
  | _ => []
  end.

Definition holds (p : pc) : bool := match p with PScan _ | PUnlock _ => true | _ => false end.

(** No work left in the shared list. *)
Definition empty (l : list task) : Prop := Forall (fun k => (tk_chunks k >? 0) = false) l.

Definition pool_inv (tasks0 : list task) (s : pool) : Prop :=
  (forall t p, nth_error (p_pc s) t = Some p -> holds p = true -> p_lock s = Some t) /\
  (forall t, p_lock s = Some t -> exists p, nth_error (p_pc s) t = Some p /\ holds p = true) /\
  (forall t i, nth_error (p_pc s) t = Some (PScan i) -> empty (firstn i (p_tasks s))) /\
  (forall t k, nth_error (p_pc s) t = Some (PUnlock k) -> tk_chunks k <= 0 -> empty (p_tasks s)) /\
  (forall t k, nth_error (p_pc s) t = Some (PWork k) -> 0 < tk_chunks k) /\
  ((exists t, nth_error (p_pc s) t = Some PDone) -> empty (p_tasks s)) /\
  Permutation (map piece_of (p_done s) ++ flat_map flight (p_pc s) ++ flat_map remaining (p_tasks s))
              (flat_map remaining tasks0).

Lemma nth_firstn {A} (l : list A) n i : (i < n)%nat -> nth_error (firstn n l) i = nth_error l i.
Proof. revert n i; induction l as [|x l IH]; intros [|n] [|i] H; cbn; auto; try lia. apply IH. lia. Qed.

Lemma empty_nth l i k : empty l -> nth_error l i = Some k -> (tk_chunks k >? 0) = false.
Proof. intros H E. eapply Forall_forall in H; [exact H|]. eapply nth_error_In; eauto. Qed.

Lemma empty_firstn_pick l i j k :
  (tk_chunks k >? 0) = true -> nth_error l j = Some k ->
  empty (firstn i l) -> empty (firstn i (set_nth l j (task_next k))).
Proof.
  intros Hk Hj He.
  assert (L : (i <= j)%nat).
  { destruct (Nat.le_gt_cases i j); auto. exfalso.
    rewrite <- (nth_firstn l i j) in Hj by assumption.
    pose proof (empty_nth _ _ _ He Hj). congruence. }
  assert (E : firstn i (set_nth l j (task_next k)) = firstn i l).
  { clear -L. revert i j L; induction l as [|x l IH]; intros [|i] [|j] L; cbn; auto; try lia.
    f_equal. apply IH. lia. }
  now rewrite E.
Qed.

Lemma flat_map_repeat_idle n : flat_map flight (repeat PIdle n) = [].
Proof. induction n; cbn; auto. Qed.

Lemma nth_repeat {A} (x y : A) n t : nth_error (repeat x n) t = Some y -> y = x.
Proof. intro H. apply nth_error_In in H. now apply repeat_spec in H. Qed.

Lemma pool_inv_init tasks n : pool_inv tasks (pool_init tasks n).
Proof.
  unfold pool_init. repeat split; cbn.
  - intros t p H Hp. apply nth_repeat in H. subst. discriminate.
  - discriminate.
  - intros t i H. apply nth_repeat in H. discriminate.
  - intros t k H. apply nth_repeat in H. discriminate.
  - intros t k H. apply nth_repeat in H. discriminate.
  - intros (t & H). apply nth_repeat in H. discriminate.
  - rewrite flat_map_repeat_idle. cbn. reflexivity.
Qed.

Ltac pcs H := rewrite nth_set_nth in H;
  match type of H with context [Nat.eqb ?a ?b] => destruct (Nat.eqb_spec a b) end.

Lemma pool_inv_step tasks s s' : pool_inv tasks s -> pool_step s s' -> pool_inv tasks s'.
Proof.
  intros (I1 & I2 & I3 & I4 & I5 & I6 & I7) H. inversion H; subst; clear H; cbn [p_tasks p_lock p_pc p_done] in *.
  - (* lock *)
    repeat split; cbn [p_tasks p_lock p_pc p_done].
    + intros u p Hu Hp. pcs Hu; [subst; auto|]. specialize (I1 u p Hu Hp). congruence.
    + intros u E. inversion E; subst u. exists (PScan 0). rewrite nth_set_nth, Nat.eqb_refl, H0. auto.
    + intros u i Hu. pcs Hu.
      * rewrite H0 in Hu. inversion Hu; subst. constructor.
      * apply (I3 u i Hu).
    + intros u k Hu. pcs Hu; [rewrite H0 in Hu; discriminate|]. apply (I4 u k Hu).
    + intros u k Hu. pcs Hu; [rewrite H0 in Hu; discriminate|]. apply (I5 u k Hu).
    + intros (u & Hu). pcs Hu; [rewrite H0 in Hu; discriminate|]. apply I6; eauto.
    + rewrite <- I7. apply Permutation_app_head, Permutation_app_tail.
      pose proof (flat_map_set_nth flight _ _ (PScan 0) _ H0) as P. exact P.
  - (* scan end *)
    assert (Hall : empty (p_tasks s)).
    { pose proof (I3 t i H0) as E. apply nth_error_None in H1. rewrite firstn_all2 in E by lia. exact E. }
    repeat split; cbn [p_tasks p_lock p_pc p_done].
    + intros u p Hu Hp. pcs Hu; [subst; apply (I1 u (PScan i)); auto|]. apply (I1 u p Hu Hp).
    + intros u E. destruct (I2 u E) as (p & Hp1 & Hp2). rewrite nth_set_nth.
      destruct (Nat.eqb_spec t u); [subst; rewrite H0; eexists; split; eauto|eauto].
    + intros u j Hu. pcs Hu; [rewrite H0 in Hu; discriminate|]. apply (I3 u j Hu).
    + auto.
    + intros u k Hu. pcs Hu; [rewrite H0 in Hu; discriminate|]. apply (I5 u k Hu).
    + auto.
    + rewrite <- I7. apply Permutation_app_head, Permutation_app_tail.
      pose proof (flat_map_set_nth flight _ _ (PUnlock task_none) _ H0) as P. exact P.
  - (* skip *)
    repeat split; cbn [p_tasks p_lock p_pc p_done].
    + intros u p Hu Hp. pcs Hu; [subst; apply (I1 u (PScan i)); auto|]. apply (I1 u p Hu Hp).
    + intros u E. destruct (I2 u E) as (p & Hp1 & Hp2). rewrite nth_set_nth.
      destruct (Nat.eqb_spec t u); [subst; rewrite H0; eexists; split; eauto|eauto].
    + intros u j Hu. pcs Hu.
      * rewrite H0 in Hu. inversion Hu; subst. pose proof (I3 _ _ H0) as E.
        clear -E H1 H2. revert i H1 E. induction (p_tasks s) as [|x l IH]; intros [|i] H1 E; cbn in H1; try discriminate.
        -- inversion H1; subst. cbn. constructor; auto.
        -- change (firstn (S (S i)) (x :: l)) with (x :: firstn (S i) l).
           change (firstn (S i) (x :: l)) with (x :: firstn i l) in E. inversion E; subst.
           constructor; auto. apply IH; auto.
      * apply (I3 u j Hu).
    + intros u k' Hu. pcs Hu; [rewrite H0 in Hu; discriminate|]. apply (I4 u k' Hu).
    + intros u k' Hu. pcs Hu; [rewrite H0 in Hu; discriminate|]. apply (I5 u k' Hu).
    + intros (u & Hu). pcs Hu; [rewrite H0 in Hu; discriminate|]. apply I6; eauto.
    + rewrite <- I7. apply Permutation_app_head, Permutation_app_tail.
      pose proof (flat_map_set_nth flight _ _ (PScan (S i)) _ H0) as P. exact P.
  - (* pick *)
    assert (NE : ~ empty (p_tasks s)).
    { intro E. pose proof (empty_nth _ _ _ E H1). congruence. }
    repeat split; cbn [p_tasks p_lock p_pc p_done].
    + intros u p Hu Hp. pcs Hu; [subst; apply (I1 u (PScan i)); auto|]. apply (I1 u p Hu Hp).
    + intros u E. destruct (I2 u E) as (p & Hp1 & Hp2). rewrite nth_set_nth.
      destruct (Nat.eqb_spec t u); [subst; rewrite H0; eexists; split; eauto|eauto].
    + intros u j Hu. pcs Hu; [rewrite H0 in Hu; discriminate|].
      apply empty_firstn_pick; auto. apply (I3 u j Hu).
    + intros u k' Hu Hk. pcs Hu.
      * rewrite H0 in Hu. inversion Hu; subst. cbn in Hk. lia.
      * exfalso. apply NE. apply (I4 u k' Hu Hk).
    + intros u k' Hu. pcs Hu; [rewrite H0 in Hu; discriminate|]. apply (I5 u k' Hu).
    + intros (u & Hu). pcs Hu; [rewrite H0 in Hu; discriminate|]. exfalso. apply NE, I6; eauto.
    + rewrite <- I7. apply Permutation_app_head.
      pose proof (flat_map_set_nth flight _ _ (PUnlock (task_out k)) _ H0) as P. cbn [flight app] in P.
      assert (Eo : (tk_chunks (task_out k) <=? 0) = false) by (cbn; lia). rewrite Eo in P.
      pose proof (flat_map_set_nth remaining _ _ (task_next k) _ H1) as Q.
      rewrite remaining_pick in Q by assumption. cbn [app] in P, Q.
      rewrite P. cbn [app].
      rewrite (Permutation_middle (flat_map flight (p_pc s))).
      apply Permutation_app_head.
      apply (Permutation_app_inv_l (remaining (task_next k))).
      rewrite <- Q. symmetry. rewrite <- Permutation_middle. reflexivity.
  - (* unlock *)
    repeat split; cbn [p_tasks p_lock p_pc p_done].
    + intros u p Hu Hp. pcs Hu.
      * rewrite H0 in Hu. inversion Hu; subst. destruct (tk_chunks k <=? 0); discriminate.
      * pose proof (I1 u p Hu Hp). pose proof (I1 t _ H0 eq_refl). congruence.
    + discriminate.
    + intros u j Hu. pcs Hu.
      * rewrite H0 in Hu. inversion Hu. destruct (tk_chunks k <=? 0); discriminate.
      * apply (I3 u j Hu).
    + intros u k' Hu. pcs Hu.
      * rewrite H0 in Hu. inversion Hu. destruct (tk_chunks k <=? 0); discriminate.
      * apply (I4 u k' Hu).
    + intros u k' Hu. pcs Hu.
      * rewrite H0 in Hu. inversion Hu. destruct (Z.leb_spec (tk_chunks k) 0); [discriminate|]. congruence.
      * apply (I5 u k' Hu).
    + intros (u & Hu). pcs Hu.
      * rewrite H0 in Hu. inversion Hu. destruct (Z.leb_spec (tk_chunks k) 0); [|discriminate]. apply (I4 t k H0); lia.
      * apply I6; eauto.
    + rewrite <- I7. apply Permutation_app_head, Permutation_app_tail.
      pose proof (flat_map_set_nth flight _ _ (if tk_chunks k <=? 0 then PDone else PWork k) _ H0) as P.
      cbn [flight] in P. destruct (tk_chunks k <=? 0); cbn [flight] in P; [exact P|].
      apply Permutation_app_inv_l in P. exact P.
  - (* work *)
    repeat split; cbn [p_tasks p_lock p_pc p_done].
    + intros u p Hu Hp. pcs Hu.
      * rewrite H0 in Hu. inversion Hu; subst. discriminate.
      * apply (I1 u p Hu Hp).
    + intros u E. destruct (I2 u E) as (p & Hp1 & Hp2). rewrite nth_set_nth.
      destruct (Nat.eqb_spec t u); [subst; rewrite H0 in Hp1; inversion Hp1; subst; discriminate|eauto].
    + intros u j Hu. pcs Hu; [rewrite H0 in Hu; discriminate|]. apply (I3 u j Hu).
    + intros u k' Hu. pcs Hu; [rewrite H0 in Hu; discriminate|]. apply (I4 u k' Hu).
    + intros u k' Hu. pcs Hu; [rewrite H0 in Hu; discriminate|]. apply (I5 u k' Hu).
    + intros (u & Hu). pcs Hu; [rewrite H0 in Hu; discriminate|]. apply I6; eauto.
    + rewrite <- I7. rewrite map_app. cbn [map]. rewrite <- app_assoc. apply Permutation_app_head.
      rewrite app_assoc. apply Permutation_app_tail.
      pose proof (flat_map_set_nth flight _ _ PIdle _ H0) as P. exact P.
Qed.

Lemma pool_inv_steps tasks n s k : pool_steps (pool_init tasks n) s k -> pool_inv tasks s.
Proof.
  intro H. remember (pool_init tasks n) as s0. induction H; subst.
  - apply pool_inv_init.
  - eapply pool_inv_step; eauto.
Qed.

(** *** The pieces of one sub-grid *)
Lemma filter_none {A} (f : A -> bool) l : (forall x, In x l -> f x = false) -> filter f l = [].
Proof.
  induction l as [|x l IH]; intro H; cbn; [reflexivity|].
  rewrite (H x) by (now left). apply IH. intros y Hy. apply H. now right.
Qed.

Lemma filter_seq_one (f : nat -> bool) m j : (j < m)%nat ->
  (forall i, (i < m)%nat -> f i = Nat.eqb i j) -> filter f (seq 0 m) = [j].
Proof.
  intros Hj H. assert (E : seq 0 m = seq 0 j ++ [j] ++ seq (S j) (m - S j)).
  { replace m with (j + S (m - S j))%nat at 1 by lia. rewrite seq_app. cbn. reflexivity. }
  rewrite E, !filter_app.
  rewrite (filter_none f (seq 0 j)), (filter_none f (seq (S j) _)).
  - cbn. rewrite H by assumption. now rewrite Nat.eqb_refl.
  - intros i Hi. apply in_seq in Hi. rewrite H by lia. apply Nat.eqb_neq. lia.
  - intros i Hi. apply in_seq in Hi. rewrite H by lia. apply Nat.eqb_neq. lia.
Qed.

Lemma filter_map {A B} (f : B -> bool) (g : A -> B) l :
  filter f (map g l) = map g (filter (fun x => f (g x)) l).
Proof. induction l as [|x l IH]; cbn; [reflexivity|]. destruct (f (g x)); cbn; now rewrite IH. Qed.

Lemma task_make_facts iu iv nv rows vpc : 0 <= nv -> 0 <= rows ->
  let k := task_make iu iv nv rows vpc in
  tk_iu k = iu /\ tk_iv k = iv /\ tk_start k = 0 /\ tk_total k = rows /\ 0 <= tk_chunks k /\
  (nv = 0 -> tk_chunks k = 0) /\ (0 < nv -> 0 < tk_chunks k /\ 0 <= tk_per k /\ rows <= tk_per k * tk_chunks k).
Proof.
  intros Hv Hr. unfold task_make, cdiv. cbn zeta.
  set (pc := if vpc <? min_chunk_size then min_chunk_size else vpc).
  assert (Hp : 2000 <= pc) by (unfold pc, min_chunk_size; destruct (Z.ltb_spec vpc 2000); lia).
  clearbody pc. cbn [tk_iu tk_iv tk_start tk_total tk_chunks tk_per].
  rewrite Z.quot_div_nonneg by lia. set (c := (nv + pc - 1) / pc).
  assert (Hc : pc * c <= nv + pc - 1 < pc * c + pc)
    by (unfold c; pose proof (Z_div_mod_eq_full (nv + pc - 1) pc); pose proof (Z.mod_pos_bound (nv + pc - 1) pc); lia).
  clearbody c. repeat split; auto.
  - nia.
  - intros ->. nia.
  - nia.
  - destruct (Z.gtb_spec c 0); [|lia]. rewrite Z.quot_div_nonneg by lia. apply Z.div_pos; lia.
  - assert (0 < c) by nia. destruct (Z.gtb_spec c 0); [|lia]. rewrite Z.quot_div_nonneg by lia.
    pose proof (Z_div_mod_eq_full (rows + c - 1) c). pose proof (Z.mod_pos_bound (rows + c - 1) c). lia.
Qed.

Lemma covered_once iu iv nv rows vpc r : 0 <= nv -> 0 <= rows -> 0 <= r < rows ->
  times_covered (remaining (task_make iu iv nv rows vpc)) iu iv r = Nat.b2n (0 <? nv).
Proof.
  intros Hv Hr Hi. destruct (task_make_facts iu iv nv rows vpc Hv Hr) as (F1 & F2 & F3 & F4 & F5 & F6 & F7).
  unfold times_covered, remaining. set (k := task_make iu iv nv rows vpc) in *. clearbody k.
  rewrite filter_map, map_length.
  destruct (Z.ltb_spec 0 nv) as [L|L].
  - destruct (F7 L) as (G1 & G2 & G3). assert (0 < tk_per k) by nia.
    set (j := Z.to_nat (r / tk_per k)).
    assert (Hd : 0 <= r / tk_per k) by (apply Z.div_pos; lia).
    assert (Hj : (j < Z.to_nat (tk_chunks k))%nat).
    { unfold j. assert (r / tk_per k < tk_chunks k) by (apply Z.div_lt_upper_bound; lia). lia. }
    rewrite (filter_seq_one _ _ j); auto.
    intros i Hilt. unfold rem_piece. rewrite F1, F2, F3, F4, !Z.eqb_refl. cbn [andb].
    apply Bool.eq_iff_eq_true. rewrite Nat.eqb_eq. unfold j. rewrite andb_true_iff, Z.leb_le, Z.ltb_lt.
    split.
    + intros [A B]. assert (r / tk_per k = Z.of_nat i); [|lia].
      symmetry. apply (Z.div_unique r (tk_per k) (Z.of_nat i) (r - Z.of_nat i * tk_per k)); lia.
    + intros ->. rewrite Z2Nat.id by assumption.
      pose proof (Z_div_mod_eq_full r (tk_per k)). pose proof (Z.mod_pos_bound r (tk_per k)). lia.
  - rewrite F6 by lia. reflexivity.
Qed.

Lemma covered_other k iu iv r : tk_iu k <> iu \/ tk_iv k <> iv ->
  times_covered (remaining k) iu iv r = 0%nat.
Proof.
  intro H. unfold times_covered. rewrite filter_none; [reflexivity|].
  intros p Hp. apply in_map_iff in Hp. destruct Hp as (j & <- & _). unfold rem_piece.
  destruct (Z.eqb_spec (tk_iu k) iu), (Z.eqb_spec (tk_iv k) iv); cbn; auto; lia.
Qed.

Lemma times_covered_app a b iu iv r :
  times_covered (a ++ b) iu iv r = (times_covered a iu iv r + times_covered b iu iv r)%nat.
Proof. unfold times_covered. now rewrite filter_app, app_length. Qed.

Lemma perm_filter {A} (f : A -> bool) a b : Permutation a b -> Permutation (filter f a) (filter f b).
Proof.
  intro H. induction H; cbn; auto.
  - destruct (f x); [now apply perm_skip|auto].
  - destruct (f x), (f y); try apply perm_swap; reflexivity.
  - eapply Permutation_trans; eassumption.
Qed.

Lemma times_covered_perm a b iu iv r : Permutation a b ->
  times_covered a iu iv r = times_covered b iu iv r.
Proof. intro H. apply Permutation_length, perm_filter, H. Qed.

(** *** The whole list built by count_visibilities *)
Lemma covered_map (g : Z -> task) l iu iv r : NoDup l ->
  (forall v, tk_iv (g v) = v) ->
  times_covered (flat_map remaining (map g l)) iu iv r =
  if in_dec Z.eq_dec iv l then times_covered (remaining (g iv)) iu iv r else 0%nat.
Proof.
  intros ND Hg. induction l as [|v l IH]; [reflexivity|]. inversion ND; subst.
  cbn [map flat_map]. rewrite times_covered_app, IH by assumption.
  destruct (in_dec Z.eq_dec iv (v :: l)) as [I|I]; destruct (in_dec Z.eq_dec iv l) as [J|J].
  - rewrite covered_other; [reflexivity|]. right. rewrite Hg. intros ->. contradiction.
  - destruct I as [->|I]; [lia|contradiction].
  - exfalso. apply I. now right.
  - rewrite covered_other; [reflexivity|]. right. rewrite Hg. intros ->. apply I. now left.
Qed.

Lemma covered_grid (g : Z -> Z -> task) lu lv iu iv r : NoDup lu -> NoDup lv ->
  (forall u v, tk_iu (g u v) = u /\ tk_iv (g u v) = v) ->
  times_covered (flat_map remaining (flat_map (fun u => map (g u) lv) lu)) iu iv r =
  if in_dec Z.eq_dec iu lu then if in_dec Z.eq_dec iv lv then times_covered (remaining (g iu iv)) iu iv r else 0%nat
  else 0%nat.
Proof.
  intros NU NV Hg. induction lu as [|u l IH]; [reflexivity|]. inversion NU; subst.
  cbn [flat_map]. rewrite flat_map_app, times_covered_app, IH by assumption.
  assert (Hother : u <> iu -> times_covered (flat_map remaining (map (g u) lv)) iu iv r = 0%nat).
  { intro Hne. clear -Hne Hg. induction lv as [|v l IH]; [reflexivity|]. cbn [map flat_map].
    rewrite times_covered_app, IH, covered_other; [reflexivity|]. left. now rewrite (proj1 (Hg u v)). }
  destruct (in_dec Z.eq_dec iu (u :: l)) as [I|I]; destruct (in_dec Z.eq_dec iu l) as [J|J].
  - rewrite Hother; [reflexivity|]. intros ->. contradiction.
  - destruct I as [->|I]; [|contradiction]. rewrite covered_map; auto. intro v. apply Hg.
  - exfalso. apply I. now right.
  - rewrite Hother; [reflexivity|]. intros ->. apply I. now left.
Qed.

Lemma task_make_names iu iv nv rows vpc :
  tk_iu (task_make iu iv nv rows vpc) = iu /\ tk_iv (task_make iu iv nv rows vpc) = iv.
Proof. split; reflexivity. Qed.

Lemma count_covered nvis rows chans threads u0 u1 v0 v1 iu iv r :
  (forall u v, 0 <= nvis u v) -> 0 <= r < rows -> u0 <= iu <= u1 -> v0 <= iv <= v1 ->
  times_covered (flat_map remaining (count_visibilities nvis rows chans threads u0 u1 v0 v1)) iu iv r =
  Nat.b2n (0 <? nvis iu iv).
Proof.
  intros Hn Hr Hu Hv. unfold count_visibilities.
  rewrite covered_grid; try apply NoDup_zrange; [|intros; apply task_make_names].
  destruct (in_dec _ iu _) as [I|I]; [|exfalso; apply I; apply in_zrange; lia].
  destruct (in_dec _ iv _) as [J|J]; [|exfalso; apply J; apply in_zrange; lia].
  apply covered_once; auto; lia.
Qed.

(** C17: never twice, at the end exactly once *)
Lemma never_twice_lemma nvis rows chans nt u0 u1 v0 v1 s n iu iv r :
  (forall u v, 0 <= nvis u v) -> 0 <= r < rows -> u0 <= iu <= u1 -> v0 <= iv <= v1 ->
  pool_steps (pool_init (count_visibilities nvis rows chans (Z.of_nat nt) u0 u1 v0 v1) nt) s n ->
  (times_covered (map piece_of (p_done s ++ in_work s)) iu iv r <= Nat.b2n (0 <? nvis iu iv)%Z)%nat.
Proof.
  intros Hn Hr Hu Hv H. apply pool_inv_steps in H. destruct H as (_ & _ & _ & _ & _ & _ & P).
  rewrite <- (count_covered nvis rows chans (Z.of_nat nt) u0 u1 v0 v1 iu iv r) by assumption.
  rewrite <- (times_covered_perm _ _ iu iv r P). rewrite map_app, !times_covered_app.
  enough (E : (times_covered (map piece_of (in_work s)) iu iv r <= times_covered (flat_map flight (p_pc s)) iu iv r)%nat)
    by lia.
  clear P. unfold in_work. induction (p_pc s) as [|p l IH]; [apply Nat.le_refl|].
  cbn [flat_map]. rewrite map_app, !times_covered_app. apply Nat.add_le_mono; [|exact IH].
  destruct p; cbn [flight map]; try apply Nat.le_0_l; apply Nat.le_refl.
Qed.

Lemma done_perm tasks n s k : (0 < n)%nat ->
  pool_steps (pool_init tasks n) s k -> all_done s ->
  Permutation (map piece_of (p_done s)) (flat_map remaining tasks).
Proof.
  intros Hpos H D.
  assert (L : length (p_pc s) = n).
  { remember (pool_init tasks n) as s0. clear D. induction H; subst.
    - cbn. apply repeat_length.
    - specialize (IHpool_steps eq_refl). inversion H0; subst; cbn; now rewrite set_nth_length. }
  apply pool_inv_steps in H. destruct H as (_ & _ & _ & _ & _ & E & P). unfold all_done in D.
  assert (E' : empty (p_tasks s)).
  { apply E. destruct (p_pc s) as [|p l] eqn:Q; [cbn in L; lia|]. inversion D; subst. exists 0%nat. reflexivity. }
  rewrite <- P.
  assert (F1 : flat_map flight (p_pc s) = []).
  { clear -D. induction D as [|p l Hp D IH]; [reflexivity|]. subst p. exact IH. }
  assert (F2 : flat_map remaining (p_tasks s) = []).
  { clear -E'. induction E' as [|p l Hp D IH]; [reflexivity|]. cbn. rewrite IH, app_nil_r.
    unfold remaining. replace (Z.to_nat (tk_chunks p)) with O by lia. reflexivity. }
  now rewrite F1, F2, !app_nil_r.
Qed.

Lemma exactly_once_lemma nvis rows chans nt u0 u1 v0 v1 s n iu iv r :
  (0 < nt)%nat ->
  (forall u v, 0 <= nvis u v) -> 0 <= r < rows -> u0 <= iu <= u1 -> v0 <= iv <= v1 ->
  pool_steps (pool_init (count_visibilities nvis rows chans (Z.of_nat nt) u0 u1 v0 v1) nt) s n ->
  all_done s ->
  times_covered (map piece_of (p_done s)) iu iv r = Nat.b2n (0 <? nvis iu iv).
Proof.
  intros Hp Hn Hr Hu Hv H D. apply done_perm in H; auto.
  rewrite (times_covered_perm _ _ iu iv r H). now apply count_covered.
Qed.

Lemma schedule_independent tasks n1 n2 s1 s2 k1 k2 : (0 < n1)%nat -> (0 < n2)%nat ->
  pool_steps (pool_init tasks n1) s1 k1 -> all_done s1 ->
  pool_steps (pool_init tasks n2) s2 k2 -> all_done s2 ->
  Permutation (map piece_of (p_done s1)) (map piece_of (p_done s2)).
Proof.
  intros P1 P2 H1 D1 H2 D2. rewrite (done_perm _ _ _ _ P1 H1 D1). symmetry. now apply (done_perm _ _ _ _ P2 H2 D2).
Qed.

Lemma total_chunks_lemma tasks n s k : (0 < n)%nat ->
  Forall (fun t => 0 <= tk_chunks t) tasks ->
  pool_steps (pool_init tasks n) s k -> all_done s ->
  Z.of_nat (length (p_done s)) = zsum (map tk_chunks tasks).
Proof.
  intros Hp F H D. apply done_perm in H; auto. apply Permutation_length in H. rewrite map_length in H. rewrite H.
  clear -F. induction F as [|t l Ht F IH]; [reflexivity|]. cbn [flat_map map zsum fold_right].
  rewrite app_length, Nat2Z.inj_add. unfold zsum in IH. rewrite IH.
  unfold remaining. rewrite map_length, seq_length. lia.
Qed.

(** *** Termination and progress *)
Definition pc_weight (L : nat) (p : pc) : nat :=
  match p with
  | PDone => 0
  | PScan i => 2 + (L - i)
  | PUnlock k => if tk_chunks k <=? 0 then 1 else L + 5
  | PIdle => L + 3
  | PWork _ => L + 4
  end.
Definition sumn (l : list nat) : nat := fold_right plus 0%nat l.
Definition measure (s : pool) : nat :=
  let L := length (p_tasks s) in
  sumn (map (pc_weight L) (p_pc s)) + (L + 10) * sumn (map (fun k => Z.to_nat (tk_chunks k)) (p_tasks s)).

Lemma sumn_set_nth {A} (f : A -> nat) l t x y : nth_error l t = Some y ->
  (sumn (map f (set_nth l t x)) + f y = sumn (map f l) + f x)%nat.
Proof.
  revert t; induction l as [|z l IH]; intros [|t] H; cbn in H; try discriminate.
  - inversion H; subst. cbn. lia.
  - specialize (IH t H). cbn. unfold sumn in IH. lia.
Qed.

Lemma measure_decreases s s' : pool_step s s' -> (measure s' < measure s)%nat.
Proof.
  intro H. inversion H; subst; unfold measure; cbn [p_pc p_tasks].
  - pose proof (sumn_set_nth (pc_weight (length (p_tasks s))) _ _ (PScan 0) _ H0) as E.
    cbn [pc_weight] in E. lia.
  - pose proof (sumn_set_nth (pc_weight (length (p_tasks s))) _ _ (PUnlock task_none) _ H0) as E.
    cbn [pc_weight tk_chunks task_none] in E. rewrite Z.leb_refl in E. lia.
  - pose proof (sumn_set_nth (pc_weight (length (p_tasks s))) _ _ (PScan (S i)) _ H0) as E.
    cbn [pc_weight] in E. assert (i < length (p_tasks s))%nat by (apply nth_error_Some; congruence). lia.
  - rewrite set_nth_length.
    pose proof (sumn_set_nth (pc_weight (length (p_tasks s))) _ _ (PUnlock (task_out k)) _ H0) as E.
    pose proof (sumn_set_nth (fun k => Z.to_nat (tk_chunks k)) _ _ (task_next k) _ H1) as E2.
    cbn [pc_weight] in E.
    assert (E3 : (tk_chunks (task_out k) <=? 0) = false) by (cbn; lia). rewrite E3 in E. cbn in E2. nia.
  - pose proof (sumn_set_nth (pc_weight (length (p_tasks s))) _ _ (if tk_chunks k <=? 0 then PDone else PWork k) _ H0) as E.
    cbn [pc_weight] in E. destruct (tk_chunks k <=? 0); cbn [pc_weight] in E; lia.
  - pose proof (sumn_set_nth (pc_weight (length (p_tasks s))) _ _ PIdle _ H0) as E.
    cbn [pc_weight] in E. lia.
Qed.

Lemma bounded_lemma s0 s n : pool_steps s0 s n -> (n + measure s <= measure s0)%nat.
Proof.
  induction 1; [lia|]. pose proof (measure_decreases _ _ H0). lia.
Qed.

Lemma progress_lemma tasks n s k : pool_steps (pool_init tasks n) s k ->
  ~ all_done s -> exists s', pool_step s s'.
Proof.
  intros H D. apply pool_inv_steps in H. destruct H as (I1 & I2 & _).
  destruct (p_lock s) as [t|] eqn:EL.
  - destruct (I2 t eq_refl) as (p & Hp & Hh). destruct p as [|i|q| |]; try discriminate.
    + destruct (nth_error (p_tasks s) i) as [q|] eqn:E.
      * destruct (tk_chunks q >? 0) eqn:C; eexists; [eapply step_scan_pick|eapply step_scan_skip]; eauto.
      * eexists. eapply step_scan_end; eauto.
    + eexists. eapply step_unlock; eauto.
  - assert (exists t p, nth_error (p_pc s) t = Some p /\ p <> PDone) as (t & p & Hp & Hne).
    { clear -D. unfold all_done in D. induction (p_pc s) as [|q l IH]; [exfalso; apply D; constructor|].
      assert (Hd : {q = PDone} + {q <> PDone}) by (destruct q; (now left) || (right; discriminate)).
      destruct Hd as [->|Hne].
      - destruct IH as (t & p & H1 & H2); [intro F; apply D; constructor; auto|].
        exists (S t), p. auto.
      - exists 0%nat, q. auto. }
    destruct p as [|i|q|q|]; try congruence.
    + eexists. eapply step_lock; eauto.
    + pose proof (I1 t (PScan i) Hp eq_refl). congruence.
    + pose proof (I1 t (PUnlock q) Hp eq_refl). congruence.
    + eexists. eapply step_work; eauto.
Qed.

Lemma mutex_lemma tasks n s k t u p q : pool_steps (pool_init tasks n) s k ->
  nth_error (p_pc s) t = Some p -> nth_error (p_pc s) u = Some q ->
  holds p = true -> holds q = true -> t = u.
Proof.
  intros H Hp Hq A B. apply pool_inv_steps in H. destruct H as (I1 & _).
  pose proof (I1 _ _ Hp A). pose proof (I1 _ _ Hq B). congruence.
Qed.

Lemma all_done_dec s : {all_done s} + {~ all_done s}.
Proof.
  unfold all_done. apply Forall_dec. intro p. destruct p; (now left) || (right; discriminate).
Defined.

Lemma completes_lemma tasks nt : forall s n, pool_steps (pool_init tasks nt) s n ->
  exists s' n', pool_steps s s' n' /\ all_done s'.
Proof.
  assert (G : forall m s n, (measure s < m)%nat -> pool_steps (pool_init tasks nt) s n ->
    exists s' n', pool_steps s s' n' /\ all_done s').
  { induction m as [|m IH]; intros s n Hm H; [lia|].
    destruct (all_done_dec s) as [D|D]; [exists s, 0%nat; split; [constructor|auto]|].
    destruct (progress_lemma _ _ _ _ H D) as (s1 & H1).
    pose proof (measure_decreases _ _ H1).
    destruct (IH s1 (S n)) as (s' & n' & A & B); [lia|econstructor; eauto|].
    exists s', (S n'). split; [|exact B]. clear -A H1.
    revert A. generalize s'. clear s'. induction n' as [|k IHk]; intros s' A; inversion A; subst.
    - econstructor; [constructor|exact H1].
    - econstructor; [apply IHk; eassumption|assumption]. }
  intros s n H. apply (G (S (measure s)) s n); auto.
Qed.
