(** Proofs about timers. *)
From Verif Require Import Base BaseFacts Timer TimerSpec.

Definition no_restart (e : Z * timer_op) : Prop := snd e <> TRestart.

Lemma time_running_shift rev u u' :
  time_running rev u' = time_running rev u + (if is_running rev then u' - u else 0).
Proof.
  destruct rev as [|[t op] older]; cbn; [lia|].
  destruct op; cbn; try lia. destruct (is_running older); lia.
Qed.

Lemma timer_inv rev :
  Forall no_restart rev ->
  let T := fold_right (fun e t => timer_step t e) timer_create rev in
  t_paused T = negb (is_running rev) /\
  forall now, fst (timer_elapsed now T) = time_running rev now.
Proof.
  induction rev as [|[t op] rev IH]; intros H; cbn [fold_right].
  - cbn. auto.
  - inversion H; subst. destruct (IH H3) as [IH1 IH2]. clear IH.
    set (T := fold_right _ _ _) in *. unfold no_restart in H2; cbn in H2.
    pose proof (time_running_shift rev) as SH.
    assert (V : forall now, t_elapsed T + (if is_running rev then now - t_start T else 0) = time_running rev now).
    { intro now. rewrite <- IH2. unfold timer_elapsed. rewrite IH1. destruct (is_running rev); cbn; lia. }
    destruct op; cbn [timer_step]; try congruence.
    + cbn. split; [auto|]. intro now. lia.
    + unfold timer_pause. rewrite IH1. destruct (is_running rev) eqn:R; cbn [negb].
      * unfold timer_elapsed. rewrite IH1. cbn. split; [auto|]. intro now.
        specialize (V t). lia.
      * split; [cbn; rewrite ?IH1; cbn; rewrite ?R; auto|]. intro now. cbn. rewrite IH2. specialize (SH t now). lia.
    + unfold timer_resume. rewrite IH1. destruct (is_running rev) eqn:R; cbn [negb].
      * split; [cbn; rewrite ?IH1; cbn; rewrite ?R; auto|]. intro now. cbn. rewrite IH2. specialize (SH t now). lia.
      * split; [auto|]. intro now. cbn. specialize (V t). lia.
    + cbn. auto.
    + cbn [is_running time_running].
      assert (E : snd (timer_elapsed t T) =
        if is_running rev then mk_timer false t (t_elapsed T + (t - t_start T)) else T).
      { unfold timer_elapsed. rewrite IH1. destruct (is_running rev); reflexivity. }
      rewrite E. destruct (is_running rev) eqn:R.
      * split; [reflexivity|]. intro now. cbn. specialize (V t). lia.
      * split; [exact IH1|]. intro now. rewrite IH2. specialize (SH t now). lia.
Qed.

Lemma fold_left_as_right {A B} (f : B -> A -> B) l i :
  fold_left f l i = fold_right (fun x y => f y x) i (rev l).
Proof. symmetry. exact (fold_left_rev_right (fun x y => f y x) l i). Qed.

Lemma timer_lemma hist now :
  Forall no_restart hist ->
  fst (timer_elapsed now (fold_left timer_step hist timer_create)) = time_running (rev hist) now.
Proof.
  intro H. rewrite fold_left_as_right.
  apply (timer_inv (rev hist)). now apply Forall_rev.
Qed.

(** Readings do not disturb later readings. *)
Definition is_read (e : Z * timer_op) : bool := match snd e with TElapsed => true | _ => false end.

Lemma reads_invisible_rev r :
  is_running r = is_running (filter (fun e => negb (is_read e)) r) /\
  forall u, time_running r u = time_running (filter (fun e => negb (is_read e)) r) u.
Proof.
  induction r as [|[t op] r [IH1 IH2]]; [split; reflexivity|].
  destruct op; cbn [filter is_read snd negb is_running time_running]; split; auto;
    try (intro u; rewrite ?IH2; auto).
  rewrite IH1. rewrite (time_running_shift _ t u). lia.
Qed.

Lemma filter_rev {A} (f : A -> bool) l : filter f (rev l) = rev (filter f l).
Proof.
  induction l as [|x l IH]; [reflexivity|]. cbn. rewrite filter_app, IH. cbn.
  destruct (f x); cbn; [reflexivity|now rewrite app_nil_r].
Qed.

Lemma reads_invisible hist now :
  Forall no_restart hist ->
  fst (timer_elapsed now (fold_left timer_step hist timer_create)) =
  fst (timer_elapsed now (fold_left timer_step (filter (fun e => negb (is_read e)) hist) timer_create)).
Proof.
  intro H. rewrite !timer_lemma; auto.
  - rewrite (proj2 (reads_invisible_rev (rev hist))). now rewrite filter_rev.
  - apply Forall_forall. intros e He. apply filter_In in He.
    eapply Forall_forall in H; [exact H|]. tauto.
Qed.

Lemma idempotent_lemma t now :
  timer_pause now (timer_pause now t) = timer_pause now t /\
  (t_paused t = true -> timer_pause now t = t) /\
  (t_paused t = false -> timer_resume now t = t).
Proof.
  unfold timer_pause, timer_resume. destruct (t_paused t) eqn:E; cbn; rewrite ?E; cbn;
    repeat split; auto; intro; congruence.
Qed.

(** A reading is never negative and never decreases between resets when the clock is monotone *)
Fixpoint clock_ok (rev : list (Z * timer_op)) (until : Z) : Prop :=
  match rev with [] => True | (t, _) :: older => t <= until /\ clock_ok older t end.

Lemma time_running_nonneg rev u : clock_ok rev u -> 0 <= time_running rev u.
Proof.
  revert u; induction rev as [|[t op] r IH]; intros u H; cbn; [lia|]. destruct H as [H1 H2].
  specialize (IH t H2). destruct op; try lia. destruct (is_running r); lia.
Qed.

(** *** Trees *)
Lemma encloses_cons p n q :
  encloses p (n :: q) = idx_eqb p (n :: q) || encloses p q.
Proof.
  unfold encloses. cbn [length].
  destruct (Nat.le_gt_cases (length p) (length q)) as [L|L].
  - replace (S (length q) - length p)%nat with (S (length q - length p)) by lia. cbn [skipn].
    rewrite (idx_eqb_neq p (n :: q)); [reflexivity|].
    intro E. apply (f_equal (@length Z)) in E. cbn in E. lia.
  - replace (length q - length p)%nat with 0%nat by lia.
    replace (S (length q) - length p)%nat with 0%nat by lia. cbn [skipn].
    rewrite (idx_eqb_neq p q); [now rewrite orb_false_r|].
    intro E. apply (f_equal (@length Z)) in E. lia.
Qed.

Lemma encloses_refl p : encloses p p = true.
Proof. unfold encloses. rewrite Nat.sub_diag. apply idx_eqb_refl. Qed.

Lemma encloses_longer p q : (length q < length p)%nat -> encloses p q = false.
Proof.
  intro L. unfold encloses. apply idx_eqb_neq. intro E. apply (f_equal (@length Z)) in E.
  rewrite skipn_length in E. lia.
Qed.

Lemma encloses_nil p : p <> [] -> encloses p [] = false.
Proof. intro H. apply encloses_longer. destruct p; [congruence|cbn; lia]. Qed.

Lemma time_inside_shift p r u u' :
  r <> [] -> time_inside p r u' = time_inside p r u + (if encloses p (path_of r) then u' - u else 0).
Proof. destruct r as [|[t op] r]; [congruence|]. intros _. cbn [time_inside]. destruct (encloses _ _); lia. Qed.

Lemma path_inv t0 r : n_cur (fold_right (fun e s => timers_step s e) (timers_create t0) r) = path_of r /\
  forall p, p <> [] ->
    let s := fold_right (fun e s => timers_step s e) (timers_create t0) r in
    match n_tmr s p with
    | Some T => t_paused T = negb (encloses p (path_of r)) /\
                (forall now, fst (timer_elapsed now T) = time_inside p r now)
    | None => encloses p (path_of r) = false /\ forall now, time_inside p r now = 0
    end.
Proof.
  induction r as [|[t op] r [IHc IH]].
  - cbn. split; [reflexivity|]. intros [|x p] Hp; [congruence|]. split; [now apply encloses_nil|auto].
  - cbn [fold_right]. set (s := fold_right _ _ _) in *. clearbody s.
    assert (EX : forall p now, p <> [] -> encloses p (path_of r) = false ->
              time_inside p r now = time_inside p r t).
    { intros p now Hp He. destruct r as [|e r']; [reflexivity|].
      rewrite (time_inside_shift p _ t now) by congruence. rewrite He. lia. }
    assert (EX' : forall p now, p <> [] -> encloses p (path_of r) = true ->
              time_inside p r now = time_inside p r t + (now - t)).
    { intros p now Hp He. destruct r as [|e r']; [cbn in He; rewrite encloses_nil in He; congruence|].
      rewrite (time_inside_shift p _ t now) by congruence. rewrite He. lia. }
    destruct op as [n|]; cbn [timers_step].
    + unfold timers_push. cbn [n_cur n_tmr]. rewrite IHc. split; [reflexivity|].
      intros p Hp. cbn zeta. unfold set_tmr. cbn [path_of time_inside].
      destruct (idx_eqb_spec (n :: path_of r) p) as [E|E].
      * subst p. rewrite encloses_refl. cbn [negb].
        specialize (IH (n :: path_of r) Hp). cbn zeta in IH.
        assert (Hne : encloses (n :: path_of r) (path_of r) = false)
          by (apply encloses_longer; cbn; lia).
        destruct (n_tmr s (n :: path_of r)) as [T|].
        -- destruct IH as [IH1 IH2]. rewrite Hne in IH1. cbn in IH1.
           unfold timer_resume. rewrite IH1. cbn. split; [reflexivity|]. intro now.
           rewrite <- (IH2 t). unfold timer_elapsed. rewrite IH1. cbn. lia.
        -- destruct IH as [_ IH2]. cbn. split; [reflexivity|]. intro now. rewrite IH2. lia.
      * specialize (IH p Hp). cbn zeta in IH. rewrite encloses_cons.
        rewrite (idx_eqb_neq p (n :: path_of r)) by congruence. cbn [orb].
        destruct (n_tmr s p) as [T|].
        -- destruct IH as [IH1 IH2]. split; [exact IH1|]. intro now. rewrite IH2.
           destruct (encloses p (path_of r)) eqn:En; [rewrite (EX' p now Hp En)|rewrite (EX p now Hp En)]; lia.
        -- destruct IH as [IH1 IH2]. split; [exact IH1|]. intro now. rewrite IH1, IH2. lia.
    + unfold timers_pop. rewrite IHc. cbn [path_of time_inside].
      destruct (path_of r) as [|n q] eqn:Ep.
      * cbn [tl]. split; [now rewrite IHc|]. intros p Hp. specialize (IH p Hp). cbn zeta in *.
        rewrite encloses_nil in * by assumption.
        destruct (n_tmr s p) as [T|].
        -- destruct IH as [IH1 IH2]. split; [exact IH1|]. intro now. rewrite IH2, (EX p now Hp (encloses_nil p Hp)). lia.
        -- destruct IH as [IH1 IH2]. split; [auto|]. intro now. rewrite IH2. lia.
      * pose proof (IH (n :: q) ltac:(congruence)) as IHp. cbn zeta in IHp.
        rewrite encloses_refl in IHp.
        destruct (n_tmr s (n :: q)) as [T|]; [|destruct IHp; discriminate].
        cbn [n_cur n_tmr tl]. split; [reflexivity|].
        intros p Hp. cbn zeta. unfold set_tmr.
        destruct (idx_eqb_spec (n :: q) p) as [E|E].
        -- subst p. destruct IHp as [I1 I2]. cbn in I1.
           assert (Hne : encloses (n :: q) q = false) by (apply encloses_longer; cbn; lia).
           rewrite Hne. unfold timer_pause. rewrite I1. cbn. split; [reflexivity|]. intro now.
           unfold timer_elapsed. cbn. rewrite I1. cbn. rewrite <- (I2 t). unfold timer_elapsed.
           rewrite I1. cbn. lia.
        -- specialize (IH p Hp). cbn zeta in IH.
           assert (Hen : encloses p (n :: q) = encloses p q)
             by (rewrite encloses_cons, idx_eqb_neq by congruence; reflexivity).
           rewrite Hen in IH. specialize (EX p). specialize (EX' p). rewrite Hen in EX, EX'.
           destruct (n_tmr s p) as [T'|].
           ++ destruct IH as [IH1 IH2]. split; [exact IH1|]. intro now. rewrite IH2.
              destruct (encloses p q) eqn:En; [rewrite (EX' now Hp eq_refl)|rewrite (EX now Hp eq_refl)]; lia.
           ++ destruct IH as [IH1 IH2]. split; [exact IH1|]. intro now. rewrite IH1, IH2. lia.
Qed.

Lemma tree_lemma t0 hist :
  n_cur (fold_left timers_step hist (timers_create t0)) = path_of (rev hist) /\
  forall p now, p <> [] ->
    node_elapsed now (fold_left timers_step hist (timers_create t0)) p = time_inside p (rev hist) now.
Proof.
  rewrite fold_left_as_right. destruct (path_inv t0 (rev hist)) as [A B].
  split; [exact A|]. intros p now Hp. specialize (B p Hp). cbn zeta in B.
  unfold node_elapsed. destruct (n_tmr _ p); destruct B as [B1 B2]; auto.
Qed.

Lemma restart_loses :
  exists hist now,
    fst (timer_elapsed now (fold_left timer_step hist timer_create)) <> time_running (rev hist) now.
Proof. exists [(0, TStart); (10, TRestart)], 15. vm_compute. discriminate. Qed.

(** Balanced use returns to the starting node. *)
Fixpoint balanced (l : list tree_op) (d : nat) : bool :=
  match l with
  | [] => Nat.eqb d 0
  | TPush _ :: l' => balanced l' (S d)
  | TPop :: l' => match d with O => false | S d' => balanced l' d' end
  end.

Lemma path_balanced l : forall d r,
  balanced (map snd l) d = true -> (d <= length (path_of r))%nat ->
  path_of (rev l ++ r) = skipn d (path_of r).
Proof.
  induction l as [|[t [n|]] l IH]; intros d r H Hd; cbn in H.
  - apply Nat.eqb_eq in H. subst d. reflexivity.
  - cbn [rev]. rewrite <- app_assoc. cbn [app]. rewrite (IH (S d)); auto. cbn. lia.
  - destruct d as [|d]; [discriminate|]. cbn [rev]. rewrite <- app_assoc. cbn [app].
    assert (L : length (tl (path_of r)) = pred (length (path_of r)))
      by (destruct (path_of r); reflexivity).
    rewrite (IH d); auto.
    + cbn [path_of]. destruct (path_of r); [cbn in Hd; lia|]. reflexivity.
    + cbn [path_of]. lia.
Qed.

Lemma balanced_run t0 h l :
  balanced (map snd l) 0 = true ->
  n_cur (fold_left timers_step (h ++ l) (timers_create t0)) =
  n_cur (fold_left timers_step h (timers_create t0)).
Proof.
  intro H. rewrite !(proj1 (tree_lemma _ _)). rewrite rev_app_distr.
  rewrite (path_balanced l 0); auto. lia.
Qed.

Lemma surplus_pops t0 h l :
  Forall (fun e => snd e = TPop) l ->
  (length (n_cur (fold_left timers_step h (timers_create t0))) <= length l)%nat ->
  n_cur (fold_left timers_step (h ++ l) (timers_create t0)) = [].
Proof.
  rewrite !(proj1 (tree_lemma _ _)). rewrite rev_app_distr. generalize (rev h) as r.
  induction l as [|[t op] l IH]; intros r H L.
  - cbn in *. destruct (path_of r); [reflexivity|cbn in L; lia].
  - inversion H; subst. cbn in H2. subst op. cbn [rev]. rewrite <- app_assoc. cbn [app].
    apply IH; auto. cbn [path_of]. destruct (path_of r); cbn in *; lia.
Qed.

Lemma root_elapsed t0 h now :
  node_elapsed now (fold_left timers_step h (timers_create t0)) [] = now - t0.
Proof.
  rewrite fold_left_as_right. generalize (rev h) as r. intro r.
  assert (n_tmr (fold_right (fun x y => timers_step y x) (timers_create t0) r) [] =
          Some (mk_timer false t0 0)) as H.
  { induction r as [|[t op] r IH]; [reflexivity|]. cbn [fold_right]. set (s := fold_right _ _ _) in *.
    clearbody s. destruct op as [n|]; cbn [timers_step].
    - cbn. exact IH.
    - unfold timers_pop. destruct (n_cur s) as [|m q]; [exact IH|].
      destruct (n_tmr s (m :: q)); [|exact IH]. cbn. exact IH. }
  unfold node_elapsed. rewrite H. cbn. lia.
Qed.
