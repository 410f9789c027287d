(** C59: atomic accumulation by compare-and-swap loses no update, for every number of threads and every interleaving *)
From Coq Require Import Permutation.
From Verif Require Import Base BaseFacts Sum CRing Atomics AtomicsFacts.

Section Claims.
Context {A : Type} (dec : Z -> A) (enc : A -> Z) (Hde : forall a, dec (enc a) = a).

(** Addition: when all threads have finished, the value is the initial one plus all operands. *)
Theorem C59_add plus zero n mem vs c : cmonoid plus zero ->
  steps dec enc add_want (add_f plus) n (initial mem vs) c -> finished c -> dec (fst c) = fold_right plus (dec mem) vs.
Proof.
  intros M S F. destruct (good_steps dec enc add_want (add_f plus) n mem vs _ _ (good_initial _ _ _ _ mem vs) S) as (V & _ & H & P & R).
  pose proof (completed_finished c vs V F) as Cv. apply (Permutation_map fst) in P. rewrite Cv in P.
  assert (X : dec (fst c) = fold_right plus (dec mem) (map fst H)).
  { clear P. revert mem S R. clear -M Hde. intros mem _ R. revert mem R. induction H as [|[v r] H IH]; intros mem R; [injection R as <-; reflexivity|].
    cbn [replay] in R. destruct (r =? mem); [|discriminate]. rewrite (IH _ R). unfold apply1, add_want, add_f. rewrite Hde. cbn [map fold_right fst].
    clear -M. induction (map fst H) as [|x l IH]; [reflexivity|]. cbn [fold_right]. rewrite IH, !(cm_assoc _ _ M). f_equal. apply (cm_comm _ _ M). }
  rewrite X. clear -M P. induction P as [|x a b P IH|x y a|a b d P1 IH1 P2 IH2]; cbn; [reflexivity|now rewrite IH| |congruence].
  rewrite !(cm_assoc _ _ M). f_equal. apply (cm_comm _ _ M).
Qed.

(** Also before the end: the value is always the initial one plus the operands of the threads that have finished. *)
Theorem C59_add_always plus zero n mem vs c : cmonoid plus zero -> steps dec enc add_want (add_f plus) n (initial mem vs) c ->
  dec (fst c) = fold_right plus (dec mem) (map fst (filter (fun t => match snd t with Done _ => true | _ => false end) (snd c))).
Proof.
  intros M S. destruct (good_steps dec enc add_want (add_f plus) n mem vs _ _ (good_initial _ _ _ _ mem vs) S) as (_ & _ & H & P & R).
  replace (map fst (filter (fun t : A * tstate => match snd t with Done _ => true | _ => false end) (snd c))) with (map fst (completed (snd c))).
  2:{ generalize (snd c). intro l. induction l as [|[v [|o|r]] l IH]; [reflexivity|exact IH|exact IH|].
      change (completed ((v, Done r) :: l)) with ((v, r) :: completed l). cbn [filter snd map fst]. f_equal. exact IH. }
  apply (Permutation_map fst) in P.
  assert (X : dec (fst c) = fold_right plus (dec mem) (map fst H)).
  { clear P. clear -M Hde R. revert mem R. induction H as [|[v r] H IH]; intros mem R; [injection R as <-; reflexivity|].
    cbn [replay] in R. destruct (r =? mem); [|discriminate]. rewrite (IH _ R). unfold apply1, add_want, add_f. rewrite Hde. cbn [map fold_right fst].
    clear -M. induction (map fst H) as [|x l IH]; [reflexivity|]. cbn [fold_right]. rewrite IH, !(cm_assoc _ _ M). f_equal. apply (cm_comm _ _ M). }
  rewrite X. clear -M P. induction P as [|x a b P IH|x y a|a b d P1 IH1 P2 IH2]; cbn; [reflexivity|now rewrite IH| |congruence].
  rewrite !(cm_assoc _ _ M). f_equal. apply (cm_comm _ _ M).
Qed.

(** An order in which equal elements may differ in their bits (0 and -0) *)
Definition weak_order (lt : A -> A -> bool) : Prop :=
  (forall a, lt a a = false) /\ (forall a b c, lt a b = true -> lt b c = true -> lt a c = true) /\ (forall a b c, lt a b = false -> lt b c = false -> lt a c = false).

(** Minimum: the final value is the initial one or an operand, and none of them is smaller. *)
Theorem C59_min lt n mem vs c : weak_order lt -> steps dec enc (min_want lt) put_f n (initial mem vs) c -> finished c ->
  In (dec (fst c)) (dec mem :: vs) /\ forall x, In x (dec mem :: vs) -> lt x (dec (fst c)) = false.
Proof.
  intros (I & T & N) S F. destruct (good_steps dec enc (min_want lt) put_f n mem vs _ _ (good_initial _ _ _ _ mem vs) S) as (V & _ & H & P & R).
  pose proof (completed_finished c vs V F) as Cv. apply (Permutation_map fst) in P. rewrite Cv in P.
  assert (X : In (dec (fst c)) (dec mem :: map fst H) /\ forall x, In x (dec mem :: map fst H) -> lt x (dec (fst c)) = false).
  { clear P Cv V F S. revert mem R. induction H as [|[v r] H IH]; intros mem R.
    - injection R as <-. split; [now left|]. intros x [<-|[]]. apply I.
    - cbn [replay] in R. destruct (r =? mem); [|discriminate]. destruct (IH _ R) as [J K]. unfold apply1, min_want, put_f in J, K. cbn [map fst].
      destruct (lt v (dec mem)) eqn:L.
      + rewrite Hde in J, K. split; [right; exact J|]. intros x [<-|Hx]; [|apply K; exact Hx]. specialize (K v (or_introl eq_refl)).
        destruct (lt (dec mem) (dec (fst c))) eqn:Q; [|reflexivity]. rewrite (T v (dec mem) (dec (fst c)) L Q) in K. discriminate.
      + split; [destruct J as [J|J]; [left; exact J|right; right; exact J]|]. intros x [<-|[<-|Hx]].
        * apply K. now left.
        * apply (N v (dec mem)); [exact L|]. apply K. now left.
        * apply K. now right. }
  destruct X as [J K]. split.
  - destruct J as [J|J]; [now left|]. right. eapply Permutation_in; [exact P|exact J].
  - intros x [<-|Hx]; apply K; [now left|]. right. eapply Permutation_in; [apply Permutation_sym; exact P|exact Hx].
Qed.

(** Maximum: the final value is the initial one or an operand, and none of them is larger. *)
Theorem C59_max lt n mem vs c : weak_order lt -> steps dec enc (max_want lt) put_f n (initial mem vs) c -> finished c ->
  In (dec (fst c)) (dec mem :: vs) /\ forall x, In x (dec mem :: vs) -> lt (dec (fst c)) x = false.
Proof.
  intros (I & T & N) S F. assert (W : weak_order (fun a b => lt b a)) by (split; [exact I|]; split; [intros a b d X Y; exact (T _ _ _ Y X)|intros a b d X Y; exact (N _ _ _ Y X)]).
  exact (C59_min (fun a b => lt b a) n mem vs c W S F).
Qed.

(** Every schedule ends: N threads make at most N (N + 2) steps, and as long as a thread has not finished a step is possible. *)
Theorem C59_terminates want f n mem vs c : steps dec enc want f n (initial mem vs) c ->
  (n <= length vs * (length vs + 2))%nat /\ (~ finished c -> exists c', step dec enc want f c c').
Proof.
  intro S. split; [|apply progress]. set (N := Z.of_nat (length vs)). assert (L : Z.of_nat (length (snd (initial mem vs))) <= N) by (cbn [initial snd]; rewrite map_length; unfold N; lia).
  pose proof (steps_total dec enc want f N n _ _ L S) as T. change (fst (initial mem vs)) with mem in T. rewrite (total_initial dec enc want f) in T.
  assert (0 <= total N (fst c) (snd c)) by (apply (total_nonneg dec enc want f); unfold N; apply Nat2Z.is_nonneg). unfold N in T, H. rewrite Nat2Z.inj_le, Nat2Z.inj_mul, Nat2Z.inj_add. change (Z.of_nat 2) with 2. lia.
Qed.

(** The operations behave as if each were executed at once, in some order: each returns the pattern that was in memory just before it
    and the memory ends with the result of the last. *)
Fixpoint one_by_one (want : A -> A -> bool) (f : A -> A -> A) (w : Z) (H : list (A * Z)) (w' : Z) : Prop :=
  match H with
  | [] => w' = w
  | (v, ret) :: H => ret = w /\ one_by_one want f (if want v (dec w) then enc (f v (dec w)) else w) H w'
  end.
Theorem C59_linearizable want f n mem vs c : steps dec enc want f n (initial mem vs) c -> finished c ->
  exists H, Permutation (map (fun t => (fst t, Done (snd t))) H) (snd c) /\ one_by_one want f mem H (fst c).
Proof.
  intros S F. destruct (good_steps dec enc want f n mem vs _ _ (good_initial _ _ _ _ mem vs) S) as (V & _ & H & P & R). exists H. split.
  - apply (Permutation_map (fun t : A * Z => (fst t, Done (snd t)))) in P. etransitivity; [exact P|]. clear -F. unfold finished in F. induction (snd c) as [|[v s] l IH]; [constructor|].
    destruct (F v s (or_introl eq_refl)) as (r & ->). cbn. apply perm_skip. apply IH. intros v' s' Hx. apply (F v' s'). now right.
  - clear -R. revert mem R. induction H as [|[v r] H IH]; intros mem R; cbn in *; [congruence|]. destruct (Z.eqb_spec r mem); [|discriminate]. split; [assumption|]. apply IH. exact R.
Qed.
End Claims.
Print Assumptions C59_add.
Print Assumptions C59_add_always.
Print Assumptions C59_min.
Print Assumptions C59_max.
Print Assumptions C59_terminates.
Print Assumptions C59_linearizable.

(** Two threads adding 3 and 4 to 10, where the first compare-and-swap of one fails *)
Example C59_hyps : exists c, steps (fun w => w) (fun a => a) add_want (add_f Z.add) 5 (initial 10 [3; 4]) c /\ finished c /\ fst c = 17.
Proof.
  eexists. split; [|split].
  - eapply steps_S; [apply (step_thread _ _ _ _ 10 [] 3 Start [(4, Start)]); reflexivity|]. cbn [app].
    eapply steps_S; [apply (step_thread _ _ _ _ 10 [(3, _)] 4 Start []); reflexivity|]. cbn [app].
    eapply steps_S; [apply (step_thread _ _ _ _ 10 [(3, _)] 4 _ []); reflexivity|]. cbn [app].
    eapply steps_S; [apply (step_thread _ _ _ _ _ [] 3 _ [(4, _)]); reflexivity|]. cbn [app].
    eapply steps_S; [apply (step_thread _ _ _ _ _ [] 3 _ [(4, _)]); reflexivity|]. apply steps_0.
  - intros v s [E|[E|[]]]; injection E as <- <-; eauto.
  - reflexivity.
Qed.
Example C59_hyps_order : weak_order Z.ltb.
Proof. split; [apply Z.ltb_irrefl|]. split; intros; lia. Qed.
