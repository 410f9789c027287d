(** C119: the mutex of the library. *)
From Coq Require Import Lia.
From Verif Require Import Base BaseFacts Mutex MutexSpec MutexFacts.

(** ** C119.  In every execution of threads that use the mutex as intended, in a library built with OpenMP: at most one thread is between locking and unlocking, and it is the one
    that owns the lock whenever it unlocks. *)
Theorem C119_exclusion : forall (S L : Type) (prog : L -> action S L) inside n (x0 : S) f0 s t u,
  bracketed prog inside -> all_outside inside n f0 -> steps prog true n (start x0 f0) s -> 0 <= t < n -> 0 <= u < n ->
  inside (local s t) = true -> (holder s = Some t /\ (inside (local s u) = true -> u = t)).
Proof.
  intros S L prog inside n x0 f0 s t u B O H Ht Hu I. pose proof (inv_steps prog inside B n x0 f0 O s H) as J.
  pose proof (inv_holder prog inside n x0 f0 s t J Ht I) as E. split; [exact E|]. intro I'. pose proof (inv_holder prog inside n x0 f0 s u J Hu I') as E'. congruence.
Qed.
Print Assumptions C119_exclusion.

(** Whenever all threads are outside, what they share and what each has for itself is what some execution gives in which every thread runs from lock to unlock without interruption. *)
Theorem C119_serial : forall (S L : Type) (prog : L -> action S L) inside n (x0 : S) f0 s,
  bracketed prog inside -> all_outside inside n f0 -> steps prog true n (start x0 f0) s -> all_outside inside n (local s) ->
  exists f, serial prog n x0 f0 (shared s) f /\ forall t, f t = local s t.
Proof.
  intros S L prog inside n x0 f0 s B O H Out. pose proof (inv_steps prog inside B n x0 f0 O s H) as (xb & fb & Ser & I). destruct (holder s) as [h|].
  - destruct I as (Hh & _ & _ & In_ & _). rewrite (Out h Hh) in In_. discriminate.
  - destruct I as (<- & Q & _). exists fb. auto.
Qed.
Print Assumptions C119_serial.

(** Never are all threads stuck: as long as one has more to do, one of them can go on. *)
Theorem C119_no_deadlock : forall (S L : Type) (prog : L -> action S L) inside n (x0 : S) f0 s,
  bracketed prog inside -> all_outside inside n f0 -> steps prog true n (start x0 f0) s -> (exists t, 0 <= t < n /\ prog (local s t) <> Return) -> exists s', step prog true n s s'.
Proof. intros S L prog inside n x0 f0 s B O. now apply progress with (inside := inside). Qed.
Print Assumptions C119_no_deadlock.

(** A client: each thread adds 1 to a shared counter, by a load and a store between lock and unlock.  Places 0 .. 4 of the program, and the value loaded *)
Definition counter (l : Z * Z) : action Z (Z * Z) :=
  let '(p, v) := l in
  if p =? 0 then Lock (1, v) else if p =? 1 then Access (fun x => (x, (2, x))) else if p =? 2 then Access (fun _ => (v + 1, (3, v))) else if p =? 3 then Unlock (4, v) else Return.
Definition counter_inside (l : Z * Z) : bool := let '(p, _) := l in (p =? 1) || (p =? 2) || (p =? 3).
Lemma counter_bracketed : bracketed counter counter_inside.
Proof.
  intros [p v]. unfold counter, counter_inside. destruct (Z.eqb_spec p 0); [subst; split; reflexivity|]. destruct (Z.eqb_spec p 1); [subst; split; reflexivity|].
  destruct (Z.eqb_spec p 2); [subst; split; reflexivity|]. destruct (Z.eqb_spec p 3); [subst; split; reflexivity|]. reflexivity.
Qed.
(** Number of threads that have counted *)
Definition counted (n : Z) (f : Z -> Z * Z) : Z := fold_right (fun t k => (if fst (f t) =? 4 then 1 else 0) + k) 0 (zrange 0 n).
Lemma counted_set l (f : Z -> Z * Z) t v : NoDup l -> In t l -> fst (f t) = 0 ->
  fold_right (fun u k => (if fst (set_local f t (4, v) u) =? 4 then 1 else 0) + k) 0 l = fold_right (fun u k => (if fst (f u) =? 4 then 1 else 0) + k) 0 l + 1.
Proof.
  intros N I E. induction N as [|u l Nu N IH]; [destruct I|]. cbn [fold_right]. destruct I as [->|I].
  - unfold set_local at 1. rewrite Z.eqb_refl, E. cbn [fst]. change (4 =? 4) with true. change (0 =? 4) with false. cbv iota.
    assert (X : fold_right (fun u k => (if fst (set_local f t (4, v) u) =? 4 then 1 else 0) + k) 0 l = fold_right (fun u k => (if fst (f u) =? 4 then 1 else 0) + k) 0 l).
    { clear - Nu. induction l as [|a l IH]; [reflexivity|]. cbn [fold_right]. rewrite IH by (intro; apply Nu; now right). unfold set_local at 1. destruct (Z.eqb_spec a t) as [->|]; [exfalso; apply Nu; now left|reflexivity]. }
    rewrite X. lia.
  - rewrite IH by exact I. unfold set_local at 1. destruct (Z.eqb_spec u t) as [->|]; [contradiction|]. lia.
Qed.
(** No count is lost, for any number of threads *)
Theorem C119_counter : forall n s, steps counter true n (start 0 (fun _ => (0, 0))) s -> (forall t, 0 <= t < n -> counter (local s t) = Return) -> 0 <= n -> shared s = n.
Proof.
  intros n s H R Hn. assert (O : all_outside counter_inside n (fun _ => (0, 0))) by (intros t _; reflexivity).
  destruct (C119_serial Z (Z * Z) counter counter_inside n 0 (fun _ => (0, 0)) s counter_bracketed O H) as (f & Ser & Q).
  { intros t Ht. specialize (R t Ht). pose proof (counter_bracketed (local s t)) as Bt. rewrite R in Bt. exact Bt. }
  assert (I : forall x f, serial counter n 0 (fun _ => (0, 0)) x f -> x = counted n f /\ forall t, 0 <= t < n -> fst (f t) = 0 \/ fst (f t) = 4).
  { clear. intros x f Ser. induction Ser as [|x f t l1 x' l2 l3 Ser (IH & P) Ht E A U|x f t l Ser (IH & P) Ht E].
    - split; [|auto]. unfold counted. induction (zrange 0 n) as [|a l IHl]; [reflexivity|]. cbn. exact IHl.
    - destruct (f t) as [p v] eqn:F. assert (p = 0) as ->. { pose proof (P t Ht) as X. rewrite F in X. cbn [fst] in X. destruct X as [X|X]; [exact X|]. subst p. discriminate. }
      injection E as <-.
      assert (K : match l2 with (1, _) => x' = x | (2, w) => x' = x /\ w = x | (3, w) => x' = x + 1 | _ => False end).
      { clear U IH Ser. remember (1, v) as l eqn:El. induction A as [x l|x l x1 l1 g x2 l2 A IHA Pr G|x l x1 l1 l2 A IHA Pr].
        - subst l. reflexivity.
        - specialize (IHA El). destruct l1 as [[|[[?|?|]|[?|?|]|]|?] w]; try contradiction; cbn in Pr; try discriminate Pr; injection Pr as <-; cbn in G; injection G as <- <-; cbn; try (destruct IHA); subst; auto.
        - specialize (IHA El). destruct l1 as [[|[[?|?|]|[?|?|]|]|?] w]; try contradiction; discriminate Pr. }
      destruct l2 as [[|[[?|?|]|[?|?|]|]|?] w]; try contradiction; try discriminate U. injection U as <-. split.
      + subst x' x. unfold counted. rewrite counted_set; [reflexivity|apply NoDup_zrange|now apply in_zrange|now rewrite F].
      + intros u Hu. unfold set_local. destruct (u =? t); [now right|now apply P].
    - destruct (f t) as [p v] eqn:F. pose proof (P t Ht) as X. rewrite F in X. cbn [fst] in X. destruct X; subst p; discriminate. }
  destruct (I _ _ Ser) as (-> & P). unfold counted.
  assert (A : forall l, (forall t, In t l -> 0 <= t < n) -> fold_right (fun t k => (if fst (f t) =? 4 then 1 else 0) + k) 0 l = Z.of_nat (length l)).
  { induction l as [|a l IHl]; intro Hl; [reflexivity|]. cbn [fold_right length]. rewrite IHl by (intros; apply Hl; now right). pose proof (Hl a (or_introl eq_refl)) as Ha.
    specialize (R a Ha). rewrite <- Q in R. destruct (P a Ha) as [X|X]; destruct (f a) as [p v]; cbn [fst] in X; subst p; [discriminate|]. cbn [fst]. change (4 =? 4) with true. cbv iota. lia. }
  rewrite A by (intros t Ht; now apply in_zrange). unfold zrange. rewrite map_length, seq_length. lia.
Qed.
Print Assumptions C119_counter.

(** Refuted: the mutex excludes in every build of the library.  Without OpenMP the functions do nothing; two threads of a client that adds 1 each can leave 1. *)
Theorem C119_no_openmp_refuted : exists s, steps counter false 2 (start 0 (fun _ => (0, 0))) s /\ (forall t, 0 <= t < 2 -> counter (local s t) = Return) /\ shared s = 1.
Proof.
  set (f0 := fun _ : Z => (0, 0)).
  set (f1 := set_local f0 0 (1, 0)). set (f2 := set_local f1 0 (2, 0)). set (f3 := set_local f2 1 (1, 0)). set (f4 := set_local f3 1 (2, 0)).
  set (f5 := set_local f4 0 (3, 0)). set (f6 := set_local f5 1 (3, 0)). set (f7 := set_local f6 0 (4, 0)). set (f8 := set_local f7 1 (4, 0)).
  exists (mk_state 1 None f8). split; [|split; [|reflexivity]].
  - eapply steps_S with (s' := mk_state 1 None f7); [|apply (s_unlock counter false 2 1 None f7 1 (4, 0)); [lia|reflexivity]].
    eapply steps_S with (s' := mk_state 1 None f6); [|apply (s_unlock counter false 2 1 None f6 0 (4, 0)); [lia|reflexivity]].
    eapply steps_S with (s' := mk_state 1 None f5); [|eapply (s_access counter false 2 1 None f5 1); [lia|reflexivity|reflexivity]].
    eapply steps_S with (s' := mk_state 0 None f4); [|eapply (s_access counter false 2 0 None f4 0); [lia|reflexivity|reflexivity]].
    eapply steps_S with (s' := mk_state 0 None f3); [|eapply (s_access counter false 2 0 None f3 1); [lia|reflexivity|reflexivity]].
    eapply steps_S with (s' := mk_state 0 None f2); [|apply (s_lock counter false 2 0 None f2 1 (1, 0)); [lia|reflexivity|discriminate]].
    eapply steps_S with (s' := mk_state 0 None f1); [|eapply (s_access counter false 2 0 None f1 0); [lia|reflexivity|reflexivity]].
    eapply steps_S with (s' := mk_state 0 None f0); [|apply (s_lock counter false 2 0 None f0 0 (1, 0)); [lia|reflexivity|discriminate]].
    constructor.
  - intros t Ht. assert (t = 0 \/ t = 1) as [->| ->] by lia; reflexivity.
Qed.
Print Assumptions C119_no_openmp_refuted.

(** Refuted: a thread may lock again what it has locked.  It waits for itself. *)
Definition twice (p : Z) : action unit Z := if p =? 0 then Lock 1 else if p =? 1 then Lock 2 else if p =? 2 then Unlock 3 else if p =? 3 then Unlock 4 else Return.
Theorem C119_relock_refuted : exists s, steps twice true 1 (start tt (fun _ => 0)) s /\ twice (local s 0) <> Return /\ forall s', ~ step twice true 1 s s'.
Proof.
  set (f1 := set_local (fun _ : Z => 0) 0 1). exists (mk_state tt (Some 0) f1). split; [|split].
  - eapply steps_S; [constructor|]. apply (s_lock twice true 1 tt None (fun _ => 0) 0 1); [lia|reflexivity|reflexivity].
  - discriminate.
  - intros s' St. inversion St as [x h f t l Ht E Hh|x h f t l Ht E|x h f t g x' l Ht E G|x h f t l Ht E]; subst; assert (t = 0) as -> by lia; try discriminate E. discriminate (Hh eq_refl).
Qed.
Print Assumptions C119_relock_refuted.

Example C119_hyps : bracketed counter counter_inside /\ all_outside counter_inside 3 (fun _ => (0, 0)) /\ counter_inside (1, 0) = true /\ counter_inside (4, 0) = false.
Proof. split; [exact counter_bracketed|]. split; [intros t _; reflexivity|]. split; reflexivity. Qed.
