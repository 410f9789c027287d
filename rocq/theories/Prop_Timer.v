(** Property theorems C15-C16: timers and timer trees. *)
From Verif Require Import Base Timer TimerSpec TimerFacts.

(** ** C15: after any history without sdp_timer_restart, a reading is the time spent running
    since the last reset or start.  ([time_running], [is_running]: TimerSpec.v.) *)
Theorem C15_timer_reading : forall hist now,
  Forall (fun e => snd e <> TRestart) hist ->
  fst (timer_elapsed now (fold_left timer_step hist timer_create)) = time_running (rev hist) now.
Proof. exact timer_lemma. Qed.
Print Assumptions C15_timer_reading.
Example C15_hyps : let hist := [(1, TStart); (4, TPause); (6, TResume); (7, TElapsed); (9, TPause); (9, TPause)] in
  Forall (fun e => snd e <> TRestart) hist /\ time_running (rev hist) 20 = 6.
Proof. split; [repeat constructor; discriminate|reflexivity]. Qed.

(** With a clock that never goes back a reading is never negative. *)
Theorem C15_reading_nonneg : forall rev u, clock_ok rev u -> 0 <= time_running rev u.
Proof. exact time_running_nonneg. Qed.
Print Assumptions C15_reading_nonneg.

(** Removing every reading from a history changes no later reading. *)
Theorem C15_reads_invisible : forall hist now,
  Forall (fun e => snd e <> TRestart) hist ->
  fst (timer_elapsed now (fold_left timer_step hist timer_create)) =
  fst (timer_elapsed now
    (fold_left timer_step (filter (fun e => negb (is_read e)) hist) timer_create)).
Proof. exact reads_invisible. Qed.
Print Assumptions C15_reads_invisible.

Theorem C15_idempotent : forall t now,
  timer_pause now (timer_pause now t) = timer_pause now t /\
  (t_paused t = true -> timer_pause now t = t) /\
  (t_paused t = false -> timer_resume now t = t).
Proof. exact idempotent_lemma. Qed.
Print Assumptions C15_idempotent.

(** sdp_timer_restart (not one of the calls of C15) on a running timer discards the time
    since the timer was last started. *)
Theorem C15_restart_discards_time : exists hist now,
  fst (timer_elapsed now (fold_left timer_step hist timer_create)) <> time_running (rev hist) now.
Proof. exact restart_loses. Qed.
Print Assumptions C15_restart_discards_time.

(** ** C16: the current node follows the call tree, and each node's timer reports the total
    time during which it enclosed the current node: pushing the same name from the same node
    accumulates into one node. *)
Theorem C16_tree : forall t0 hist,
  n_cur (fold_left timers_step hist (timers_create t0)) = path_of (rev hist) /\
  forall p now, p <> [] ->
    node_elapsed now (fold_left timers_step hist (timers_create t0)) p = time_inside p (rev hist) now.
Proof. exact tree_lemma. Qed.
Print Assumptions C16_tree.
Example C16_case : let hist := [(1, TPush 7); (3, TPush 8); (5, TPop); (6, TPush 8); (9, TPop); (10, TPop); (11, TPop)] in
  path_of (rev hist) = [] /\ time_inside [8; 7] (rev hist) 20 = 5 /\ time_inside [7] (rev hist) 20 = 9.
Proof. repeat split. Qed.

Theorem C16_balanced_returns : forall t0 h l,
  balanced (map snd l) 0 = true ->
  n_cur (fold_left timers_step (h ++ l) (timers_create t0)) =
  n_cur (fold_left timers_step h (timers_create t0)).
Proof. exact balanced_run. Qed.
Print Assumptions C16_balanced_returns.
Example C16_hyps : balanced [TPush 1; TPush 2; TPop; TPush 2; TPop; TPop] 0 = true.
Proof. reflexivity. Qed.

Theorem C16_surplus_pops : forall t0 h l,
  Forall (fun e => snd e = TPop) l ->
  (length (n_cur (fold_left timers_step h (timers_create t0))) <= length l)%nat ->
  n_cur (fold_left timers_step (h ++ l) (timers_create t0)) = [].
Proof. exact surplus_pops. Qed.
Print Assumptions C16_surplus_pops.

Theorem C16_root_total : forall t0 h now,
  node_elapsed now (fold_left timers_step h (timers_create t0)) [] = now - t0.
Proof. exact root_elapsed. Qed.
Print Assumptions C16_root_total.
