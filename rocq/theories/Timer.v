(** Model of utility/sdp_timer.cpp (native timers, no CUDA).  The clock reading is an
    argument of every call; times are exact integers (e.g. nanoseconds). *)
From Verif Require Import Base.

(** struct sdp_Timer, sdp_timer.cpp 30-41 *)
Record timer := mk_timer { t_paused : bool; t_start : Z; t_elapsed : Z }.

(** sdp_timer.cpp 68-88 sdp_timer_create *)
Definition timer_create : timer := mk_timer true 0 0.

(** sdp_timer.cpp 104-131 sdp_timer_elapsed: returns the reading and the new state *)
Definition timer_elapsed (now : Z) (t : timer) : Z * timer :=
  if t_paused t then (t_elapsed t, t)
  else let e := t_elapsed t + (now - t_start t) in (e, mk_timer (t_paused t) now e).

(** sdp_timer.cpp 134-139 sdp_timer_pause *)
Definition timer_pause (now : Z) (t : timer) : timer :=
  if t_paused t then t
  else let t' := snd (timer_elapsed now t) in mk_timer true (t_start t') (t_elapsed t').

(** sdp_timer.cpp 142-147 sdp_timer_reset *)
Definition timer_reset (t : timer) : timer := mk_timer true 0 0.

(** sdp_timer.cpp 157-168 sdp_timer_restart *)
Definition timer_restart (now : Z) (t : timer) : timer := mk_timer false now (t_elapsed t).

(** sdp_timer.cpp 150-154 sdp_timer_resume *)
Definition timer_resume (now : Z) (t : timer) : timer :=
  if negb (t_paused t) then t else timer_restart now t.

(** sdp_timer.cpp 171-175 sdp_timer_start *)
Definition timer_start (now : Z) (t : timer) : timer :=
  timer_restart now (mk_timer (t_paused t) (t_start t) 0).

(** Any API call at a clock reading. *)
Inductive timer_op := TStart | TPause | TResume | TRestart | TReset | TElapsed.
Definition timer_step (t : timer) (e : Z * timer_op) : timer :=
  let (now, op) := e in
  match op with
  | TStart => timer_start now t | TPause => timer_pause now t
  | TResume => timer_resume now t | TRestart => timer_restart now t
  | TReset => timer_reset t | TElapsed => snd (timer_elapsed now t)
  end.

(** ** Timer trees: struct sdp_TimerNode / sdp_Timers, sdp_timer.cpp 195-428.
    A node is named by its path from the root, innermost name first; [n_tmr p] is the
    timer tmr[0] of the node (None = not created).  Only calls with a null parent and
    index 0 are modelled (explicit parents and per-thread timer sets are not). *)
Record timers := mk_timers { n_cur : list Z; n_tmr : list Z -> option timer }.

(** sdp_timer.cpp 318-325: constructor, the root timer runs from creation *)
Definition timers_create (now : Z) : timers :=
  mk_timers [] (fun p => match p with [] => Some (timer_resume now timer_create) | _ => None end).

Definition set_tmr (s : timers) (p : list Z) (t : timer) : list Z -> option timer :=
  fun q => if idx_eqb p q then Some t else n_tmr s q.

(** sdp_timer.cpp 396-411 sdp_timers_push (and TimerNode::get 222-232) *)
Definition timers_push (now name : Z) (s : timers) : timers :=
  let p := name :: n_cur s in
  let t := match n_tmr s p with Some t => t | None => timer_create end in
  mk_timers p (set_tmr s p (timer_resume now t)).

(** sdp_timer.cpp 370-381 sdp_timers_pop; the current node's timer always exists *)
Definition timers_pop (now : Z) (s : timers) : timers :=
  match n_cur s with
  | [] => s
  | p => match n_tmr s p with
         | Some t => mk_timers (tl p) (set_tmr s p (timer_pause now t))
         | None => s
         end
  end.

Inductive tree_op := TPush (name : Z) | TPop.
Definition timers_step (s : timers) (e : Z * tree_op) : timers :=
  let (now, op) := e in
  match op with TPush n => timers_push now n s | TPop => timers_pop now s end.

(** Elapsed time of a node when read at [now] (0 if it was never created). *)
Definition node_elapsed (now : Z) (s : timers) (p : list Z) : Z :=
  match n_tmr s p with Some t => fst (timer_elapsed now t) | None => 0 end.
