(** Model of the parallel task pool of grid_data/sdp_grid_wstack_wtower.cpp.
    Threads interleave at the granularity of single accesses around the mutex: acquiring it,
    each iteration of the scan, releasing it, and doing the work outside it. *)
From Verif Require Import Base.

(** struct sdp_SubgridTask, sdp_grid_wstack_wtower.cpp 25-40 *)
Record task := mk_task {
  tk_iu : Z; tk_iv : Z; tk_chunks : Z; tk_per : Z; tk_total : Z; tk_vis : Z;
  tk_start : Z; tk_end : Z }.

(** default constructor, 36-40 *)
Definition task_none : task := mk_task 0 0 0 0 0 0 0 0.

(** sdp_grid_wstack_wtower.cpp 27 *)
Definition min_chunk_size : Z := 2000.

(** constructor, sdp_grid_wstack_wtower.cpp 42-63 *)
Definition task_make (iu iv num_vis num_rows num_vis_per_chunk : Z) : task :=
  let per_chunk := if num_vis_per_chunk <? min_chunk_size then min_chunk_size else num_vis_per_chunk in
  let chunks := cdiv (num_vis + per_chunk - 1) per_chunk in
  let rows := if chunks >? 0 then cdiv (num_rows + chunks - 1) chunks else num_rows in
  mk_task iu iv chunks rows num_rows num_vis 0 0.

(** count_visibilities, 69-138: one task per sub-grid; [nvis iu iv] is the number of selected
    visibilities (computed there by the channel clamp, modelled in Clamp.v). The loop over
    sub-grids is parallel but each iteration writes its own element. *)
Definition count_visibilities (nvis : Z -> Z -> Z)
    (num_rows num_chan num_threads min_iu max_iu min_iv max_iv : Z) : list task :=
  let per_chunk := cdiv (num_rows * num_chan) num_threads in
  flat_map (fun iu =>
    map (fun iv => task_make iu iv (nvis iu iv) num_rows per_chunk) (zrange min_iv (max_iv + 1)))
    (zrange min_iu (max_iu + 1)).

(** the body of the scan for a sub-grid with work left, 151-161: the task handed out *)
Definition task_out (t : task) : task :=
  let e := tk_start t + tk_per t in
  mk_task (tk_iu t) (tk_iv t) (tk_chunks t) (tk_per t) (tk_total t) (tk_vis t) (tk_start t)
    (if e >? tk_total t then tk_total t else e).
(** and the update of the shared list, 158-159 *)
Definition task_next (t : task) : task :=
  mk_task (tk_iu t) (tk_iv t) (tk_chunks t - 1) (tk_per t) (tk_total t) (tk_vis t)
    (tk_start t + tk_per t) (tk_end t).

Fixpoint set_nth {A} (l : list A) (i : nat) (x : A) : list A :=
  match l, i with
  | [], _ => []
  | _ :: l', O => x :: l'
  | y :: l', S i' => y :: set_nth l' i' x
  end.

(** Where a worker is in the loop 390-430 (degrid) / 640-690 (grid). *)
Inductive pc :=
| PIdle                      (* about to call pick_task *)
| PScan (i : nat)            (* inside pick_task with the mutex, looking at element i *)
| PUnlock (t : task)         (* still holding the mutex, about to return t *)
| PWork (t : task)           (* processing t, mutex not held *)
| PDone.                     (* left the loop *)

Record pool := mk_pool {
  p_tasks : list task;       (* the shared vector *)
  p_lock : option nat;       (* thread holding the mutex *)
  p_pc : list pc;            (* one per thread *)
  p_done : list task }.      (* tasks completely processed (history only) *)

(** One step of thread [t]; nothing constrains which thread moves next.
    (The early exit on an error status is not modelled: no step reports an error.) *)
Inductive pool_step : pool -> pool -> Prop :=
| step_lock : forall s t,
    nth_error (p_pc s) t = Some PIdle -> p_lock s = None ->
    pool_step s (mk_pool (p_tasks s) (Some t) (set_nth (p_pc s) t (PScan 0)) (p_done s))
| step_scan_end : forall s t i,
    nth_error (p_pc s) t = Some (PScan i) -> nth_error (p_tasks s) i = None ->
    pool_step s (mk_pool (p_tasks s) (p_lock s) (set_nth (p_pc s) t (PUnlock task_none)) (p_done s))
| step_scan_skip : forall s t i k,
    nth_error (p_pc s) t = Some (PScan i) -> nth_error (p_tasks s) i = Some k ->
    (tk_chunks k >? 0) = false ->
    pool_step s (mk_pool (p_tasks s) (p_lock s) (set_nth (p_pc s) t (PScan (S i))) (p_done s))
| step_scan_pick : forall s t i k,
    nth_error (p_pc s) t = Some (PScan i) -> nth_error (p_tasks s) i = Some k ->
    (tk_chunks k >? 0) = true ->
    pool_step s (mk_pool (set_nth (p_tasks s) i (task_next k)) (p_lock s)
                   (set_nth (p_pc s) t (PUnlock (task_out k))) (p_done s))
| step_unlock : forall s t k,
    nth_error (p_pc s) t = Some (PUnlock k) ->
    pool_step s (mk_pool (p_tasks s) None
                   (set_nth (p_pc s) t (if tk_chunks k <=? 0 then PDone else PWork k)) (p_done s))
| step_work : forall s t k,
    nth_error (p_pc s) t = Some (PWork k) ->
    pool_step s (mk_pool (p_tasks s) (p_lock s) (set_nth (p_pc s) t PIdle) (p_done s ++ [k])).

Inductive pool_steps : pool -> pool -> nat -> Prop :=
| steps_refl s : pool_steps s s 0
| steps_cons s s' s'' n : pool_steps s s' n -> pool_step s' s'' -> pool_steps s s'' (S n).

(** Start of the parallel region, 386-388: every thread at the top of the loop. *)
Definition pool_init (tasks : list task) (num_threads : nat) : pool :=
  mk_pool tasks None (repeat PIdle num_threads) [].
