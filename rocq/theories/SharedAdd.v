(** Model of threads adding to a shared array, as in the drivers of grid_data/sdp_grid_wstack_wtower.cpp (sdp_gridder_subgrid_add in "omp critical(subgrid_add)", 696-701; the
    visibilities of a task, without a critical section, 444-448) and in the parallel loop over rows of sdp_gridder_utils.cpp 570-597.  [x += y] is a load, an addition and
    a store; each load and each store is one step, and threads interleave in any way.  Not modelled: weak memory (a store is seen by all threads at once). *)
From Verif Require Import Base.

Section Add.
(** Indices and values *)
Context {I A : Type} (eqb : I -> I -> bool) (add : A -> A -> A).
(** What a thread does in one piece: "array[i] += x" for each pair (i, x): subgrid_add 553-598, or the additions to visibilities of wtower_uvw.cpp degrid *)
Definition piece := list (I * A).
(** Where a thread is: before its next piece (waiting, if there is a critical section); inside a piece; after loading [v] for "array[i] += x" *)
Inductive thread := Out (todo : list piece) | Busy (us : piece) (todo : list piece) | Loaded (v : A) (i : I) (x : A) (us : piece) (todo : list piece).
(** The array, whether a thread is in the critical section, and the threads 0 .. n-1 *)
Record state := mk_state { mem : I -> A; held : bool; threads : Z -> thread }.
Definition put (M : I -> A) (i : I) (y : A) : I -> A := fun j => if eqb i j then y else M j.
Definition set_thread (th : Z -> thread) (t : Z) (x : thread) : Z -> thread := fun u => if u =? t then x else th u.

(** One step of one of [n] threads; [locked]: pieces are in a critical section (sdp_grid_wstack_wtower.cpp 696) *)
Inductive step (locked : bool) (n : Z) : state -> state -> Prop :=
| s_enter M h th t s r : 0 <= t < n -> th t = Out (s :: r) -> (locked = true -> h = false) -> step locked n (mk_state M h th) (mk_state M true (set_thread th t (Busy s r)))
| s_load M h th t i x us r : 0 <= t < n -> th t = Busy ((i, x) :: us) r -> step locked n (mk_state M h th) (mk_state M h (set_thread th t (Loaded (M i) i x us r)))
| s_store M h th t v i x us r : 0 <= t < n -> th t = Loaded v i x us r -> step locked n (mk_state M h th) (mk_state (put M i (add v x)) h (set_thread th t (Busy us r)))
| s_leave M h th t r : 0 <= t < n -> th t = Busy [] r -> step locked n (mk_state M h th) (mk_state M false (set_thread th t (Out r))).
Inductive steps (locked : bool) (n : Z) : Z -> state -> state -> Prop :=
| steps_0 s : steps locked n 0 s s
| steps_S k s s' s'' : steps locked n k s s' -> step locked n s' s'' -> steps locked n (k + 1) s s''.
(** Thread t has the pieces [progs t] to do *)
Definition start (M : I -> A) (progs : Z -> list piece) : state := mk_state M false (fun t => Out (progs t)).
Definition finished (n : Z) (s : state) : Prop := forall t, 0 <= t < n -> threads s t = Out [].
End Add.
