(** Model of utility/sdp_thread_support.cpp: a mutex and the threads of a client that use it.  With OpenMP, sdp_Mutex holds an omp_lock_t (a simple lock, OpenMP API 5.0, 3.3):
    omp_set_lock waits until no thread owns the lock and then owns it, omp_unset_lock gives it up.  Threads interleave at single accesses to what they share.
    Not modelled: weak memory, failure of calloc, sdp_mutex_free while the mutex is in use. *)
From Verif Require Import Base.

Section Mutex.
(** What the threads share; what each thread has for itself (its variables and its place in the program) *)
Context {S L : Type}.
(** What a thread does next: sdp_mutex_lock, sdp_mutex_unlock, one access to what is shared (a load or a store), something of its own, nothing more *)
Inductive action := Lock (l : L) | Unlock (l : L) | Access (f : S -> S * L) | Private (l : L) | Return.
Context (prog : L -> action).
(** [holder]: the thread that owns the lock, sdp_thread_support.cpp 11-18; sdp_mutex_create 21-28: no thread *)
Record state := mk_state { shared : S; holder : option Z; local : Z -> L }.
Definition set_local (f : Z -> L) (t : Z) (l : L) : Z -> L := fun u => if u =? t then l else f u.
(** One step of one of [n] threads; [omp]: the library was built with OpenMP *)
Inductive step (omp : bool) (n : Z) : state -> state -> Prop :=
(* sdp_mutex_lock, 40-45 *)
| s_lock x h f t l : 0 <= t < n -> prog (f t) = Lock l -> (omp = true -> h = None) -> step omp n (mk_state x h f) (mk_state x (if omp then Some t else h) (set_local f t l))
(* sdp_mutex_unlock, 48-53 *)
| s_unlock x h f t l : 0 <= t < n -> prog (f t) = Unlock l -> step omp n (mk_state x h f) (mk_state x (if omp then None else h) (set_local f t l))
| s_access x h f t g x' l : 0 <= t < n -> prog (f t) = Access g -> g x = (x', l) -> step omp n (mk_state x h f) (mk_state x' h (set_local f t l))
| s_private x h f t l : 0 <= t < n -> prog (f t) = Private l -> step omp n (mk_state x h f) (mk_state x h (set_local f t l)).
Inductive steps (omp : bool) (n : Z) : state -> state -> Prop :=
| steps_0 s : steps omp n s s
| steps_S s s' s'' : steps omp n s s' -> step omp n s' s'' -> steps omp n s s''.
(** A new mutex, and thread t about to do what [f t] says *)
Definition start (x : S) (f : Z -> L) : state := mk_state x None f.
End Mutex.
Arguments action : clear implicits.
Arguments state : clear implicits.
