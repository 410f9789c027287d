(** How a kernel launch with blocks of threads, shared memory and barriers is executed.  Every thread is a program of loads, stores and barriers
    (__syncthreads); the threads of all blocks interleave arbitrarily, one memory access at a time, and a barrier is passed when every thread of the
    block has arrived at it or has ended.  Shared memory is memory whose locations name the block. *)
From Verif Require Import Base.
Open Scope Z_scope.

Section Machine.
Context {L A : Type} (eqb : L -> L -> bool).
Inductive prog := Done | Ld (l : L) (k : A -> prog) | St (l : L) (v : A) (k : prog) | Sync (k : prog).
Definition mem := L -> A.
Definition put (m : mem) (l : L) (v : A) : mem := fun l' => if eqb l l' then v else m l'.
Definition at_barrier (p : prog) : bool := match p with Sync _ => true | _ => false end.
Definition waiting (p : prog) : bool := match p with Sync _ | Done => true | _ => false end.
Definition release (p : prog) : prog := match p with Sync k => k | p => p end.

(** A block of threads 0 .. T - 1 *)
Definition block := Z -> prog.
Definition set_thread (c : block) (t : Z) (p : prog) : block := fun t' => if t' =? t then p else c t'.
Inductive bstep (T : Z) : mem * block -> mem * block -> Prop :=
| b_load m c t l k : 0 <= t < T -> c t = Ld l k -> bstep T (m, c) (m, set_thread c t (k (m l)))
| b_store m c t l v k : 0 <= t < T -> c t = St l v k -> bstep T (m, c) (put m l v, set_thread c t k)
| b_sync m c : (forall t, 0 <= t < T -> waiting (c t) = true) -> (exists t, 0 <= t < T /\ at_barrier (c t) = true) -> bstep T (m, c) (m, fun t => release (c t)).
Inductive bexec (T : Z) : mem * block -> mem * block -> Prop :=
| be_refl s : bexec T s s
| be_step s s' s'' : bstep T s s' -> bexec T s' s'' -> bexec T s s''.

(** A grid of blocks 0 .. B - 1 *)
Definition grid := Z -> block.
Definition set_block (g : grid) (b : Z) (c : block) : grid := fun b' => if b' =? b then c else g b'.
Inductive gstep (B T : Z) : mem * grid -> mem * grid -> Prop :=
| g_step m g b m' c' : 0 <= b < B -> bstep T (m, g b) (m', c') -> gstep B T (m, g) (m', set_block g b c').
Inductive gexec (B T : Z) : mem * grid -> mem * grid -> Prop :=
| ge_refl s : gexec B T s s
| ge_step s s' s'' : gstep B T s s' -> gexec B T s' s'' -> gexec B T s s''.
Definition finished (B T : Z) (g : grid) : Prop := forall b t, 0 <= b < B -> 0 <= t < T -> g b t = Done.

(** The launch of [kernel] (a program for every block and thread) on memory [m] can end with memory [m'] *)
Definition launch (B T : Z) (kernel : Z -> Z -> prog) (m m' : mem) : Prop := exists g, gexec B T (m, kernel) (m', g) /\ finished B T g.
(** Some execution comes to a point where a thread is about to access memory that is not there *)
Definition next_access (p : prog) : option L := match p with Ld l _ | St l _ _ => Some l | _ => None end.
Definition out_of_bounds (B T : Z) (valid : L -> Prop) (kernel : Z -> Z -> prog) (m : mem) : Prop :=
  exists m' g b t l, gexec B T (m, kernel) (m', g) /\ 0 <= b < B /\ 0 <= t < T /\ next_access (g b t) = Some l /\ ~ valid l.
End Machine.
Arguments prog : clear implicits.
