(** How a kernel launch with blocks of threads, memory shared by a block, barriers and atomic additions is executed: as GpuBlock.v, and a thread can also add
    to a memory location in one step (atomicAdd), and can be about to read an element of a constant array that is not there ([Stuck]). *)
From Verif Require Import Base.
Open Scope Z_scope.

Section Machine.
Context {L A : Type} (eqb : L -> L -> bool) (add : A -> A -> A).
Inductive prog := Done | Stuck | Ld (l : L) (k : A -> prog) | St (l : L) (v : A) (k : prog) | Atomic (l : L) (v : A) (k : prog) | Sync (k : prog).
Definition put (m : L -> A) (l : L) (v : A) : L -> A := fun l' => if eqb l l' then v else m l'.
Definition at_barrier (p : prog) : bool := match p with Sync _ => true | _ => false end.
Definition waiting (p : prog) : bool := match p with Sync _ | Done => true | _ => false end.
Definition release (p : prog) : prog := match p with Sync k => k | p => p end.
(** A step of a thread that is not a barrier *)
Definition tstep (m : L -> A) (p : prog) : option ((L -> A) * prog) :=
  match p with
  | Ld l k => Some (m, k (m l))
  | St l v k => Some (put m l v, k)
  | Atomic l v k => Some (put m l (add (m l) v), k)
  | _ => None
  end.
(** A grid of blocks 0 .. B - 1 of threads 0 .. T - 1 *)
Definition grid := Z -> Z -> prog.
Definition set_thread (g : grid) (b t : Z) (p : prog) : grid := fun b' t' => if (b' =? b) && (t' =? t) then p else g b' t'.
Definition release_block (g : grid) (b : Z) : grid := fun b' t' => if b' =? b then release (g b' t') else g b' t'.
Inductive step (B T : Z) : (L -> A) * grid -> (L -> A) * grid -> Prop :=
| s_thread m g b t m' p : 0 <= b < B -> 0 <= t < T -> tstep m (g b t) = Some (m', p) -> step B T (m, g) (m', set_thread g b t p)
| s_sync m g b : 0 <= b < B -> (forall t, 0 <= t < T -> waiting (g b t) = true) -> (exists t, 0 <= t < T /\ at_barrier (g b t) = true) -> step B T (m, g) (m, release_block g b).
Inductive exec (B T : Z) : (L -> A) * grid -> (L -> A) * grid -> Prop :=
| e_refl s : exec B T s s
| e_step s s' s'' : step B T s s' -> exec B T s' s'' -> exec B T s s''.
Definition finished (B T : Z) (g : grid) : Prop := forall b t, 0 <= b < B -> 0 <= t < T -> g b t = Done.
(** The launch of [kernel] (a program for every block and thread) on memory [m] can end with memory [m'] *)
Definition launch (B T : Z) (kernel : grid) (m m' : L -> A) : Prop := exists g, exec B T (m, kernel) (m', g) /\ finished B T g.
(** Some execution comes to a point where a thread is about to access memory that is not there *)
Definition bad_access (valid : L -> Prop) (p : prog) : Prop := match p with Stuck => True | Ld l _ | St l _ _ | Atomic l _ _ => ~ valid l | _ => False end.
Definition out_of_bounds (B T : Z) (valid : L -> Prop) (kernel : grid) (m : L -> A) : Prop :=
  exists m' g b t, exec B T (m, kernel) (m', g) /\ 0 <= b < B /\ 0 <= t < T /\ bad_access valid (g b t).
End Machine.
Arguments prog : clear implicits.
