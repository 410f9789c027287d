(** Vocabulary for the addition of vectors in GPU memory. *)
From Verif Require Import Base Mem.
Open Scope Z_scope.

(** What sdp_vector_add accepts in GPU memory *)
Definition gpu_addable (a b out : option mem) : Prop :=
  is_read_only out = false /\ location out = MEM_GPU /\ (mtype out = MEM_FLOAT \/ mtype out = MEM_DOUBLE) /\
  mtype a = mtype out /\ mtype b = mtype out /\ location a = MEM_GPU /\ location b = MEM_GPU /\
  num_elements a = num_elements out /\ num_elements b = num_elements out.
(** An input is an array of n elements, or the output itself *)
Definition has_elements {A} (x : option (nd A)) (n : Z) : Prop := match x with Some x => shape x = [n] | None => True end.
(** The element of an input before the call *)
Definition before {A} (x : option (nd A)) (out : nd A) (i : Z) : A := match x with Some x => elem x [i] | None => elem out [i] end.
