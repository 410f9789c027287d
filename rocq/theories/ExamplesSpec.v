From Verif Require Import Base Mem.
Open Scope Z_scope.

(** Vectors of n elements at positions p and q of one memory: the same vector, or without a common element *)
Definition same_or_apart (n p q : Z) : Prop := p = q \/ p + n <= q \/ q + n <= p.
(** The vector of n elements at position p lies inside a memory of N elements *)
Definition inside (N n p : Z) : Prop := 0 <= p /\ p + n <= N.
(** What sdp_vector_add accepts (CPU memory) *)
Definition addable (a b out : option mem) : Prop :=
  is_read_only out = false /\ location out = MEM_CPU /\ (mtype out = MEM_FLOAT \/ mtype out = MEM_DOUBLE) /\
  mtype a = mtype out /\ mtype b = mtype out /\ location a = MEM_CPU /\ location b = MEM_CPU /\
  num_elements a = num_elements out /\ num_elements b = num_elements out.
(** The sum of c * 0, c * 1, ..., c * (f - 1), added up from the left, starting with zero *)
Fixpoint ramp_sum {A} (zero : A) (add mul : A -> A -> A) (of_int : Z -> A) (c : A) (f : nat) : A :=
  match f with O => zero | S f => add (ramp_sum zero add mul of_int c f) (mul c (of_int (Z.of_nat f))) end.
