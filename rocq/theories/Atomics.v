(** Model of utility/sdp_cuda_atomics.h: atomic addition, minimum and maximum of doubles built on the 64-bit compare-and-swap.
    The memory location holds a 64-bit pattern; [dec]/[enc] are __longlong_as_double/__double_as_longlong.  Every read and every atomicCAS is one
    atomic step; threads interleave arbitrarily.  (The loop of sdp_gridder_uvw_es_fft_kernels.cu 25-47, my_atomic_add, is the same code.) *)
From Verif Require Import Base.

Section Cas.
(** value type, bit patterns, and what a thread with operand v does to a value c: [want v c] update at all, [f v c] the new value *)
Context {A : Type} (dec : Z -> A) (enc : A -> Z) (want : A -> A -> bool) (f : A -> A -> A).

(** Where a thread is: before its first read; about to compare-and-swap, with the pattern it last saw; finished, with the last pattern returned *)
Inductive tstate := Start | Try (old : Z) | Done (ret : Z).

(** After seeing pattern w: the loop condition (31-39: none before the first CAS; 46 and 62: while (val < ret), while (val > ret)) *)
Definition look (v : A) (w : Z) : tstate := if want v (dec w) then Try w else Done w.

(** One step of a thread: the initial read (lines 26, 44, 60), or the compare-and-swap (30-34, 49-52, 65-68) *)
Definition tstep (v : A) (mem : Z) (s : tstate) : option (Z * tstate) :=
  match s with
  | Start => Some (mem, look v mem)
  | Try old => if mem =? old then Some (enc (f v (dec old)), Done old) else Some (mem, look v mem)
  | Done _ => None
  end.

(** The memory word and the threads with their operands *)
Definition config := (Z * list (A * tstate))%type.
Inductive step : config -> config -> Prop :=
| step_thread mem l1 v s l2 mem' s' : tstep v mem s = Some (mem', s') -> step (mem, l1 ++ (v, s) :: l2) (mem', l1 ++ (v, s') :: l2).
(** n steps *)
Inductive steps : nat -> config -> config -> Prop :=
| steps_0 c : steps 0 c c
| steps_S n c c' c'' : step c c' -> steps n c' c'' -> steps (S n) c c''.
Definition initial (mem : Z) (vs : list A) : config := (mem, map (fun v => (v, Start)) vs).
Definition finished (c : config) : Prop := forall v s, In (v, s) (snd c) -> exists r, s = Done r.
End Cas.

(** sdp_atomic_add(double), lines 18-38: always tries, value + old *)
Definition add_want {A} (_ _ : A) : bool := true.
Definition add_f {A} (plus : A -> A -> A) (v c : A) : A := plus v c.
(** sdp_atomic_min, 41-53: while (val < old), store val *)
Definition min_want {A} (lt : A -> A -> bool) (v c : A) : bool := lt v c.
Definition put_f {A} (v _ : A) : A := v.
(** sdp_atomic_max, 56-68: while (val > old), store val *)
Definition max_want {A} (lt : A -> A -> bool) (v c : A) : bool := lt c v.
