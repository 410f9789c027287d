(** How a kernel launch is executed: every thread of the grid runs the kernel, and the memory operations of the threads interleave arbitrarily.
    A thread is represented by the list of operations it makes on the arrays the kernel writes; arrays that the kernel only reads are read when that
    list is computed (sdp_launch_cuda_kernel, utility/sdp_device_wrapper.cpp 105-140, starts blocks x threads of them). *)
From Verif Require Import Base.
Open Scope Z_scope.

Section Machine.
(** Locations, values, and the addition of atomicAdd *)
Context {L A : Type} (eqb : L -> L -> bool) (plus : A -> A -> A).

(** [Update l f]: x = load l; store l (f x), which are two steps, as in a[i] += v.  [Add l v]: atomicAdd(&l, v), which is one step. *)
Inductive op := Update (l : L) (f : A -> A) | Add (l : L) (v : A).
Definition memory := L -> A.
Definition put (m : memory) (l : L) (v : A) : memory := fun l' => if eqb l l' then v else m l'.

(** The operations that a thread still has to do, and the value it has loaded for the first of them *)
Definition tstate := (list op * option A)%type.
Definition tstep (m : memory) (t : tstate) : option (memory * tstate) :=
  match t with
  | (Update l f :: k, None) => Some (m, (Update l f :: k, Some (m l)))
  | (Update l f :: k, Some x) => Some (put m l (f x), (k, None))
  | (Add l v :: k, _) => Some (put m l (plus (m l) v), (k, None))
  | ([], _) => None
  end.
Definition config := (memory * list tstate)%type.
Inductive step : config -> config -> Prop :=
| step_thread m l1 t l2 m' t' : tstep m t = Some (m', t') -> step (m, l1 ++ t :: l2) (m', l1 ++ t' :: l2).
Inductive steps : nat -> config -> config -> Prop :=
| steps_0 c : steps 0 c c
| steps_S n c c' c'' : step c c' -> steps n c' c'' -> steps (S n) c c''.
Definition initial (m : memory) (ops : list (list op)) : config := (m, map (fun o => (o, None)) ops).
Definition finished (c : config) : Prop := forall t, In t (snd c) -> fst t = [].

(** The kernel [body], run by the threads [ths] on the memory [m], can end with the memory [m'].  None: a thread leaves the arrays it reads or writes. *)
Definition runs {T} (ths : list T) (body : T -> option (list op)) (m m' : memory) : Prop :=
  exists ops, Forall2 (fun t o => body t = Some o) ths ops /\ exists n c, steps n (initial m ops) c /\ finished c /\ fst c = m'.
End Machine.
Arguments op : clear implicits.

(** The threads of a launch with [bx] x [by_] blocks of [tx] x [ty] threads: blockDim.x * blockIdx.x + threadIdx.x and the same in y *)
Definition launch_threads (bx by_ tx ty : Z) : list (Z * Z) := list_prod (zrange 0 (bx * tx)) (zrange 0 (by_ * ty)).
