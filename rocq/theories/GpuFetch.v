(** Threads that take slots with atomicAdd and store into them: int off = atomicAdd(&offsets[k], 1); out_0[off] = v_0; out_1[off] = v_1; ...
    A thread is the list of the pairs (k, [v_0; v_1; ...]) it handles; the steps of the threads (one atomicAdd, one store, the end of a pair) interleave arbitrarily. *)
From Coq Require Import String.
From Verif Require Import Base GpuLaunch.
Open Scope Z_scope.

Notation job V := (Z * list V)%type.
Section Machine.
Context {V : Type}.
(** The counters, and the output arrays, by their number *)
Record memory := mk_memory { counter : Z -> Z; out : nat -> Z -> V }.
(** The jobs that a thread still has to do; for the first of them: the slot, if it has one, and the number of values stored *)
Definition tstate := (list (job V) * option (Z * nat))%type.
Definition set_counter (m : memory) (k x : Z) : memory := mk_memory (fun i => if i =? k then x else counter m i) (out m).
Definition set_out (m : memory) (j : nat) (s : Z) (v : V) : memory :=
  mk_memory (counter m) (fun j' i => if (Nat.eqb j' j && (i =? s))%bool then v else out m j' i).
Definition tstep (m : memory) (t : tstate) : option (memory * tstate) :=
  match t with
  | ([], _) => None
  | ((k, vs) :: r, None) => Some (set_counter m k (counter m k + 1), ((k, vs) :: r, Some (counter m k, O)))
  | ((k, vs) :: r, Some (s, j)) =>
      match nth_error vs j with
      | Some v => Some (set_out m j s v, ((k, vs) :: r, Some (s, S j)))
      | None => Some (m, (r, None))
      end
  end.
(** The memory that the next step of a thread accesses is there: [n] counters, [size] slots in each output array *)
Definition tsafe (n size : Z) (t : tstate) : Prop :=
  match t with
  | ([], _) => True
  | ((k, vs) :: r, None) => 0 <= k < n
  | ((k, vs) :: r, Some (s, j)) => match nth_error vs j with Some v => 0 <= s < size | None => True end
  end.
Definition config := (memory * list tstate)%type.
Inductive step : config -> config -> Prop :=
| step_thread m l1 t l2 m' t' : tstep m t = Some (m', t') -> step (m, l1 ++ t :: l2) (m', l1 ++ t' :: l2).
Inductive steps : config -> config -> Prop :=
| steps_0 c : steps c c
| steps_S c c' c'' : step c c' -> steps c' c'' -> steps c c''.
Definition initial (m : memory) (jobs : list (list (job V))) : config := (m, map (fun o => (o, None)) jobs).
Definition finished (c : config) : Prop := forall t, In t (snd c) -> fst t = [].

(** sdp_launch_cuda_kernel (sdp_device_wrapper.cpp 27-77) for a kernel whose threads do such jobs *)
Definition launch_fetch (name : option string) (blocks threads : dim3) (body : Z * Z * Z -> option (list (job V))) (st : error) (m : memory) (st' : error) (m' : memory) : Prop :=
  if failed st then st' = st /\ m' = m else
  match name with
  | None => st' = ERR_INVALID_ARGUMENT /\ m' = m
  | Some n =>
      if negb (registered n) then st' = ERR_RUNTIME /\ m' = m
      else if negb (grid_ok (to_dim3 blocks) (to_dim3 threads)) then st' = ERR_RUNTIME /\ m' = m
      else st' = st /\ exists jobs, Forall2 (fun t o => body t = Some o) (threads3 (to_dim3 blocks) (to_dim3 threads)) jobs /\
             exists c, steps (initial m jobs) c /\ finished c /\ fst c = m'
  end.
(** A thread of the launch can access memory that is not there: an array that is only read (the thread has no jobs), a counter or a slot *)
Definition fetch_oob (n size : Z) (blocks threads : dim3) (body : Z * Z * Z -> option (list (job V))) (m : memory) : Prop :=
  (exists t, In t (threads3 (to_dim3 blocks) (to_dim3 threads)) /\ body t = None) \/
  exists jobs c t, Forall2 (fun t o => body t = Some o) (threads3 (to_dim3 blocks) (to_dim3 threads)) jobs /\ steps (initial m jobs) c /\ In t (snd c) /\ ~ tsafe n size t.
End Machine.
Arguments memory : clear implicits.
