(** Read-modify-write operations made from compare-and-swap: utility/sdp_cuda_atomics.h.  A thread is the list of such operations it makes; the steps of
    the threads (one load, one atomicCAS, or leaving a loop) interleave arbitrarily. *)
From Coq Require Import String.
From Verif Require Import Base GpuLaunch.
Open Scope Z_scope.

Section Machine.
(** Locations, and values as bit patterns, which is what atomicCAS compares *)
Context {L V : Type} (leqb : L -> L -> bool) (same : V -> V -> bool).
(** ret = *address; while (go(ret)) { old = ret; if ((ret = atomicCAS(address, old, next(old))) == old) break; } *)
Record rmw := mk_rmw { at_ : L; go : V -> bool; next : V -> V }.
Definition memory := L -> V.
Definition put (m : memory) (l : L) (v : V) : memory := fun l' => if leqb l l' then v else m l'.
(** The operations a thread still has to do, and the value of [ret] in the first of them *)
Definition tstate := (list rmw * option V)%type.
Definition tstep (m : memory) (t : tstate) : option (memory * tstate) :=
  match t with
  | ([], _) => None
  | (o :: k, None) => Some (m, (o :: k, Some (m (at_ o))))
  | (o :: k, Some r) =>
      if go o r then
        if same (m (at_ o)) r then Some (put m (at_ o) (next o r), (k, None)) else Some (m, (o :: k, Some (m (at_ o))))
      else Some (m, (k, None))
  end.
Definition config := (memory * list tstate)%type.
Inductive step : config -> config -> Prop :=
| step_thread m l1 t l2 m' t' : tstep m t = Some (m', t') -> step (m, l1 ++ t :: l2) (m', l1 ++ t' :: l2).
Inductive steps : nat -> config -> config -> Prop :=
| steps_0 c : steps 0 c c
| steps_S n c c' c'' : step c c' -> steps n c' c'' -> steps (S n) c c''.
Definition initial (m : memory) (ops : list (list rmw)) : config := (m, map (fun o => (o, None)) ops).
Definition finished (c : config) : Prop := forall t, In t (snd c) -> fst t = [].

(** sdp_launch_cuda_kernel (sdp_device_wrapper.cpp 27-77) for a kernel whose threads make such operations *)
Definition launch_cas (name : option string) (blocks threads : dim3) (body : Z * Z * Z -> option (list rmw)) (st : error) (m : memory) (st' : error) (m' : memory) : Prop :=
  if failed st then st' = st /\ m' = m else
  match name with
  | None => st' = ERR_INVALID_ARGUMENT /\ m' = m
  | Some n =>
      if negb (registered n) then st' = ERR_RUNTIME /\ m' = m
      else if negb (grid_ok (to_dim3 blocks) (to_dim3 threads)) then st' = ERR_RUNTIME /\ m' = m
      else st' = st /\ exists ops, Forall2 (fun t o => body t = Some o) (threads3 (to_dim3 blocks) (to_dim3 threads)) ops /\
             exists k c, steps k (initial m ops) c /\ finished c /\ fst c = m'
  end.
End Machine.
Arguments rmw : clear implicits.

(** sdp_atomic_min, 41-53; [lt]: the comparison of floating-point numbers *)
Definition atomic_min {L V} (lt : V -> V -> bool) (l : L) (v : V) : rmw L V := mk_rmw l (fun r => lt v r) (fun _ => v).
(** sdp_atomic_max, 56-68 *)
Definition atomic_max {L V} (lt : V -> V -> bool) (l : L) (v : V) : rmw L V := mk_rmw l (fun r => lt r v) (fun _ => v).
(** sdp_atomic_add for devices without atomicAdd for double, 26-36: do { assumed = old; old = atomicCAS(..., value + assumed) } while (assumed != old) *)
Definition atomic_add {L V} (plus : V -> V -> V) (l : L) (v : V) : rmw L V := mk_rmw l (fun _ => true) (fun r => plus v r).
