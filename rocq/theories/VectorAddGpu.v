(** Model of the addition of vectors in GPU memory: examples/sdp_vector_add.cu, and the GPU branch of examples/sdp_vector_add.cpp.
    Arithmetic is arbitrary, as in Examples.v.  Arrays are flat.  An input ([Some]) is another array than the output, or the output itself ([None]). *)
From Coq Require Import String.
From Verif Require Import Base Mem Gpu GpuLaunch GpuView PhaseRotateGpu.
Open Scope Z_scope.

(** An element of an input, if it is not the output *)
Definition input_at {A} (x : option (nd A)) (i : Z) : option (option A) := match x with None => Some None | Some x => let* v := rd x [i] in Some (Some v) end.
Definition or_old {A} (v : option A) (old : A) : A := match v with Some v => v | None => old end.
(** vector_add<T>, vector_add.cu 6-20.  blockDim.x * blockIdx.x + threadIdx.x is computed with 32 bits before it becomes an int64_t. *)
Definition add_thread {A} (add : A -> A -> A) (n : Z) (a b : option (nd A)) (sh : list Z) (id : Z * Z * Z) : option (list (op (list Z) A)) :=
  let '(x, _, _) := id in
  let i := u32 x in
  if i <? n then
    let* u := input_at a i in
    let* v := input_at b i in
    if in_shape sh [i] then Some [Update [i] (fun old => add (or_old u old) (or_old v old))] else None
  else Some [].
(** sdp_vector_add, vector_add.cpp 23-114, for an output in GPU memory *)
Definition gpu_vector_add {A} (add : A -> A -> A) (a_m b_m out_m : option mem) (a b : option (nd A)) (out : nd A) (st st' : error) (r : nd A) : Prop :=
  if failed st then st' = st /\ r = out else
  let type := mtype out_m in
  let n := num_elements out_m in
  if is_read_only out_m then st' = ERR_RUNTIME /\ r = out
  else if negb (mtype a_m =? type) || negb (mtype b_m =? type) then st' = ERR_DATA_TYPE /\ r = out
  else if negb (location a_m =? location out_m) || negb (location b_m =? location out_m) then st' = ERR_MEM_LOCATION /\ r = out
  else if negb (num_elements a_m =? n) || negb (num_elements b_m =? n) then st' = ERR_RUNTIME /\ r = out
  else
    let name := if type =? MEM_DOUBLE then Some "vector_add<double>"%string else if type =? MEM_FLOAT then Some "vector_add<float>"%string else None in
    let st := match name with Some _ => st | None => ERR_DATA_TYPE end in
    launch_view add name (blocks_of n 256, 1, 1) (256, 1, 1) (add_thread add n a b (shape out)) st out st' r.
