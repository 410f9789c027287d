(** Model of examples/sdp_vector_add.cpp and examples/sdp_function_example_a.cpp (built without CUDA).
    Arithmetic is arbitrary: the operations are arguments, so the results hold for float and double as they are. *)
From Verif Require Import Base Mem Clamp.
Open Scope Z_scope.

(** sdp_vector_add<T>, sdp_vector_add.cpp 8-20.  One memory holds the three vectors, at element positions pa, pb and po: they may overlap. *)
Definition add_loop {A} (add : A -> A -> A) (n pa pb po : Z) (memory : nd A) : option (nd A) :=
  for_ 0 n (fun i memory =>
    let* x := rd memory [pa + i] in
    let* y := rd memory [pb + i] in
    wr memory [po + i] (add x y)) memory.

(** sdp_vector_add, 23-114.  In GPU memory, without CUDA, 87-114 only set the status (type error, else the launch fails). *)
Definition vector_add {A} (add : A -> A -> A) (a b out : option mem) (pa pb po : Z) (memory : nd A) (st : error) : option (error * nd A) :=
  if failed st then Some (st, memory) else
  let type := mtype out in
  let loc := location out in
  let n := num_elements out in
  if is_read_only out then Some (ERR_RUNTIME, memory)
  else if negb (mtype a =? type) || negb (mtype b =? type) then Some (ERR_DATA_TYPE, memory)
  else if negb (location a =? loc) || negb (location b =? loc) then Some (ERR_MEM_LOCATION, memory)
  else if negb (num_elements a =? n) || negb (num_elements b =? n) then Some (ERR_RUNTIME, memory)
  else if loc =? MEM_CPU then
    if (type =? MEM_DOUBLE) || (type =? MEM_FLOAT) then
      let* memory := add_loop add n pa pb po memory in Some (st, memory)
    else Some (ERR_DATA_TYPE, memory)
  else if loc =? MEM_GPU then
    if (type =? MEM_DOUBLE) || (type =? MEM_FLOAT) then Some (ERR_RUNTIME, memory) else Some (ERR_DATA_TYPE, memory)
  else Some (st, memory).

Section ExampleA.
Context {A : Type} (zero : A) (add mul : A -> A -> A) (of_int : Z -> A).
Definition int_ok (z : Z) : bool := (- 2147483648 <=? z) && (z <=? 2147483647).
(** struct sdp_FunctionExampleA, sdp_function_example_a.cpp 9-15; the work area is NULL or a flat array *)
Record plan := mk_plan { pl_a : Z; pl_b : Z; pl_c : A; pl_work : option (nd A) }.

(** sdp_function_example_a_create_plan, 18-43.  Signed overflow of a * b is undefined; calloc of a negative size fails (the request is
    beyond SIZE_MAX), and it may fail for lack of memory (oom).  A failing calloc of the structure itself is not modelled. *)
Definition create_plan (oom : bool) (a b : Z) (c : A) (st : error) : option (error * option plan) :=
  if failed st then Some (st, None)
  else if a =? 10 then Some (ERR_INVALID_ARGUMENT, None)
  else if negb (int_ok (a * b)) then None
  else Some (st, Some (mk_plan a b c (if oom || (a * b <? 0) then None else Some (mk_nd [a * b] (fun _ => zero))))).

(** The loop 80-89, on the work area and the output; f is an int *)
Definition example_loop (c : A) (n : Z) (work : option (nd A)) (output : nd A) : option (option (nd A) * nd A) :=
  for_ 0 n (fun f '(work, output) =>
    if negb (int_ok f) then None else
    match work with
    | None => None
    | Some work =>
        let* work := wr work [f] (mul c (of_int f)) in
        let* ftemp := for_ 0 f (fun i ftemp => let* x := rd work [i] in Some (add ftemp x)) zero in
        let* output := wr output [f] ftemp in
        Some (Some work, output)
    end) (work, output).

(** sdp_function_example_a_exec, 46-90 *)
Definition example_exec (p : option plan) (out : option mem) (output : nd A) (st : error) : option (error * nd A) :=
  if failed st then Some (st, output) else
  match p with
  | None => Some (st, output)
  | Some p =>
      if negb (mtype out =? MEM_FLOAT) then Some (ERR_DATA_TYPE, output)
      else if negb (location out =? MEM_CPU) then Some (ERR_MEM_LOCATION, output)
      else if is_read_only out then Some (ERR_RUNTIME, output)
      else let n := num_elements out in
      if negb (int_ok (pl_a p * pl_b p)) then None
      else if n <? pl_a p * pl_b p then Some (ERR_RUNTIME, output)
      else let* r := example_loop (pl_c p) n (pl_work p) output in Some (st, snd r)
  end.
End ExampleA.
