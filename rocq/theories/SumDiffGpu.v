(** Model of sdp_gridder_sum_diff on arrays in GPU memory: grid_data/sdp_gridder_utils.cu 241-294 and sdp_gridder_utils.cpp 1919-1988.  The atomic
    additions of the blocks to the result are kept apart, one location for each block, and added up at the end: they commute (C98_add). *)
From Coq Require Import String.
From Verif Require Import Base Sum GpuBlock GpuLaunch Mem Checks.
Open Scope Z_scope.

Inductive loc := RowA (i : Z) | RowB (i : Z) | Sh (b t : Z) | Added (b : Z).
Definition loc_eqb (x y : loc) : bool :=
  match x, y with
  | RowA i, RowA j | RowB i, RowB j | Added i, Added j => i =? j
  | Sh b t, Sh c u => (b =? c) && (t =? u)
  | _, _ => false
  end.
Definition shared (l : loc) : bool := match l with Sh _ _ => true | _ => false end.
Notation code := (prog loc Z).
(** int arithmetic as the device does it, modulo 2^32 *)
Definition i32 (z : Z) : Z := (z + 2147483648) mod 4294967296 - 2147483648.

(** smem[thread_id] += a(i) - b(i) *)
Definition add_row (b t i : Z) (k : code) : code :=
  Ld (RowA i) (fun x => Ld (RowB i) (fun y => Ld (Sh b t) (fun s => St (Sh b t) (i32 (s + i32 (x - y))) k))).
(** .cu 267-275: the loop over rows; [fuel] bounds its turns *)
Fixpoint rows (fuel : nat) (i end_row b t : Z) (k : code) : code :=
  match fuel with
  | O => k
  | S f =>
      if i <? end_row then
        add_row b t i (if i + 512 <? end_row then add_row b t (i + 512) (rows f (i + 512 * 2 * 8) end_row b t k) else rows f (i + 512 * 2 * 8) end_row b t k)
      else k
  end.
(** .cu 277-291: a round of the reduction, followed by the barrier *)
Definition tree_step (stride b t : Z) (k : code) : code :=
  if t <? stride then Ld (Sh b (t + stride)) (fun y => Ld (Sh b t) (fun x => St (Sh b t) (i32 (x + y)) (Sync k))) else Sync k.
(** .cu 241-250: warp_reduce.  With [ls] the threads of the warp go through every instruction together: a barrier after every access to memory. *)
Definition lock (ls : bool) (k : code) : code := if ls then Sync k else k.
Definition warp_step (ls : bool) (stride b t : Z) (k : code) : code :=
  Ld (Sh b (t + stride)) (fun y => lock ls (Ld (Sh b t) (fun x => lock ls (St (Sh b t) (i32 (x + y)) (lock ls k))))).
Definition warp_reduce (ls : bool) (b t : Z) (k : code) : code :=
  warp_step ls 32 b t (warp_step ls 16 b t (warp_step ls 8 b t (warp_step ls 4 b t (warp_step ls 2 b t (warp_step ls 1 b t k))))).
(** .cu 293 *)
Definition add_result (b t : Z) : code := if t =? 0 then Ld (Sh b 0) (fun s => St (Added b) s Done) else Done.
(** .cu 253-294, thread [t] of block [b] *)
Definition sum_diff_thread (ls : bool) (start_row end_row b t : Z) : code :=
  let i := b * (512 * 2) + t + start_row in
  let rest := if t <? 32 then warp_reduce ls b t (add_result b t) else add_result b t in
  St (Sh b t) 0 (rows (Z.to_nat (end_row - i)) i end_row b t (Sync (tree_step 256 b t (tree_step 128 b t (tree_step 64 b t rest))))).

(** The memory at the beginning: the arrays; shared memory is not initialised *)
Definition holds (a b : nd Z) (m : loc -> Z) : Prop :=
  (forall i, in_shape (shape a) [i] = true -> m (RowA i) = elem a [i]) /\ (forall i, in_shape (shape b) [i] = true -> m (RowB i) = elem b [i]).
Definition there (a b : nd Z) (l : loc) : Prop :=
  match l with RowA i => in_shape (shape a) [i] = true | RowB i => in_shape (shape b) [i] = true | Sh c t => 0 <= c < 8 /\ 0 <= t < 512 | Added c => 0 <= c < 8 end.

(** sdp_gridder_sum_diff with [a] in GPU memory: status and *result after the call.  None: undefined behaviour, a null pointer dereferenced (1983: on an
    error the copy of the result has no data, sdp_mem.cpp 40-44, 310-322).  Allocations succeed. *)
Definition the_kernel : string := "sdp_gridder_sum_diff<int, 512>".
Definition first_row (start_row end_row : Z) : Z := if (start_row <? 0) || (end_row <? 0) then 0 else start_row.
Definition last_row (a : option mem) (start_row end_row : Z) : Z := if (start_row <? 0) || (end_row <? 0) then shape_dim a 0 else end_row.
Definition gpu_sum_diff (ls : bool) (a b : option mem) (a_d b_d : nd Z) (start_row end_row : Z) (st : error) (result : Z) (out : option (error * Z)) : Prop :=
  if failed st then out = Some (st, result) else
  let lo := first_row start_row end_row in let hi := last_row a start_row end_row in
  let st := snd (check_and_view_const b MEM_INT 1 MEM_GPU (snd (check_and_view_const a MEM_INT 1 MEM_GPU st))) in
  let st := if (mtype a =? MEM_INT) && (mtype b =? MEM_INT) then st else ERR_DATA_TYPE in
  if failed st then out = None else
  if negb (registered the_kernel) then out = None else
  exists m m', holds a_d b_d m /\ launch loc_eqb 8 512 (sum_diff_thread ls lo hi) m m' /\
    out = Some (st, i32 (sum Z.add 0 0 8 (fun c => m' (Added c)))).
(** A thread can access memory that is not there *)
Definition gpu_sum_diff_oob (ls : bool) (a_d b_d : nd Z) (a : option mem) (start_row end_row : Z) : Prop :=
  exists m, holds a_d b_d m /\ out_of_bounds loc_eqb 8 512 (there a_d b_d) (sum_diff_thread ls (first_row start_row end_row) (last_row a start_row end_row)) m.
