(** Model of the prefix sum over tiles in GPU memory: visibility/sdp_tiled_functions.cu 20-57 and its launch, sdp_tiled_functions.cpp 408-409 and 457-473: one block of
    512 threads and an array of 1024 ints in shared memory. *)
From Coq Require Import String.
From Verif Require Import Base GpuBlock GpuLaunch SumDiffGpu.
Open Scope Z_scope.

Inductive loc := Points (i : Z) | Offs (i : Z) | Scr (i : Z).
Definition loc_eqb (x y : loc) : bool := match x, y with Points i, Points j | Offs i, Offs j | Scr i, Scr j => i =? j | _, _ => false end.
Notation code := (prog loc Z).
(** .cu 42-47: one turn of the inner loop; t of the code is t + 512 here *)
Definition scan_step (j t : Z) (k : code) : code :=
  Sync (Ld (Scr (t + 512 - j)) (fun x => Sync (Ld (Scr (t + 512)) (fun y => St (Scr (t + 512)) (i32 (y + x)) k)))).
(** .cu 42-50: j = 1, 2, 4, ... below 512, then the barrier *)
Definition scan (t : Z) (k : code) : code :=
  scan_step 1 t (scan_step 2 t (scan_step 4 t (scan_step 8 t (scan_step 16 t (scan_step 32 t (scan_step 64 t (scan_step 128 t (scan_step 256 t (Sync k))))))))).
(** .cu 51-56: the end of a turn of the outer loop; [next]: the rest, for the new running total *)
Definition write (n idx running t : Z) (next : Z -> code) : code :=
  let rest := Ld (Scr 1023) (fun z => next (i32 (running + z))) in
  if idx <=? n then Ld (Scr (t + 512)) (fun y => St (Offs idx) (i32 (y + running)) rest) else rest.
(** .cu 33-57: [loops] turns of the outer loop *)
Fixpoint prefix_loops (loops : nat) (n idx running t : Z) : code :=
  match loops with
  | O => Done
  | S f =>
      let body v := St (Scr t) 0 (St (Scr (t + 512)) v (scan t (write n idx running t (fun running => prefix_loops f n (idx + 512) running t)))) in
      if (idx <=? n) && (0 <? idx) then Ld (Points (idx - 1)) body else body 0
  end.
(** sdp_prefix_sum_gpu, .cu 20-57, thread [t] (of the only block) *)
Definition prefix_thread (n b t : Z) : code := prefix_loops (Z.to_nat (cdiv (n + 512) 512)) n t 0 t.

(** The memory at the beginning: the arrays; shared memory is not initialised *)
Definition holds (points offsets : nd Z) (m : loc -> Z) : Prop :=
  (forall i, in_shape (shape points) [i] = true -> m (Points i) = elem points [i]) /\ (forall i, in_shape (shape offsets) [i] = true -> m (Offs i) = elem offsets [i]).
Definition there (points offsets : nd Z) (l : loc) : Prop :=
  match l with Points i => in_shape (shape points) [i] = true | Offs i => in_shape (shape offsets) [i] = true | Scr i => 0 <= i < 1024 end.
(** The launch can end with offsets [r] *)
Definition gpu_prefix_sum (n : Z) (points offsets r : nd Z) : Prop :=
  registered "sdp_prefix_sum_gpu<int>" = true /\
  exists m m', holds points offsets m /\ launch loc_eqb 1 512 (prefix_thread n) m m' /\ r = mk_nd (shape offsets) (fun i => m' (Offs (nth 0 i 0))).
(** A thread can access memory that is not there *)
Definition gpu_prefix_sum_oob (n : Z) (points offsets : nd Z) : Prop :=
  exists m, holds points offsets m /\ out_of_bounds loc_eqb 1 512 (there points offsets) (prefix_thread n) m.
