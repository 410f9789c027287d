(** Model of the CLEAN loop on the GPU: clean/sdp_hogbom_clean.cu and sdp_hogbom_clean.cpp 280-586, in exact rational arithmetic.  The memory has the
    residual, the PSF and the components as flat arrays, the two arrays used by the reduction, the flag, and the shared memory of every block.  Not
    modelled: the kernels after the loop (CLEAN beam, copies), status values, and the narrowing of 64-bit values to int. *)
From Coq Require Import QArith.
From Verif Require Import Base Hogbom GpuBlock.
Open Scope Z_scope.

Inductive loc := Res (i : Z) | MaxV (i : Z) | MaxI (i : Z) | ShV (b t : Z) | ShI (b t : Z) | Psf (i : Z) | Model (i : Z) | Reached.
Definition loc_eqb (x y : loc) : bool :=
  match x, y with
  | Res i, Res j | MaxV i, MaxV j | MaxI i, MaxI j | Psf i, Psf j | Model i, Model j => i =? j
  | ShV b t, ShV c u | ShI b t, ShI c u => (b =? c) && (t =? u)
  | Reached, Reached => true
  | _, _ => false
  end.
Definition shared (l : loc) : bool := match l with ShV _ _ | ShI _ _ => true | _ => false end.
(** What a location holds: a number of the image type or an int.  Every location is used with one of the two only. *)
Inductive val := Num (x : Qc) | Int (i : Z).
Definition num (v : val) : Qc := match v with Num x => x | Int _ => 0%Qc end.
Definition int (v : val) : Z := match v with Int i => i | Num _ => 0 end.
Notation code := (prog loc val).

(** .cu 288: -DBL_MAX *)
Definition lowest : Qc := Q2Qc (inject_Z (- (2 ^ 1024 - 2 ^ 971))).

(** .cu 308-316 (and 367-375): one round of the reduction in shared memory for thread [t], followed by the barrier. *)
Definition tree_step (stride b t : Z) (k : code) : code :=
  if t <? stride then
    Ld (ShV b t) (fun x => Ld (ShV b (t + stride)) (fun y =>
      if Qcltb (num x) (num y) then
        Ld (ShV b (t + stride)) (fun y => St (ShV b t) y (Ld (ShI b (t + stride)) (fun i => St (ShI b t) i (Sync k))))
      else Sync k))
  else Sync k.
(** .cu 306: the loop over strides *)
Fixpoint tree (fuel : nat) (stride b t : Z) (k : code) : code :=
  match fuel with O => k | S f => if 16 <? stride then tree_step stride b t (tree f (Z.shiftr stride 1) b t k) else k end.

(** .cu 194-198 and the like: a step of warpReduce.  Without a barrier nothing orders the threads of the block.  With [ls] the threads go through every
    instruction together, as on devices without independent thread scheduling: a barrier after every memory access, also for threads that skip. *)
Definition lock (ls : bool) (k : code) : code := if ls then Sync k else k.
Definition warp_step (ls : bool) (stride b t : Z) (k : code) : code :=
  Ld (ShV b t) (fun x => lock ls (Ld (ShV b (t + stride)) (fun y => lock ls (
    if Qcltb (num x) (num y) then
      Ld (ShV b (t + stride)) (fun y => lock ls (St (ShV b t) y (lock ls (Ld (ShI b (t + stride)) (fun i => lock ls (St (ShI b t) i (lock ls k)))))))
    else lock ls (lock ls (lock ls (lock ls k))))))).
(** .cu 188-219 (and 223-254): warpReduce *)
Definition warp_reduce (ls : bool) (b t : Z) (k : code) : code :=
  warp_step ls 16 b t (warp_step ls 8 b t (warp_step ls 4 b t (warp_step ls 2 b t (warp_step ls 1 b t k)))).

(** .cu 322-326 (and 381-385) *)
Definition write_result (b t : Z) : code :=
  if t =? 0 then Ld (ShV b 0) (fun x => St (MaxV b) x (Ld (ShI b 0) (fun i => St (MaxI b) i Done))) else Done.
(** .cu 272-386: find_maximum_value of thread [t] of block [b]; [input] is the residual or the array of maxima.  The number of elements is not used. *)
Definition find_maximum_value (ls : bool) (input : Z -> loc) (init_idx : bool) (b t : Z) : code :=
  let i := b * 256 + t in
  let rest := tree 9 (Z.shiftr 256 1) b t (if t <? 16 then warp_reduce ls b t (write_result b t) else write_result b t) in
  St (ShV b t) (Num lowest) (St (ShI b t) (Int (-1)) (Ld (input i) (fun x => St (ShV b t) x (
    if init_idx then Ld (MaxI i) (fun j => St (ShI b t) j (Sync rest)) else St (ShI b t) (Int i) (Sync rest))))).

(** A kernel launched on memory [m]; the shared memory of a new launch is not initialised. *)
Definition run (B T : Z) (kernel : Z -> Z -> code) (m m' : loc -> val) : Prop :=
  exists m0, (forall l, shared l = false -> m0 l = m l) /\ launch loc_eqb B T kernel m0 m'.
Definition run_oob (valid : loc -> Prop) (B T : Z) (kernel : Z -> Z -> code) (m : loc -> val) : Prop :=
  exists m0, (forall l, shared l = false -> m0 l = m l) /\ out_of_bounds loc_eqb B T valid kernel m0.

(** .cpp 398-401 and the like: the number of blocks for [size] elements *)
Definition blocks_for (size : Z) : Z := cdiv (size + 256 - 1) 256.
(** .cpp 457-479: the reduction, from the residual ([first]) or from the array of maxima *)
Definition level (ls first : bool) : Z -> Z -> code := find_maximum_value ls (if first then Res else MaxV) (negb first).
Inductive reduce (ls : bool) : Z -> bool -> (loc -> val) -> (loc -> val) -> Prop :=
| reduce_last blocks first m m' : blocks <= 1 -> run blocks 256 (level ls first) m m' -> reduce ls blocks first m m'
| reduce_more blocks first m m1 m' : 1 < blocks -> run blocks 256 (level ls first) m m1 -> reduce ls (blocks_for blocks) false m1 m' -> reduce ls blocks first m m'.
(** A launch of the reduction can access memory that is not there. *)
Inductive reduce_oob (valid : loc -> Prop) (ls : bool) : Z -> bool -> (loc -> val) -> Prop :=
| oob_here blocks first m : run_oob valid blocks 256 (level ls first) m -> reduce_oob valid ls blocks first m
| oob_later blocks first m m1 : 1 < blocks -> run blocks 256 (level ls first) m m1 -> reduce_oob valid ls (blocks_for blocks) false m1 -> reduce_oob valid ls blocks first m.

(** .cpp 427-429: contents of the arrays of maxima, of which there are as many as blocks (404-419) *)
Definition clear_max (n : Z) (m : loc -> val) : loc -> val := fun l =>
  match l with
  | MaxV i => if (0 <=? i) && (i <? blocks_for (n * n)) then Num 0 else m l
  | MaxI i => if (0 <=? i) && (i <? blocks_for (n * n)) then Int 0 else m l
  | _ => m l
  end.
(** .cpp 427-479: the peak of the residual, in MaxV 0 and MaxI 0 *)
Definition find_peak (ls : bool) (n : Z) (m m' : loc -> val) : Prop := reduce ls (blocks_for (n * n)) true (clear_max n m) m'.
Definition find_peak_oob (valid : loc -> Prop) (ls : bool) (n : Z) (m : loc -> val) : Prop := reduce_oob valid ls (blocks_for (n * n)) true (clear_max n m).

(** .cu 407-455: add_clean_comp, one thread *)
Definition add_clean_comp (gain threshold : Qc) (b t : Z) : code :=
  Ld (MaxV 0) (fun h => if Qcltb threshold (num h) then
    Ld Reached (fun r => if int r =? 0 then
      Ld (MaxV 0) (fun h => Ld (MaxI 0) (fun i => Ld (MaxI 0) (fun j => Ld (Model (int j)) (fun c =>
        St (Model (int i)) (Num (num c + gain * num h)) Done))))
    else St Reached (Int 1) Done)
  else St Reached (Int 1) Done).

(** .cu 510-534 (and 575-599): the pixels of a thread, [left] of them to go from number [i] *)
Fixpoint subtract_pixels (left : nat) (i n psf_dim start_x start_y : Z) (gain : Qc) (super t : Z) : code :=
  match left with
  | O => Done
  | S f =>
      let curr := super + i * 256 + t in
      let rest := subtract_pixels f (i + 1) n psf_dim start_x start_y gain super t in
      if curr <? n * n then
        let x_dirty := cdiv curr n in let y_dirty := cmod curr n in
        let x_psf := x_dirty + start_x in let y_psf := y_dirty + start_y in
        Ld (MaxV 0) (fun h => Ld (Psf (x_psf * psf_dim + y_psf)) (fun p => Ld (Res curr) (fun r =>
          St (Res curr) (Num (num r - gain * num h * num p)) rest)))
      else rest
  end.
(** .cpp 14 *)
Definition pixels_per_thread : Z := 1.
(** .cu 479-540 (and 543-604): subtract_psf *)
Definition subtract_psf (n psf_dim : Z) (gain threshold : Qc) (b t : Z) : code :=
  Ld (MaxV 0) (fun h => if Qcltb threshold (num h) then
    Ld (MaxI 0) (fun i1 => Ld (MaxI 0) (fun i2 =>
      let max_idx_x := cdiv (int i1) n in let max_idx_y := cmod (int i2) n in
      subtract_pixels (Z.to_nat pixels_per_thread) 0 n psf_dim (n - max_idx_x) (n - max_idx_y) gain (b * pixels_per_thread * 256) t))
  else Done).

(** .cpp 422-586: the CLEAN loop from cycle [cur], from memory [m] to [m'] *)
Definition flag_seen (cur : Z) (m : loc -> val) : bool := (0 <? cur) && (cmod cur 100 =? 0) && (0 <? int (m Reached)).
Inductive gpu_loop (ls : bool) (n psf_dim : Z) (gain threshold : Qc) (limit : Z) : Z -> (loc -> val) -> (loc -> val) -> Prop :=
| loop_end cur m : limit <= cur -> gpu_loop ls n psf_dim gain threshold limit cur m m
| loop_break cur m m1 : cur < limit -> find_peak ls n m m1 -> flag_seen cur m1 = true -> gpu_loop ls n psf_dim gain threshold limit cur m m1
| loop_cycle cur m m1 m2 m3 m' : cur < limit -> find_peak ls n m m1 -> flag_seen cur m1 = false ->
    run 1 1 (add_clean_comp gain threshold) m1 m2 -> run (blocks_for (n * n)) 256 (subtract_psf n psf_dim gain threshold) m2 m3 ->
    gpu_loop ls n psf_dim gain threshold limit (cur + 1) m3 m' -> gpu_loop ls n psf_dim gain threshold limit cur m m'.
(** .cpp 336-382: residual and PSF copied, flag cleared, components left as they are *)
Definition starts (n psf_dim : Z) (dirty psf model : Z -> Qc) (m : loc -> val) : Prop :=
  (forall i, 0 <= i < n * n -> m (Res i) = Num (dirty i)) /\ (forall i, 0 <= i < psf_dim * psf_dim -> m (Psf i) = Num (psf i)) /\
  (forall i, 0 <= i < n * n -> m (Model i) = Num (model i)) /\ m Reached = Int 0.
Definition hogbom_gpu (ls : bool) (n psf_dim : Z) (gain threshold : Qc) (limit : Z) (dirty psf model : Z -> Qc) (m' : loc -> val) : Prop :=
  exists m, starts n psf_dim dirty psf model m /\ gpu_loop ls n psf_dim gain threshold limit 0 m m'.
