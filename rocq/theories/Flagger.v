(** Model of visibility/sdp_flagger.cpp.  The double-precision arithmetic is an argument (any type of values with any operations),
    so that the model covers rounding, infinities and NaN.  Array positions are int in the code and are modelled in Z (arrays with
    2^31 or more elements are not covered). *)
From Coq Require Import QArith.
From Verif Require Import Base Mem Checks.
Open Scope Z_scope.

(** Floating-point values and operations.  [nsort] is qsort with the function [compare], 60-71. *)
Record num := mk_num {
  N :> Type; nq : Q -> N; nadd : N -> N -> N; nsub : N -> N -> N; nmul : N -> N -> N; ndiv : N -> N -> N; nneg : N -> N; nabs : N -> N;
  nlt : N -> N -> bool; neqb : N -> N -> bool; nsort : list N -> list N }.
Arguments nq {_} _. Arguments nadd {_} _ _. Arguments nsub {_} _ _. Arguments nmul {_} _ _. Arguments ndiv {_} _ _.
Arguments nneg {_} _. Arguments nabs {_} _. Arguments nlt {_} _ _. Arguments neqb {_} _ _. Arguments nsort {_} _.

Section Flagger.
Context {A : num}.

(** qsort of the first n elements of an array *)
Definition qsort (arr : nd A) (n : Z) : option (nd A) :=
  if (0 <=? n) && (n <=? dim arr 0)
  then let l := nsort (map (fun i => elem arr [i]) (zrange 0 n)) in
       Some (mk_nd (shape arr) (fun idx => match idx with [i] => if (0 <=? i) && (i <? n) then nth (Z.to_nat i) l (nq 0) else elem arr idx | _ => elem arr idx end))
  else None.

(** new double[n]: a negative length throws an exception. *)
Definition new_array (n : Z) : option (nd A) := if n <? 0 then None else Some (mk_nd [n] (fun _ => nq 0)).

(** A read whose result is [junk] when it is outside the array ([None]: undefined behaviour).  With [junk] the model goes on after the
    out-of-range read of the history at the first time sample, whose result the code does not use. *)
Definition rd_or (junk : option A) (arr : nd A) (i : Z) : option A :=
  match rd arr [i] with Some x => Some x | None => junk end.

(** median_calc, 84-89: round(0.5 * n) rounds halves away from zero, so it is (n + 1) / 2 for n >= 0. *)
Definition median_calc (junk : option A) (arr : nd A) (n : Z) : option A := rd_or junk arr (cdiv (n + 1) 2).

(** median_dev_calc, 92-104 *)
Definition median_dev_calc (junk : option A) (arr : nd A) (n : Z) (median : A) : option A :=
  let mid := cdiv (n + 1) 2 in
  let* devs := new_array n in
  let* devs := for_ 0 n (fun i devs => let* x := rd arr [i] in wr devs [i] (nabs (nsub x median))) devs in
  let* devs := qsort devs n in
  rd_or junk devs mid.

(** modified_zscore, 107-124 *)
Definition modified_zscore (median mediandev val : A) : A :=
  if neqb mediandev (nq 0) && neqb val median then nq 0
  else if neqb mediandev (nq 0) && negb (neqb val median) then nq 10000000
  else ndiv (nmul (nq (6795 # 10000)) (nsub val median)) mediandev.
(** The test  z > threshold || z < -threshold *)
Definition beyond (z threshold : A) : bool := nlt threshold z || nlt z (nneg threshold).

(** The arrays of one thread, 145-150 *)
Record scratch := mk_scratch { samples : nd A; transit_score : nd A; transit_samples : nd A; median_history : nd A }.

Context {V : Type} (mag : V -> A) (junk : option A) (vis : nd V) (alpha thr_mag thr_var thr_broad : A) (step window wmh nt nb nc np : Z).

Definition new_scratch : option scratch :=
  let* _ := if step =? 0 then None else Some tt in
  let ns := cdiv nc step in
  let* a := new_array ns in let* b := new_array nc in let* c := new_array ns in let* d := new_array nt in
  Some (mk_scratch a b c d).

Definition set_if (b : bool) (pos : Z) (flags : nd Z) : option (nd Z) := if b then wr flags [pos] 1 else Some flags.

(** The body of the loop over time, 162-348 *)
Definition flag_time (b p t : Z) (sf : scratch * nd Z) : option (scratch * nd Z) :=
  let '(sc, flags) := sf in
  let ns := cdiv nc step in
  let time_block := nb * nc * np in
  let baseline_block := nc * np in
  let baseline_pos := t * time_block + b * baseline_block in
  let medwindow := Z.min (t + 1) wmh in
  let* medarray := new_array medwindow in
  let* smp := for_ 0 ns (fun s smp =>
    let* v := rd vis [baseline_pos + (s * step) * np + p] in wr smp [s] (mag v)) (samples sc) in
  let* smp := qsort smp ns in
  let* median := median_calc None smp ns in
  let* mediandev := median_dev_calc None smp ns median in
  let junk := if t =? 0 then junk else None in
  let* hist := wr (median_history sc) [t] median in
  let* medarray := for_ 0 medwindow (fun tt medarray => let* x := rd hist [t - tt] in wr medarray [tt] x) medarray in
  let* medarray := qsort medarray medwindow in
  let* medmed := median_calc junk medarray medwindow in
  let* medmeddev := median_dev_calc junk medarray medwindow medmed in
  let zscore_med := modified_zscore medmed medmeddev median in
  let situation := beyond zscore_med thr_broad && negb (t =? 0) in
  let* flags := for_ 0 nc (fun c flags =>
    let pos := baseline_pos + c * np + p in
    let* v := rd vis [pos] in
    let z := modified_zscore median mediandev (mag v) in
    if beyond z thr_mag || situation then
      let* flags := wr flags [pos] 1 in
      for_ 0 window (fun w flags =>
        let* flags := set_if (c - w - 1 >? 0) (baseline_pos + (c - w - 1) * np + p) flags in
        set_if (c + w + 1 <? nc) (baseline_pos + (c + w + 1) * np + p) flags) flags
    else Some flags) flags in
  if t >? 0 then
    let pos_m1 := (t - 1) * time_block + b * baseline_block in
    let* ts := for_ 0 nc (fun c ts =>
      let* v0 := rd vis [baseline_pos + c * np + p] in
      let* v1 := rd vis [(t - 1) * time_block + b * baseline_block + c * np + p] in
      let rate := nabs (nsub (mag v1) (mag v0)) in
      if t =? 1 then wr ts [c] rate
      else let* old := rd ts [c] in wr ts [c] (nadd (nmul alpha rate) (nmul (nsub (nq 1) alpha) old))) (transit_score sc) in
    let* tsm := for_ 0 ns (fun s tsm => let* x := rd ts [s * step] in wr tsm [s] (nabs x)) (transit_samples sc) in
    let* tsm := qsort tsm ns in
    let* medianvar := median_calc None tsm ns in
    let* mediandevvar := median_dev_calc None tsm ns median in
    let* flags := for_ 0 nc (fun c flags =>
      let* x := rd ts [c] in
      let z := modified_zscore medianvar mediandevvar (nabs x) in
      if beyond z thr_var then
        let* flags := wr flags [baseline_pos + c * np + p] 1 in
        let* flags := wr flags [pos_m1 + c * np + p] 1 in
        for_ 0 window (fun w flags =>
          let* flags := set_if (c - w - 1 >? 0) (baseline_pos + (c - w - 1) * np + p) flags in
          let* flags := set_if (c - w - 1 >? 0) (pos_m1 + (c - w - 1) * np + p) flags in
          let* flags := set_if (c + w + 1 <? nc) (baseline_pos + (c + w + 1) * np + p) flags in
          set_if (c + w + 1 <? nc) (pos_m1 + (c + w + 1) * np + p) flags) flags
      else Some flags) flags in
    Some (mk_scratch smp ts tsm hist, flags)
  else Some (mk_scratch smp (transit_score sc) (transit_samples sc) hist, flags).

(** The iteration of the parallel loop for baseline b, 157-349 *)
Definition flag_baseline (b : Z) (sf : scratch * nd Z) : option (scratch * nd Z) :=
  for_ 0 np (fun p => for_ 0 nt (fun t => flag_time b p t)) sf.

(** flagger_dynamic_threshold, 127-355.  A schedule says which thread runs which baseline, in the order in which the iterations take
    effect (the iterations write different flags and read none, and each thread has its own arrays). *)
Definition flag_schedule (sched : list (nat * Z)) (scs : nat -> scratch) (flags : nd Z) : option ((nat -> scratch) * nd Z) :=
  fold_left (fun acc (kb : nat * Z) =>
    let (k, b) := kb in
    let* (scs, flags) := acc in
    let* (sc, flags) := flag_baseline b (scs k, flags) in
    Some ((fun j => if Nat.eqb j k then sc else scs j), flags)) sched (Some (scs, flags)).

Definition flagger (sched : list (nat * Z)) (flags : nd Z) : option (nd Z) :=
  let* sc := new_scratch in
  let* (_, flags) := flag_schedule sched (fun _ => sc) flags in
  Some flags.
End Flagger.

(** check_params_dynamic, 11-57 *)
Definition check_params_dynamic (vis flags : option mem) (st : error) : error :=
  if failed st then st else
  if is_read_only flags then ERR_RUNTIME else
  if negb (is_c_contiguous vis) || negb (is_c_contiguous flags) then ERR_RUNTIME else
  if negb (num_dims vis =? 4) || negb (num_dims flags =? 4) then ERR_RUNTIME else
  if negb (is_complex vis) then ERR_DATA_TYPE else
  if negb (mtype flags =? MEM_INT) then ERR_DATA_TYPE else
  if negb (location vis =? location flags) then ERR_MEM_LOCATION else st.

(** sdp_flagger_dynamic_threshold, 358-432 *)
Definition flagger_dynamic_threshold {A : num} {V} (mag : V -> A) (junk : option A) (vis flags : option mem) (vis_d : nd V) (flags_d : nd Z)
    (alpha thr_mag thr_var thr_broad : A) (step window wmh : Z) (sched : list (nat * Z)) (st : error) : option (error * nd Z) :=
  let st := check_params_dynamic vis flags st in
  if failed st then Some (st, flags_d) else
  if negb (location vis =? MEM_CPU) then Some (ERR_MEM_LOCATION, flags_d) else
  if ((mtype vis =? MEM_COMPLEX_FLOAT) || (mtype vis =? MEM_COMPLEX_DOUBLE)) && (mtype flags =? MEM_INT) then
    let* r := flagger mag junk vis_d alpha thr_mag thr_var thr_broad step window wmh (shape_dim vis 0) (shape_dim vis 1) (shape_dim vis 2) (shape_dim vis 3) sched flags_d in
    Some (st, r)
  else Some (ERR_DATA_TYPE, flags_d).
