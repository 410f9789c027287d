(** Model of sdp_station_beam_aperture_array on arrays in GPU memory: station_beam/sdp_station.cu and station_beam/sdp_station.cpp 324-388, over the real and complex
    numbers.  The arrays are global memory; the shared memory of a block holds [max_in_chunk] weights, positions and indices (.cu 46-50: the parts of the shared memory do
    not overlap, and fit in the bytes that the host asks for: C104_layout).  int arithmetic is done modulo 2^32 (formally an overflow is undefined). *)
From Coq Require Import Reals String.
From Verif Require Import Base CRing Cplx Clamp GpuBlock GpuLaunch Mem SphericalWave Station.
From Verif Require SumDiffGpu.
Open Scope Z_scope.
Notation i32 := SumDiffGpu.i32.

Inductive loc := Weight (i : Z) | ElemX (i : Z) | ElemY (i : Z) | ElemZ (i : Z) | PointX (i : Z) | PointY (i : Z) | PointZ (i : Z) | Index (i : Z) | Data (i : Z) | Out (i : Z)
  | ShW (b t : Z) | ShX (b t : Z) | ShY (b t : Z) | ShZ (b t : Z) | ShI (b t : Z).
Definition loc_eqb (x y : loc) : bool :=
  match x, y with
  | Weight i, Weight j | ElemX i, ElemX j | ElemY i, ElemY j | ElemZ i, ElemZ j | PointX i, PointX j | PointY i, PointY j | PointZ i, PointZ j
  | Index i, Index j | Data i, Data j | Out i, Out j => i =? j
  | ShW b t, ShW c u | ShX b t, ShX c u | ShY b t, ShY c u | ShZ b t, ShZ c u | ShI b t, ShI c u => (b =? c) && (t =? u)
  | _, _ => false
  end.
(** Every location is used with one kind of value only *)
Inductive val := Cx (c : C) | Re (r : R) | Int (i : Z).
Definition cx (v : val) : C := match v with Cx c => c | _ => C0 end.
Definition real (v : val) : R := match v with Re r => r | _ => 0%R end.
Definition int (v : val) : Z := match v with Int i => i | _ => 0 end.
Notation code := (prog loc val).

Section Kernel.
Context (pol : Z) (wavenumber : R) (num_in off_pts num_out : Z) (has_z has_idx has_data : bool) (off_output : Z) (norm : R) (eval_x eval_y : bool) (max_in_chunk : Z).

(** .cu 59-67: the part of a chunk that thread [t] copies to shared memory *)
Fixpoint fill (fuel : nat) (j size t b : Z) (k : code) : code :=
  match fuel with
  | O => k
  | S f =>
      if t <? size then
        let g := j + t in
        Ld (Weight g) (fun w => St (ShW b t) w (Ld (ElemX g) (fun x => St (ShX b t) x (Ld (ElemY g) (fun y => St (ShY b t) y (
          let rest := Ld (ElemZ g) (fun z => St (ShZ b t) z (fill f j size (t + 256) b k)) in
          if has_idx then Ld (Index g) (fun n => St (ShI b t) n rest) else St (ShI b t) (Int g) rest))))))
      else k
  end.
(** .cu 80-131: accumulate the contributions [read p] of one element *)
Definition accum (read : Z -> (C -> code) -> code) (o : outs) (k : outs -> code) : code :=
  let '(o0, o1, o2, o3) := o in
  if pol =? 1 then read 0 (fun v => k (Cadd o0 v, o1, o2, o3))
  else if pol =? 4 then
    let y o0 o1 := if eval_y then read 2 (fun v2 => read 3 (fun v3 => k (o0, o1, Cadd o2 v2, Cadd o3 v3))) else k (o0, o1, o2, o3) in
    if eval_x then read 0 (fun v0 => read 1 (fun v1 => y (Cadd o0 v0) (Cadd o1 v1))) else y o0 o1
  else k o.
(** .cu 73-132: one element *)
Definition one_element (b i i_out : Z) (xo yo zo : R) (o : outs) (k : outs -> code) : code :=
  Ld (ShX b i) (fun x => Ld (ShY b i) (fun y => Ld (ShZ b i) (fun z => Ld (ShW b i) (fun w =>
    let wp := Cmul (cis (xo * real x + yo * real y + zo * real z)) (cx w) in
    if has_data then Ld (ShI b i) (fun n =>
      let i_in := i32 (pol * i32 (int n * num_out + i_out)) in
      accum (fun p k => Ld (Data (i32 (i_in + p))) (fun d => k (Cmul wp (cx d)))) o k)
    else accum (fun _ k => k wp) o k)))).
(** .cu 71-133 *)
Fixpoint elements (n : nat) (i b i_out : Z) (xo yo zo : R) (o : outs) (k : outs -> code) : code :=
  match n with O => k o | S n => one_element b i i_out xo yo zo o (fun o => elements n (i + 1) b i_out xo yo zo o k) end.
(** .cu 51-136: the chunks; [pt]: the direction, None for threads without one; [fuel] bounds the turns *)
Fixpoint chunks (fuel : nat) (j b t : Z) (pt : option (R * R * R)) (o : outs) (k : outs -> code) : code :=
  match fuel with
  | O => k o
  | S f =>
      if j <? num_in then
        let size := if max_in_chunk <? num_in - j then max_in_chunk else num_in - j in
        let next o := Sync (chunks f (j + max_in_chunk) b t pt o k) in
        fill (Z.to_nat size) j size t b (Sync (match pt with Some (xo, yo, zo) => elements (Z.to_nat size) 0 b (i32 (b * 256 + t)) xo yo zo o next | None => next o end))
      else k o
  end.
(** .cu 137-166 *)
Definition finish (i_out : Z) (pt : option (R * R * R)) (o : outs) : code :=
  let '(o0, o1, o2, o3) := o in
  let sc v := Cx (Cmul v (RtoC norm)) in
  match pt with
  | Some _ =>
      let at_ := i32 (pol * i32 (i_out + off_output)) in
      if pol =? 1 then St (Out at_) (sc o0) Done
      else if pol =? 4 then
        let y := if eval_y then St (Out (i32 (at_ + 2))) (sc o2) (St (Out (i32 (at_ + 3))) (sc o3) Done) else Done in
        if eval_x then St (Out at_) (sc o0) (St (Out (i32 (at_ + 1))) (sc o1) y) else y
      else Done
  | None => Done
  end.
(** .cu 30-167: thread [t] of block [b] *)
Definition station_thread (b t : Z) : code :=
  let i_out := i32 (b * 256 + t) in
  let main pt := chunks (Z.to_nat num_in) 0 b t pt (C0, C0, C0, C0) (finish i_out pt) in
  if i_out <? num_out then
    let i_pt := i32 (i_out + off_pts) in
    Ld (PointX i_pt) (fun x => Ld (PointY i_pt) (fun y =>
      if has_z then Ld (PointZ i_pt) (fun z => main (Some (wavenumber * real x, wavenumber * real y, wavenumber * real z)%R))
      else main (Some (wavenumber * real x, wavenumber * real y, 0)%R)))
  else main None.
End Kernel.

(** The memory at the beginning: the arrays; shared memory is not initialised *)
Definition holds (weights : nd C) (x_in y_in z_in x_out y_out : nd R) (z_out : option (nd R)) (idx : option (nd Z)) (data : option (nd C)) (output : nd C) (m : loc -> val) : Prop :=
  (forall i, in_shape (shape weights) [i] = true -> m (Weight i) = Cx (elem weights [i])) /\
  (forall i, in_shape (shape x_in) [i] = true -> m (ElemX i) = Re (elem x_in [i])) /\
  (forall i, in_shape (shape y_in) [i] = true -> m (ElemY i) = Re (elem y_in [i])) /\
  (forall i, in_shape (shape z_in) [i] = true -> m (ElemZ i) = Re (elem z_in [i])) /\
  (forall i, in_shape (shape x_out) [i] = true -> m (PointX i) = Re (elem x_out [i])) /\
  (forall i, in_shape (shape y_out) [i] = true -> m (PointY i) = Re (elem y_out [i])) /\
  (forall a i, z_out = Some a -> in_shape (shape a) [i] = true -> m (PointZ i) = Re (elem a [i])) /\
  (forall a i, idx = Some a -> in_shape (shape a) [i] = true -> m (Index i) = Int (elem a [i])) /\
  (forall a i, data = Some a -> in_shape (shape a) [i] = true -> m (Data i) = Cx (elem a [i])) /\
  (forall i, in_shape (shape output) [i] = true -> m (Out i) = Cx (elem output [i])).
Definition has {A} (o : option A) : bool := match o with Some _ => true | None => false end.
Definition inside {A} (a : nd A) (i : Z) : Prop := in_shape (shape a) [i] = true.
Definition inside_opt {A} (a : option (nd A)) (i : Z) : Prop := match a with Some a => inside a i | None => False end.
(** The memory that is there *)
Definition there (weights : nd C) (x_in y_in z_in x_out y_out : nd R) (z_out : option (nd R)) (idx : option (nd Z)) (data : option (nd C)) (output : nd C) (max_in_chunk : Z) (l : loc) : Prop :=
  match l with
  | Weight i => inside weights i | ElemX i => inside x_in i | ElemY i => inside y_in i | ElemZ i => inside z_in i
  | PointX i => inside x_out i | PointY i => inside y_out i | PointZ i => inside_opt z_out i | Index i => inside_opt idx i | Data i => inside_opt data i | Out i => inside output i
  | ShW _ t | ShX _ t | ShY _ t | ShZ _ t | ShI _ t => 0 <= t < max_in_chunk
  end.
(** The output array that the memory holds *)
Definition out_array (output : nd C) (m : loc -> val) : nd C := mk_nd (shape output) (fun ix => match ix with [i] => cx (m (Out i)) | _ => elem output ix end).

(** sdp_station.cpp 331-355: the kernel and the size of a chunk *)
Definition station_kernel (precision : Z) (complex4 : bool) : option (string * Z) :=
  if (precision =? MEM_FLOAT) && negb complex4 then Some ("sdp_station_beam_dft<float, float2, 1>"%string, 512)
  else if (precision =? MEM_DOUBLE) && negb complex4 then Some ("sdp_station_beam_dft<double, double2, 1>"%string, 352)
  else if (precision =? MEM_FLOAT) && complex4 then Some ("sdp_station_beam_dft<float, float2, 4>"%string, 512)
  else if (precision =? MEM_DOUBLE) && complex4 then Some ("sdp_station_beam_dft<double, double2, 4>"%string, 352)
  else None.
(** sdp_mem_gpu_buffer_const, sdp_mem.cpp 594-604: the status.  With no array at all the argument of the kernel is a null pointer. *)
Definition gpu_buffer (m : option mem) (st : error) : error :=
  if failed st then st else match m with None => st | Some _ => if negb (location m =? MEM_GPU) && negb (mtype m =? MEM_VOID) then ERR_MEM_LOCATION else st end.
Definition is_null (m : option mem) : bool := match m with None => true | Some _ => false end.
(** sdp_station_beam_aperture_array, sdp_station.cpp 168-227 and 324-388, for an output in GPU memory: what the call may do.  None: undefined behaviour (an argument of
    the kernel that is not there, or memory accessed that is not there).  [None] for point_z, element_beam_index and element_beam data is the null data pointer of an empty array. *)
Definition gpu_station_beam (wavenumber : R) (w x y z px py pz bi b out : option mem) (weights : nd C) (x_in y_in z_in : nd R) (off_pts num_points : Z) (x_out y_out : nd R)
    (z_out : option (nd R)) (data_idx : option (nd Z)) (data : option (nd C)) (off_output : Z) (output : nd C) (normalise eval_x eval_y : bool) (st : error)
    (res : option (error * nd C)) : Prop :=
  if failed st then res = Some (st, output) else
  match to_int (num_elements x) with
  | None => res = None
  | Some num =>
      let norm := (if normalise then 1 / IZR num else 1)%R in
      if negb (is_complex w) then res = Some (ERR_DATA_TYPE, output) else
      if has data && negb (is_complex b) then res = Some (ERR_DATA_TYPE, output) else
      if has data_idx && negb (mtype bi =? MEM_INT) then res = Some (ERR_DATA_TYPE, output) else
      if negb (is_complex out) then res = Some (ERR_DATA_TYPE, output) else
      match station_kernel (mtype x) (is_complex4 out) with
      | None => res = Some (ERR_DATA_TYPE, output)
      | Some (name, chunk) =>
          let st := fold_left (fun st m => gpu_buffer m st) [w; x; y; z; px; py; pz; bi; b; out] st in
          if failed st then res = Some (st, output) else
          if negb (registered name) then res = Some (ERR_RUNTIME, output) else
          if existsb is_null [w; x; y; z; px; py; pz; bi; b; out] then res = None else
          if negb (grid_ok (to_dim3 (blocks_of num_points 256, 1, 1)) (to_dim3 (256, 1, 1))) then res = Some (ERR_RUNTIME, output) else
          let kernel := station_thread (if is_complex4 out then 4 else 1) wavenumber num off_pts num_points (has z_out) (has data_idx) (has data) off_output norm eval_x eval_y chunk in
          exists m, holds weights x_in y_in z_in x_out y_out z_out data_idx data output m /\
            ((exists m', launch loc_eqb (blocks_of num_points 256) 256 kernel m m' /\ res = Some (st, out_array output m')) \/
             (out_of_bounds loc_eqb (blocks_of num_points 256) 256 (there weights x_in y_in z_in x_out y_out z_out data_idx data output chunk) kernel m /\ res = None))
      end
  end.
