(** Model of visibility weighting in GPU memory: visibility/sdp_weighting.cu, and the GPU branches of visibility/sdp_weighting.cpp.  As in Weighting.v,
    coordinates are rational numbers, weights are elements of any commutative ring with any division, and arithmetic is exact; positions are computed
    in int as in the kernels. *)
From Coq Require Import QArith Qround String.
From Verif Require Import Base Mem Checks CRing Clamp Dft Weighting Gpu GpuLaunch DftGpu.
Open Scope Z_scope.

Section Kernels.
Context {A : cring} (wdiv : A -> A -> A).
Context (num_times num_baselines num_channels num_pols grid_size : Z) (uvw freq_hz : nd Q) (max_abs_uv : Q).

(** The cell of a visibility, weighting.cu 52-59, 121-128, 192-199 and 265-272: as on the CPU, but converted to int.  A value that has no conversion, or
    a division by a zero maximum, is undefined. *)
Definition gpu_cell (i_uv i_channel : Z) : option (Z * Z) :=
  let half := cdiv grid_size 2 in
  let* f := rd freq_hz [i_channel] in
  let inv_wavelength := (f / C_0)%Q in
  let* u := rd uvw [i_uv] in
  let* v := rd uvw [i_uv + 1] in
  let grid_u := (u * inv_wavelength)%Q in
  let grid_v := (v * inv_wavelength)%Q in
  if Qeq_bool max_abs_uv 0 then None else
  let* idx_u := to_int (Qfloor (grid_u / max_abs_uv * inject_Z half) + half) in
  let* idx_v := to_int (Qfloor (grid_v / max_abs_uv * inject_Z half) + half) in
  Some (idx_u, idx_v).

(** The part that the four kernels share, e.g. weighting.cu 33-81: [body] is called with the position of the grid cell and of the weights of the
    visibility.  calc_sum_gpu does not compute the latter. *)
Definition vis_thread (body : Z -> option Z -> option (list (op Z A))) (id : Z * Z * Z) : option (list (op Z A)) :=
  let '(x, y, z) := id in
  let b := int_of x in let c := int_of y in let t := int_of z in
  if (num_baselines <=? b) || (num_channels <=? c) || (num_times <=? t) then Some [] else
  let* i_uv := Dft.INDEX_3D num_baselines 3 t b 0 in
  let* (idx_u, idx_v) := gpu_cell i_uv c in
  if (idx_u <? grid_size) && (idx_v <? grid_size) then
    let* i_pol_s := Dft.INDEX_3D grid_size num_pols idx_u idx_v 0 in
    body i_pol_s (Dft.INDEX_4D num_baselines num_channels num_pols t b c 0)
  else Some [].

(** grid_write_gpu, weighting.cu 20-86; [size]: number of elements of the grid *)
Definition grid_write_gpu (input : nd A) (size : Z) : Z * Z * Z -> option (list (op Z A)) :=
  vis_thread (fun i_pol_s start =>
    let* i_pol_start := start in
    for_ 0 num_pols (fun p ops =>
      let* w := rd input [i_pol_start + p] in
      if in_shape [size] [i_pol_s + p] then Some (ops ++ [Add (i_pol_s + p) w]) else None) []).

(** calc_sum_gpu, weighting.cu 98-152; location 0 is sumweight[0], location 1 is sumweight2[0] *)
Definition calc_sum_gpu (grid : nd A) : Z * Z * Z -> option (list (op Z A)) :=
  vis_thread (fun i_pol_s _ =>
    for_ 0 num_pols (fun p ops =>
      let* g := rd grid [i_pol_s + p] in
      Some (ops ++ [Add 0 g; Add 1 (g * g)%cr])) []).

(** grid_uniform_read_gpu, weighting.cu 229-299; [size]: number of elements of the output *)
Definition grid_uniform_read_gpu (grid : nd A) (size : Z) : Z * Z * Z -> option (list (op Z A)) :=
  vis_thread (fun i_pol_s start =>
    let* i_pol_start := start in
    for_ 0 num_pols (fun p ops =>
      let* g := rd grid [i_pol_s + p] in
      if in_shape [size] [i_pol_start + p] then Some (ops ++ [Update (i_pol_start + p) (fun _ => wdiv r1 g)]) else None) []).

(** grid_briggs_read_gpu, weighting.cu 158-225 *)
Definition grid_briggs_read_gpu (grid input : nd A) (robustness : A) (size : Z) : Z * Z * Z -> option (list (op Z A)) :=
  vis_thread (fun i_pol_s start =>
    let* i_pol_start := start in
    for_ 0 num_pols (fun p ops =>
      let* w := rd input [i_pol_start + p] in
      let* g := rd grid [i_pol_s + p] in
      if in_shape [size] [i_pol_start + p] then Some (ops ++ [Update (i_pol_start + p) (fun _ => wdiv w (r1 + robustness * g)%cr)]) else None) []).
End Kernels.

(** The kernel for the types, weighting.cpp 416-435, 459-478, 689-708, 743-762 and 810-829.  The type of the input weights is not among them. *)
Definition weighting_kernel (fn : string) (uvw freq grid : option mem) (ty : Z) : option string :=
  if (mtype uvw =? MEM_DOUBLE) && (ty =? MEM_DOUBLE) && (mtype freq =? MEM_DOUBLE) && (mtype grid =? MEM_DOUBLE) then Some (fn ++ "<double, double, double>")%string
  else if (mtype uvw =? MEM_DOUBLE) && (ty =? MEM_FLOAT) && (mtype freq =? MEM_DOUBLE) && (mtype grid =? MEM_FLOAT) then Some (fn ++ "<double, double, float>")%string
  else None.
(** Choosing a kernel reports an error if there is none, weighting.cpp 431-435 and the same for the others *)
Definition kernel_status (name : option string) (st : error) : error := match name with Some _ => st | None => ERR_DATA_TYPE end.
(** sdp_mem_gpu_buffer and sdp_mem_gpu_buffer_const, sdp_mem.cpp 581-604, for an array that is not NULL: the status afterwards *)
Definition gpu_buffer (m : option mem) (st : error) : error :=
  if failed st then st else if negb (location m =? MEM_GPU) && negb (mtype m =? MEM_VOID) then ERR_MEM_LOCATION else st.

Section Api.
Context {A : cring} (wdiv : A -> A -> A).
(** sdp_weighting_uniform, weighting.cpp 277-336 and 408-502, if the output is in GPU memory: status, grid and output once both kernels have ended.
    The sizes are int64_t on the host and int in the kernels, which read the lower halves. *)
Definition gpu_weighting_uniform (uvw freq : option mem) (max_abs_uv : Q) (grid input output : option mem)
    (uvw_d freq_d : nd Q) (grid_d input_d output_d : nd A) (st st' : error) (g r : nd A) : Prop :=
  if failed st then st' = st /\ g = grid_d /\ r = output_d else
  let '(nt, nb, nc, np, ty, gs, st) := weighting_checks uvw freq grid input output st in
  if failed st then st' = st /\ g = grid_d /\ r = output_d else
  let name := weighting_kernel "grid_write_gpu" uvw freq grid ty in
  let st := gpu_buffer input (gpu_buffer grid (gpu_buffer freq (gpu_buffer uvw (kernel_status name st)))) in
  exists st1, launch_kernel radd name (vis_blocks nb nc nt) vis_threads
    (fun id => let* input_d := input_as input ty input_d in
      grid_write_gpu (int_of nt) (int_of nb) (int_of nc) (int_of np) (int_of gs) uvw_d freq_d max_abs_uv input_d (product (shape grid_d)) id) st grid_d st1 g /\
  let name := weighting_kernel "grid_uniform_read_gpu" uvw freq grid ty in
  let st := gpu_buffer output (gpu_buffer input (gpu_buffer grid (gpu_buffer freq (gpu_buffer uvw (kernel_status name st1))))) in
  launch_kernel radd name (vis_blocks nb nc nt) vis_threads
    (grid_uniform_read_gpu wdiv (int_of nt) (int_of nb) (int_of nc) (int_of np) (int_of gs) uvw_d freq_d max_abs_uv g (product (shape output_d))) st output_d st' r.

(** sdp_weighting_briggs, weighting.cpp 506-568 and 681-857.  [sw0] and [sw20]: what the memory for the two sums contains when it has been allocated, 724-735
    (nothing clears it; cudaMalloc is taken to succeed).  If there is an error before or in the launch that adds the sums up, the copies that are made of
    them, 789-796, have no memory, and reading them, 798-801, is an access through a null pointer: no outcome. *)
Definition gpu_weighting_briggs (uvw freq : option mem) (max_abs_uv : Q) (strength : A) (grid input output : option mem)
    (uvw_d freq_d : nd Q) (grid_d input_d output_d : nd A) (sw0 sw20 : A) (st st' : error) (g r : nd A) : Prop :=
  if failed st then st' = st /\ g = grid_d /\ r = output_d else
  let '(nt, nb, nc, np, ty, gs, st) := weighting_checks uvw freq grid input output st in
  if failed st then st' = st /\ g = grid_d /\ r = output_d else
  let name := weighting_kernel "grid_write_gpu" uvw freq grid ty in
  let st := gpu_buffer input (gpu_buffer grid (gpu_buffer freq (gpu_buffer uvw (kernel_status name st)))) in
  exists st1, launch_kernel radd name (vis_blocks nb nc nt) vis_threads
    (fun id => let* input_d := input_as input ty input_d in
      grid_write_gpu (int_of nt) (int_of nb) (int_of nc) (int_of np) (int_of gs) uvw_d freq_d max_abs_uv input_d (product (shape grid_d)) id) st grid_d st1 g /\
  let name := weighting_kernel "calc_sum_gpu" uvw freq grid ty in
  let st := gpu_buffer input (gpu_buffer grid (gpu_buffer freq (gpu_buffer uvw (kernel_status name st1)))) in
  exists st2 s, launch_kernel radd name (vis_blocks nb nc nt) vis_threads
    (calc_sum_gpu (int_of nt) (int_of nb) (int_of nc) (int_of np) (int_of gs) uvw_d freq_d max_abs_uv g) st (mk_nd [2] (fun i => if hd 0 i =? 0 then sw0 else sw20)) st2 s /\
  failed st1 = false /\ failed st2 = false /\
  let robustness := robustness_calc wdiv (elem s [1]) (elem s [0]) strength in
  let name := weighting_kernel "grid_briggs_read_gpu" uvw freq grid ty in
  let st := gpu_buffer output (gpu_buffer input (gpu_buffer grid (gpu_buffer freq (gpu_buffer uvw (kernel_status name st2))))) in
  launch_kernel radd name (vis_blocks nb nc nt) vis_threads
    (fun id => let* input_d := input_as input ty input_d in
      grid_briggs_read_gpu wdiv (int_of nt) (int_of nb) (int_of nc) (int_of np) (int_of gs) uvw_d freq_d max_abs_uv g input_d robustness (product (shape output_d)) id) st output_d st' r.
End Api.
