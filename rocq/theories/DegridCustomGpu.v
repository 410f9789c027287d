(** Model of degridding with user-supplied kernels in GPU memory: grid_data/sdp_degrid_uvw_custom.cu, and the GPU branch of grid_data/sdp_degrid_uvw_custom.cpp.
    As in DegridCustom.v: exact arithmetic, grid, kernel and visibility values in any commutative ring.  A step wstep = 0 is taken to be undefined. *)
From Coq Require Import QArith String.
From Verif Require Import Base Mem Checks CRing QNum Clamp DegridCustom Gpu GpuLaunch PhaseRotateGpu.
From Verif Require StationGpu.
Open Scope Z_scope.

(** To the nearest integer, halves to even *)
Definition qeven (q : Q) : Z :=
  let f := Qfloor q in
  match Qcompare (q - inject_Z f) (1 # 2) with Lt => f | Gt => f + 1 | Eq => if Z.even f then f else f + 1 end.
(** __double2int_rn (CUDA): to the nearest integer, halves to even; numbers that int cannot hold become the nearest int *)
Definition double2int_rn (q : Q) : Z := Z.max (-2147483648) (Z.min 2147483647 (qeven q)).

Section Kernel.
Context {A : cring} (conj : A -> A).
Context (uv_kernel_size w_kernel_size x_size y_size z_size num_times num_baselines num_channels num_pols : Z).
Context (grid : nd A) (uvw : nd Q) (uv_kernel w_kernel : nd A) (uv_os w_os : Z) (theta wstep f0 df : Q) (conjugate : bool).

(** degrid_uvw_custom, .cu 61-176, for the thread (x, y, z), on an array of [size] visibilities; calculate_coordinates, .cu 15-58, rounds with __double2int_rn;
    the sums over the kernels (.cu 139-166) are those of the CPU *)
Definition degrid_custom_thread (size : Z) (id : Z * Z * Z) : option (list (op Z A)) :=
  let '(x, y, z) := id in
  let half := cdiv uv_kernel_size 2 in
  let b := int_of (u32 x) in let c := int_of (u32 y) in let t := int_of (u32 z) in
  if (num_baselines <=? b) || (num_channels <=? c) || (num_times <=? t) then Some [] else
  let inv_wavelength := ((f0 + inject_Z c * df) / C_0)%Q in
  let i_uvw := num_baselines * t + b in
  let* u := rd uvw [3 * i_uvw] in
  let* v := rd uvw [3 * i_uvw + 1] in
  let* w := rd uvw [3 * i_uvw + 2] in
  let* (sx, sy, sz, gx, gy) := calculate_coordinates double2int_rn x_size (int_of uv_kernel_size) (int_of uv_os) (int_of w_kernel_size) (int_of w_os) theta wstep
    (inv_wavelength * u) (inv_wavelength * v) (inv_wavelength * w) in
  if negb ((gx >? half) && (gx <? x_size - half) && (gy >? half) && (gy <? y_size - half)) then Some [] else
  for_ 0 num_pols (fun p ops =>
    let* vl := degrid_pol uv_kernel_size w_kernel_size x_size y_size z_size num_pols grid uv_kernel w_kernel c p sx sy sz gx gy in
    let vl := if conjugate then conj vl else vl in
    let i_out := INDEX_4D num_baselines num_channels num_pols t b c p in
    if in_shape [size] [i_out] then Some (ops ++ [Update i_out (fun _ => vl)]) else None) [].
End Kernel.

(** sdp_degrid_uvw_custom, 191-319, for visibilities in GPU memory: status and visibilities once the kernel has ended.  Contents are flat arrays. *)
Definition gpu_degrid_custom {A : cring} (conj : A -> A) (grid uvw uv_kernel w_kernel vis : option mem) (grid_d : nd A) (uvw_d : nd Q) (uvk_d wk_d : nd A)
    (theta wstep f0 df : Q) (conjugate : bool) (vis_d : nd A) (st st' : error) (r : nd A) : Prop :=
  if failed st then st' = st /\ r = vis_d else
  let (md, st) := get_vis_metadata vis st in
  let '(ty, loc, nt, nb, nc, np) := match md with Some d => d | None => (MEM_VOID, MEM_CPU, 0, 0, 0, 0) end in
  let st := check_writeable vis st in
  let st := check_uvw uvw MEM_VOID loc nt nb st in
  let z_size := shape_dim grid 1 in let y_size := shape_dim grid 2 in let x_size := shape_dim grid 3 in
  let st := check_shape grid [nc; z_size; y_size; x_size; np] st in
  if failed st then st' = st /\ r = vis_d else
  if negb (location grid =? loc) || negb (location uv_kernel =? loc) || negb (location w_kernel =? loc) then st' = ERR_MEM_LOCATION /\ r = vis_d else
  if negb (ty =? MEM_COMPLEX_DOUBLE) || negb (mtype grid =? MEM_COMPLEX_DOUBLE) || negb (mtype uvw =? MEM_DOUBLE) ||
     negb (mtype uv_kernel =? MEM_DOUBLE) || negb (mtype w_kernel =? MEM_DOUBLE) then st' = ERR_DATA_TYPE /\ r = vis_d else
  let st := fold_left (fun st m => StationGpu.gpu_buffer m st) [grid; uvw; uv_kernel; w_kernel; vis] st in
  launch_kernel radd (Some "degrid_uvw_custom<double2>"%string) (blocks_of nb 128, blocks_of nc 2, blocks_of nt 2) (128, 2, 2)
    (degrid_custom_thread conj (shape_dim uv_kernel 1) (shape_dim w_kernel 1) x_size y_size z_size nt nb nc np grid_d uvw_d uvk_d wk_d
      (shape_dim uv_kernel 0) (shape_dim w_kernel 0) theta wstep f0 df conjugate (product (shape vis_d))) st vis_d st' r.
