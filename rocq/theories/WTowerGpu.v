(** Model of the w-towers kernels on arrays in GPU memory: grid_data/sdp_gridder_wtower_uvw.cu, and degrid_gpu and grid_gpu of grid_data/sdp_gridder_wtower_uvw.cpp.
    As in WTower.v, coordinates are exact rationals and values are exact; sums of int are not checked for overflow, products are. *)
From Coq Require Import Reals String.
From Verif Require Import Base CRing Cplx Clamp QNum Mem Checks Gpu GpuLaunch GpuView PhaseRotateGpu WTower.
From Verif Require StationGpu.
Open Scope Z_scope.

Section Kernels.
Context {A : cring} (plan : wplan A) (w_plane off_u off_v off_w : Z) (freq0_hz dfreq_hz : Q) (start_row end_row : Z) (uvws : nd Q) (start_chs end_chs : nd Z).

(** What both kernels have in common, .cu 38-102 and 153-217: the selection of the channels of a row, and the position of the kernel.  [act] is the rest of the loop
    over the channels, and continues the list of operations of the thread. *)
Definition wtower_thread {Op} (act : Z -> Z -> Z -> Z -> Z -> Z -> Z -> list Op -> option (list Op)) (id : Z * Z * Z) : option (list Op) :=
  let '(x, _, _) := id in
  let i_row := u32 x + start_row in
  if (end_row <=? i_row) || (dim uvws 0 <=? i_row) then Some [] else
  let* start_ch := rd start_chs [i_row] in
  let* end_ch := rd end_chs [i_row] in
  if start_ch >=? end_ch then Some [] else
  let* uvw_0 := rd uvws [i_row; 0] in
  let* uvw_1 := rd uvws [i_row; 1] in
  let* uvw_2 := rd uvws [i_row; 2] in
  let min_w := (inject_Z (w_plane + off_w - 1) * w_step plan)%Q in
  let max_w := (inject_Z (w_plane + off_w) * w_step plan)%Q in
  let (start_ch, end_ch) := clamp_inline uvw_2 freq0_hz dfreq_hz start_ch end_ch min_w max_w in
  if start_ch >=? end_ch then Some [] else
  let s_uvw0 := (freq0_hz / C_0)%Q in
  let s_duvw := (dfreq_hz / C_0)%Q in
  let uvw0_0 := (uvw_0 * s_uvw0 - inject_Z off_u / theta plan)%Q in
  let uvw0_1 := (uvw_1 * s_uvw0 - inject_Z off_v / theta plan)%Q in
  let uvw0_2 := (uvw_2 * s_uvw0 - inject_Z (off_w + w_plane - 1) * w_step plan)%Q in
  let duvw_0 := (uvw_0 * s_duvw)%Q in
  let duvw_1 := (uvw_1 * s_duvw)%Q in
  let duvw_2 := (uvw_2 * s_duvw)%Q in
  let* _ := to_int (subgrid_size plan * subgrid_size plan) in
  let half_subgrid := cdiv (subgrid_size plan) 2 in
  let theta_ov := (theta plan * inject_Z (oversampling plan))%Q in
  let w_step_ov := (1 / w_step plan * inject_Z (w_oversampling plan))%Q in
  let half_sg_size_ov := (half_subgrid - cdiv (support plan) 2 + 1) * oversampling plan in
  let u_min := Qfloor (theta plan * (uvw0_0 + inject_Z start_ch * duvw_0)) in
  let u_max := Qceiling (theta plan * (uvw0_0 + inject_Z (end_ch - 1) * duvw_0)) in
  let v_min := Qfloor (theta plan * (uvw0_1 + inject_Z start_ch * duvw_1)) in
  let v_max := Qceiling (theta plan * (uvw0_1 + inject_Z (end_ch - 1) * duvw_1)) in
  if (u_min <? - half_subgrid) || (u_max >=? half_subgrid) || (v_min <? - half_subgrid) || (v_max >=? half_subgrid) then Some [] else
  for_ start_ch end_ch (fun c ops =>
    let u := (uvw0_0 + inject_Z c * duvw_0)%Q in
    let v := (uvw0_1 + inject_Z c * duvw_1)%Q in
    let w := (uvw0_2 + inject_Z c * duvw_2)%Q in
    let* ru := to_int (qround (u * theta_ov)) in
    let* rv := to_int (qround (v * theta_ov)) in
    let* iw0_ov := to_int (qround (w * w_step_ov)) in
    let iu0_ov := ru + half_sg_size_ov in
    let iv0_ov := rv + half_sg_size_ov in
    act i_row c (cdiv iu0_ov (oversampling plan)) (cdiv iv0_ov (oversampling plan))
      (cmod iu0_ov (oversampling plan) * support plan) (cmod iv0_ov (oversampling plan) * support plan) (cmod iw0_ov (w_oversampling plan) * w_support plan) ops) [].

(** The position of a pixel in the stack of sub-grids, .cu 112-118 and 230-236 (below 2^62, so that the sums of int64_t do not overflow) *)
Definition pixel (iw ix_u ix_v : Z) : option Z :=
  let* row := to_int (ix_u * subgrid_size plan) in
  Some (iw * (subgrid_size plan * subgrid_size plan) + row + ix_v).
(** sdp_gridder_wtower_degrid, .cu 13-125; [subgrids]: the stack as one array; n, m: size of the visibilities *)
Definition gpu_degrid_act (subgrids : nd A) (n m : Z) (i_row c iu0 iv0 u_off v_off w_off : Z) (ops : list (op (list Z) A)) : option (list (op (list Z) A)) :=
  let* local_vis := for_ 0 (w_support plan) (fun iw local_vis =>
    let* kern_w := rd (w_kernel plan) [w_off + iw] in
    for_ 0 (support plan) (fun iu local_vis =>
      let* ku := rd (uv_kernel plan) [u_off + iu] in
      let kern_wu := (kern_w * ku)%cr in
      let ix_u := iu0 + iu in
      for_ 0 (support plan) (fun iv local_vis =>
        let* kv := rd (uv_kernel plan) [v_off + iv] in
        let kern_wuv := (kern_wu * kv)%cr in
        let ix_v := iv0 + iv in
        let* idx := pixel iw ix_u ix_v in
        let* s := rd subgrids [idx] in
        Some (local_vis + kern_wuv * s)%cr) local_vis) local_vis) r0 in
  if in_shape [n; m] [i_row; c] then Some (ops ++ [Update [i_row; c] (fun x => x + local_vis)%cr]) else None.
End Kernels.

(** sdp_gridder_wtower_grid, .cu 128-247; the stack as one array of [size] real numbers: real and imaginary parts alternate *)
Definition gpu_grid_act (plan : wplan Cring) (vis : nd C) (size : Z) (i_row c iu0 iv0 u_off v_off w_off : Z) (ops : list (op Z R)) : option (list (op Z R)) :=
  let* local_vis := rd vis [i_row; c] in
  for_ 0 (w_support plan) (fun iw ops =>
    let* kern_w := rd (w_kernel plan) [w_off + iw] in
    for_ 0 (support plan) (fun iu ops =>
      let* ku := rd (uv_kernel plan) [u_off + iu] in
      let kern_wu := Cmul kern_w ku in
      let ix_u := iu0 + iu in
      for_ 0 (support plan) (fun iv ops =>
        let* kv := rd (uv_kernel plan) [v_off + iv] in
        let kern_wuv := Cmul kern_wu kv in
        let ix_v := iv0 + iv in
        let* k := pixel plan iw ix_u ix_v in
        let idx := 2 * k in
        let grid_val := Cmul kern_wuv local_vis in
        if in_shape [size] [idx] && in_shape [size] [idx + 1] then Some (ops ++ [Add idx (fst grid_val); Add (idx + 1) (snd grid_val)]) else None) ops) ops) ops.

(** The kernel that the host chooses, wtower_uvw.cpp 277-317 and 585-625; [degrid]: which of the two *)
Definition wtower_kernel (degrid : bool) (subgrids uvws vis : option mem) : option string :=
  if (mtype subgrids =? MEM_COMPLEX_DOUBLE) && (mtype uvws =? MEM_DOUBLE) && (mtype vis =? MEM_COMPLEX_DOUBLE)
  then Some (if degrid then "sdp_gridder_wtower_degrid<complex<double>, double, complex<double> >" else "sdp_gridder_wtower_grid<double, double, complex<double> >")%string
  else if (mtype subgrids =? MEM_COMPLEX_FLOAT) && (mtype uvws =? MEM_DOUBLE) && (mtype vis =? MEM_COMPLEX_FLOAT)
  then Some (if degrid then "sdp_gridder_wtower_degrid<complex<float>, double, complex<float> >" else "sdp_gridder_wtower_grid<float, double, complex<float> >")%string
  else if (mtype subgrids =? MEM_COMPLEX_FLOAT) && (mtype uvws =? MEM_FLOAT) && (mtype vis =? MEM_COMPLEX_FLOAT)
  then Some (if degrid then "sdp_gridder_wtower_degrid<complex<float>, float, complex<float> >" else "sdp_gridder_wtower_grid<float, float, complex<float> >")%string
  else None.
(** The checks before the launch, wtower_uvw.cpp 275-343 and 583-651.  The copies of the convolution kernels in GPU memory are there (761-778: made before the call). *)
Definition wtower_checks (degrid : bool) (subgrids uvws start_chs end_chs vis : option mem) (st : error) : error :=
  let st := snd (check_and_view_const start_chs MEM_INT 1 MEM_GPU st) in
  let st := snd (check_and_view_const end_chs MEM_INT 1 MEM_GPU st) in
  let st := match wtower_kernel degrid subgrids uvws vis with
    | Some _ =>
        let st := snd (check_and_view_const uvws (mtype uvws) 2 MEM_GPU st) in
        if degrid then snd (check_and_view vis (mtype vis) 2 MEM_GPU st) else snd (check_and_view_const vis (mtype vis) 2 MEM_GPU st)
    | None => ERR_DATA_TYPE end in
  StationGpu.gpu_buffer subgrids st.
(** degrid_gpu, wtower_uvw.cpp 245-347 *)
Definition degrid_gpu {A : cring} (plan : wplan A) (w_plane off_u off_v off_w : Z) (f0 df : Q) (start_row end_row : Z) (subgrids uvws start_chs end_chs vis : option mem)
    (uvws_d : nd Q) (scs ecs : nd Z) (subgrids_d vis_d : nd A) (st st' : error) (r : nd A) : Prop :=
  if failed st then st' = st /\ r = vis_d else
  launch_view radd (wtower_kernel true subgrids uvws vis) (blocks_of (shape_dim vis 0) 256, 1, 1) (256, 1, 1)
    (wtower_thread plan w_plane off_u off_v off_w f0 df start_row end_row uvws_d scs ecs (gpu_degrid_act plan subgrids_d (dim vis_d 0) (dim vis_d 1)))
    (wtower_checks true subgrids uvws start_chs end_chs vis st) vis_d st' r.
(** grid_gpu, wtower_uvw.cpp 553-655 *)
Definition grid_gpu (plan : wplan Cring) (w_plane off_u off_v off_w : Z) (f0 df : Q) (start_row end_row : Z) (subgrids uvws start_chs end_chs vis : option mem)
    (uvws_d : nd Q) (scs ecs : nd Z) (subgrids_d : nd R) (vis_d : nd C) (st st' : error) (r : nd R) : Prop :=
  if failed st then st' = st /\ r = subgrids_d else
  launch_kernel Rplus (wtower_kernel false subgrids uvws vis) (blocks_of (shape_dim vis 0) 256, 1, 1) (256, 1, 1)
    (wtower_thread plan w_plane off_u off_v off_w f0 df start_row end_row uvws_d scs ecs (gpu_grid_act plan vis_d (dim subgrids_d 0)))
    (wtower_checks false subgrids uvws start_chs end_chs vis st) subgrids_d st' r.
