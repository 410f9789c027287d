(** Model of the operations on single elements of arrays in GPU memory: utility/sdp_mem.cu, fourier_transforms/sdp_fft.cu, grid_data/sdp_gridder_grid_correct.cu and the
    GPU branches of the functions that launch those kernels.  Exact arithmetic; elements of real and int arrays are complex numbers without imaginary part. *)
From Coq Require Import Reals String.
From Verif Require Import Base Mem Checks CRing Cplx Fft GridUtils Gpu GpuLaunch GpuView PhaseRotateGpu GridUtilsGpu.
Open Scope Z_scope.

(** ** sdp_fft_norm, sdp_fft_phase *)
(** sdp_fft_norm, sdp_fft.cu 12-19 *)
Definition norm_thread (n m : Z) (factor : R) (id : Z * Z * Z) : option (list (op (list Z) C)) :=
  let '(x, y, _) := id in
  let ix := u32 x in let iy := u32 y in
  if (n <=? ix) || (m <=? iy) then Some [] else
  Some [Update [ix; iy] (fun v => Cmul v (RtoC factor))].
(** sdp_fft_norm, sdp_fft.cpp 1003-1038, for GPU memory; [True]: undefined, anything may happen *)
Definition norm_kernel (t : Z) : option string :=
  if t =? MEM_COMPLEX_FLOAT then Some "sdp_fft_norm<complex<float> >"%string
  else if t =? MEM_COMPLEX_DOUBLE then Some "sdp_fft_norm<complex<double> >"%string else None.
Definition gpu_fft_norm (data : option mem) (x : nd C) (st st' : error) (r : nd C) : Prop :=
  if failed st then st' = st /\ r = x else
  let num_x := shape_dim data 0 in let num_y := shape_dim data 1 in
  match int_times num_x num_y with
  | None => True
  | Some p =>
      match norm_kernel (mtype data) with
      | None => st' = ERR_DATA_TYPE /\ r = x
      | Some name => launch_view Cadd (Some name) (blocks_of num_x 32, blocks_of num_y 8, 1) (32, 8, 1) (norm_thread num_x num_y (1 / IZR p)) (view2 data st) x st' r
      end
  end.

(** sdp_fft_phase, sdp_fft.cu 22-30 *)
Definition phase_thread (n m : Z) (id : Z * Z * Z) : option (list (op (list Z) C)) :=
  let '(x, y, _) := id in
  let ix := u32 x in let iy := u32 y in
  if (n <=? ix) || (m <=? iy) then Some [] else
  Some [Update [ix; iy] (fun v => Cmul v (RtoC (IZR (1 - Z.shiftl (Z.land (ix + iy) 1) 1))))].
Definition phase_kernel (t : Z) : option string :=
  if t =? MEM_COMPLEX_FLOAT then Some "sdp_fft_phase<complex<float> >"%string
  else if t =? MEM_COMPLEX_DOUBLE then Some "sdp_fft_phase<complex<double> >"%string else None.
(** sdp_fft.cpp 1165-1174: the shape of a block of threads *)
Definition phase_threads (num_x num_y : Z) : Z * Z :=
  let t := (32, 8) in
  let t := if num_x =? 1 then (1, 256) else t in
  if num_y =? 1 then (256, 1) else t.
(** sdp_fft_phase, sdp_fft.cpp 1141-1183, for GPU memory *)
Definition gpu_fft_phase (data : option mem) (x : nd C) (st st' : error) (r : nd C) : Prop :=
  if failed st then st' = st /\ r = x else
  match phase_kernel (mtype data) with
  | None => st' = ERR_DATA_TYPE /\ r = x
  | Some name =>
      let st := view2 data st in
      if failed st then st' = st /\ r = x else
      let num_x := shape_dim data 0 in let num_y := shape_dim data 1 in
      let '(tx, ty) := phase_threads num_x num_y in
      launch_view Cadd (Some name) (blocks_of num_x tx, blocks_of num_y ty, 1) (tx, ty, 1) (phase_thread num_x num_y) st x st' r
  end.

(** ** sdp_mem_scale_real, sdp_mem_set_value *)
(** sdp_mem_scale_real, sdp_mem.cu 11-17: the product of two unsigned int has 32 bits; [n] elements, in the order of memory *)
Definition scale_thread (n : Z) (value : R) (id : Z * Z * Z) : option (list (op (list Z) C)) :=
  let '(x, _, _) := id in
  let i := u32 x in
  if n <=? i then Some [] else Some [Update [i] (fun v => Cmul v (RtoC value))].
Definition scale_kernel (t : Z) : option string :=
  if t =? MEM_COMPLEX_DOUBLE then Some "sdp_mem_scale_real<complex<double> >"%string
  else if t =? MEM_COMPLEX_FLOAT then Some "sdp_mem_scale_real<complex<float> >"%string
  else if t =? MEM_DOUBLE then Some "sdp_mem_scale_real<double>"%string
  else if t =? MEM_FLOAT then Some "sdp_mem_scale_real<float>"%string else None.
(** sdp_mem_scale_real, sdp_mem.cpp 755-822, for GPU memory; [x]: the elements in the order of memory *)
Definition gpu_scale_real (data : option mem) (value : R) (x : nd C) (st st' : error) (r : nd C) : Prop :=
  if failed st then st' = st /\ r = x else
  if negb (is_c_contiguous data) then st' = ERR_INVALID_ARGUMENT /\ r = x else
  let n := num_elements data in
  match scale_kernel (mtype data) with
  | None => st' = ERR_DATA_TYPE /\ r = x
  | Some name => launch_view Cadd (Some name) (blocks_of n 256, 1, 1) (256, 1, 1) (scale_thread n value) st x st' r
  end.

(** sdp_mem_set_value_1d, _2d, _3d, sdp_mem.cu 20-48; (T) value *)
Definition set1_thread (n : Z) (value : Z) (id : Z * Z * Z) : option (list (op (list Z) C)) :=
  let '(x, _, _) := id in
  let i := u32 x in
  if n <=? i then Some [] else Some [Update [i] (fun _ => RtoC (IZR value))].
Definition set2_thread (n m : Z) (value : Z) (id : Z * Z * Z) : option (list (op (list Z) C)) :=
  let '(x, y, _) := id in
  let i := u32 x in let j := u32 y in
  if (n <=? i) || (m <=? j) then Some [] else Some [Update [i; j] (fun _ => RtoC (IZR value))].
Definition set3_thread (n m l : Z) (value : Z) (id : Z * Z * Z) : option (list (op (list Z) C)) :=
  let '(x, y, z) := id in
  let i := u32 x in let j := u32 y in let k := u32 z in
  if (n <=? i) || (m <=? j) || (l <=? k) then Some [] else Some [Update [i; j; k] (fun _ => RtoC (IZR value))].
Definition set1_kernel (t : Z) : option string :=
  if t =? MEM_COMPLEX_DOUBLE then Some "sdp_mem_set_value_1d<complex<double> >"%string
  else if t =? MEM_COMPLEX_FLOAT then Some "sdp_mem_set_value_1d<complex<float> >"%string
  else if t =? MEM_DOUBLE then Some "sdp_mem_set_value_1d<double>"%string
  else if t =? MEM_FLOAT then Some "sdp_mem_set_value_1d<float>"%string
  else if t =? MEM_INT then Some "sdp_mem_set_value_1d<int>"%string else None.
Definition set2_kernel (t : Z) : option string :=
  if t =? MEM_COMPLEX_DOUBLE then Some "sdp_mem_set_value_2d<complex<double> >"%string
  else if t =? MEM_COMPLEX_FLOAT then Some "sdp_mem_set_value_2d<complex<float> >"%string
  else if t =? MEM_DOUBLE then Some "sdp_mem_set_value_2d<double>"%string
  else if t =? MEM_FLOAT then Some "sdp_mem_set_value_2d<float>"%string
  else if t =? MEM_INT then Some "sdp_mem_set_value_2d<int>"%string else None.
Definition set3_kernel (t : Z) : option string :=
  if t =? MEM_COMPLEX_DOUBLE then Some "sdp_mem_set_value_3d<complex<double> >"%string
  else if t =? MEM_COMPLEX_FLOAT then Some "sdp_mem_set_value_3d<complex<float> >"%string
  else if t =? MEM_DOUBLE then Some "sdp_mem_set_value_3d<double>"%string
  else if t =? MEM_FLOAT then Some "sdp_mem_set_value_3d<float>"%string
  else if t =? MEM_INT then Some "sdp_mem_set_value_3d<int>"%string else None.
(** sdp_mem_set_value, sdp_mem.cpp 902-1128, for GPU memory *)
Definition gpu_set_value (data : option mem) (value : Z) (x : nd C) (st st' : error) (r : nd C) : Prop :=
  if failed st then st' = st /\ r = x else
  let s0 := shape_dim data 0 in let s1 := shape_dim data 1 in let s2 := shape_dim data 2 in
  if num_dims data =? 1 then
    match set1_kernel (mtype data) with
    | None => st' = ERR_DATA_TYPE /\ r = x
    | Some name => launch_view Cadd (Some name) (blocks_of s0 256, 1, 1) (256, 1, 1) (set1_thread s0 value) (snd (check_and_view data (mtype data) 1 MEM_GPU st)) x st' r
    end
  else if num_dims data =? 2 then
    match set2_kernel (mtype data) with
    | None => st' = ERR_DATA_TYPE /\ r = x
    | Some name => launch_view Cadd (Some name) (blocks_of s0 16, blocks_of s1 16, 1) (16, 16, 1) (set2_thread s0 s1 value) (snd (check_and_view data (mtype data) 2 MEM_GPU st)) x st' r
    end
  else if num_dims data =? 3 then
    match set3_kernel (mtype data) with
    | None => st' = ERR_DATA_TYPE /\ r = x
    | Some name => launch_view Cadd (Some name) (blocks_of s0 16, blocks_of s1 8, blocks_of s2 4) (16, 8, 4) (set3_thread s0 s1 s2 value) (snd (check_and_view data (mtype data) 3 MEM_GPU st)) x st' r
    end
  else st' = ERR_INVALID_ARGUMENT /\ r = x.

(** ** sdp_gridder_grid_correct_pswf, sdp_gridder_grid_correct_w_stack *)
(** sdp_gridder_grid_correct_pswf, grid_correct.cu 14-50; [pswf_n]: the factor computed from n in 39-46 *)
Definition pswf_thread (image_size : Z) (theta shear_u shear_v : R) (pswf : nd R) (pswf_n : R -> R) (num_l num_m off_l off_m : Z) (id : Z * Z * Z) : option (list (op (list Z) C)) :=
  let '(x, y, _) := id in
  let il := u32 x in let im := u32 y in
  if (num_l <=? il) || (num_m <=? im) then Some [] else
  let pl := il - cdiv num_l 2 + off_l in
  let pm := im - cdiv num_m 2 + off_m in
  let l := (IZR pl * theta / IZR image_size)%R in
  let m := (IZR pm * theta / IZR image_size)%R in
  let* pswf_l := rd pswf [pl + cdiv image_size 2] in
  let* pswf_m := rd pswf [pm + cdiv image_size 2] in
  let scale := (1 / (pswf_l * pswf_m * pswf_n (lm_to_n l m shear_u shear_v)))%R in
  Some [Update [il; im] (fun v => Cmul v (RtoC scale))].
Definition pswf_kernel (t : Z) : option string :=
  if t =? MEM_FLOAT then Some "sdp_gridder_grid_correct_pswf<float>"%string
  else if t =? MEM_DOUBLE then Some "sdp_gridder_grid_correct_pswf<double>"%string
  else if t =? MEM_COMPLEX_FLOAT then Some "sdp_gridder_grid_correct_pswf<complex<float> >"%string
  else if t =? MEM_COMPLEX_DOUBLE then Some "sdp_gridder_grid_correct_pswf<complex<double> >"%string else None.
(** sdp_gridder_grid_correct_pswf, grid_correct.cpp 119-242, for GPU memory; the table of the function, of image_size values, has been made and copied *)
Definition gpu_correct_pswf (image_size : Z) (theta shear_u shear_v : R) (pswf : nd R) (pswf_n : R -> R) (facet : option mem) (off_l off_m : Z) (x : nd C) (st st' : error) (r : nd C) : Prop :=
  if failed st then st' = st /\ r = x else
  let num_l := shape_dim facet 0 in let num_m := shape_dim facet 1 in
  let name := pswf_kernel (mtype facet) in
  let st := match name with Some _ => view2 facet st | None => ERR_DATA_TYPE end in
  launch_view Cadd name (blocks_of num_l 16, blocks_of num_m 16, 1) (16, 16, 1) (pswf_thread image_size theta shear_u shear_v pswf pswf_n num_l num_m off_l off_m) st x st' r.

(** sdp_gridder_grid_correct_w_stack, grid_correct.cu 53-81 *)
Definition w_stack_thread (image_size : Z) (theta w_step shear_u shear_v : R) (num_l num_m off_l off_m w_offset : Z) (inverse : bool) (id : Z * Z * Z) : option (list (op (list Z) C)) :=
  let '(x, y, _) := id in
  let il := u32 x in let im := u32 y in
  if (num_l <=? il) || (num_m <=? im) then Some [] else
  let pl := il - cdiv num_l 2 + off_l in
  let pm := im - cdiv num_m 2 + off_m in
  let l := (IZR pl * theta / IZR image_size)%R in
  let m := (IZR pm * theta / IZR image_size)%R in
  let n := lm_to_n l m shear_u shear_v in
  let phase := (2 * PI * w_step * n * IZR w_offset)%R in
  let w := (cos phase, sin phase) in
  let w := if inverse then w else Cdiv C1 w in
  Some [Update [il; im] (fun v => Cmul v w)].
Definition w_stack_kernel (t : Z) : option string :=
  if t =? MEM_COMPLEX_DOUBLE then Some "sdp_gridder_grid_correct_w_stack<complex<double> >"%string
  else if t =? MEM_COMPLEX_FLOAT then Some "sdp_gridder_grid_correct_w_stack<complex<float> >"%string else None.
(** sdp_gridder_grid_correct_w_stack, grid_correct.cpp 245-345, for GPU memory *)
Definition gpu_correct_w_stack (image_size : Z) (theta w_step shear_u shear_v : R) (facet : option mem) (off_l off_m w_offset : Z) (inverse : bool) (x : nd C) (st st' : error) (r : nd C) : Prop :=
  if failed st || (w_offset =? 0) then st' = st /\ r = x else
  let num_l := shape_dim facet 0 in let num_m := shape_dim facet 1 in
  let name := w_stack_kernel (mtype facet) in
  let st := match name with Some _ => view2 facet st | None => ERR_DATA_TYPE end in
  launch_view Cadd name (blocks_of num_l 16, blocks_of num_m 16, 1) (16, 16, 1) (w_stack_thread image_size theta w_step shear_u shear_v num_l num_m off_l off_m w_offset inverse) st x st' r.
