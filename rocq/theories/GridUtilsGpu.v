(** Model of the array utilities of the gridder in GPU memory: grid_data/sdp_gridder_utils.cu, and the GPU branches of grid_data/sdp_gridder_utils.cpp.
    Exact arithmetic; the arrays of a call do not overlap.  An array of real numbers is an array of complex numbers whose imaginary parts are not looked
    at.  Arrays are given by their description (mem) and their elements (nd). *)
From Coq Require Import Reals String.
From Verif Require Import Base Mem Checks CRing Cplx GridUtils Subgrid Gpu GpuLaunch GpuView PhaseRotateGpu.
Open Scope Z_scope.

(** An element of an array of type [ty] *)
Definition is_complex (ty : Z) : bool := (ty =? MEM_COMPLEX_DOUBLE) || (ty =? MEM_COMPLEX_FLOAT).
Definition value (ty : Z) (v : C) : C := if is_complex ty then v else RtoC (re v).

(** ** sdp_gridder_accumulate_scaled_arrays *)
(** sdp_gridder_accum_scale_array, utils.cu 16-38, for arrays of n x m; [t1]: type of in1 *)
Definition accum_scale_thread (t1 n m : Z) (in1 in2 : nd C) (exponent : Z) (id : Z * Z * Z) : option (list (op (list Z) C)) :=
  let '(x, y, _) := id in
  let i := u32 x in let j := u32 y in
  if (n <=? i) || (m <=? j) then Some [] else
  let* a := rd in1 [i; j] in
  if exponent =? 0 then Some [Update [i; j] (fun o => Cadd o (value t1 a))]
  else let* b := rd in2 [i; j] in
  if exponent =? 1 then Some [Update [i; j] (fun o => Cadd o (Cmul (value t1 a) b))]
  else Some [Update [i; j] (fun o => Cadd o (Cmul (value t1 a) (Cpowz b exponent)))].
(** sdp_gridder_accum_complex_real_array, utils.cu 42-51 *)
Definition accum_real_thread (n m : Z) (in1 : nd C) (id : Z * Z * Z) : option (list (op (list Z) C)) :=
  let '(x, y, _) := id in
  let i := u32 x in let j := u32 y in
  if (n <=? i) || (m <=? j) then Some [] else
  let* a := rd in1 [i; j] in
  Some [Update [i; j] (fun o => Cadd o (RtoC (re a)))].

(** utils.cpp 851-977: the kernel for the types, and whether it is the one for real output *)
Definition accum_kernel (t_out t1 t2 : Z) : option (string * bool) :=
  if (t_out =? MEM_COMPLEX_DOUBLE) && (t1 =? MEM_COMPLEX_DOUBLE) && (t2 =? MEM_COMPLEX_DOUBLE) then Some ("sdp_gridder_accum_scale_array<complex<double>, complex<double>, complex<double> >"%string, false)
  else if (t_out =? MEM_COMPLEX_FLOAT) && (t1 =? MEM_COMPLEX_FLOAT) && (t2 =? MEM_COMPLEX_DOUBLE) then Some ("sdp_gridder_accum_scale_array<complex<float>, complex<float>, complex<double> >"%string, false)
  else if (t_out =? MEM_COMPLEX_DOUBLE) && (t1 =? MEM_COMPLEX_FLOAT) && (t2 =? MEM_COMPLEX_DOUBLE) then Some ("sdp_gridder_accum_scale_array<complex<double>, complex<float>, complex<double> >"%string, false)
  else if (t_out =? MEM_COMPLEX_FLOAT) && (t1 =? MEM_COMPLEX_DOUBLE) && (t2 =? MEM_COMPLEX_DOUBLE) then Some ("sdp_gridder_accum_scale_array<complex<float>, complex<double>, complex<double> >"%string, false)
  else if (t_out =? MEM_COMPLEX_DOUBLE) && (t1 =? MEM_DOUBLE) && (t2 =? MEM_COMPLEX_DOUBLE) then Some ("sdp_gridder_accum_scale_array<complex<double>, double, complex<double> >"%string, false)
  else if (t_out =? MEM_COMPLEX_FLOAT) && (t1 =? MEM_FLOAT) && (t2 =? MEM_COMPLEX_DOUBLE) then Some ("sdp_gridder_accum_scale_array<complex<float>, float, complex<double> >"%string, false)
  else if (t_out =? MEM_COMPLEX_DOUBLE) && (t1 =? MEM_FLOAT) && (t2 =? MEM_COMPLEX_DOUBLE) then Some ("sdp_gridder_accum_scale_array<complex<double>, float, complex<double> >"%string, false)
  else if (t_out =? MEM_COMPLEX_FLOAT) && (t1 =? MEM_DOUBLE) && (t2 =? MEM_COMPLEX_DOUBLE) then Some ("sdp_gridder_accum_scale_array<complex<float>, double, complex<double> >"%string, false)
  else if (t_out =? MEM_DOUBLE) && (t1 =? MEM_COMPLEX_DOUBLE) then Some ("sdp_gridder_accum_complex_real_array<double, complex<double> >"%string, true)
  else if (t_out =? MEM_FLOAT) && (t1 =? MEM_COMPLEX_FLOAT) then Some ("sdp_gridder_accum_complex_real_array<float, complex<float> >"%string, true)
  else if (t_out =? MEM_DOUBLE) && (t1 =? MEM_COMPLEX_FLOAT) then Some ("sdp_gridder_accum_complex_real_array<double, complex<float> >"%string, true)
  else if (t_out =? MEM_FLOAT) && (t1 =? MEM_COMPLEX_DOUBLE) then Some ("sdp_gridder_accum_complex_real_array<float, complex<double> >"%string, true)
  else None.

(** The status after sdp_mem_check_and_view for the type of the array (the kernel was chosen for it), two dimensions and GPU memory *)
Definition view2 (m : option mem) (st : error) : error := snd (check_and_view m (mtype m) 2 MEM_GPU st).
Definition view2_const (m : option mem) (ty : Z) (st : error) : error := snd (check_and_view_const m ty 2 MEM_GPU st).

(** sdp_gridder_accumulate_scaled_arrays, utils.cpp 722-984, for an output in GPU memory.  [in2 = None]: NULL. *)
Definition gpu_accumulate (out in1 in2 : option mem) (exponent : Z) (out_d in1_d in2_d : nd C) (st st' : error) (r : nd C) : Prop :=
  if failed st then st' = st /\ r = out_d else
  if negb (location in1 =? location out) then st' = ERR_MEM_LOCATION /\ r = out_d else
  let t2 := match in2 with Some _ => mtype in2 | None => MEM_COMPLEX_DOUBLE end in
  let exponent := match in2 with Some _ => exponent | None => 0 end in
  let st := match in2 with Some _ => view2_const in2 MEM_COMPLEX_DOUBLE st | None => st end in
  let n := shape_dim out 0 in let m := shape_dim out 1 in
  let blocks := (blocks_of n 16, blocks_of m 16, 1) in
  match accum_kernel (mtype out) (mtype in1) t2 with
  | None => launch_view Cadd None blocks (16, 16, 1) (fun _ => None) ERR_DATA_TYPE out_d st' r
  | Some (name, real) =>
      let st := view2_const in1 (mtype in1) (view2 out st) in
      launch_view Cadd (Some name) blocks (16, 16, 1)
        (if real then accum_real_thread n m in1_d else accum_scale_thread (mtype in1) n m in1_d in2_d exponent) st out_d st' r
  end.

(** ** sdp_gridder_scale_inv_array *)
(** utils.cu 126-146 *)
Definition scale_inv_thread (t1 n m : Z) (in1 in2 : nd C) (exponent : Z) (id : Z * Z * Z) : option (list (op (list Z) C)) :=
  let '(x, y, _) := id in
  let i := u32 x in let j := u32 y in
  if (n <=? i) || (m <=? j) then Some [] else
  let* a := rd in1 [i; j] in
  let* b := rd in2 [i; j] in
  if exponent =? 1 then Some [Update [i; j] (fun _ => Cdiv (value t1 a) b)]
  else Some [Update [i; j] (fun _ => Cdiv (value t1 a) (Cpowz b exponent))].
(** utils.cpp 1614-1661 *)
Definition scale_inv_kernel (t_out t1 t2 : Z) : option string :=
  if (t_out =? MEM_COMPLEX_DOUBLE) && (t1 =? MEM_DOUBLE) && (t2 =? MEM_COMPLEX_DOUBLE) then Some "sdp_gridder_scale_inv_array<complex<double>, double, complex<double> >"%string
  else if (t_out =? MEM_COMPLEX_FLOAT) && (t1 =? MEM_FLOAT) && (t2 =? MEM_COMPLEX_DOUBLE) then Some "sdp_gridder_scale_inv_array<complex<float>, float, complex<double> >"%string
  else if (t_out =? MEM_COMPLEX_DOUBLE) && (t1 =? MEM_COMPLEX_DOUBLE) && (t2 =? MEM_COMPLEX_DOUBLE) then Some "sdp_gridder_scale_inv_array<complex<double>, complex<double>, complex<double> >"%string
  else if (t_out =? MEM_COMPLEX_FLOAT) && (t1 =? MEM_COMPLEX_FLOAT) && (t2 =? MEM_COMPLEX_DOUBLE) then Some "sdp_gridder_scale_inv_array<complex<float>, complex<float>, complex<double> >"%string
  else None.
(** sdp_gridder_scale_inv_array, utils.cpp 1541-1665, for an output in GPU memory *)
Definition gpu_scale_inv (out in1 in2 : option mem) (exponent : Z) (out_d in1_d in2_d : nd C) (st st' : error) (r : nd C) : Prop :=
  if failed st then st' = st /\ r = out_d else
  if negb ((location in1 =? location out) && (location in2 =? location out)) then st' = ERR_MEM_LOCATION /\ r = out_d else
  let n := shape_dim out 0 in let m := shape_dim out 1 in
  let st := view2_const in2 MEM_COMPLEX_DOUBLE st in
  let name := scale_inv_kernel (mtype out) (mtype in1) (mtype in2) in
  let st := match name with Some _ => view2_const in1 (mtype in1) (view2 out st) | None => ERR_DATA_TYPE end in
  launch_view Cadd name (blocks_of n 16, blocks_of m 16, 1) (16, 16, 1) (scale_inv_thread (mtype in1) n m in1_d in2_d exponent) st out_d st' r.

(** ** Sub-grids *)
Section Subgrids.
Context {A : cring}.
(** sdp_gridder_subgrid_add, utils.cu 168-202: grid(i1, j1) += ... is a load and a store *)
Definition subgrid_add_thread (gu gv : Z) (sub : nd A) (offset_u offset_v : Z) (factor : A) (id : Z * Z * Z) : option (list (op (list Z) A)) :=
  let '(x, y, _) := id in
  let i := u32 x in let j := u32 y in
  let su := dim sub 0 in let sv := dim sub 1 in
  if (su <=? i) || (sv <=? j) then Some [] else
  let* i1 := wrap gu (i + cdiv gu 2 - cdiv su 2 - offset_u) in
  let* j1 := wrap gv (j + cdiv gv 2 - cdiv sv 2 - offset_v) in
  let* s := rd sub [i; j] in
  if in_shape [gu; gv] [i1; j1] then Some [Update [i1; j1] (fun v => (v + s * factor)%cr)] else None.
(** sdp_gridder_subgrid_cut_out, utils.cu 205-238 *)
Definition cut_out_thread (grid : nd A) (su sv : Z) (offset_u offset_v : Z) (id : Z * Z * Z) : option (list (op (list Z) A)) :=
  let '(x, y, _) := id in
  let i := u32 x in let j := u32 y in
  let gu := dim grid 0 in let gv := dim grid 1 in
  if (su <=? i) || (sv <=? j) then Some [] else
  let* i1 := wrap gu (i + cdiv gu 2 - cdiv su 2 + offset_u) in
  let* j1 := wrap gv (j + cdiv gv 2 - cdiv sv 2 + offset_v) in
  let* v := rd grid [i1; j1] in
  Some [Update [i; j] (fun _ => v)].
(** utils.cpp 1788-1805 and 1883-1900: there are no kernels for real grids *)
Definition subgrid_kernel (dbl flt : string) (t_grid t_sub : Z) : option string :=
  if (t_grid =? MEM_COMPLEX_DOUBLE) && (t_sub =? MEM_COMPLEX_DOUBLE) then Some dbl
  else if (t_grid =? MEM_COMPLEX_FLOAT) && (t_sub =? MEM_COMPLEX_FLOAT) then Some flt else None.
(** sdp_gridder_subgrid_add, utils.cpp 1729-1822, for a grid in GPU memory.  [grid] is not const: the view of it is checked to be writeable. *)
Definition gpu_subgrid_add (grid : option mem) (offset_u offset_v : Z) (sub : option mem) (factor : A) (grid_d sub_d : nd A) (st st' : error) (r : nd A) : Prop :=
  if failed st then st' = st /\ r = grid_d else
  let name := subgrid_kernel "sdp_gridder_subgrid_add<complex<double>, complex<double>, double>" "sdp_gridder_subgrid_add<complex<float>, complex<float>, double>" (mtype grid) (mtype sub) in
  let st := match name with Some _ => view2_const sub (mtype sub) (view2 grid st) | None => ERR_DATA_TYPE end in
  launch_view radd name (blocks_of (shape_dim sub 0) 16, blocks_of (shape_dim sub 1) 16, 1) (16, 16, 1)
    (subgrid_add_thread (shape_dim grid 0) (shape_dim grid 1) sub_d offset_u offset_v factor) st grid_d st' r.
(** sdp_gridder_subgrid_cut_out, utils.cpp 1825-1916, for a grid in GPU memory *)
Definition gpu_cut_out (grid : option mem) (offset_u offset_v : Z) (sub : option mem) (grid_d sub_d : nd A) (st st' : error) (r : nd A) : Prop :=
  if failed st then st' = st /\ r = sub_d else
  let name := subgrid_kernel "sdp_gridder_subgrid_cut_out<complex<double>, complex<double> >" "sdp_gridder_subgrid_cut_out<complex<float>, complex<float> >" (mtype grid) (mtype sub) in
  let st := match name with Some _ => view2 sub (view2_const grid (mtype grid) st) | None => ERR_DATA_TYPE end in
  launch_view radd name (blocks_of (shape_dim sub 0) 16, blocks_of (shape_dim sub 1) 16, 1) (16, 16, 1)
    (cut_out_thread grid_d (shape_dim sub 0) (shape_dim sub 1) offset_u offset_v) st sub_d st' r.

(** Shifting: the pixels (k, j, i), for all k, of one (j, i) are read and written by one thread only, in the order of k; they are one location here,
    that holds the column of their values.  [n]: shape[0], [m]: shape[1], [m2]: shape[2]. *)
Definition columns (x : nd A) : nd (Z -> A) := mk_nd [dim x 1; dim x 2] (fun ji => fun k => elem x (k :: ji)).
Definition of_columns (sh : list Z) (y : nd (Z -> A)) : nd A := mk_nd sh (fun idx => match idx with k :: ji => elem y ji k | [] => elem y [] 0 end).
(** utils.cu 158-161 *)
Fixpoint shift_column (steps : nat) (k : Z) (c : Z -> A) : Z -> A :=
  match steps with O => c | S s => shift_column s (k + 1) (fun k' => if k' =? k then c (k + 1) else c k') end.
(** sdp_gridder_shift_subgrids, utils.cu 149-162: int indices *)
Definition shift_thread (n m m2 : Z) (id : Z * Z * Z) : option (list (op (list Z) (Z -> A))) :=
  let '(x, y, _) := id in
  let i := x in let j := y in
  if (m <=? i) || (m <=? j) then Some [] else
  if n <=? 1 then Some [] else
  if in_shape [m; m2] [j; i] then Some [Update [j; i] (shift_column (Z.to_nat (n - 1)) 0)] else None.
Definition shift_kernel (t : Z) : option string :=
  if t =? MEM_COMPLEX_DOUBLE then Some "sdp_gridder_shift_subgrids<complex<double> >"%string
  else if t =? MEM_COMPLEX_FLOAT then Some "sdp_gridder_shift_subgrids<complex<float> >"%string else None.
(** sdp_gridder_shift_subgrids, utils.cpp 1670-1726, for GPU memory; sizes within int *)
Definition gpu_shift_subgrids (sub : option mem) (sub_d : nd A) (st st' : error) (r : nd A) : Prop :=
  if failed st then st' = st /\ r = sub_d else
  let n := shape_dim sub 0 in let m := shape_dim sub 1 in let m2 := shape_dim sub 2 in
  let name := shift_kernel (mtype sub) in
  let st := match name with Some _ => snd (check_and_view sub (mtype sub) 3 MEM_GPU st) | None => ERR_DATA_TYPE end in
  exists y, launch_view (fun a _ => a) name (blocks_of m 32, blocks_of m2 8, 1) (32, 8, 1) (shift_thread n m m2) st (columns sub_d) st' y /\
    r = if failed st' then sub_d else of_columns (shape sub_d) y.
End Subgrids.

(** ** sdp_gridder_idft *)
(** utils.cu 54-123: as on the CPU, one pixel per thread *)
Definition idft_thread (uvw : nd R) (vis : nd C) (chs : option (nd Z * nd Z)) (lmn : nd R) (taper : option (nd R)) (su sv sw : Z) (theta w_step freq0 dfreq : R)
    (sh : list Z) (id : Z * Z * Z) : option (list (op (list Z) C)) :=
  let '(x, y, _) := id in
  let il := u32 x in let im := u32 y in
  let image_size := nth 0 sh 0 in
  if (image_size <=? il) || (image_size <=? im) then Some [] else
  let num_uvw := dim uvw 0 in let num_chan := dim vis 1 in
  let off := offsets theta w_step su sv sw in
  let s := il * image_size + im in
  let* pix := for_ 0 num_uvw (fun i acc =>
    let* skip := row_skipped chs i in
    if skip then Some acc else
    for_ 0 num_chan (fun c acc =>
      let* t := turns uvw lmn freq0 dfreq off i c s in
      let* v := rd vis [i; c] in
      Some (Cadd acc (Cmul v (cis (2 * PI * t)%R)))) acc) C0 in
  let* tv := match taper with
             | None => Some 1%R
             | Some t => let* a := rd t [il] in let* b := rd t [im] in Some (a * b)%R
             end in
  if in_shape sh [il; im] then Some [Update [il; im] (fun p => Cadd p (Cmul pix (RtoC tv)))] else None.
(** utils.cpp 1172-1206 *)
Definition idft_kernel (t_dir t_img t_uvw t_vis : Z) : option string :=
  if (t_dir =? MEM_DOUBLE) && (t_img =? MEM_COMPLEX_DOUBLE) && (t_uvw =? MEM_DOUBLE) && (t_vis =? MEM_COMPLEX_DOUBLE) then Some "sdp_gridder_idft<double, complex<double>, double, double>"%string
  else if (t_dir =? MEM_FLOAT) && (t_img =? MEM_COMPLEX_FLOAT) && (t_uvw =? MEM_FLOAT) && (t_vis =? MEM_COMPLEX_FLOAT) then Some "sdp_gridder_idft<float, complex<float>, float, float>"%string
  else None.
(** sdp_gridder_idft, utils.cpp 1103-1239, for visibilities in GPU memory; [start], [end_], [taper]: None for NULL *)
Definition gpu_idft (uvw vis start end_ lmn taper : option mem) (image : option mem) (su sv sw : Z) (theta w_step freq0 dfreq : R)
    (uvw_d : nd R) (vis_d : nd C) (start_d end_d : nd Z) (lmn_d taper_d : nd R) (image_d : nd C) (st st' : error) (r : nd C) : Prop :=
  if failed st then st' = st /\ r = image_d else
  match idft_kernel (mtype lmn) (mtype image) (mtype uvw) (mtype vis) with
  | None => st' = ERR_DATA_TYPE /\ r = image_d
  | Some name =>
      let st := view2_const vis (mtype vis) (view2_const uvw (mtype uvw) (view2_const lmn (mtype lmn) (view2 image st))) in
      let chs := match start, end_ with Some _, Some _ => Some (start_d, end_d) | _, _ => None end in
      let st := match chs with Some _ => snd (check_and_view_const end_ MEM_INT 1 MEM_GPU (snd (check_and_view_const start MEM_INT 1 MEM_GPU st))) | None => st end in
      let tap := match taper with Some _ => Some taper_d | None => None end in
      let st := match taper with Some _ => snd (check_and_view_const taper MEM_DOUBLE 1 MEM_GPU st) | None => st end in
      launch_view Cadd (Some name) (blocks_of (shape_dim image 0) 16, blocks_of (shape_dim image 1) 16, 1) (16, 16, 1)
        (idft_thread uvw_d vis_d chs lmn_d tap su sv sw theta w_step freq0 dfreq (shape image_d)) st image_d st' r
  end.
