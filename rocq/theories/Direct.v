(** Model of grid_data/sdp_gridder_direct.cpp and of the entry points of sdp_gridder_utils.cpp it calls, in exact arithmetic.  Memory can be allocated.
    The functions that do the work are modelled in GridUtils.v and Flmn.v. *)
From Verif Require Import Base Mem Checks CRing Cplx GridUtils Flmn.
Open Scope Z_scope.

(** sdp_GridderDirect, direct.cpp 15-25; [p_pswf]: the contents of pswf_sg *)
Record plan := mk_plan { p_image_size : Z; p_subgrid_size : Z; p_theta : R; p_w_step : R; p_shear_u : R; p_shear_v : R; p_support : Z; p_pswf : nd R }.
(** sdp_gridder_direct_create, direct.cpp 28-57; [pswf]: what sdp_generate_pswf(0, support * pi / 2) stores (C47, C70) *)
Definition direct_create (image_size subgrid_size : Z) (theta w_step shear_u shear_v : R) (support : Z) (pswf : nd R) : option plan :=
  let* pswf := wr pswf [0] (/ 1000000000000000)%R in
  Some (mk_plan image_size subgrid_size theta w_step shear_u shear_v support pswf).
(** An array that sdp_mem_create makes, sdp_mem.cpp 40-96 and 164-177: without elements it has no memory *)
Definition scratch (ty loc : Z) (sh : list Z) : option mem :=
  let n := fold_right Z.mul 1 sh in
  Some (mk_mem ty loc true true false (Z.of_nat (length sh)) n 1 sh [] (if n =? 0 then None else Some (0, 0))).
(** The numbers that the elements of an array of a type stand for: those of real types have no imaginary part *)
Definition is_complex_type (ty : Z) : bool := (ty =? MEM_COMPLEX_DOUBLE) || (ty =? MEM_COMPLEX_FLOAT).
Definition as_type (ty : Z) (x : nd C) : nd C := mk_nd (shape x) (fun i => if is_complex_type ty then elem x i else RtoC (re (elem x i))).
Definition to_real (x : nd R) : nd C := mk_nd (shape x) (fun i => RtoC (elem x i)).

(** sdp_gridder_count_nonzero_pixels, utils.cpp 987-1013 and 107-123 *)
Definition count_pixels (image : option mem) (image_d : nd C) (st : error) : option (error * Z) :=
  if failed st then Some (st, 0) else
  let ty := mtype image in
  if is_complex_type ty || (ty =? MEM_DOUBLE) || (ty =? MEM_FLOAT) then
    let st := snd (check_and_view_const image ty 2 MEM_CPU st) in
    if failed st then Some (st, 0) else let* n := count_nonzero (as_type ty image_d) in Some (st, n)
  else Some (ERR_DATA_TYPE, 0).
(** sdp_gridder_image_to_flmn, utils.cpp 1242-1302 and 319-381, with a taper; [flux]: None for NULL.  If an image or the fluxes cannot be viewed although the
    directions can, the code goes on with views of no elements (no outcome here: the plan's functions never do that). *)
Definition flmn_types (image_ty flux_ty dir_ty : Z) : bool :=
  (flux_ty =? MEM_DOUBLE) &&
  (((image_ty =? MEM_DOUBLE) && (dir_ty =? MEM_DOUBLE)) || ((image_ty =? MEM_FLOAT) && (dir_ty =? MEM_FLOAT)) || ((image_ty =? MEM_COMPLEX_DOUBLE) && (dir_ty =? MEM_DOUBLE)) ||
   ((image_ty =? MEM_COMPLEX_FLOAT) && (dir_ty =? MEM_FLOAT)) || ((image_ty =? MEM_COMPLEX_FLOAT) && (dir_ty =? MEM_DOUBLE))).
Definition make_flmn (image taper flux lmn : option mem) (theta shear_u shear_v : R) (image_d : nd C) (taper_d flux_d lmn_d : nd R) (st : error) : option (error * nd R * nd R) :=
  if failed st then Some (st, flux_d, lmn_d) else
  if flmn_types (mtype image) (match flux with Some _ => mtype flux | None => MEM_DOUBLE end) (mtype lmn) then
    let st := snd (check_and_view lmn (mtype lmn) 2 MEM_CPU st) in
    let st := snd (check_and_view_const taper MEM_DOUBLE 1 MEM_CPU st) in
    if failed st then Some (st, flux_d, lmn_d) else
    match flux with
    | Some _ =>
        let st := snd (check_and_view_const image (mtype image) 2 MEM_CPU st) in
        let st := snd (check_and_view flux MEM_DOUBLE 1 MEM_CPU st) in
        if failed st then None else
        let* r := image_to_flmn (as_type (mtype image) image_d) theta shear_u shear_v (Some taper_d) flux_d lmn_d in
        Some (st, fst (fst r), snd (fst r))
    | None => let* r := image_to_lmn image_d theta shear_u shear_v lmn_d in Some (st, flux_d, fst r)
    end
  else Some (ERR_DATA_TYPE, flux_d, lmn_d).
(** The channel ranges are used if both arrays are given, utils.cpp 164-168 and 188 *)
Definition ranges {X} (start end_ : option mem) (x : X) : option X := match start, end_ with Some _, Some _ => Some x | _, _ => None end.
Definition check_ranges (start end_ : option mem) (st : error) : error :=
  match start, end_ with
  | Some _, Some _ => snd (check_and_view_const end_ MEM_INT 1 MEM_CPU (snd (check_and_view_const start MEM_INT 1 MEM_CPU st)))
  | _, _ => st
  end.
(** sdp_gridder_dft, utils.cpp 1042-1100 and 133-214.  The type called that of the fluxes (line 1061) is that of the directions. *)
Definition dft_call (uvws start end_ flux lmn vis : option mem) (uvw_d : nd R) (start_d end_d : nd Z) (flux_d lmn_d : nd R) (vis_d : nd C)
    (su sv sw : Z) (theta w_step freq0 dfreq : R) (st : error) : option (error * nd C) :=
  if failed st then Some (st, vis_d) else
  if negb (location vis =? MEM_CPU) then Some (ERR_MEM_LOCATION, vis_d) else
  let flux_type := mtype lmn in let dir_type := mtype lmn in let uvw_type := mtype uvws in let vis_type := mtype vis in
  if ((dir_type =? MEM_DOUBLE) && (flux_type =? MEM_DOUBLE) && (uvw_type =? MEM_DOUBLE) && (vis_type =? MEM_COMPLEX_DOUBLE)) ||
     ((dir_type =? MEM_FLOAT) && (flux_type =? MEM_DOUBLE) && (uvw_type =? MEM_FLOAT) && (vis_type =? MEM_COMPLEX_FLOAT)) then
    let st := check_ranges start end_ st in
    let st := snd (check_and_view_const uvws uvw_type 2 MEM_CPU st) in
    let st := snd (check_and_view_const flux MEM_DOUBLE 1 MEM_CPU st) in
    let st := snd (check_and_view_const lmn dir_type 2 MEM_CPU st) in
    let st := snd (check_and_view vis vis_type 2 MEM_CPU st) in
    if failed st then Some (st, vis_d) else
    let* r := gridder_dft uvw_d (ranges start end_ (start_d, end_d)) (to_real flux_d) lmn_d su sv sw theta w_step freq0 dfreq vis_d in Some (st, r)
  else Some (ERR_DATA_TYPE, vis_d).
(** sdp_gridder_idft, utils.cpp 1103-1156 and 223-316, for visibilities in CPU memory; for others see C97 *)
Definition idft_call (uvws vis start end_ lmn taper image : option mem) (uvw_d : nd R) (vis_d : nd C) (start_d end_d : nd Z) (lmn_d taper_d : nd R)
    (su sv sw : Z) (theta w_step freq0 dfreq : R) (image_d : nd C) (st : error) : option (error * nd C) :=
  if failed st then Some (st, image_d) else
  let img_type := mtype image in let dir_type := mtype lmn in let uvw_type := mtype uvws in let vis_type := mtype vis in
  if ((dir_type =? MEM_DOUBLE) && (img_type =? MEM_COMPLEX_DOUBLE) && (uvw_type =? MEM_DOUBLE) && (vis_type =? MEM_COMPLEX_DOUBLE)) ||
     ((dir_type =? MEM_FLOAT) && (img_type =? MEM_COMPLEX_FLOAT) && (uvw_type =? MEM_FLOAT) && (vis_type =? MEM_COMPLEX_FLOAT)) then
    let st := check_ranges start end_ st in
    let st := snd (check_and_view_const uvws uvw_type 2 MEM_CPU st) in
    let st := snd (check_and_view_const vis vis_type 2 MEM_CPU st) in
    let st := snd (check_and_view_const lmn dir_type 2 MEM_CPU st) in
    let st := snd (check_and_view image img_type 2 MEM_CPU st) in
    let st := snd (check_and_view_const taper MEM_DOUBLE 1 MEM_CPU st) in
    if failed st then Some (st, image_d) else
    let* r := gridder_idft uvw_d vis_d (ranges start end_ (start_d, end_d)) lmn_d (Some taper_d) su sv sw theta w_step freq0 dfreq image_d in Some (st, r)
  else Some (ERR_DATA_TYPE, image_d).

(** sdp_gridder_direct_degrid, direct.cpp 60-101: status and visibilities afterwards *)
Definition direct_degrid (p : plan) (image uvws start end_ vis : option mem) (image_d : nd C) (uvw_d : nd R) (start_d end_d : nd Z) (vis_d : nd C)
    (su sv sw : Z) (freq0 dfreq : R) (st : error) : option (error * nd C) :=
  if failed st then Some (st, vis_d) else
  let* c := count_pixels image image_d st in
  let (st, num_src) := c in
  let flux := scratch MEM_DOUBLE (location vis) [num_src] in
  let lmn := scratch (mtype uvws) (location vis) [num_src; 3] in
  let* r := make_flmn image (scratch MEM_DOUBLE MEM_CPU [p_subgrid_size p]) flux lmn (p_theta p) (p_shear_u p) (p_shear_v p) image_d (p_pswf p)
    (mk_nd [num_src] (fun _ => 0%R)) (mk_nd [num_src; 3] (fun _ => 0%R)) st in
  let '(st, flux_d, lmn_d) := r in
  dft_call uvws start end_ flux lmn vis uvw_d start_d end_d flux_d lmn_d vis_d su sv sw (p_theta p) (p_w_step p) freq0 dfreq st.
(** sdp_gridder_direct_grid, direct.cpp 127-165, for visibilities in CPU memory: status and image afterwards *)
Definition direct_grid (p : plan) (vis uvws start end_ image : option mem) (vis_d : nd C) (uvw_d : nd R) (start_d end_d : nd Z) (image_d : nd C)
    (su sv sw : Z) (freq0 dfreq : R) (st : error) : option (error * nd C) :=
  if failed st then Some (st, image_d) else
  let num_src := match image with Some m => m_num_elements m | None => 0 end in
  let lmn := scratch (mtype uvws) (location vis) [num_src; 3] in
  let taper := scratch MEM_DOUBLE MEM_CPU [p_subgrid_size p] in
  let* r := make_flmn image taper None lmn (p_theta p) (p_shear_u p) (p_shear_v p) image_d (p_pswf p) (mk_nd [] (fun _ => 0%R)) (mk_nd [num_src; 3] (fun _ => 0%R)) st in
  let '(st, _, lmn_d) := r in
  idft_call uvws vis start end_ lmn taper image uvw_d vis_d start_d end_d lmn_d (p_pswf p) su sv sw (p_theta p) (p_w_step p) freq0 dfreq image_d st.
(** sdp_gridder_direct_degrid_correct ([inverse] = false, direct.cpp 103-124) and sdp_gridder_direct_grid_correct ([inverse] = true, 168-189) on a facet that
    passes the checks of the functions called; [pswf]: the prolate spheroidal function over the image (sdp_gridder_grid_correct.cpp 145-153); there is no
    function of n, since the w_support passed is 0 (61-69); [complex]: sdp_mem_is_complex *)
Definition direct_correct (inverse : bool) (p : plan) (pswf : nd R) (complex : bool) (facet : nd C) (off_l off_m w_offset : Z) : option (nd C) :=
  let* facet := grid_corr_pswf (p_image_size p) (p_theta p) (p_shear_u p) (p_shear_v p) pswf (fun _ => 1%R) facet off_l off_m in
  if complex then grid_corr_w_stack (p_image_size p) (p_theta p) (p_w_step p) (p_shear_u p) (p_shear_v p) facet off_l off_m w_offset inverse else Some facet.
