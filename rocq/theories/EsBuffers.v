(** Model of the argument checks of grid_data/sdp_gridder_uvw_es_fft.cpp and of the memory handling of the creation of a plan (no CUDA). *)
From Coq Require Import Reals QArith.
From Verif Require Import Base Mem Clamp EsParams EsPlan.
Open Scope Z_scope.

(** sdp_gridder_check_buffers, 72-243.  The status on entry is not tested. *)
Definition check_buffers (uvw freq_hz vis weight dirty_image : option mem) (do_degridding : bool) (st : error) : error :=
  let loc := location uvw in
  if negb (loc =? location freq_hz) || negb (loc =? location vis) || negb (loc =? location weight) || negb (loc =? location dirty_image) then ERR_MEM_LOCATION
  else if is_complex uvw then ERR_DATA_TYPE
  else if is_complex freq_hz then ERR_DATA_TYPE
  else if negb (is_complex vis) then ERR_DATA_TYPE
  else if is_complex weight then ERR_DATA_TYPE
  else if is_complex dirty_image then ERR_DATA_TYPE
  else
  let num_vis := shape_dim vis 0 in
  let num_channels := shape_dim vis 1 in
  if negb (shape_dim uvw 0 =? num_vis) then ERR_INVALID_ARGUMENT
  else if negb (shape_dim uvw 1 =? 3) then ERR_INVALID_ARGUMENT
  else if negb (shape_dim freq_hz 0 =? num_channels) then ERR_INVALID_ARGUMENT
  else if negb (shape_dim weight 0 =? num_vis) || negb (shape_dim weight 1 =? num_channels) then ERR_INVALID_ARGUMENT
  else if negb (shape_dim dirty_image 0 =? shape_dim dirty_image 1) then ERR_INVALID_ARGUMENT
  else if (if mtype uvw =? MEM_DOUBLE
           then negb (mtype freq_hz =? MEM_DOUBLE) || negb (mtype vis =? MEM_COMPLEX_DOUBLE) || negb (mtype weight =? MEM_DOUBLE) || negb (mtype dirty_image =? MEM_DOUBLE)
           else negb (mtype freq_hz =? MEM_FLOAT) || negb (mtype vis =? MEM_COMPLEX_FLOAT) || negb (mtype weight =? MEM_FLOAT) || negb (mtype dirty_image =? MEM_FLOAT)) then ERR_DATA_TYPE
  else if negb (is_c_contiguous uvw) || negb (is_c_contiguous freq_hz) || negb (is_c_contiguous vis) || negb (is_c_contiguous weight) || negb (is_c_contiguous dirty_image) then ERR_INVALID_ARGUMENT
  else if do_degridding then (if is_read_only vis then ERR_INVALID_ARGUMENT else st)
  else (if is_read_only dirty_image then ERR_INVALID_ARGUMENT else st).

(** sdp_gridder_check_parameters, 246-262, and sdp_gridder_check_plan, 265-273.  (NaN is not modelled.) *)
Definition check_parameters (pixsize_x_rad pixsize_y_rad : R) (st : error) : error :=
  if Req_EM_T pixsize_x_rad pixsize_y_rad then st else ERR_INVALID_ARGUMENT.

(** *** The memory of a plan, 302-304 and 386-517.  The plan itself takes [plan_size] bytes; its numbers are in EsPlan.v.  [oom k] says whether the allocation of
    the k-th of the four arrays created with sdp_mem_create fails; failures of calloc for the plan and the four temporary tables are not modelled.
    [vals k] are the bytes that are stored in table [k]. *)
Section Memory.
Context (oom : Z -> bool) (plan_size : Z) (vals : Z -> Z -> Z).

(** sdp_mem_data and a loop that writes [bytes] bytes through it *)
Definition fill (h : heap) (m : mem) (bytes : Z) (f : Z -> Z) : option heap := match m_data m with Some p => h_store h p bytes f | None => None end.
(** sdp_gridder_uvw_es_fft_free_plan, 60-69 *)
Definition free_handles (h : heap) (l : list mem) : option heap := fold_left (fun h m => let* h := h in let* r := mem_free h m in Some (fst r)) l (Some h).

Definition plan_memory (dbl : bool) (vis_type image grid : Z) (h : heap) (st : error) : option (heap * error * list mem * ptr) :=
  let (h, plan) := h_calloc h plan_size in
  let len := image / 2 + 1 in
  let (h, qk) := h_calloc h (32 * 8) in
  let (h, qn) := h_calloc h (32 * 8) in
  let (h, qw) := h_calloc h (32 * 8) in
  let (h, conv) := h_calloc h (len * 8) in
  let* h := h_store h qn (32 * 8) (vals 1) in
  let* h := h_store h qw (32 * 8) (vals 2) in
  let* h := h_store h qk (32 * 8) (vals 0) in
  let* h := h_store h conv (len * 8) (vals 3) in
  let ty := if dbl then MEM_DOUBLE else MEM_FLOAT in
  let '(h, mk, st) := mem_create (oom 0) h ty MEM_CPU [32] st in
  let '(h, mn, st) := mem_create (oom 1) h ty MEM_CPU [32] st in
  let '(h, mw, st) := mem_create (oom 2) h ty MEM_CPU [32] st in
  let '(h, mc, st) := mem_create (oom 3) h ty MEM_CPU [len] st in
  let size := type_size ty in
  let* h := fill h mk (32 * size) (vals 4) in
  let* h := fill h mn (32 * size) (vals 5) in
  let* h := fill h mw (32 * size) (vals 6) in
  let* h := fill h mc (len * size) (vals 7) in
  let* h := h_free h qk in
  let* h := h_free h qn in
  let* h := h_free h qw in
  let* h := h_free h conv in
  let* (x, st) := create_copy false h mk MEM_GPU st in let '(h, gk) := x in
  let* (x, st) := create_copy false h mn MEM_GPU st in let '(h, gn) := x in
  let* (x, st) := create_copy false h mw MEM_GPU st in let '(h, gw) := x in
  let* (x, st) := create_copy false h mc MEM_GPU st in let '(h, gc) := x in
  let* h := free_handles h [mk; mn; mw; mc] in
  let '(h, gs, st) := mem_create false h vis_type MEM_GPU [grid; grid] st in
  Some (h, st, [gs; gk; gn; gw; gc], plan).
End Memory.

(** sdp_gridder_uvw_es_fft_create_plan, 276-529: memory, status, and the arrays of the plan if it was created *)
Definition create_plan (oom : Z -> bool) (plan_size : Z) (vals : Z -> Z -> Z) (uvw freq_hz vis weight dirty_image : option mem) (pixsize_x_rad pixsize_y_rad : R) (epsilon : Q)
    (h : heap) (st : error) : option (heap * error * option (list mem)) :=
  if failed st then Some (h, st, None) else
  let st := check_parameters pixsize_x_rad pixsize_y_rad st in
  if failed st then Some (h, st, None) else
  let st := check_buffers uvw freq_hz vis weight dirty_image false st in
  if failed st then Some (h, st, None) else
  let vis_type := mtype vis in
  let dbl := negb (Z.land vis_type MEM_DOUBLE =? 0) in
  let* image := to_int (shape_dim dirty_image 0) in
  let* a := calculate_params epsilon image dbl st in
  let* b := snd a in
  let '(grid, _, _) := b in
  let* r := plan_memory oom plan_size vals dbl vis_type image grid h st in
  let '(h, st, ms, plan) := r in
  let give_up (st : error) := let* h := free_handles h ms in let* h := h_free h plan in Some (h, st, None) in
  if failed st then give_up st else
  let st := check_buffers uvw freq_hz vis weight dirty_image false st in
  if failed st then give_up st else Some (h, st, Some ms).

(** The beginning of sdp_grid_uvw_es_fft (532-552) and of sdp_ifft_degrid_uvw_es (745-765): None when nothing is done, else the status *)
Definition exec_checks (have_plan : bool) (px py : R) (uvw freq_hz vis weight dirty_image : option mem) (do_degridding : bool) (st : error) : error :=
  if failed st || negb have_plan then st else
  let st := check_parameters px py st in
  if failed st then st else check_buffers uvw freq_hz vis weight dirty_image do_degridding st.
