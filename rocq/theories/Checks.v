(** Model of the argument checks of utility/sdp_mem.cpp 1217-1453, the checked views of
    utility/sdp_mem_view.h 339-421 and utility/sdp_data_model_checks.c.
    Log messages are not modelled.  Handles are nullable. *)
From Verif Require Import Base Mem.

(** sdp_mem.cpp 1217-1233 *)
Definition check_writeable (m : option mem) (st : error) : error :=
  if failed st then st else if is_read_only m then ERR_INVALID_ARGUMENT else st.
(** sdp_mem.cpp 1236-1252 *)
Definition check_c_contiguity (m : option mem) (st : error) : error :=
  if failed st then st else if negb (is_c_contiguous m) then ERR_INVALID_ARGUMENT else st.
(** sdp_mem.cpp 1255-1275 *)
Definition check_location (m : option mem) (loc : Z) (st : error) : error :=
  if failed st then st else if negb (location m =? loc) then ERR_MEM_LOCATION else st.
(** sdp_mem.cpp 1278-1298 *)
Definition check_num_dims (m : option mem) (n : Z) (st : error) : error :=
  if failed st then st else if negb (num_dims m =? n) then ERR_INVALID_ARGUMENT else st.
(** sdp_mem.cpp 1301-1320 *)
Definition check_dim_size (m : option mem) (d n : Z) (st : error) : error :=
  if failed st then st else if negb (shape_dim m d =? n) then ERR_INVALID_ARGUMENT else st.
(** sdp_mem.cpp 1356-1387 *)
Definition check_shape_dim (m : option mem) (d n : Z) (st : error) : error :=
  if failed st then st
  else if num_dims m <=? d then ERR_INVALID_ARGUMENT
  else if negb (shape_dim m d =? n) then ERR_INVALID_ARGUMENT else st.
(** sdp_mem.cpp 1323-1353 *)
Fixpoint check_shape_from (m : option mem) (d : Z) (sh : list Z) (st : error) : error :=
  match sh with
  | [] => st
  | n :: sh' => check_shape_from m (d + 1) sh' (check_shape_dim m d n st)
  end.
Definition check_shape (m : option mem) (sh : list Z) (st : error) : error :=
  if failed st then st
  else if negb (num_dims m =? Z.of_nat (length sh)) then ERR_INVALID_ARGUMENT
  else check_shape_from m 0 sh st.
(** sdp_mem.cpp 1390-1430: the status on entry is not tested. *)
Definition check_same_shape (m : option mem) (d : Z) (m2 : option mem) (d2 : Z) (st : error) : error :=
  if (d <? num_dims m) && (d2 <? num_dims m2) && negb (shape_dim m d =? shape_dim m2 d2)
  then ERR_INVALID_ARGUMENT else st.
(** sdp_mem.cpp 1433-1453 *)
Definition check_type (m : option mem) (ty : Z) (st : error) : error :=
  if failed st then st else if negb (mtype m =? ty) then ERR_DATA_TYPE else st.

(** ** Views: sdp_mem_view.h *)
Record view := mk_view { v_ptr : option ptr; v_shape : list Z; v_stride : list Z }.

Definition data_of (m : option mem) : option ptr :=
  match m with Some m => m_data m | None => None end.
Definition stride_elems (m : option mem) (d : Z) : Z :=
  match m with Some m => stride_elements_dim m d | None => 0 end.
Fixpoint iota (k : nat) (d : Z) : list Z :=
  match k with O => [] | S k' => d :: iota k' (d + 1) end.

Definition make_view (m : option mem) (rank : nat) (st : error) : view :=
  mk_view (data_of m)
    (map (fun d => if failed st then 0 else shape_dim m d) (iota rank 0))
    (map (fun d => if failed st then 0 else stride_elems m d) (iota rank 0)).

(** sdp_mem_view.h 339-369; [ty] = sdp_mem_lift_type<num_t>(). *)
Definition check_and_view (m : option mem) (ty : Z) (rank : nat) (loc : Z) (st : error)
  : view * error :=
  let st := check_type m ty st in
  let st := check_num_dims m (Z.of_nat rank) st in
  let st := check_location m loc st in
  let st := check_writeable m st in
  (make_view m rank st, st).

(** sdp_mem_view.h 393-421: const views do not need writeability. *)
Definition check_and_view_const (m : option mem) (ty : Z) (rank : nat) (loc : Z) (st : error)
  : view * error :=
  let st := check_type m ty st in
  let st := check_num_dims m (Z.of_nat rank) st in
  let st := check_location m loc st in
  (make_view m rank st, st).

(** sdp_mem_view.h 95-205, operator(): ptr[stride . idx], element size [es]. *)
Definition view_ptr (es : Z) (v : view) (idx : list Z) : option ptr :=
  match v_ptr v with
  | Some (b, o) => Some (b, o + es * dot (v_stride v) idx)
  | None => None
  end.

(** ** Data model checks: sdp_data_model_checks.c *)
(** lines 7-43 *)
Definition check_uvw (m : option mem) (ty loc nt nb : Z) (st : error) : error :=
  if failed st then st else
  let st := if negb (is_floating_point m) || is_complex m then ERR_DATA_TYPE else st in
  let st := check_shape m [nt; nb; 3] st in
  let st := check_location m loc st in
  let st := if negb (ty =? MEM_VOID) then check_type m ty st else st in
  check_c_contiguity m st.

(** lines 74-116 *)
Definition check_vis (m : option mem) (ty loc nt nb nc np : Z) (st : error) : error :=
  if failed st then st else
  if negb (is_complex m) then ERR_DATA_TYPE else
  let st := check_shape m [nt; nb; nc; np] st in
  let st := check_location m loc st in
  let st := if negb (ty =? MEM_VOID) then check_type m ty st else st in
  check_c_contiguity m st.

(** lines 160-202 *)
Definition check_weights (m : option mem) (ty loc nt nb nc np : Z) (st : error) : error :=
  if failed st then st else
  if is_complex m then ERR_DATA_TYPE else
  let st := check_shape m [nt; nb; nc; np] st in
  let st := check_location m loc st in
  let st := if negb (ty =? MEM_VOID) then check_type m ty st else st in
  check_c_contiguity m st.

(** lines 46-71: None = outputs not assigned; all output pointers given. *)
Definition get_uvw_metadata (m : option mem) (st : error) : option (Z * Z * Z * Z) * error :=
  if failed st then (None, st) else
  let st := if negb (is_floating_point m) || is_complex m then ERR_DATA_TYPE else st in
  let st := check_num_dims m 3 st in
  let st := check_dim_size m 2 3 st in
  (Some (mtype m, location m, shape_dim m 0, shape_dim m 1), st).

(** lines 119-157 *)
Definition get_vis_metadata (m : option mem) (st : error)
  : option (Z * Z * Z * Z * Z * Z) * error :=
  if failed st then (None, st) else
  if negb (is_complex m) then (None, ERR_DATA_TYPE) else
  let st := check_num_dims m 4 st in
  let np := shape_dim m 3 in
  let st := if negb (failed st) && negb (np =? 4) && negb (np =? 1)
            then ERR_INVALID_ARGUMENT else st in
  (Some (mtype m, location m, shape_dim m 0, shape_dim m 1, shape_dim m 2, np), st).

(** lines 205-235 *)
Definition get_weights_metadata (m : option mem) (st : error)
  : option (Z * Z * Z * Z * Z * Z) * error :=
  if failed st then (None, st) else
  if negb (num_dims m =? 4) then (None, ERR_RUNTIME) else
  if is_complex m then (None, ERR_DATA_TYPE) else
  (Some (mtype m, location m, shape_dim m 0, shape_dim m 1, shape_dim m 2, shape_dim m 3), st).

(** ** A call to any one of the checks, for chains of checks. *)
Inductive check :=
| CWriteable (m : option mem) | CContiguity (m : option mem)
| CLocation (m : option mem) (loc : Z) | CNumDims (m : option mem) (n : Z)
| CDimSize (m : option mem) (d n : Z) | CShape (m : option mem) (sh : list Z)
| CShapeDim (m : option mem) (d n : Z) | CType (m : option mem) (ty : Z)
| CSameShape (m : option mem) (d : Z) (m2 : option mem) (d2 : Z)
| CUvw (m : option mem) (ty loc nt nb : Z)
| CVis (m : option mem) (ty loc nt nb nc np : Z)
| CWeights (m : option mem) (ty loc nt nb nc np : Z)
| CGetUvw (m : option mem) | CGetVis (m : option mem) | CGetWeights (m : option mem)
| CView (m : option mem) (ty : Z) (rank : nat) (loc : Z)
| CViewConst (m : option mem) (ty : Z) (rank : nat) (loc : Z).

Definition run_check (c : check) (st : error) : error :=
  match c with
  | CWriteable m => check_writeable m st | CContiguity m => check_c_contiguity m st
  | CLocation m l => check_location m l st | CNumDims m n => check_num_dims m n st
  | CDimSize m d n => check_dim_size m d n st | CShape m sh => check_shape m sh st
  | CShapeDim m d n => check_shape_dim m d n st | CType m ty => check_type m ty st
  | CSameShape m d m2 d2 => check_same_shape m d m2 d2 st
  | CUvw m ty l nt nb => check_uvw m ty l nt nb st
  | CVis m ty l nt nb nc np => check_vis m ty l nt nb nc np st
  | CWeights m ty l nt nb nc np => check_weights m ty l nt nb nc np st
  | CGetUvw m => snd (get_uvw_metadata m st) | CGetVis m => snd (get_vis_metadata m st)
  | CGetWeights m => snd (get_weights_metadata m st)
  | CView m ty r l => snd (check_and_view m ty r l st)
  | CViewConst m ty r l => snd (check_and_view_const m ty r l st)
  end.
