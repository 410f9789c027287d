(** Model of utility/sdp_mem.cpp: array handles over byte-addressed blocks.
    Library compiled without CUDA (SDP_HAVE_CUDA undefined). *)
From Verif Require Import Base.

(** ** Enumerations: utility/sdp_mem.h lines 73-113.  C enums are integers, so
    unsupported values exist and are representable. *)
Definition MEM_VOID := 0.           Definition MEM_CHAR := 1.
Definition MEM_INT := 2.            Definition MEM_FLOAT := 4.
Definition MEM_DOUBLE := 8.         Definition MEM_COMPLEX := 32.
Definition MEM_COMPLEX_FLOAT := 36. Definition MEM_COMPLEX_DOUBLE := 40.
Definition MEM_CPU := 0.            Definition MEM_GPU := 1.

(** utility/sdp_mem.cpp 1157-1176 sdp_mem_type_size *)
Definition type_size (ty : Z) : Z :=
  if ty =? MEM_CHAR then 1
  else if ty =? MEM_INT then 4
  else if ty =? MEM_FLOAT then 4
  else if ty =? MEM_DOUBLE then 8
  else if ty =? MEM_COMPLEX_FLOAT then 8
  else if ty =? MEM_COMPLEX_DOUBLE then 16
  else 0.

(** ** The C heap: numbered blocks of bytes (model of calloc/free/memset/memcpy). *)
Record block := mk_block { b_size : Z; b_live : bool; b_byte : Z -> Z }.
Record heap := mk_heap { h_next : Z; h_blk : Z -> block }.
Definition ptr := (Z * Z)%type.     (* block number, byte offset *)

Definition set_blk (h : heap) (b : Z) (x : block) : heap :=
  mk_heap (h_next h) (fun k => if k =? b then x else h_blk h k).

(** calloc: a fresh zero-filled live block. *)
Definition h_calloc (h : heap) (n : Z) : heap * ptr :=
  (mk_heap (h_next h + 1)
     (fun k => if k =? h_next h then mk_block n true (fun _ => 0) else h_blk h k),
   (h_next h, 0)).

(** free: undefined behaviour on a block that is not live (double free) or on an
    interior pointer. *)
Definition h_free (h : heap) (p : ptr) : option heap :=
  let (b, o) := p in
  let x := h_blk h b in
  if b_live x && (o =? 0) then Some (set_blk h b (mk_block (b_size x) false (b_byte x)))
  else None.

(** [n] bytes at [p] are accessible. *)
Definition h_ok (h : heap) (p : ptr) (n : Z) : bool :=
  b_live (h_blk h (fst p)) && (0 <=? snd p) && (snd p + n <=? b_size (h_blk h (fst p))).

Definition byte (h : heap) (b o : Z) : Z := b_byte (h_blk h b) o.

(** Replace bytes [o, o+n) of a block by f(0) .. f(n-1). *)
Definition h_store (h : heap) (p : ptr) (n : Z) (f : Z -> Z) : option heap :=
  if h_ok h p n then
    let x := h_blk h (fst p) in
    Some (set_blk h (fst p)
            (mk_block (b_size x) (b_live x)
               (fun o => if (snd p <=? o) && (o <? snd p + n) then f (o - snd p) else b_byte x o)))
  else None.

Definition memset (h : heap) (p : ptr) (v n : Z) : option heap := h_store h p n (fun _ => v).

(** memcpy: undefined on inaccessible or overlapping ranges. *)
Definition memcpy (h : heap) (dst src : ptr) (n : Z) : option heap :=
  if h_ok h src n &&
     negb ((fst dst =? fst src) && (snd dst <? snd src + n) && (snd src <? snd dst + n))
  then h_store h dst n (fun i => byte h (fst src) (snd src + i))
  else None.

(** ** The handle: struct sdp_Mem, utility/sdp_mem.cpp 20-33. *)
Record mem := mk_mem {
  m_type : Z; m_loc : Z; m_contig : bool; m_owner : bool; m_ro : bool;
  m_num_dims : Z; m_num_elements : Z; m_ref : Z;
  m_shape : list Z; m_stride : list Z; m_data : option ptr }.

Definition product (l : list Z) : Z := fold_right Z.mul 1 l.
Arguments product : simpl never.
Arguments type_size : simpl never.

(** Strides computed by the loop at 211-216 when none are given: innermost first,
    stride[i] = (product of the sizes after i) * element_size. *)
Fixpoint c_strides (esize : Z) (sh : list Z) : list Z :=
  match sh with
  | [] => []
  | _ :: sh' => product sh' * esize :: c_strides esize sh'
  end.

(** The contiguity test at 219-228: every stride equals the running product. *)
Fixpoint strides_eqb (a b : list Z) : bool :=
  match a, b with
  | [], [] => true
  | x :: a', y :: b' => (x =? y) && strides_eqb a' b'
  | _, _ => false
  end.

(** utility/sdp_mem.cpp 180-231 sdp_mem_create_wrapper.  [num_dims] is the length of
    the shape list; a stride list of another length would be an out-of-bounds read
    in C, so callers pass lists of equal length.  The status is overwritten (not
    tested) when the type is unsupported, line 202. *)
Definition create_wrapper (data : option ptr) (ty loc : Z) (sh : list Z)
    (stride : option (list Z)) (st : error) : mem * error :=
  let m0 := mk_mem ty loc false false false (Z.of_nat (length sh)) 0 1 [] [] data in
  if ty =? MEM_VOID then (m0, st)
  else if type_size ty <=? 0 then (m0, ERR_DATA_TYPE)
  else
    match sh with
    | [] => (mk_mem ty loc false false false 0 1 1 [] [] data, st)
    | _ =>
      let std := c_strides (type_size ty) sh in
      let s := match stride with Some s => s | None => std end in
      (mk_mem ty loc (strides_eqb s std) false false (Z.of_nat (length sh))
              (product sh) 1 sh s data, st)
    end.

(** utility/sdp_mem.cpp 40-88 sdp_mem_alloc (no CUDA).  [oom] says whether calloc fails. *)
Definition mem_alloc (oom : bool) (h : heap) (m : mem) (st : error) : heap * mem * error :=
  let m1 := mk_mem (m_type m) (m_loc m) (m_contig m) true (m_ro m) (m_num_dims m)
                   (m_num_elements m) (m_ref m) (m_shape m) (m_stride m) (m_data m) in
  let bytes := m_num_elements m * type_size (m_type m) in
  if failed st || (bytes =? 0) then (h, m1, st)
  else if m_loc m =? MEM_CPU then
    if oom then (h, m1, ERR_MEM_ALLOC_FAILURE)
    else
      let (h', p) := h_calloc h bytes in
      (h', mk_mem (m_type m) (m_loc m) (m_contig m) true (m_ro m) (m_num_dims m)
                  (m_num_elements m) (m_ref m) (m_shape m) (m_stride m) (Some p), st)
  else (h, m1, ERR_MEM_LOCATION).

(** utility/sdp_mem.cpp 164-177 sdp_mem_create *)
Definition mem_create (oom : bool) (h : heap) (ty loc : Z) (sh : list Z) (st : error)
  : heap * mem * error :=
  let (m, st') := create_wrapper None ty loc sh None st in
  mem_alloc oom h m st'.

(** Sum of products, used for byte offsets of slices and views. *)
Fixpoint dot (a b : list Z) : Z :=
  match a, b with
  | x :: a', y :: b' => x * y + dot a' b'
  | _, _ => 0
  end.

Fixpoint all2 (f : Z -> Z -> bool) (a b : list Z) : bool :=
  match a, b with
  | x :: a', y :: b' => f x y && all2 f a' b'
  | _, _ => true
  end.

(** utility/sdp_mem.cpp 234-297 sdp_mem_create_wrapper_for_slice.  [offs] has one entry
    per source dimension.  None = null handle. *)
Definition create_slice (src : mem) (offs ssh : list Z) (st : error)
  : option mem * error :=
  let nd_s := Z.of_nat (length ssh) in
  let skip := Z.to_nat (m_num_dims src - nd_s) in
  if nd_s >? m_num_dims src then (None, ERR_INVALID_ARGUMENT)
  else if negb (all2 (fun o s => (0 <=? o) && (o <? s)) offs (m_shape src))
  then (None, ERR_INVALID_ARGUMENT)
  else if negb (all2 (fun a s => a <=? s) ssh (skipn skip (m_shape src)))
  then (None, ERR_INVALID_ARGUMENT)
  else
    let off := dot offs (m_stride src) in
    let data := match m_data src with
                | Some (b, o) => Some (b, o + off)
                | None => None  (* null + offset: simplified to null *)
                end in
    let (m, st') := create_wrapper data (m_type src) (m_loc src) ssh
                      (Some (skipn skip (m_stride src))) st in
    (Some m, st').

(** utility/sdp_mem.cpp 300-307 sdp_mem_create_alias *)
Definition create_alias (src : mem) : mem :=
  fst (create_wrapper (m_data src) (m_type src) (m_loc src) (m_shape src)
         (Some (m_stride src)) SUCCESS).

(** utility/sdp_mem.cpp 444-499 sdp_mem_copy_contents (no CUDA) *)
Definition copy_contents (h : heap) (dst src : mem) (off_dst off_src n : Z) (st : error)
  : option (heap * error) :=
  match m_data dst, m_data src with
  | Some (bd, od), Some (bs, os) =>
    if failed st then Some (h, st)
    else if (m_num_elements src =? 0) || (n =? 0) then Some (h, st)
    else
      let es := type_size (m_type src) in
      if (m_loc src =? MEM_CPU) && (m_loc dst =? MEM_CPU) then
        let* h' := memcpy h (bd, od + es * off_dst) (bs, os + es * off_src) (es * n) in
        Some (h', st)
      else Some (h, ERR_MEM_LOCATION)
  | _, _ => Some (h, st)
  end.

(** utility/sdp_mem.cpp 310-322 sdp_mem_create_copy *)
Definition create_copy (oom : bool) (h : heap) (src : mem) (loc : Z) (st : error)
  : option (heap * mem * error) :=
  let (m, st1) := create_wrapper None (m_type src) loc (m_shape src)
                    (Some (m_stride src)) st in
  let '(h1, m1, st2) := mem_alloc oom h m st1 in
  let* (h2, st3) := copy_contents h1 m1 src 0 0 (m_num_elements src) st2 in
  Some (h2, m1, st3).

(** utility/sdp_mem.cpp 332-362 sdp_mem_clear_portion (no CUDA; [mem] not null).  A null
    data pointer with a non-zero count is undefined behaviour. *)
Definition clear_portion (h : heap) (m : mem) (start n : Z) (st : error)
  : option (heap * error) :=
  if failed st || (n =? 0) then Some (h, st)
  else if m_loc m =? MEM_CPU then
    match m_data m with
    | Some (b, o) =>
      let es := type_size (m_type m) in
      let* h' := memset h (b, o + start * es) 0 (n * es) in
      Some (h', st)
    | None => None
    end
  else Some (h, ERR_MEM_LOCATION).

(** utility/sdp_mem.cpp 325-329 sdp_mem_clear_contents *)
Definition clear_contents (h : heap) (m : mem) (st : error) : option (heap * error) :=
  if failed st || (m_num_elements m =? 0) then Some (h, st)
  else clear_portion h m 0 (m_num_elements m) st.

(** utility/sdp_mem.cpp 747-752 sdp_mem_ref_inc *)
Definition ref_inc (m : mem) : mem :=
  mk_mem (m_type m) (m_loc m) (m_contig m) (m_owner m) (m_ro m) (m_num_dims m)
         (m_num_elements m) (m_ref m + 1) (m_shape m) (m_stride m) (m_data m).

(** utility/sdp_mem.cpp 607-627 sdp_mem_free: the handle survives (Some) while the
    count is positive, and is deallocated (None) otherwise. *)
Definition mem_free (h : heap) (m : mem) : option (heap * option mem) :=
  let m' := mk_mem (m_type m) (m_loc m) (m_contig m) (m_owner m) (m_ro m) (m_num_dims m)
              (m_num_elements m) (m_ref m - 1) (m_shape m) (m_stride m) (m_data m) in
  if m_ref m' >? 0 then Some (h, Some m')
  else
    match m_data m with
    | Some p => if m_owner m && (m_loc m =? MEM_CPU)
                then let* h' := h_free h p in Some (h', None)
                else Some (h, None)
    | None => Some (h, None)
    end.

(** A client holding one handle: any history of increments and frees.  Using the
    handle after it was deallocated is undefined behaviour. *)
Inductive ref_op := Inc | Free.
Definition ref_step (s : heap * option mem) (o : ref_op) : option (heap * option mem) :=
  match s with
  | (h, Some m) => match o with
                   | Inc => Some (h, Some (ref_inc m))
                   | Free => mem_free h m
                   end
  | (_, None) => None
  end.
Fixpoint ref_run (s : heap * option mem) (ops : list ref_op) : option (heap * option mem) :=
  match ops with
  | [] => Some s
  | o :: ops' => let* s' := ref_step s o in ref_run s' ops'
  end.

(** utility/sdp_mem.cpp 825-829 sdp_mem_set_read_only *)
Definition set_read_only (m : mem) (v : bool) : mem :=
  mk_mem (m_type m) (m_loc m) (m_contig m) (m_owner m) v (m_num_dims m)
         (m_num_elements m) (m_ref m) (m_shape m) (m_stride m) (m_data m).

(** ** Queries (null handles are [None]) *)
Definition has_data (m : option mem) : bool :=
  match m with Some m => match m_data m with Some _ => true | None => false end
             | None => false end.
(** 630-633 *)
Definition is_c_contiguous (m : option mem) : bool :=
  match m with Some m' => has_data m && m_contig m' | None => false end.
(** 636-640 *)
Definition is_floating_point (m : option mem) : bool :=
  match m with
  | Some m' => has_data m && ((m_type m' =? MEM_FLOAT) || (m_type m' =? MEM_DOUBLE))
  | None => false end.
(** 643-647 *)
Definition is_complex (m : option mem) : bool :=
  match m with
  | Some m' => has_data m && (Z.land (m_type m') MEM_COMPLEX =? MEM_COMPLEX)
  | None => false end.
(** 659-663 *)
Definition is_double (m : option mem) : bool :=
  match m with
  | Some m' => has_data m && (Z.land (m_type m') MEM_DOUBLE =? MEM_DOUBLE)
  | None => false end.
(** 684-687 *)
Definition is_read_only (m : option mem) : bool :=
  match m with Some m' => negb (has_data m) || m_ro m' | None => true end.
(** 690-693 *)
Definition location (m : option mem) : Z := match m with Some m => m_loc m | None => MEM_CPU end.
(** 696-699 *)
Definition num_dims (m : option mem) : Z := match m with Some m => m_num_dims m | None => 0 end.
(** 702-705 *)
Definition num_elements (m : option mem) : Z :=
  match m with Some m' => if has_data m then m_num_elements m' else 0 | None => 0 end.
(** 1151-1154 *)
Definition mtype (m : option mem) : Z := match m with Some m => m_type m | None => MEM_VOID end.
(** 1132-1135 *)
Definition shape_dim (m : option mem) (d : Z) : Z :=
  match m with
  | Some m => if (d <? 0) || (d >=? m_num_dims m) then 0 else nth (Z.to_nat d) (m_shape m) 0
  | None => 0 end.
(** 1138-1141 *)
Definition stride_bytes_dim (m : option mem) (d : Z) : Z :=
  match m with
  | Some m => if (d <? 0) || (d >=? m_num_dims m) then 0 else nth (Z.to_nat d) (m_stride m) 0
  | None => 0 end.
(** 1144-1148 (dereferences the handle: not called with null) *)
Definition stride_elements_dim (m : mem) (d : Z) : Z :=
  if type_size (m_type m) >? 0
  then cdiv (stride_bytes_dim (Some m) d) (type_size (m_type m)) else 0.

(** 666-681 sdp_mem_is_matching *)
Definition is_matching (a b : mem) (check_location : bool) : bool :=
  if negb (m_type a =? m_type b) then false
  else if check_location && negb (m_loc a =? m_loc b) then false
  else if negb (m_num_dims a =? m_num_dims b) then false
  else all2 Z.eqb (m_shape a) (m_shape b) && all2 Z.eqb (m_stride a) (m_stride b).

(** ** Element addresses: utility/sdp_mem_view.h, strides in elements *)
Definition elem_offset (m : mem) (idx : list Z) : Z :=
  type_size (m_type m) *
  dot (map (fun s => cdiv s (type_size (m_type m))) (m_stride m)) idx.

(** Byte address of element [idx] as seen through a view of [m]. *)
Definition elem_ptr (m : mem) (idx : list Z) : option ptr :=
  match m_data m with
  | Some (b, o) => Some (b, o + elem_offset m idx)
  | None => None
  end.

(** 826-1129 sdp_mem_set_value, CPU branch, for a not-null handle.  [enc ty v] is the byte
    image of (T) v (its length is the element size).  The element type always equals the
    type switched on and the rank the rank switched on, so the view check can only fail on
    writeability, making the view empty. *)
Section SetValue.
Variable enc : Z -> Z -> list Z.

Definition store_elem (h : heap) (m : mem) (idx : list Z) (v : Z) : option heap :=
  match elem_ptr m idx with
  | Some p => h_store h p (type_size (m_type m)) (fun i => nth (Z.to_nat i) (enc (m_type m) v) 0)
  | None => None
  end.

Definition set_value (h : heap) (m : mem) (v : Z) (st : error) : option (heap * error) :=
  if failed st then Some (h, st)
  else if negb (m_loc m =? MEM_CPU) then
    (* GPU kernel launch without CUDA: reported as an error *) Some (h, ERR_RUNTIME)
  else
    let ty := m_type m in
    let supported := (ty =? MEM_COMPLEX_DOUBLE) || (ty =? MEM_COMPLEX_FLOAT)
                     || (ty =? MEM_DOUBLE) || (ty =? MEM_FLOAT) || (ty =? MEM_INT) in
    let st' := if is_read_only (Some m) then ERR_INVALID_ARGUMENT else SUCCESS in
    let sh k := if failed st' then 0 else shape_dim (Some m) k in
    let res (o : option heap) := let* h' := o in Some (h', st') in
    if m_num_dims m =? 1 then
      if negb supported then Some (h, ERR_DATA_TYPE) else
      res (for_ 0 (sh 0) (fun i h => store_elem h m [i] v) h)
    else if m_num_dims m =? 2 then
      if negb supported then Some (h, ERR_DATA_TYPE) else
      res (for_ 0 (sh 0) (fun i => for_ 0 (sh 1) (fun j h => store_elem h m [i; j] v)) h)
    else if m_num_dims m =? 3 then
      if negb supported then Some (h, ERR_DATA_TYPE) else
      res (for_ 0 (sh 0) (fun i => for_ 0 (sh 1) (fun j =>
             for_ 0 (sh 2) (fun k h => store_elem h m [i; j; k] v))) h)
    else Some (h, ERR_INVALID_ARGUMENT).
End SetValue.
