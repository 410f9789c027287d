(** Property theorems C01-C14: memory handles, checks and views. *)
From Verif Require Import Base Mem MemSpec MemFacts MemFacts2 Checks ChecksFacts MemFacts3.

(** ** C01: created arrays have distinct, in-bounds elements *)
Theorem C01_create_layout : forall h ty sh,
  0 < type_size ty -> sh <> [] -> Forall (fun s => 0 < s) sh ->
  exists h' m b,
    mem_create false h ty MEM_CPU sh SUCCESS = (h', m, SUCCESS) /\
    m_type m = ty /\ m_shape m = sh /\
    num_elements (Some m) = fold_right Z.mul 1 sh /\
    is_c_contiguous (Some m) = true /\ m_owner m = true /\
    is_read_only (Some m) = false /\ last (m_stride m) 0 = type_size ty /\
    b_live (h_blk h' b) = true /\
    (forall k, k <> h_next h -> h_blk h' k = h_blk h k) /\ b = h_next h /\
    (forall i, in_shape sh i = true ->
       exists o, elem_ptr m i = Some (b, o) /\ 0 <= o /\
                 o + type_size ty <= b_size (h_blk h' b) /\
                 forall k, 0 <= k < type_size ty -> byte h' b (o + k) = 0) /\
    (forall i j oi oj, in_shape sh i = true -> in_shape sh j = true -> i <> j ->
       elem_ptr m i = Some (b, oi) -> elem_ptr m j = Some (b, oj) ->
       oi + type_size ty <= oj \/ oj + type_size ty <= oi).
Proof. exact create_layout_lemma. Qed.
Print Assumptions C01_create_layout.
Example C01_hyps : 0 < type_size MEM_COMPLEX_DOUBLE /\ [3; 1; 5] <> ([] : list Z) /\
  Forall (fun s => 0 < s) [3; 1; 5] /\ in_shape [3; 1; 5] [2; 0; 4] = true.
Proof. repeat split; try discriminate; repeat constructor; lia. Qed.

(** An allocation failure, an unsupported location or a type of unknown size is reported. *)
Theorem C01_create_failures : forall h ty sh,
  0 < type_size ty -> sh <> [] -> Forall (fun s => 0 < s) sh ->
  snd (mem_create true h ty MEM_CPU sh SUCCESS) = ERR_MEM_ALLOC_FAILURE /\
  snd (mem_create false h ty MEM_GPU sh SUCCESS) = ERR_MEM_LOCATION.
Proof. exact create_failures_lemma. Qed.
Print Assumptions C01_create_failures.

(** ** C02: reference counting releases owned data exactly once.
    A second release of a block, or any use of a deallocated handle, is undefined
    behaviour (None) in the model, so success also says neither happens. *)
Theorem C02_refcount_release : forall h m b ops,
  m_data m = Some (b, 0) -> m_loc m = MEM_CPU ->
  b_live (h_blk h b) = true -> 0 < m_ref m ->
  (forall k, (k < length ops)%nat -> 0 < balance (m_ref m) (firstn k ops)) ->
  exists h' m', ref_run (h, Some m) ops = Some (h', m') /\
    (m' = None <-> balance (m_ref m) ops = 0) /\
    (b_live (h_blk h' b) = true <-> m_owner m = false \/ 0 < balance (m_ref m) ops) /\
    (forall k, k <> b -> h_blk h' k = h_blk h k).
Proof. exact ref_run_lemma. Qed.
Print Assumptions C02_refcount_release.
Example C02_hyps : exists h m b,
  m_data m = Some (b, 0) /\ m_loc m = MEM_CPU /\ b_live (h_blk h b) = true /\ m_ref m = 1 /\
  m_owner m = true /\
  let ops := [Inc; Free; Inc; Inc; Free; Free; Free] in
  (forall k, (k < length ops)%nat -> 0 < balance (m_ref m) (firstn k ops)) /\ balance 1 ops = 0.
Proof.
  destruct (mem_create false (mk_heap 0 (fun _ => mk_block 0 false (fun _ => 0))) MEM_INT MEM_CPU [2; 2] SUCCESS)
    as [[h m] e] eqn:E. exists h, m, 0. vm_compute in E. inversion E; subst. cbn.
  repeat split; auto. intros k Hk. do 7 (destruct k as [|k]; [cbn; lia|]). lia.
Qed.

(** ** C03: a slice addresses the elements it names *)
Theorem C03_slice_elements : forall src b o offs ssh,
  mem_wf src -> m_data src = Some (b, o) -> slice_fits offs ssh (m_shape src) ->
  exists m, create_slice src offs ssh SUCCESS = (Some m, SUCCESS) /\
    m_type m = m_type src /\ m_loc m = m_loc src /\ m_shape m = ssh /\ m_owner m = false /\
    forall idx, in_shape ssh idx = true ->
      let full := add_idx offs (repeat 0 (length (m_shape src) - length ssh) ++ idx) in
      in_shape (m_shape src) full = true /\ elem_ptr m idx = elem_ptr src full.
Proof. exact slice_spec_lemma. Qed.
Print Assumptions C03_slice_elements.
Example C03_hyps : exists src b o,
  mem_wf src /\ m_data src = Some (b, o) /\ slice_fits [2; 1; 3] [2; 4] (m_shape src).
Proof.
  exists (mk_mem MEM_FLOAT MEM_CPU true false false 3 84 1 [4; 3; 7] [84; 28; 4] (Some (5, 16))), 5, 16.
  split; [|split; [reflexivity|]].
  - repeat split; repeat constructor.
  - repeat split; cbn in *; try lia; destruct k as [|[|[|k]]]; cbn; lia.
Qed.

(** ** C04: a slice request that does not fit is not always rejected: the code accepts
    offset 3, size 2 in an array of 4 elements, and element 1 of that slice lies
    outside the allocated block. *)
Theorem C04_slice_overrun_refuted : exists h src offs ssh h0 m p,
  mem_create false h MEM_FLOAT MEM_CPU [4] SUCCESS = (h0, src, SUCCESS) /\
  create_slice src offs ssh SUCCESS = (Some m, SUCCESS) /\
  in_shape (m_shape m) [1] = true /\ elem_ptr m [1] = Some p /\
  h_ok h0 p (type_size (m_type m)) = false.
Proof. exact slice_overrun_lemma. Qed.
Print Assumptions C04_slice_overrun_refuted.

(** What is rejected: too many dimensions, an offset outside the source, a slice
    larger than the source dimension. Missing: offset + size > source size. *)
Theorem C04_slice_rejects_partial : forall src offs ssh st m st',
  mem_wf src -> length offs = length (m_shape src) ->
  create_slice src offs ssh st = (Some m, st') ->
  (length ssh <= length (m_shape src))%nat /\
  Forall2 (fun o s => 0 <= o < s) offs (m_shape src) /\
  Forall2 (fun a s => a <= s) ssh (skipn (length (m_shape src) - length ssh) (m_shape src)).
Proof. exact slice_rejects_lemma. Qed.
Print Assumptions C04_slice_rejects_partial.

(** ** C05: the read-only flag is lost through an alias *)
Theorem C05_alias_read_only_refuted : exists src,
  is_read_only (Some src) = true /\ m_data src <> None /\
  is_read_only (Some (create_alias src)) = false /\
  check_writeable (Some (create_alias src)) SUCCESS = SUCCESS.
Proof. exact alias_read_only_lemma. Qed.
Print Assumptions C05_alias_read_only_refuted.

(** What holds: an alias names the same elements, does not own the data, and freeing it
    never releases the source's block. *)
Theorem C05_alias_partial : forall src,
  mem_wf src ->
  let a := create_alias src in
  m_type a = m_type src /\ m_loc a = m_loc src /\ m_shape a = m_shape src /\ m_owner a = false /\
  (forall idx, in_shape (m_shape src) idx = true -> elem_ptr a idx = elem_ptr src idx) /\
  (forall h, mem_free h a = Some (h, None)).
Proof. exact alias_lemma. Qed.
Print Assumptions C05_alias_partial.

(** ** C06: a copy of a contiguous array is equal and independent *)
Theorem C06_copy_equal_independent : forall h src b o,
  0 < type_size (m_type src) -> m_shape src <> [] -> Forall (fun s => 0 < s) (m_shape src) ->
  m_stride src = c_strides (type_size (m_type src)) (m_shape src) ->
  m_num_elements src = fold_right Z.mul 1 (m_shape src) ->
  m_data src = Some (b, o) -> m_loc src = MEM_CPU -> b <> h_next h ->
  h_ok h (b, o) (m_num_elements src * type_size (m_type src)) = true ->
  exists h' m b', create_copy false h src MEM_CPU SUCCESS = Some (h', m, SUCCESS) /\
    m_owner m = true /\ m_type m = m_type src /\ m_shape m = m_shape src /\
    b' <> b /\ b_live (h_blk h' b') = true /\
    (forall k, k <> b' -> h_blk h' k = h_blk h k) /\
    (forall i, in_shape (m_shape src) i = true ->
       exists o1 o2, elem_ptr src i = Some (b, o1) /\ elem_ptr m i = Some (b', o2) /\
         h_ok h' (b', o2) (type_size (m_type src)) = true /\
         forall k, 0 <= k < type_size (m_type src) -> byte h' b' (o2 + k) = byte h b (o1 + k)) /\
    (forall p n f h'', h_store h' p n f = Some h'' ->
       (fst p = b -> h_blk h'' b' = h_blk h' b') /\ (fst p = b' -> h_blk h'' b = h_blk h' b)).
Proof. exact create_copy_lemma. Qed.
Print Assumptions C06_copy_equal_independent.
Example C06_hyps : exists h src b o,
  m_shape src = [2; 3] /\ m_stride src = c_strides (type_size (m_type src)) (m_shape src) /\
  m_num_elements src = 6 /\ m_data src = Some (b, o) /\ m_loc src = MEM_CPU /\ b <> h_next h /\
  h_ok h (b, o) (m_num_elements src * type_size (m_type src)) = true.
Proof.
  exists (mk_heap 7 (fun _ => mk_block 100 true (fun k => k))),
    (mk_mem MEM_DOUBLE MEM_CPU true false false 2 6 1 [2; 3] [24; 8] (Some (3, 16))), 3, 16.
  repeat split; cbn; try lia; reflexivity.
Qed.

(** ** C07: copying a strided wrapper yields an array whose elements lie outside its block *)
Theorem C07_strided_copy_refuted : exists h src h' m p,
  mem_wf src /\
  (forall i, in_shape (m_shape src) i = true ->
     exists q, elem_ptr src i = Some q /\ h_ok h q (type_size (m_type src)) = true) /\
  create_copy false h src MEM_CPU SUCCESS = Some (h', m, SUCCESS) /\
  in_shape (m_shape m) [1] = true /\ elem_ptr m [1] = Some p /\
  h_ok h' p (type_size (m_type m)) = false.
Proof. exact strided_copy_lemma. Qed.
Print Assumptions C07_strided_copy_refuted.

(** ** C08: range copy and range clear touch exactly the named range *)
Theorem C08_copy_contents : forall h dst src bd od bs os off_dst off_src n,
  m_data dst = Some (bd, od) -> m_data src = Some (bs, os) ->
  m_loc dst = MEM_CPU -> m_loc src = MEM_CPU -> m_num_elements src <> 0 -> 0 < n ->
  let es := type_size (m_type src) in
  h_ok h (bd, od + es * off_dst) (es * n) = true ->
  h_ok h (bs, os + es * off_src) (es * n) = true ->
  (bd <> bs \/ od + es * (off_dst + n) <= os + es * off_src
            \/ os + es * (off_src + n) <= od + es * off_dst) ->
  exists h', copy_contents h dst src off_dst off_src n SUCCESS = Some (h', SUCCESS) /\
    (forall k, 0 <= k < es * n ->
       byte h' bd (od + es * off_dst + k) = byte h bs (os + es * off_src + k)) /\
    (forall b o, b <> bd \/ o < od + es * off_dst \/ od + es * (off_dst + n) <= o ->
       byte h' b o = byte h b o) /\
    (forall b, b_live (h_blk h' b) = b_live (h_blk h b) /\ b_size (h_blk h' b) = b_size (h_blk h b)).
Proof. exact copy_contents_lemma. Qed.
Print Assumptions C08_copy_contents.

Theorem C08_clear_portion : forall h m b o start n,
  m_data m = Some (b, o) -> m_loc m = MEM_CPU -> 0 < n ->
  let es := type_size (m_type m) in
  h_ok h (b, o + start * es) (n * es) = true ->
  exists h', clear_portion h m start n SUCCESS = Some (h', SUCCESS) /\
    (forall k, o + start * es <= k < o + (start + n) * es -> byte h' b k = 0) /\
    (forall b' k, b' <> b \/ k < o + start * es \/ o + (start + n) * es <= k ->
       byte h' b' k = byte h b' k) /\
    (forall b', b_live (h_blk h' b') = b_live (h_blk h b') /\ b_size (h_blk h' b') = b_size (h_blk h b')).
Proof. exact clear_portion_lemma. Qed.
Print Assumptions C08_clear_portion.

Theorem C08_noop_after_error : forall h m m2 a b n st, st <> SUCCESS ->
  copy_contents h m m2 a b n st = Some (h, st) /\ clear_portion h m a n st = Some (h, st).
Proof. exact mem_noop_lemma. Qed.
Print Assumptions C08_noop_after_error.
Example C08_hyps : exists h dst src,
  m_data dst = Some (1, 0) /\ m_data src = Some (2, 8) /\ m_loc dst = MEM_CPU /\ m_loc src = MEM_CPU /\
  m_num_elements src <> 0 /\
  h_ok h (1, 0 + type_size (m_type src) * 2) (type_size (m_type src) * 3) = true /\
  h_ok h (2, 8 + type_size (m_type src) * 1) (type_size (m_type src) * 3) = true.
Proof.
  exists (mk_heap 7 (fun _ => mk_block 100 true (fun k => k))),
    (mk_mem MEM_DOUBLE MEM_CPU true false false 2 6 1 [2; 3] [24; 8] (Some (1, 0))),
    (mk_mem MEM_DOUBLE MEM_CPU true false false 1 4 1 [4] [8] (Some (2, 8))).
  repeat split; cbn; lia.
Qed.

(** ** C09: set_value reaches every element and only those ([enc] is the byte image of the value) *)
Theorem C09_set_value : forall (enc : Z -> Z -> list Z) h m v,
  supported_fill (m_type m) -> m_loc m = MEM_CPU -> is_read_only (Some m) = false ->
  (1 <= length (m_shape m) <= 3)%nat -> m_num_dims m = Z.of_nat (length (m_shape m)) ->
  Forall (fun s => 0 <= s) (m_shape m) ->
  (forall idx, in_shape (m_shape m) idx = true ->
     exists p, elem_ptr m idx = Some p /\ h_ok h p (type_size (m_type m)) = true) ->
  (forall i j p q, in_shape (m_shape m) i = true -> in_shape (m_shape m) j = true -> i <> j ->
     elem_ptr m i = Some p -> elem_ptr m j = Some q ->
     fst p <> fst q \/ snd p + type_size (m_type m) <= snd q \/ snd q + type_size (m_type m) <= snd p) ->
  exists h', set_value enc h m v SUCCESS = Some (h', SUCCESS) /\
    (forall idx p k, in_shape (m_shape m) idx = true -> elem_ptr m idx = Some p ->
       0 <= k < type_size (m_type m) ->
       byte h' (fst p) (snd p + k) = nth (Z.to_nat k) (enc (m_type m) v) 0) /\
    (forall b o, (forall idx, in_shape (m_shape m) idx = true -> ~ elem_byte m idx b o) ->
       byte h' b o = byte h b o).
Proof. exact set_value_spec_lemma. Qed.
Print Assumptions C09_set_value.

Theorem C09_set_value_error : forall (enc : Z -> Z -> list Z) h m v,
  m_loc m = MEM_CPU ->
  (~ supported_fill (m_type m) \/ ~ (1 <= m_num_dims m <= 3)) ->
  exists e, e <> SUCCESS /\ set_value enc h m v SUCCESS = Some (h, e).
Proof. exact set_value_error. Qed.
Print Assumptions C09_set_value_error.
(** A padded 2 x 3 wrapper of floats (row stride 20 bytes) meets the hypotheses of C09. *)
Example C09_hyps : exists h m,
  supported_fill (m_type m) /\ m_loc m = MEM_CPU /\ is_read_only (Some m) = false /\
  m_shape m = [2; 3] /\ m_num_dims m = 2 /\
  (forall idx, in_shape (m_shape m) idx = true ->
     exists p, elem_ptr m idx = Some p /\ h_ok h p (type_size (m_type m)) = true) /\
  (forall i j p q, in_shape (m_shape m) i = true -> in_shape (m_shape m) j = true -> i <> j ->
     elem_ptr m i = Some p -> elem_ptr m j = Some q ->
     fst p <> fst q \/ snd p + type_size (m_type m) <= snd q \/ snd q + type_size (m_type m) <= snd p).
Proof. exact set_value_example. Qed.

(** ** C10: error stickiness.  It fails for the same-shape check … *)
Theorem C10_sticky_refuted : exists c st, st <> SUCCESS /\ run_check c st <> st.
Proof. exact sticky_refuted_lemma. Qed.
Print Assumptions C10_sticky_refuted.

(** … and holds for every chain of the other checks: a chain reports its first error. *)
Theorem C10_sticky_partial : forall cs st,
  (forall m d m2 d2, ~ In (CSameShape m d m2 d2) cs) -> st <> SUCCESS ->
  fold_left (fun st c => run_check c st) cs st = st.
Proof. exact chain_sticky_spec. Qed.
Print Assumptions C10_sticky_partial.

Theorem C10_first_error_partial : forall cs,
  (forall m d m2 d2, ~ In (CSameShape m d m2 d2) cs) ->
  fold_left (fun st c => run_check c st) cs SUCCESS =
  match find (fun c => failed (run_check c SUCCESS)) cs with
  | Some c => run_check c SUCCESS
  | None => SUCCESS
  end.
Proof. exact chain_first_spec. Qed.
Print Assumptions C10_first_error_partial.

(** ** C11: the checks accept exactly the arrays they describe *)
Theorem C11_checks_exact : forall (m : mem) (d : nat) n loc ty sh,
  mem_wf m ->
  check_writeable (Some m) SUCCESS =
    (if is_read_only (Some m) then ERR_INVALID_ARGUMENT else SUCCESS) /\
  check_c_contiguity (Some m) SUCCESS =
    (if is_c_contiguous (Some m) then SUCCESS else ERR_INVALID_ARGUMENT) /\
  (m_loc m = loc -> check_location (Some m) loc SUCCESS = SUCCESS) /\
  (m_loc m <> loc -> check_location (Some m) loc SUCCESS = ERR_MEM_LOCATION) /\
  (Z.of_nat (length (m_shape m)) = n -> check_num_dims (Some m) n SUCCESS = SUCCESS) /\
  (Z.of_nat (length (m_shape m)) <> n -> check_num_dims (Some m) n SUCCESS = ERR_INVALID_ARGUMENT) /\
  (nth_error (m_shape m) d = Some n -> check_shape_dim (Some m) (Z.of_nat d) n SUCCESS = SUCCESS
                                     /\ check_dim_size (Some m) (Z.of_nat d) n SUCCESS = SUCCESS) /\
  (nth_error (m_shape m) d <> Some n -> check_shape_dim (Some m) (Z.of_nat d) n SUCCESS = ERR_INVALID_ARGUMENT) /\
  (m_shape m = sh -> check_shape (Some m) sh SUCCESS = SUCCESS) /\
  (m_shape m <> sh -> check_shape (Some m) sh SUCCESS = ERR_INVALID_ARGUMENT) /\
  (m_type m = ty -> check_type (Some m) ty SUCCESS = SUCCESS) /\
  (m_type m <> ty -> check_type (Some m) ty SUCCESS = ERR_DATA_TYPE).
Proof. exact checks_exact_lemma. Qed.
Print Assumptions C11_checks_exact.

Theorem C11_same_shape_exact : forall (m m2 : mem) (d d2 : nat) n n2,
  mem_wf m -> mem_wf m2 ->
  nth_error (m_shape m) d = Some n -> nth_error (m_shape m2) d2 = Some n2 ->
  check_same_shape (Some m) (Z.of_nat d) (Some m2) (Z.of_nat d2) SUCCESS =
  if Z.eq_dec n n2 then SUCCESS else ERR_INVALID_ARGUMENT.
Proof. exact same_shape_exact_lemma. Qed.
Print Assumptions C11_same_shape_exact.

(** Without data (or without a handle) an array is neither writeable nor contiguous, has no elements
    and no numeric type; with data the attributes are those it was made with. *)
Theorem C11_attributes : forall (m : mem),
  (check_writeable (Some m) SUCCESS = SUCCESS <-> m_data m <> None /\ m_ro m = false) /\
  (check_c_contiguity (Some m) SUCCESS = SUCCESS <-> m_data m <> None /\ m_contig m = true) /\
  num_elements (Some m) = (match m_data m with Some _ => m_num_elements m | None => 0 end) /\
  (is_floating_point (Some m) = true <-> m_data m <> None /\ (m_type m = MEM_FLOAT \/ m_type m = MEM_DOUBLE)) /\
  (m_type m = MEM_COMPLEX_FLOAT \/ m_type m = MEM_COMPLEX_DOUBLE -> m_data m <> None -> is_complex (Some m) = true) /\
  (m_type m = MEM_CHAR \/ m_type m = MEM_INT \/ m_type m = MEM_FLOAT \/ m_type m = MEM_DOUBLE \/ m_data m = None ->
     is_complex (Some m) = false) /\
  (m_type m = MEM_DOUBLE \/ m_type m = MEM_COMPLEX_DOUBLE -> m_data m <> None -> is_double (Some m) = true) /\
  (m_type m = MEM_CHAR \/ m_type m = MEM_INT \/ m_type m = MEM_FLOAT \/ m_type m = MEM_COMPLEX_FLOAT \/ m_data m = None ->
     is_double (Some m) = false).
Proof.
  intros [ty loc cg ow ro ndm ne rf sh sd data]. unfold check_writeable, check_c_contiguity, is_read_only, is_c_contiguous, num_elements,
    is_floating_point, is_complex, is_double, has_data. cbn [m_data m_ro m_contig m_num_elements m_type failed].
  destruct data as [p|]; cbn [negb andb orb].
  - repeat match goal with |- _ /\ _ => split end.
    + destruct ro; split; intro H; try discriminate; try (destruct H; discriminate); auto. split; [discriminate|reflexivity].
    + destruct cg; split; intro H; try discriminate; try (destruct H; discriminate); auto. split; [discriminate|reflexivity].
    + reflexivity.
    + rewrite orb_true_iff, !Z.eqb_eq. split; [intro; split; [discriminate|auto]|tauto].
    + intros [-> | ->] _; reflexivity.
    + intros [-> |[-> |[-> |[-> |H]]]]; try reflexivity; discriminate.
    + intros [-> | ->] _; reflexivity.
    + intros [-> |[-> |[-> |[-> |H]]]]; try reflexivity; discriminate.
  - repeat match goal with |- _ /\ _ => split end; try reflexivity; intros; try contradiction; try reflexivity;
      split; intro H; try discriminate; destruct H; contradiction.
Qed.
Print Assumptions C11_attributes.
Theorem C11_null_handle : check_writeable None SUCCESS = ERR_INVALID_ARGUMENT /\ check_c_contiguity None SUCCESS = ERR_INVALID_ARGUMENT /\
  num_elements None = 0 /\ is_complex None = false /\ is_floating_point None = false /\ is_double None = false /\
  (forall n, check_num_dims None n SUCCESS = SUCCESS <-> n = 0) /\ (forall t, check_type None t SUCCESS = SUCCESS <-> t = MEM_VOID).
Proof.
  repeat match goal with |- _ /\ _ => split end; try reflexivity; intro x; unfold check_num_dims, check_type; cbn [failed num_dims mtype].
  - destruct (Z.eqb_spec 0 x) as [<-|N]; cbn [negb]; split; intro H; try reflexivity; try discriminate; congruence.
  - destruct (Z.eqb_spec MEM_VOID x) as [<-|N]; cbn [negb]; split; intro H; try reflexivity; try discriminate; congruence.
Qed.
Print Assumptions C11_null_handle.

(** ** C12: a checked view is usable or empty *)
Theorem C12_view : forall (m : mem) ty rank loc,
  mem_wf m ->
  (snd (check_and_view (Some m) ty rank loc SUCCESS) = SUCCESS <->
   m_type m = ty /\ length (m_shape m) = rank /\ m_loc m = loc /\ is_read_only (Some m) = false) /\
  (snd (check_and_view_const (Some m) ty rank loc SUCCESS) = SUCCESS <->
   m_type m = ty /\ length (m_shape m) = rank /\ m_loc m = loc) /\
  (forall v, check_and_view (Some m) ty rank loc SUCCESS = (v, SUCCESS) \/
             check_and_view_const (Some m) ty rank loc SUCCESS = (v, SUCCESS) ->
     v_shape v = m_shape m /\ forall idx, view_ptr (type_size ty) v idx = elem_ptr m idx).
Proof. exact view_lemma. Qed.
Print Assumptions C12_view.

Theorem C12_view_empty_on_error : forall (m : option mem) ty rank loc st v st',
  check_and_view m ty rank loc st = (v, st') \/ check_and_view_const m ty rank loc st = (v, st') ->
  st' <> SUCCESS -> v_shape v = repeat 0 rank.
Proof. exact view_empty_lemma. Qed.
Print Assumptions C12_view_empty_on_error.
Example C12_hyps : exists m, mem_wf m /\
  snd (check_and_view (Some m) MEM_FLOAT 2 MEM_CPU SUCCESS) = SUCCESS.
Proof.
  exists (mk_mem MEM_FLOAT MEM_CPU true false false 2 6 1 [2; 3] [12; 4] (Some (1, 0))).
  split; [repeat split; repeat constructor|reflexivity].
Qed.

(** ** C13: data-model checks establish consistent metadata *)
Theorem C13_data_model : forall vis uvw wt tv tu tw loc nt nb nc np,
  (forall m, vis = Some m -> mem_wf m) -> (forall m, uvw = Some m -> mem_wf m) ->
  (forall m, wt = Some m -> mem_wf m) ->
  check_weights wt tw loc nt nb nc np
    (check_uvw uvw tu loc nt nb (check_vis vis tv loc nt nb nc np SUCCESS)) = SUCCESS ->
  (is_complex vis = true /\ is_c_contiguous vis = true /\ (tv = MEM_VOID \/ mtype vis = tv) /\
   (exists m, vis = Some m /\ m_shape m = [nt; nb; nc; np])) /\
  ((mtype uvw = MEM_FLOAT \/ mtype uvw = MEM_DOUBLE) /\ is_c_contiguous uvw = true /\
   (tu = MEM_VOID \/ mtype uvw = tu) /\ (exists m, uvw = Some m /\ m_shape m = [nt; nb; 3])) /\
  (is_complex wt = false /\ is_c_contiguous wt = true /\ (tw = MEM_VOID \/ mtype wt = tw) /\
   (exists m, wt = Some m /\ m_shape m = [nt; nb; nc; np])) /\
  get_uvw_metadata uvw SUCCESS = (Some (mtype uvw, loc, nt, nb), SUCCESS) /\
  get_weights_metadata wt SUCCESS = (Some (mtype wt, loc, nt, nb, nc, np), SUCCESS) /\
  get_vis_metadata vis SUCCESS =
    (Some (mtype vis, loc, nt, nb, nc, np),
     if (np =? 4) || (np =? 1) then SUCCESS else ERR_INVALID_ARGUMENT).
Proof. exact data_model_lemma. Qed.
Print Assumptions C13_data_model.
Example C13_hyps :
  let mk ty es sh := fst (create_wrapper (Some (0, 0)) ty MEM_CPU sh None SUCCESS) in
  check_weights (Some (mk MEM_FLOAT 4 [2; 3; 5; 4])) MEM_FLOAT MEM_CPU 2 3 5 4
    (check_uvw (Some (mk MEM_DOUBLE 8 [2; 3; 3])) MEM_DOUBLE MEM_CPU 2 3
      (check_vis (Some (mk MEM_COMPLEX_FLOAT 8 [2; 3; 5; 4])) MEM_VOID MEM_CPU 2 3 5 4 SUCCESS)) = SUCCESS.
Proof. reflexivity. Qed.

(** ** C14: sdp_mem_is_matching is an equivalence *)
Theorem C14_is_matching_spec : forall a b cl,
  mem_wf a -> mem_wf b ->
  (is_matching a b cl = true <->
   m_type a = m_type b /\ (cl = true -> m_loc a = m_loc b) /\
   m_shape a = m_shape b /\ m_stride a = m_stride b).
Proof. exact is_matching_spec. Qed.
Print Assumptions C14_is_matching_spec.

Theorem C14_is_matching_equivalence : forall cl,
  (forall a, mem_wf a -> is_matching a a cl = true) /\
  (forall a b, mem_wf a -> mem_wf b -> is_matching a b cl = true -> is_matching b a cl = true) /\
  (forall a b c, mem_wf a -> mem_wf b -> mem_wf c ->
     is_matching a b cl = true -> is_matching b c cl = true -> is_matching a c cl = true).
Proof. exact is_matching_equiv_lemma. Qed.
Print Assumptions C14_is_matching_equivalence.
