(** Remaining lemmas behind Prop_Mem.v. *)
From Verif Require Import Base BaseFacts Mem MemSpec MemFacts MemFacts2 Checks ChecksFacts.

Lemma Forall2_impl {A B} (P Q : A -> B -> Prop) l l' :
  (forall a b, P a b -> Q a b) -> Forall2 P l l' -> Forall2 Q l l'.
Proof. intros H. induction 1; constructor; auto. Qed.

Lemma create_failures_lemma h ty sh :
  0 < type_size ty -> sh <> [] -> Forall (fun s => 0 < s) sh ->
  snd (mem_create true h ty MEM_CPU sh SUCCESS) = ERR_MEM_ALLOC_FAILURE /\
  snd (mem_create false h ty MEM_GPU sh SUCCESS) = ERR_MEM_LOCATION.
Proof.
  intros Ht Hs Hp. unfold mem_create. rewrite !create_wrapper_eq by assumption.
  unfold mem_alloc. cbn. pose proof (product_pos sh Hp) as H.
  assert (product sh * type_size ty =? 0 = false) as -> by (apply Z.eqb_neq; nia).
  split; reflexivity.
Qed.

Lemma slice_spec_lemma src b o offs ssh :
  mem_wf src -> m_data src = Some (b, o) -> slice_fits offs ssh (m_shape src) ->
  exists m, create_slice src offs ssh SUCCESS = (Some m, SUCCESS) /\
    m_type m = m_type src /\ m_loc m = m_loc src /\ m_shape m = ssh /\ m_owner m = false /\
    forall idx, in_shape ssh idx = true ->
      let full := add_idx offs (repeat 0 (length (m_shape src) - length ssh) ++ idx) in
      in_shape (m_shape src) full = true /\ elem_ptr m idx = elem_ptr src full.
Proof. intros W D F. eapply slice_lemma; eauto using fits_of_spec. Qed.

Definition h_empty : heap := mk_heap 0 (fun _ => mk_block 0 false (fun _ => 0)).

Lemma slice_overrun_lemma : exists h src offs ssh h0 m p,
  mem_create false h MEM_FLOAT MEM_CPU [4] SUCCESS = (h0, src, SUCCESS) /\
  create_slice src offs ssh SUCCESS = (Some m, SUCCESS) /\
  in_shape (m_shape m) [1] = true /\ elem_ptr m [1] = Some p /\
  h_ok h0 p (type_size (m_type m)) = false.
Proof.
  exists h_empty. eexists _, [3], [2], _, _, _. repeat split; reflexivity.
Qed.

Lemma slice_rejects_lemma src offs ssh st m st' :
  mem_wf src -> length offs = length (m_shape src) ->
  create_slice src offs ssh st = (Some m, st') ->
  (length ssh <= length (m_shape src))%nat /\
  Forall2 (fun o s => 0 <= o < s) offs (m_shape src) /\
  Forall2 (fun a s => a <= s) ssh (skipn (length (m_shape src) - length ssh) (m_shape src)).
Proof.
  intros (W1 & W2 & W3 & W4) L E. unfold create_slice in E. rewrite W2 in E.
  replace (Z.to_nat (Z.of_nat (length (m_shape src)) - Z.of_nat (length ssh)))
    with (length (m_shape src) - length ssh)%nat in E by lia.
  destruct (_ >? _) eqn:E1; [discriminate|].
  destruct (all2 _ offs _) eqn:E2; cbn [negb] in E; [|discriminate].
  destruct (all2 _ ssh _) eqn:E3; cbn [negb] in E; [|discriminate].
  assert (Hl : (length ssh <= length (m_shape src))%nat) by lia.
  split; [exact Hl|]. split.
  - apply all2_Forall2 in E2; [|exact L].
    eapply Forall2_impl; [|exact E2]. cbn. intros; lia.
  - apply all2_Forall2 in E3; [|rewrite skipn_length; lia].
    eapply Forall2_impl; [|exact E3]. cbn. intros; lia.
Qed.

Lemma alias_read_only_lemma : exists src,
  is_read_only (Some src) = true /\ m_data src <> None /\
  is_read_only (Some (create_alias src)) = false /\
  check_writeable (Some (create_alias src)) SUCCESS = SUCCESS.
Proof.
  exists (set_read_only (fst (create_wrapper (Some (0, 0)) MEM_FLOAT MEM_CPU [2] None SUCCESS)) true).
  repeat split; try reflexivity. discriminate.
Qed.

Lemma alias_lemma src :
  mem_wf src ->
  let a := create_alias src in
  m_type a = m_type src /\ m_loc a = m_loc src /\ m_shape a = m_shape src /\ m_owner a = false /\
  (forall idx, in_shape (m_shape src) idx = true -> elem_ptr a idx = elem_ptr src idx) /\
  (forall h, mem_free h a = Some (h, None)).
Proof.
  intros (W1 & W2 & W3 & W4). unfold create_alias.
  destruct (m_shape src) as [|s0 sh] eqn:E.
  - rewrite create_wrapper_nil by assumption. cbn. repeat split; auto.
    + intros [|i idx] Hi; [|discriminate]. unfold elem_ptr, elem_offset. cbn.
      destruct (m_stride src); [|discriminate]. reflexivity.
    + intro h. unfold mem_free. cbn. destruct (m_data src); reflexivity.
  - rewrite create_wrapper_eq by (auto; congruence). cbn. repeat split; auto.
    intro h. unfold mem_free. cbn. destruct (m_data src); reflexivity.
Qed.

Lemma strided_copy_lemma : exists h src h' m p,
  mem_wf src /\
  (forall i, in_shape (m_shape src) i = true ->
     exists q, elem_ptr src i = Some q /\ h_ok h q (type_size (m_type src)) = true) /\
  create_copy false h src MEM_CPU SUCCESS = Some (h', m, SUCCESS) /\
  in_shape (m_shape m) [1] = true /\ elem_ptr m [1] = Some p /\
  h_ok h' p (type_size (m_type m)) = false.
Proof.
  exists (mk_heap 1 (fun _ => mk_block 16 true (fun k => k))),
    (mk_mem MEM_FLOAT MEM_CPU false false false 1 2 1 [2] [8] (Some (0, 0))).
  eexists _, _, _. split; [|split].
  - repeat split; repeat constructor.
  - intros [|i [|? ?]] Hi; cbn in Hi; try discriminate; try (exfalso; lia).
    exists (0, 8 * i). split; [|unfold h_ok; cbn [fst snd b_live b_size h_blk fst create_wrapper m_type];
      change (type_size MEM_FLOAT) with 4; lia].
    unfold elem_ptr, elem_offset. cbn -[Z.mul Z.add].
    change (type_size MEM_FLOAT) with 4. change (cdiv 8 4) with 2. do 2 f_equal. lia.
  - repeat split; reflexivity.
Qed.

Lemma mem_noop_lemma h m m2 a b n st : st <> SUCCESS ->
  copy_contents h m m2 a b n st = Some (h, st) /\ clear_portion h m a n st = Some (h, st).
Proof. intro H. split; [now apply copy_contents_noop|now apply clear_portion_noop]. Qed.

Lemma set_value_spec_lemma (enc : Z -> Z -> list Z) h m v :
  supported_fill (m_type m) -> m_loc m = MEM_CPU -> is_read_only (Some m) = false ->
  (1 <= length (m_shape m) <= 3)%nat -> m_num_dims m = Z.of_nat (length (m_shape m)) ->
  Forall (fun s => 0 <= s) (m_shape m) ->
  (forall idx, in_shape (m_shape m) idx = true ->
     exists p, elem_ptr m idx = Some p /\ h_ok h p (type_size (m_type m)) = true) ->
  (forall i j p q, in_shape (m_shape m) i = true -> in_shape (m_shape m) j = true -> i <> j ->
     elem_ptr m i = Some p -> elem_ptr m j = Some q ->
     fst p <> fst q \/ snd p + type_size (m_type m) <= snd q \/ snd q + type_size (m_type m) <= snd p) ->
  exists h', set_value enc h m v SUCCESS = Some (h', SUCCESS) /\
    (forall idx p k, in_shape (m_shape m) idx = true -> elem_ptr m idx = Some p ->
       0 <= k < type_size (m_type m) ->
       byte h' (fst p) (snd p + k) = nth (Z.to_nat k) (enc (m_type m) v) 0) /\
    (forall b o, (forall idx, in_shape (m_shape m) idx = true -> ~ elem_byte m idx b o) ->
       byte h' b o = byte h b o).
Proof.
  intros. destruct (set_value_lemma enc h m v) as (h' & E & _ & A & B); auto.
  exists h'. auto.
Qed.

Lemma set_value_example : exists h m,
  supported_fill (m_type m) /\ m_loc m = MEM_CPU /\ is_read_only (Some m) = false /\
  m_shape m = [2; 3] /\ m_num_dims m = 2 /\
  (forall idx, in_shape (m_shape m) idx = true ->
     exists p, elem_ptr m idx = Some p /\ h_ok h p (type_size (m_type m)) = true) /\
  (forall i j p q, in_shape (m_shape m) i = true -> in_shape (m_shape m) j = true -> i <> j ->
     elem_ptr m i = Some p -> elem_ptr m j = Some q ->
     fst p <> fst q \/ snd p + type_size (m_type m) <= snd q \/ snd q + type_size (m_type m) <= snd p).
Proof.
  exists (mk_heap 7 (fun _ => mk_block 100 true (fun k => k))),
    (mk_mem MEM_FLOAT MEM_CPU false false false 2 6 1 [2; 3] [20; 4] (Some (1, 0))).
  cbn [m_type m_loc m_shape m_num_dims].
  split; [unfold supported_fill; auto|]. do 4 (split; [reflexivity|]).
  assert (O : forall i j, elem_ptr (mk_mem MEM_FLOAT MEM_CPU false false false 2 6 1 [2; 3] [20; 4] (Some (1, 0)))
     [i; j] = Some (1, 20 * i + 4 * j)).
  { intros i j. unfold elem_ptr, elem_offset. cbn [m_data m_type m_stride map dot].
    change (type_size MEM_FLOAT) with 4. change (cdiv 20 4) with 5. change (cdiv 4 4) with 1.
    do 2 f_equal. lia. }
  split.
  - intros [|i [|j [|k l]]] H; cbn in H; try discriminate; try (exfalso; lia).
    eexists. split; [apply O|]. unfold h_ok. cbn -[Z.mul Z.add]. change (type_size MEM_FLOAT) with 4. lia.
  - intros [|i [|j [|k l]]] [|i' [|j' [|k' l']]] p q H H' Hne Hp Hq; cbn in H, H';
      try discriminate; try (exfalso; lia).
    rewrite O in Hp, Hq. inversion Hp; inversion Hq; subst. cbn [fst snd].
    change (type_size MEM_FLOAT) with 4. right.
    assert (i <> i' \/ j <> j') by (destruct (Z.eq_dec i i'), (Z.eq_dec j j'); auto; subst; congruence).
    lia.
Qed.

Lemma sticky_refuted_lemma : exists c st, st <> SUCCESS /\ run_check c st <> st.
Proof.
  set (mk sh := fst (create_wrapper (Some (0, 0)) MEM_FLOAT MEM_CPU sh None SUCCESS)).
  exists (CSameShape (Some (mk [2])) 0 (Some (mk [3])) 0), ERR_DATA_TYPE.
  split; [discriminate|]. vm_compute. discriminate.
Qed.

Lemma no_same_shape cs :
  (forall m d m2 d2, ~ In (CSameShape m d m2 d2) cs) ->
  forallb (fun c => negb (is_same_shape c)) cs = true.
Proof.
  intro H. apply forallb_forall. intros c Hc. destruct c; try reflexivity.
  exfalso. eapply H; eauto.
Qed.

Lemma chain_sticky_spec cs st :
  (forall m d m2 d2, ~ In (CSameShape m d m2 d2) cs) -> st <> SUCCESS ->
  fold_left (fun st c => run_check c st) cs st = st.
Proof. intros H. apply chain_sticky. now apply no_same_shape. Qed.

Lemma chain_first_spec cs :
  (forall m d m2 d2, ~ In (CSameShape m d m2 d2) cs) ->
  fold_left (fun st c => run_check c st) cs SUCCESS =
  match find (fun c => failed (run_check c SUCCESS)) cs with
  | Some c => run_check c SUCCESS
  | None => SUCCESS
  end.
Proof. intros H. apply chain_first_error. now apply no_same_shape. Qed.

Lemma nth_error_dim (m : mem) d n :
  mem_wf m -> nth_error (m_shape m) d = Some n ->
  (d < length (m_shape m))%nat /\ shape_dim (Some m) (Z.of_nat d) = n.
Proof.
  intros (W1 & W2 & _) H.
  assert (d < length (m_shape m))%nat by (apply nth_error_Some; congruence).
  split; [assumption|]. rewrite nth_shape_dim by assumption. now apply nth_error_nth.
Qed.

Lemma checks_exact_lemma (m : mem) (d : nat) n loc ty sh :
  mem_wf m ->
  check_writeable (Some m) SUCCESS =
    (if is_read_only (Some m) then ERR_INVALID_ARGUMENT else SUCCESS) /\
  check_c_contiguity (Some m) SUCCESS =
    (if is_c_contiguous (Some m) then SUCCESS else ERR_INVALID_ARGUMENT) /\
  (m_loc m = loc -> check_location (Some m) loc SUCCESS = SUCCESS) /\
  (m_loc m <> loc -> check_location (Some m) loc SUCCESS = ERR_MEM_LOCATION) /\
  (Z.of_nat (length (m_shape m)) = n -> check_num_dims (Some m) n SUCCESS = SUCCESS) /\
  (Z.of_nat (length (m_shape m)) <> n -> check_num_dims (Some m) n SUCCESS = ERR_INVALID_ARGUMENT) /\
  (nth_error (m_shape m) d = Some n -> check_shape_dim (Some m) (Z.of_nat d) n SUCCESS = SUCCESS
                                     /\ check_dim_size (Some m) (Z.of_nat d) n SUCCESS = SUCCESS) /\
  (nth_error (m_shape m) d <> Some n -> check_shape_dim (Some m) (Z.of_nat d) n SUCCESS = ERR_INVALID_ARGUMENT) /\
  (m_shape m = sh -> check_shape (Some m) sh SUCCESS = SUCCESS) /\
  (m_shape m <> sh -> check_shape (Some m) sh SUCCESS = ERR_INVALID_ARGUMENT) /\
  (m_type m = ty -> check_type (Some m) ty SUCCESS = SUCCESS) /\
  (m_type m <> ty -> check_type (Some m) ty SUCCESS = ERR_DATA_TYPE).
Proof.
  intro W. pose proof W as (W1 & W2 & W3 & W4).
  unfold check_writeable, check_c_contiguity, check_location, check_num_dims, check_type.
  cbn [failed location num_dims mtype].
  assert (Eq : forall a b, a = b -> (a =? b) = true) by (intros; now apply Z.eqb_eq).
  assert (Ne : forall a b, a <> b -> (a =? b) = false) by (intros; now apply Z.eqb_neq).
  repeat match goal with |- _ /\ _ => split end; auto.
  - now destruct (is_c_contiguous (Some m)).
  - intro H. now rewrite Eq.
  - intro H. now rewrite Ne.
  - intro H. now rewrite Eq by lia.
  - intro H. now rewrite Ne by lia.
  - intro H. destruct (nth_error_dim m d n W H) as [A B].
    unfold check_shape_dim, check_dim_size. cbn [failed num_dims]. rewrite B, Z.eqb_refl.
    replace (m_num_dims m <=? Z.of_nat d) with false by lia. auto.
  - intro H. unfold check_shape_dim. cbn [failed num_dims].
    destruct (Z.leb_spec (m_num_dims m) (Z.of_nat d)); [reflexivity|].
    rewrite nth_shape_dim by (auto; lia).
    destruct (Z.eqb_spec (nth d (m_shape m) 0) n) as [E|E]; [|reflexivity].
    exfalso. apply H. rewrite <- E. apply nth_error_nth'. lia.
  - intro H. now apply (proj1 (check_shape_spec m sh W2)).
  - intro H. now apply (proj2 (check_shape_spec m sh W2)).
  - intro H. now rewrite Eq.
  - intro H. now rewrite Ne.
Qed.

Lemma same_shape_exact_lemma (m m2 : mem) (d d2 : nat) n n2 :
  mem_wf m -> mem_wf m2 ->
  nth_error (m_shape m) d = Some n -> nth_error (m_shape m2) d2 = Some n2 ->
  check_same_shape (Some m) (Z.of_nat d) (Some m2) (Z.of_nat d2) SUCCESS =
  if Z.eq_dec n n2 then SUCCESS else ERR_INVALID_ARGUMENT.
Proof.
  intros W W' H H'. destruct (nth_error_dim m d n W H) as [A B].
  destruct (nth_error_dim m2 d2 n2 W' H') as [A' B'].
  destruct W as (_ & W & _), W' as (_ & W' & _).
  unfold check_same_shape. rewrite B, B'. cbn [num_dims].
  replace (Z.of_nat d <? m_num_dims m) with true by lia.
  replace (Z.of_nat d2 <? m_num_dims m2) with true by lia. cbn [andb].
  destruct (Z.eq_dec n n2); destruct (Z.eqb_spec n n2); cbn; congruence.
Qed.

Lemma view_lemma (m : mem) ty rank loc :
  mem_wf m ->
  (snd (check_and_view (Some m) ty rank loc SUCCESS) = SUCCESS <->
   m_type m = ty /\ length (m_shape m) = rank /\ m_loc m = loc /\ is_read_only (Some m) = false) /\
  (snd (check_and_view_const (Some m) ty rank loc SUCCESS) = SUCCESS <->
   m_type m = ty /\ length (m_shape m) = rank /\ m_loc m = loc) /\
  (forall v, check_and_view (Some m) ty rank loc SUCCESS = (v, SUCCESS) \/
             check_and_view_const (Some m) ty rank loc SUCCESS = (v, SUCCESS) ->
     v_shape v = m_shape m /\ forall idx, view_ptr (type_size ty) v idx = elem_ptr m idx).
Proof.
  intro W. pose proof W as (_ & W2 & _).
  rewrite check_and_view_status, check_and_view_const_status. cbn [mtype num_dims location].
  rewrite W2. split; [|split].
  - split; intros (A & B & C & D); repeat split; auto; lia.
  - split; intros (A & B & C); repeat split; auto; lia.
  - intros v [H|H]; [eapply check_and_view_ok|eapply check_and_view_const_ok]; eauto.
Qed.

Lemma view_empty_lemma (m : option mem) ty rank loc st v st' :
  check_and_view m ty rank loc st = (v, st') \/ check_and_view_const m ty rank loc st = (v, st') ->
  st' <> SUCCESS -> v_shape v = repeat 0 rank.
Proof.
  intros [E|E] H; [unfold check_and_view in E|unfold check_and_view_const in E];
    injection E as Hv Hst; rewrite Hst in Hv; subst v; now apply make_view_failed.
Qed.

Lemma is_matching_equiv_lemma cl :
  (forall a, mem_wf a -> is_matching a a cl = true) /\
  (forall a b, mem_wf a -> mem_wf b -> is_matching a b cl = true -> is_matching b a cl = true) /\
  (forall a b c, mem_wf a -> mem_wf b -> mem_wf c ->
     is_matching a b cl = true -> is_matching b c cl = true -> is_matching a c cl = true).
Proof.
  repeat split.
  - intros a W. apply is_matching_spec; auto.
  - intros a b Wa Wb H. apply is_matching_spec in H; auto. apply is_matching_spec; auto.
    destruct H as (A & B & C & D). repeat split; auto. intro; symmetry; auto.
  - intros a b c Wa Wb Wc H H'. apply is_matching_spec in H, H'; auto. apply is_matching_spec; auto.
    destruct H as (A & B & C & D), H' as (A' & B' & C' & D'). repeat split; try congruence.
    intro E. rewrite B, B'; auto.
Qed.
