(** Proofs about the memory model. *)
From Verif Require Import Base BaseFacts Mem MemSpec.

(** *** Row-major layout *)
Lemma product_pos sh : Forall (fun s => 0 < s) sh -> 0 < product sh.
Proof. unfold product. induction 1; simpl in *; nia. Qed.

Lemma c_strides_length es sh : length (c_strides es sh) = length sh.
Proof. induction sh; simpl; congruence. Qed.

Lemma c_strides_elems es sh :
  0 < es -> map (fun s => cdiv s es) (c_strides es sh) = c_strides 1 sh.
Proof.
  intro He. induction sh as [|s sh IH]; [reflexivity|].
  cbn [c_strides map]. rewrite IH. f_equal. unfold cdiv.
  rewrite Z.quot_mul by lia. lia.
Qed.

Lemma row_major_bounds sh idx :
  Forall (fun s => 0 < s) sh -> in_shape sh idx = true ->
  0 <= dot (c_strides 1 sh) idx < product sh.
Proof.
  intro H. revert idx. induction H as [|s sh Hs H IH]; intros [|i idx] Hi; simpl in Hi |- *; try discriminate; [unfold product; simpl; lia|].
  specialize (IH idx ltac:(lia)). change (product (s :: sh)) with (s * product sh).
  assert (0 <= i < s) by lia. nia.
Qed.

Lemma row_major_inj sh i j :
  Forall (fun s => 0 < s) sh -> in_shape sh i = true -> in_shape sh j = true ->
  dot (c_strides 1 sh) i = dot (c_strides 1 sh) j -> i = j.
Proof.
  intro H. revert i j. induction H as [|s sh Hs H IH]; intros [|a i] [|b j] Hi Hj E;
    simpl in Hi, Hj; try discriminate; try reflexivity.
  assert (Hi' : in_shape sh i = true) by lia. assert (Hj' : in_shape sh j = true) by lia.
  cbn [c_strides dot] in E.
  pose proof (row_major_bounds sh i H Hi'). pose proof (row_major_bounds sh j H Hj').
  pose proof (product_pos sh H).
  assert (a = b) by nia. subst b. f_equal. apply IH; auto. nia.
Qed.

Lemma strides_eqb_refl l : strides_eqb l l = true.
Proof. induction l; simpl; [reflexivity|]. rewrite IHl. lia. Qed.

Lemma strides_eqb_true a b : strides_eqb a b = true <-> a = b.
Proof.
  split; [|intros ->; apply strides_eqb_refl].
  revert b; induction a as [|x a IH]; intros [|y b] E; simpl in E; try discriminate; auto.
  f_equal; [lia|]. apply IH. lia.
Qed.

Lemma type_size_cases ty : 0 < type_size ty ->
  (ty =? MEM_VOID) = false /\ (type_size ty <=? 0) = false.
Proof.
  intro H. split; [|lia]. unfold type_size, MEM_VOID, MEM_CHAR, MEM_INT, MEM_FLOAT,
    MEM_DOUBLE, MEM_COMPLEX_FLOAT, MEM_COMPLEX_DOUBLE in *.
  destruct (Z.eqb_spec ty 0) as [->|]; [vm_compute in H; discriminate|reflexivity].
Qed.

Lemma create_wrapper_eq data ty loc sh stride st :
  0 < type_size ty -> sh <> [] ->
  create_wrapper data ty loc sh stride st =
  (mk_mem ty loc
     (strides_eqb match stride with Some s => s | None => c_strides (type_size ty) sh end
                  (c_strides (type_size ty) sh))
     false false (Z.of_nat (length sh)) (product sh) 1 sh
     match stride with Some s => s | None => c_strides (type_size ty) sh end data, st).
Proof.
  intros Ht Hs. unfold create_wrapper.
  destruct (type_size_cases ty Ht) as [-> ->]. destruct sh; [congruence|reflexivity].
Qed.

Lemma create_wrapper_nil data ty loc stride st :
  0 < type_size ty ->
  create_wrapper data ty loc [] stride st =
  (mk_mem ty loc false false false 0 1 1 [] [] data, st).
Proof.
  intros Ht. unfold create_wrapper. destruct (type_size_cases ty Ht) as [-> ->]. reflexivity.
Qed.

Lemma last_c_strides es sh : sh <> [] -> last (c_strides es sh) 0 = es.
Proof.
  induction sh as [|s [|s' sh] IH]; intro H; [congruence|cbn [c_strides last]; change (product []) with 1; lia|].
  cbn [c_strides last] in *. apply IH. congruence.
Qed.

Definition created (h : heap) (ty : Z) (sh : list Z) : heap * mem :=
  (mk_heap (h_next h + 1)
     (fun k => if k =? h_next h
               then mk_block (product sh * type_size ty) true (fun _ => 0) else h_blk h k),
   mk_mem ty MEM_CPU true true false (Z.of_nat (length sh)) (product sh) 1 sh
          (c_strides (type_size ty) sh) (Some (h_next h, 0))).

Lemma mem_create_eq h ty sh :
  0 < type_size ty -> sh <> [] -> Forall (fun s => 0 < s) sh ->
  mem_create false h ty MEM_CPU sh SUCCESS =
  (fst (created h ty sh), snd (created h ty sh), SUCCESS).
Proof.
  intros Ht Hs Hp. unfold mem_create. rewrite create_wrapper_eq by assumption.
  rewrite strides_eqb_refl. unfold mem_alloc. cbn.
  pose proof (product_pos sh Hp).
  assert (product sh * type_size ty =? 0 = false) as -> by (apply Z.eqb_neq; pose proof (Z.mul_pos_pos _ _ H Ht); lia).
  reflexivity.
Qed.

Lemma create_layout_lemma h ty sh :
  0 < type_size ty -> sh <> [] -> Forall (fun s => 0 < s) sh ->
  exists h' m b,
    mem_create false h ty MEM_CPU sh SUCCESS = (h', m, SUCCESS) /\
    m_type m = ty /\ m_shape m = sh /\
    num_elements (Some m) = fold_right Z.mul 1 sh /\
    is_c_contiguous (Some m) = true /\ m_owner m = true /\
    is_read_only (Some m) = false /\ last (m_stride m) 0 = type_size ty /\
    b_live (h_blk h' b) = true /\
    (forall k, k <> h_next h -> h_blk h' k = h_blk h k) /\ b = h_next h /\
    (forall i, in_shape sh i = true ->
       exists o, elem_ptr m i = Some (b, o) /\ 0 <= o /\
                 o + type_size ty <= b_size (h_blk h' b) /\
                 forall k, 0 <= k < type_size ty -> byte h' b (o + k) = 0) /\
    (forall i j oi oj, in_shape sh i = true -> in_shape sh j = true -> i <> j ->
       elem_ptr m i = Some (b, oi) -> elem_ptr m j = Some (b, oj) ->
       oi + type_size ty <= oj \/ oj + type_size ty <= oi).
Proof.
  intros Ht Hs Hp. eexists _, _, (h_next h). rewrite mem_create_eq by assumption.
  split; [reflexivity|]. cbn [created fst snd m_type m_shape m_owner m_stride].
  repeat split.
  - now apply last_c_strides.
  - cbn. now rewrite Z.eqb_refl.
  - intros k Hk. cbn. destruct (Z.eqb_spec k (h_next h)); congruence.
  - intros i Hi. eexists. split; [reflexivity|].
    cbn. unfold elem_offset. cbn. rewrite c_strides_elems by assumption.
    pose proof (row_major_bounds sh i Hp Hi). rewrite Z.eqb_refl. cbn.
    split; [nia|]. split; [nia|]. intros k Hk. unfold byte. cbn. now rewrite Z.eqb_refl.
  - intros i j oi oj Hi Hj Hne Ei Ej.
    unfold elem_ptr, elem_offset in Ei, Ej. cbn in Ei, Ej.
    rewrite c_strides_elems in Ei, Ej by assumption.
    inversion Ei; inversion Ej; subst.
    assert (dot (c_strides 1 sh) i <> dot (c_strides 1 sh) j).
    { intro E. apply Hne. eapply row_major_inj; eauto. }
    nia.
Qed.

(** *** Reference counting *)

Lemma ref_run_lemma h m b ops :
  m_data m = Some (b, 0) -> m_loc m = MEM_CPU ->
  b_live (h_blk h b) = true -> 0 < m_ref m ->
  (forall k, (k < length ops)%nat -> 0 < balance (m_ref m) (firstn k ops)) ->
  exists h' m', ref_run (h, Some m) ops = Some (h', m') /\
    (m' = None <-> balance (m_ref m) ops = 0) /\
    (b_live (h_blk h' b) = true <-> m_owner m = false \/ 0 < balance (m_ref m) ops) /\
    (forall k, k <> b -> h_blk h' k = h_blk h k).
Proof.
  revert h m. induction ops as [|o ops IH]; intros h m Hd Hl Hlive Hr Hk.
  - exists h, (Some m). simpl. repeat split; auto; try congruence; try lia.
  - destruct o.
    + destruct (IH h (ref_inc m)) as (h' & m' & E & H1 & H2 & H3); simpl; auto; try lia.
      { intros k Hlt. specialize (Hk (S k)). simpl in Hk. apply Hk. lia. }
      exists h', m'. simpl in *. auto.
    + simpl ref_run. unfold mem_free. cbn [m_ref m_data].
      destruct (Z.gtb_spec (m_ref m - 1) 0) as [Hg|Hg].
      * cbn [bind].
        destruct (IH h (mk_mem (m_type m) (m_loc m) (m_contig m) (m_owner m) (m_ro m)
           (m_num_dims m) (m_num_elements m) (m_ref m - 1) (m_shape m) (m_stride m) (m_data m)))
          as (h' & m' & E & H1 & H2 & H3); cbn; auto.
        { intros k Hlt. specialize (Hk (S k)). simpl in Hk. apply Hk. lia. }
        exists h', m'. simpl in *. auto.
      * assert (ops = []) as ->.
        { destruct ops as [|o ops]; [reflexivity|]. exfalso.
          specialize (Hk 1%nat). simpl in Hk. lia. }
        rewrite Hd, Hl. cbn [balance]. destruct (m_owner m) eqn:Ho; simpl; rewrite ?Hlive; simpl.
        -- eexists _, None. split; [reflexivity|]. split; [split; auto; lia|].
           split. { cbn. rewrite Z.eqb_refl. cbn. split; intro; [discriminate|].
                    destruct H; [discriminate|lia]. }
           intros k Hkb. cbn. destruct (Z.eqb_spec k b); congruence.
        -- eexists _, None. split; [reflexivity|]. split; [split; auto; lia|].
           split; [|auto]. split; auto.
Qed.

(** *** Slices *)


Lemma add_idx_length a b : length a = length b -> length (add_idx a b) = length a.
Proof. revert b; induction a; intros [|y b] H; simpl in *; try congruence; auto with arith. Qed.

Lemma dot_add s a b :
  length a = length b -> dot s (add_idx a b) = dot s a + dot s b.
Proof.
  revert a b; induction s as [|x s IH]; intros [|y a] [|z b] H; simpl in *; try lia.
  rewrite IH by lia. lia.
Qed.

Lemma dot_repeat0_app s k idx :
  dot s (repeat 0 k ++ idx) = dot (skipn k s) idx.
Proof.
  revert s; induction k as [|k IH]; intros [|x s]; simpl; try reflexivity.
  rewrite IH. lia.
Qed.

Lemma dot_elems es s idx :
  0 < es -> Forall (fun x => x mod es = 0) s ->
  es * dot (map (fun x => cdiv x es) s) idx = dot s idx.
Proof.
  intros He H. revert idx. induction H as [|x s Hx H IH]; intros [|i idx]; cbn [map dot]; try lia.
  rewrite Z.mul_add_distr_l, IH. f_equal. unfold cdiv.
  pose proof (Z.quot_exact x es). rewrite Z.mul_assoc. f_equal.
  assert (es * (x ÷ es) = x); [|lia].
  assert (Z.rem x es = 0). { apply Z.rem_mod_eq_0; lia. }
  pose proof (Z.quot_rem' x es). lia.
Qed.

Lemma dot_comm a b : dot a b = dot b a.
Proof. revert b; induction a as [|x a IH]; intros [|y b]; simpl; try reflexivity. rewrite (IH b). lia. Qed.

Lemma Forall_skipn {A} (P : A -> Prop) k l : Forall P l -> Forall P (skipn k l).
Proof. intro H. revert k. induction H; intros [|k]; simpl; auto. Qed.

Lemma all2_Forall2 f a b :
  length a = length b -> (all2 f a b = true <-> Forall2 (fun x y => f x y = true) a b).
Proof.
  revert b; induction a as [|x a IH]; intros [|y b] H; simpl in *; try lia.
  - split; auto.
  - rewrite andb_true_iff, IH by lia. split; [intros []; auto|inversion 1; auto].
Qed.

(** The request lies inside the source: leading dimensions take one in-range
    position, trailing ones a block of [size] starting at the offset. *)
Inductive fits : list Z -> list Z -> list Z -> Prop :=
| fits_same o a s : Forall2 (fun oa s => 0 <= fst oa < s /\ fst oa + snd oa <= s) (combine o a) s ->
    length o = length s -> length a = length s -> fits o a s
| fits_drop o0 s0 o a s : 0 <= o0 < s0 -> fits o a s -> (length a <= length s)%nat ->
    fits (o0 :: o) a (s0 :: s).

Lemma Forall2_combine_off o a s :
  length o = length s -> length a = length s ->
  Forall2 (fun oa s => 0 <= fst oa < s /\ fst oa + snd oa <= s) (combine o a) s ->
  Forall2 (fun o s => ((0 <=? o) && (o <? s)) = true) o s /\
  Forall2 (fun a s => (a <=? s) = true) a s.
Proof.
  revert a s. induction o as [|x o IH]; intros [|y a] [|z s] H1 H2 H; simpl in *; try lia; auto.
  inversion H; subst. destruct (IH a s) as [? ?]; auto; try lia.
  simpl in *. split; constructor; auto; lia.
Qed.

Lemma fits_off o a s :
  fits o a s ->
  length o = length s /\ (length a <= length s)%nat /\
  Forall2 (fun o s => ((0 <=? o) && (o <? s)) = true) o s /\
  Forall2 (fun a s => (a <=? s) = true) a (skipn (length s - length a) s).
Proof.
  induction 1 as [o a s H H1 H2|o0 s0 o a s H0 H IH Hl].
  - destruct (Forall2_combine_off _ _ _ H1 H2 H). rewrite H2, Nat.sub_diag. simpl. auto with arith.
  - destruct IH as (A & B & C & D). cbn [length]. repeat split; try lia.
    + constructor; auto. lia.
    + cbn [length]. rewrite Nat.sub_succ_l by lia. exact D.
Qed.

Lemma fits_in_shape o a s :
  fits o a s -> forall idx, in_shape a idx = true ->
  in_shape s (add_idx o (repeat 0 (length s - length a) ++ idx)) = true.
Proof.
  induction 1 as [o a s H H1 H2|o0 s0 o a s H0 H IH Hl]; intros idx Hi.
  - rewrite H2, Nat.sub_diag. simpl.
    revert a s idx H H1 H2 Hi.
    induction o as [|x o IH]; intros [|y a] [|z s] [|i idx] H H1 H2 Hi; simpl in *; try lia; auto.
    inversion H; subst; simpl in *. rewrite (IH a s idx); auto; try lia.
  - cbn [length]. replace (S (length s) - length a)%nat with (S (length s - length a)) by lia.
    simpl. rewrite IH by assumption. lia.
Qed.

Lemma in_shape_length s i : in_shape s i = true -> length s = length i.
Proof. revert i; induction s; intros [|y i] H; simpl in *; try discriminate; auto. f_equal. apply IHs. lia. Qed.

Lemma slice_lemma src b o offs ssh :
  mem_wf src -> m_data src = Some (b, o) -> fits offs ssh (m_shape src) ->
  exists m, create_slice src offs ssh SUCCESS = (Some m, SUCCESS) /\
    m_type m = m_type src /\ m_loc m = m_loc src /\ m_shape m = ssh /\ m_owner m = false /\
    forall idx, in_shape ssh idx = true ->
      let full := add_idx offs (repeat 0 (length (m_shape src) - length ssh) ++ idx) in
      in_shape (m_shape src) full = true /\ elem_ptr m idx = elem_ptr src full.
Proof.
  intros (W1 & W2 & W3 & W4) Hd Hf.
  destruct (fits_off _ _ _ Hf) as (L1 & L2 & F1 & F2).
  unfold create_slice. rewrite W2.
  replace (Z.of_nat (length ssh) >? Z.of_nat (length (m_shape src))) with false by lia.
  replace (Z.to_nat (Z.of_nat (length (m_shape src)) - Z.of_nat (length ssh)))
    with (length (m_shape src) - length ssh)%nat by lia.
  set (k := (length (m_shape src) - length ssh)%nat) in *.
  rewrite (proj2 (all2_Forall2 _ _ _ L1) F1).
  assert (L3 : length ssh = length (skipn k (m_shape src))) by (rewrite skipn_length; unfold k; lia).
  rewrite (proj2 (all2_Forall2 (fun a s => a <=? s) _ _ L3) F2).
  cbn [negb]. rewrite Hd.
  assert (Hptr : forall idx, length idx = length ssh ->
     o + dot offs (m_stride src) + type_size (m_type src) *
        dot (map (fun s => cdiv s (type_size (m_type src))) (skipn k (m_stride src))) idx
     = o + elem_offset src (add_idx offs (repeat 0 k ++ idx))).
  { intros idx Hlen. unfold elem_offset.
    rewrite !dot_elems; auto using Forall_skipn.
    rewrite dot_add, dot_repeat0_app, (dot_comm offs); [lia|].
    rewrite app_length, repeat_length. unfold k. lia. }
  destruct ssh as [|s0 ssh'].
  - rewrite create_wrapper_nil by assumption.
    eexists; split; [reflexivity|]. cbn [m_type m_loc m_shape m_owner].
    repeat split; auto.
    + now apply fits_in_shape.
    + pose proof (in_shape_length _ _ H) as HL. destruct idx; [|discriminate].
      unfold elem_ptr. cbn [m_data]. rewrite Hd. do 2 f_equal.
      rewrite <- (Hptr [] eq_refl).
      unfold elem_offset. cbn [m_type m_stride map dot].
      destruct (map _ (skipn k _)); cbn [dot]; lia.
  - rewrite create_wrapper_eq by (auto; congruence).
    eexists; split; [reflexivity|]. cbn [m_type m_loc m_shape m_owner].
    repeat split; auto.
    + now apply fits_in_shape.
    + pose proof (in_shape_length _ _ H) as HL.
      unfold elem_ptr. cbn [m_data]. rewrite Hd. do 2 f_equal.
      rewrite <- (Hptr idx (eq_sym HL)). reflexivity.
Qed.

(** The element-wise specification implies the inductive one used above. *)
Lemma fits_of_spec offs ssh sh : slice_fits offs ssh sh -> fits offs ssh sh.
Proof.
  revert offs. induction sh as [|s sh IH]; intros offs (L1 & L2 & H1 & H2).
  - destruct offs; [|discriminate]. destruct ssh; [|simpl in L2; lia].
    apply fits_same; simpl; auto.
  - destruct offs as [|o offs]; [discriminate|]. cbn [length] in *.
    destruct (Nat.eq_dec (length ssh) (S (length sh))) as [E|E].
    + apply fits_same; cbn [length]; auto.
      rewrite E, Nat.sub_diag in H2. clear IH L2.
      revert o offs sh s L1 H1 H2 E.
      induction ssh as [|a ssh IH]; intros o offs sh s L1 H1 H2 E; [discriminate|].
      cbn [combine]. constructor.
      * pose proof (H1 0%nat ltac:(simpl; lia)) as A. pose proof (H2 0%nat ltac:(simpl; lia)) as B.
        simpl in A, B. simpl. lia.
      * destruct offs as [|o' offs], sh as [|s' sh], ssh as [|a' ssh]; simpl in L1, E; try lia; [constructor|].
        apply IH; simpl; try lia.
        -- intros k Hk. apply (H1 (S k)). simpl in *. lia.
        -- intros k Hk. apply (H2 (S k)). simpl in *. lia.
    + apply fits_drop; [apply (H1 0%nat); lia| |lia].
      apply IH. repeat split; try lia.
      * apply (H1 (S k)). lia.
      * apply (H1 (S k)). lia.
      * intros k Hk. specialize (H2 k Hk).
        rewrite Nat.sub_succ_l in H2 by lia. exact H2.
Qed.
