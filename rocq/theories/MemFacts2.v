(** Proofs about copies, clearing and filling. *)
From Verif Require Import Base BaseFacts Mem MemSpec MemFacts.

Lemma h_store_spec h p n f :
  h_ok h p n = true -> exists h', h_store h p n f = Some h' /\
    (forall b, b_live (h_blk h' b) = b_live (h_blk h b) /\ b_size (h_blk h' b) = b_size (h_blk h b)) /\
    (forall b o, byte h' b o =
       if (b =? fst p) && (snd p <=? o) && (o <? snd p + n) then f (o - snd p) else byte h b o).
Proof.
  intro H. unfold h_store. rewrite H. eexists; split; [reflexivity|].
  split; [intro b|intros b o]; unfold byte; cbn; destruct (Z.eqb_spec b (fst p)); subst; cbn; auto.
Qed.

Lemma h_store_blk h h' p n f b :
  h_store h p n f = Some h' -> b <> fst p -> h_blk h' b = h_blk h b.
Proof.
  unfold h_store. destruct h_ok; [|discriminate]. intros E Hb. inversion E; subst. cbn.
  destruct (Z.eqb_spec b (fst p)); congruence.
Qed.

Lemma copy_contents_lemma h dst src bd od bs os off_dst off_src n :
  m_data dst = Some (bd, od) -> m_data src = Some (bs, os) ->
  m_loc dst = MEM_CPU -> m_loc src = MEM_CPU -> m_num_elements src <> 0 -> 0 < n ->
  let es := type_size (m_type src) in
  h_ok h (bd, od + es * off_dst) (es * n) = true ->
  h_ok h (bs, os + es * off_src) (es * n) = true ->
  (bd <> bs \/ od + es * (off_dst + n) <= os + es * off_src
            \/ os + es * (off_src + n) <= od + es * off_dst) ->
  exists h', copy_contents h dst src off_dst off_src n SUCCESS = Some (h', SUCCESS) /\
    (forall k, 0 <= k < es * n ->
       byte h' bd (od + es * off_dst + k) = byte h bs (os + es * off_src + k)) /\
    (forall b o, b <> bd \/ o < od + es * off_dst \/ od + es * (off_dst + n) <= o ->
       byte h' b o = byte h b o) /\
    (forall b, b_live (h_blk h' b) = b_live (h_blk h b) /\ b_size (h_blk h' b) = b_size (h_blk h b)).
Proof.
  intros Hd Hs Ld Ls Hne Hn es Okd Oks Hdis. unfold copy_contents.
  rewrite Hd, Hs, Ld, Ls. cbn [failed].
  replace (m_num_elements src =? 0) with false by lia. replace (n =? 0) with false by lia.
  cbn [orb Z.eqb MEM_CPU andb]. fold es. unfold memcpy. cbn [fst snd].
  rewrite Oks.
  replace (negb ((bd =? bs) && (od + es * off_dst <? os + es * off_src + es * n) &&
          (os + es * off_src <? od + es * off_dst + es * n))) with true by nia.
  cbn [andb].
  destruct (h_store_spec h (bd, od + es * off_dst) (es * n)
    (fun i => byte h bs (os + es * off_src + i)) Okd) as (h' & E & Hb & Hv).
  rewrite E. exists h'. split; [reflexivity|]. cbn [fst snd] in *. split; [|split; [|exact Hb]].
  - intros k Hk. rewrite Hv, Z.eqb_refl.
    replace (od + es * off_dst <=? od + es * off_dst + k) with true by lia.
    replace (od + es * off_dst + k <? od + es * off_dst + es * n) with true by lia.
    cbn. f_equal. lia.
  - intros b o Ho. rewrite Hv.
    replace ((b =? bd) && (od + es * off_dst <=? o) && (o <? od + es * off_dst + es * n))
      with false by nia. reflexivity.
Qed.

Lemma copy_contents_noop h dst src a b n st :
  st <> SUCCESS -> copy_contents h dst src a b n st = Some (h, st).
Proof.
  intro H. unfold copy_contents. destruct (m_data dst) as [[? ?]|], (m_data src) as [[? ?]|]; auto.
  destruct st; simpl; congruence.
Qed.

Lemma clear_portion_lemma h m b o start n :
  m_data m = Some (b, o) -> m_loc m = MEM_CPU -> 0 < n ->
  let es := type_size (m_type m) in
  h_ok h (b, o + start * es) (n * es) = true ->
  exists h', clear_portion h m start n SUCCESS = Some (h', SUCCESS) /\
    (forall k, o + start * es <= k < o + (start + n) * es -> byte h' b k = 0) /\
    (forall b' k, b' <> b \/ k < o + start * es \/ o + (start + n) * es <= k ->
       byte h' b' k = byte h b' k) /\
    (forall b', b_live (h_blk h' b') = b_live (h_blk h b') /\ b_size (h_blk h' b') = b_size (h_blk h b')).
Proof.
  intros Hd Hl Hn es Ok. unfold clear_portion. cbn [failed orb].
  replace (n =? 0) with false by lia. rewrite Hl, Hd. cbn [Z.eqb MEM_CPU]. fold es.
  unfold memset. destruct (h_store_spec h (b, o + start * es) (n * es) (fun _ => 0) Ok)
    as (h' & E & Hb & Hv).
  rewrite E. exists h'. split; [reflexivity|]. cbn [fst snd] in *. split; [|split; [|exact Hb]].
  - intros k Hk. rewrite Hv, Z.eqb_refl.
    replace (o + start * es <=? k) with true by lia.
    replace (k <? o + start * es + n * es) with true by nia. reflexivity.
  - intros b' k Hk. rewrite Hv.
    replace ((b' =? b) && (o + start * es <=? k) && (k <? o + start * es + n * es))
      with false by nia. reflexivity.
Qed.

Lemma clear_portion_noop h m a n st : st <> SUCCESS -> clear_portion h m a n st = Some (h, st).
Proof. intro H. unfold clear_portion. destruct st; simpl; congruence. Qed.

Lemma create_copy_lemma h src b o :
  0 < type_size (m_type src) -> m_shape src <> [] -> Forall (fun s => 0 < s) (m_shape src) ->
  m_stride src = c_strides (type_size (m_type src)) (m_shape src) ->
  m_num_elements src = fold_right Z.mul 1 (m_shape src) ->
  m_data src = Some (b, o) -> m_loc src = MEM_CPU -> b <> h_next h ->
  h_ok h (b, o) (m_num_elements src * type_size (m_type src)) = true ->
  exists h' m b', create_copy false h src MEM_CPU SUCCESS = Some (h', m, SUCCESS) /\
    m_owner m = true /\ m_type m = m_type src /\ m_shape m = m_shape src /\
    b' <> b /\ b_live (h_blk h' b') = true /\
    (forall k, k <> b' -> h_blk h' k = h_blk h k) /\
    (forall i, in_shape (m_shape src) i = true ->
       exists o1 o2, elem_ptr src i = Some (b, o1) /\ elem_ptr m i = Some (b', o2) /\
         h_ok h' (b', o2) (type_size (m_type src)) = true /\
         forall k, 0 <= k < type_size (m_type src) -> byte h' b' (o2 + k) = byte h b (o1 + k)) /\
    (forall p n f h'', h_store h' p n f = Some h'' ->
       (fst p = b -> h_blk h'' b' = h_blk h' b') /\ (fst p = b' -> h_blk h'' b = h_blk h' b)).
Proof.
  intros Ht Hs Hp Hst Hne Hd Hl Hb Ok. unfold create_copy.
  rewrite create_wrapper_eq by assumption. rewrite Hst, strides_eqb_refl.
  pose proof (product_pos _ Hp) as HP.
  unfold mem_alloc. cbn [failed orb m_num_elements m_type m_loc m_contig m_ro m_num_dims m_ref m_shape m_stride m_data].
  pose proof (Z.mul_pos_pos _ _ HP Ht) as HPT.
  replace (product (m_shape src) * type_size (m_type src) =? 0) with false by lia.
  cbn [Z.eqb MEM_CPU h_calloc].
  set (h1 := mk_heap _ _). set (m1 := mk_mem _ _ _ _ _ _ _ _ _ _ _).
  destruct (copy_contents_lemma h1 m1 src (h_next h) 0 b o 0 0 (m_num_elements src))
    as (h2 & E & Hin & Hout & Hlv); auto.
  - rewrite Hne. unfold product in HP. lia.
  - rewrite Hne. exact HP.
  - unfold h_ok. cbn. rewrite Z.eqb_refl. cbn. rewrite Hne. fold (product (m_shape src)). lia.
  - unfold h_ok in *. cbn in *. destruct (Z.eqb_spec b (h_next h)); [congruence|]. lia.
  - rewrite E. cbn [bind].
    assert (Hblk : forall k, k <> h_next h -> h_blk h2 k = h_blk h k).
    { intros k Hk. revert E. unfold copy_contents. rewrite Hd. cbn [m1 m_data failed].
      destruct (_ || _); [intro E; inversion E; cbn; destruct (Z.eqb_spec k (h_next h)); congruence|].
      destruct (_ && _); [|discriminate].
      unfold memcpy. destruct (_ && _); [|discriminate].
      destruct (h_store _ _ _ _) as [h3|] eqn:E3; [|discriminate].
      intro E; inversion E; subst. rewrite (h_store_blk _ _ _ _ _ _ E3) by (cbn; congruence).
      cbn. destruct (Z.eqb_spec k (h_next h)); congruence. }
    exists h2, m1, (h_next h). split; [reflexivity|]. cbn [m1 m_owner m_type m_shape].
    repeat split; auto.
    + destruct (Hlv (h_next h)) as [-> _]. cbn. now rewrite Z.eqb_refl.
    + intros i Hi. pose proof (row_major_bounds _ _ Hp Hi) as HR.
      set (d := dot (c_strides 1 (m_shape src)) i) in *.
      exists (o + type_size (m_type src) * d), (type_size (m_type src) * d).
      split; [|split; [|split]].
      * unfold elem_ptr, elem_offset. rewrite Hd, Hst, c_strides_elems by assumption. reflexivity.
      * unfold elem_ptr, elem_offset. cbn. rewrite c_strides_elems by assumption. reflexivity.
      * unfold h_ok. cbn [fst snd]. destruct (Hlv (h_next h)) as [-> ->].
        cbn. rewrite Z.eqb_refl. cbn. nia.
      * intros k Hk. specialize (Hin (type_size (m_type src) * d + k)).
        rewrite Hne in Hin. fold (product (m_shape src)) in Hin.
        rewrite !Z.mul_0_r, !Z.add_0_r, Z.add_0_l in Hin.
        rewrite Hin by nia. unfold byte. cbn.
        destruct (Z.eqb_spec b (h_next h)); [congruence|]. f_equal. lia.
    + intro Hfp. eapply h_store_blk; eauto. congruence.
    + intro Hfp. eapply h_store_blk; eauto. congruence.
Qed.

(** *** set_value *)
Section Fill.
Variable enc : Z -> Z -> list Z.

Definition wrote (m : mem) (v : Z) (D : list Z -> Prop) (h0 h : heap) : Prop :=
  (forall b, b_live (h_blk h b) = b_live (h_blk h0 b) /\ b_size (h_blk h b) = b_size (h_blk h0 b)) /\
  (forall idx p k, D idx -> elem_ptr m idx = Some p -> 0 <= k < type_size (m_type m) ->
     byte h (fst p) (snd p + k) = nth (Z.to_nat k) (enc (m_type m) v) 0) /\
  (forall b o, (forall idx, D idx -> ~ elem_byte m idx b o) -> byte h b o = byte h0 b o).

Lemma wrote_step m v (D : list Z -> Prop) h0 h idx p :
  wrote m v D h0 h -> elem_ptr m idx = Some p -> h_ok h0 p (type_size (m_type m)) = true ->
  (forall j q, D j -> j <> idx -> elem_ptr m j = Some q ->
     fst q <> fst p \/ snd q + type_size (m_type m) <= snd p \/ snd p + type_size (m_type m) <= snd q) ->
  exists h', store_elem enc h m idx v = Some h' /\ wrote m v (fun j => D j \/ j = idx) h0 h'.
Proof.
  intros (Hb & Hv & Ho) Hp Hok Hdis. unfold store_elem. rewrite Hp.
  assert (Hok' : h_ok h p (type_size (m_type m)) = true).
  { unfold h_ok in *. destruct (Hb (fst p)) as [-> ->]. exact Hok. }
  destruct (h_store_spec h p _ (fun i => nth (Z.to_nat i) (enc (m_type m) v) 0) Hok')
    as (h' & E & Hb' & Hv').
  exists h'. split; [exact E|]. split; [|split].
  - intro b. destruct (Hb b), (Hb' b). split; congruence.
  - intros j q k Hj Hq Hk. rewrite Hv'.
    destruct ((fst q =? fst p) && (snd p <=? snd q + k) && (snd q + k <? snd p + type_size (m_type m))) eqn:C.
    + destruct (list_eq_dec Z.eq_dec j idx) as [->|Hne].
      * rewrite Hq in Hp. inversion Hp; subst. f_equal. lia.
      * exfalso. destruct Hj as [Hj|Hj]; [|congruence].
        specialize (Hdis j q Hj Hne Hq). lia.
    + destruct Hj as [Hj|Hj]; [now apply (Hv j)|]. subst j.
      rewrite Hq in Hp. inversion Hp; subst. lia.
  - intros b o Hno. rewrite Hv'.
    destruct ((b =? fst p) && (snd p <=? o) && (o <? snd p + type_size (m_type m))) eqn:C.
    + exfalso. apply (Hno idx); [now right|]. exists p. split; [exact Hp|]. lia.
    + apply Ho. intros j Hj. apply Hno. now left.
Qed.

Lemma wrote_ext m v (D D' : list Z -> Prop) h0 h :
  (forall j, D j <-> D' j) -> wrote m v D h0 h -> wrote m v D' h0 h.
Proof.
  intros HD (A & B & C). split; [exact A|split].
  - intros idx p k Hj. apply B. now apply HD.
  - intros b o H. apply C. intros idx Hi. apply H. now apply HD.
Qed.

Lemma wrote_none m v h : wrote m v (fun _ => False) h h.
Proof. split; [auto|split]; [tauto|auto]. Qed.

Lemma set_value_lemma h m v :
  supported_fill (m_type m) -> m_loc m = MEM_CPU -> is_read_only (Some m) = false ->
  (1 <= length (m_shape m) <= 3)%nat -> m_num_dims m = Z.of_nat (length (m_shape m)) ->
  Forall (fun s => 0 <= s) (m_shape m) ->
  (forall idx, in_shape (m_shape m) idx = true ->
     exists p, elem_ptr m idx = Some p /\ h_ok h p (type_size (m_type m)) = true) ->
  (forall i j p q, in_shape (m_shape m) i = true -> in_shape (m_shape m) j = true -> i <> j ->
     elem_ptr m i = Some p -> elem_ptr m j = Some q ->
     fst p <> fst q \/ snd p + type_size (m_type m) <= snd q \/ snd q + type_size (m_type m) <= snd p) ->
  exists h', set_value enc h m v SUCCESS = Some (h', SUCCESS) /\
    wrote m v (fun idx => in_shape (m_shape m) idx = true) h h'.
Proof.
  intros Hty Hl Hro Hlen Hnd Hpos Hacc Hdis. unfold set_value. rewrite Hl, Hro. cbn [failed Z.eqb MEM_CPU negb].
  assert (Hs : (m_type m =? MEM_COMPLEX_DOUBLE) || (m_type m =? MEM_COMPLEX_FLOAT)
     || (m_type m =? MEM_DOUBLE) || (m_type m =? MEM_FLOAT) || (m_type m =? MEM_INT) = true)
    by (unfold supported_fill in Hty; lia).
  rewrite Hs. cbn [negb].
  assert (Hst : forall (D : list Z -> Prop) h1 idx, wrote m v D h h1 ->
     (forall j, D j -> in_shape (m_shape m) j = true) -> in_shape (m_shape m) idx = true ->
     exists h', store_elem enc h1 m idx v = Some h' /\ wrote m v (fun j => D j \/ j = idx) h h').
  { intros D h1 idx Hw HD Hi. destruct (Hacc idx Hi) as (p & Hp & Hok).
    apply (wrote_step m v D h h1 idx p); auto.
    intros j q Hj Hne Hq. specialize (Hdis j idx q p (HD j Hj) Hi Hne Hq Hp). lia. }
  assert (Hdimk : forall k, 0 <= k < m_num_dims m ->
            shape_dim (Some m) k = nth (Z.to_nat k) (m_shape m) 0).
  { intros k Hk. unfold shape_dim. replace ((k <? 0) || (k >=? m_num_dims m)) with false by lia. reflexivity. }
  rewrite Hnd in *.
  destruct (m_shape m) as [|s0 [|s1 [|s2 [|s3 sh]]]] eqn:Esh; cbn [length] in *; try lia;
    repeat match goal with H : Forall _ (_ :: _) |- _ => inversion H; subst; clear H end.
  - (* one dimension *)
    cbn [Z.of_nat Pos.of_succ_nat Pos.succ Z.eqb Pos.eqb].
    rewrite Hdimk by lia. change (Z.to_nat 0) with 0%nat. cbn [nth].
    destruct (for_inv (fun i h1 => wrote m v (fun idx => in_shape [i] idx = true) h h1)
      0 s0 (fun i h => store_elem enc h m [i] v) h) as (h' & E & Hw); auto.
    + eapply wrote_ext; [|apply wrote_none]. intros [|x [|y l]]; cbn; split; try discriminate; try tauto; lia.
    + intros i h1 Hi Hw.
      destruct (Hst _ h1 [i] Hw) as (h2 & E2 & Hw2);
        [intros [|x [|y l]] Hj; cbn in *; try discriminate; lia|cbn; lia|].
      exists h2. split; [exact E2|]. eapply wrote_ext; [|exact Hw2].
      intros [|x [|y l]]; cbn; (split; [intros [H|H]|intro H]); try discriminate; try lia.
      * inversion H. lia.
      * destruct (Z.eq_dec x i); [right; congruence|left; lia].
    + rewrite E. exists h'. auto.
  - (* two dimensions *)
    cbn [Z.of_nat Pos.of_succ_nat Pos.succ Z.eqb Pos.eqb].
    rewrite !Hdimk by lia. change (Z.to_nat 0) with 0%nat. change (Z.to_nat 1) with 1%nat. cbn [nth].
    destruct (for_inv (fun i h1 => wrote m v (fun idx => in_shape [i; s1] idx = true) h h1)
      0 s0 (fun i => for_ 0 s1 (fun j h => store_elem enc h m [i; j] v)) h) as (h' & E & Hw); auto.
    + eapply wrote_ext; [|apply wrote_none]. intros [|x [|y [|z l]]]; cbn; split; try discriminate; try tauto; lia.
    + intros i h1 Hi Hw.
      destruct (for_inv (fun j h1 => wrote m v (fun idx => in_shape [i; s1] idx = true
             \/ exists y, idx = [i; y] /\ 0 <= y < j) h h1)
        0 s1 (fun j h => store_elem enc h m [i; j] v) h1) as (h2 & E2 & Hw2); auto.
      * eapply wrote_ext; [|exact Hw]. intro idx. split; [auto|]. intros [H|(y & _ & ?)]; [auto|lia].
      * intros j h2 Hj Hw2.
        destruct (Hst _ h2 [i; j] Hw2) as (h3 & E3 & Hw3).
        -- intros idx [H|(y & -> & Hy)]; [|cbn; lia].
           destruct idx as [|x [|y [|z l]]]; cbn in *; try discriminate; lia.
        -- cbn; lia.
        -- exists h3. split; [exact E3|]. eapply wrote_ext; [|exact Hw3].
           intro idx. split.
           ++ intros [[H|(y & -> & Hy)]|H]; [now left|right; exists y; split; [auto|lia]|].
              right. exists j. split; [auto|lia].
           ++ intros [H|(y & -> & Hy)]; [now left; left|].
              destruct (Z.eq_dec y j); [right; congruence|left; right; exists y; split; [auto|lia]].
      * exists h2. split; [exact E2|]. eapply wrote_ext; [|exact Hw2].
        intros idx. split.
        -- intros [H|(y & -> & Hy)]; [|cbn; lia].
           destruct idx as [|x [|y [|z l]]]; cbn in *; try discriminate; lia.
        -- destruct idx as [|x [|y [|z l]]]; cbn; intro H; try discriminate; try (exfalso; lia).
           destruct (Z.eq_dec x i); [right; exists y; split; [congruence|lia]|left; lia].
    + rewrite E. exists h'. auto.
  - (* three dimensions *)
    cbn [Z.of_nat Pos.of_succ_nat Pos.succ Z.eqb Pos.eqb].
    rewrite !Hdimk by lia. change (Z.to_nat 0) with 0%nat. change (Z.to_nat 1) with 1%nat.
    change (Z.to_nat 2) with 2%nat. cbn [nth].
    destruct (for_inv (fun i h1 => wrote m v (fun idx => in_shape [i; s1; s2] idx = true) h h1)
      0 s0 (fun i => for_ 0 s1 (fun j => for_ 0 s2 (fun k h => store_elem enc h m [i; j; k] v))) h)
      as (h' & E & Hw); auto.
    + eapply wrote_ext; [|apply wrote_none]. intros [|x [|y [|z [|w l]]]]; cbn; split; try discriminate; try tauto; lia.
    + intros i h1 Hi Hw.
      destruct (for_inv (fun j h1 => wrote m v (fun idx => in_shape [i; s1; s2] idx = true
             \/ exists y z, idx = [i; y; z] /\ 0 <= y < j /\ 0 <= z < s2) h h1)
        0 s1 (fun j => for_ 0 s2 (fun k h => store_elem enc h m [i; j; k] v)) h1) as (h2 & E2 & Hw2); auto.
      * eapply wrote_ext; [|exact Hw]. intro idx. split; [auto|]. intros [H|(y & z & _ & ?)]; [auto|lia].
      * intros j h2 Hj Hw2.
        destruct (for_inv (fun k h1 => wrote m v (fun idx => in_shape [i; s1; s2] idx = true
             \/ (exists y z, idx = [i; y; z] /\ 0 <= y < j /\ 0 <= z < s2)
             \/ (exists z, idx = [i; j; z] /\ 0 <= z < k)) h h1)
          0 s2 (fun k h => store_elem enc h m [i; j; k] v) h2) as (h3 & E3 & Hw3); auto.
        -- eapply wrote_ext; [|exact Hw2]. intro idx. split; [tauto|].
           intros [H|[H|(z & _ & ?)]]; [auto|auto|lia].
        -- intros k h3 Hk Hw3.
           destruct (Hst _ h3 [i; j; k] Hw3) as (h4 & E4 & Hw4).
           ++ intros idx [H|[(y & z & -> & Hy)|(z & -> & Hz)]]; [|cbn; lia|cbn; lia].
              destruct idx as [|x [|y [|z [|w l]]]]; cbn in *; try discriminate; lia.
           ++ cbn; lia.
           ++ exists h4. split; [exact E4|]. eapply wrote_ext; [|exact Hw4].
              intro idx. split.
              ** intros [[H|[H|(z & -> & Hz)]]|H]; [auto|auto| |].
                 --- right; right. exists z. split; [auto|lia].
                 --- right; right. exists k. split; [auto|lia].
              ** intros [H|[H|(z & -> & Hz)]]; [auto|auto|].
                 destruct (Z.eq_dec z k); [right; congruence|].
                 left; right; right. exists z. split; [auto|lia].
        -- exists h3. split; [exact E3|]. eapply wrote_ext; [|exact Hw3].
           intro idx. split.
           ++ intros [H|[(y & z & -> & Hy)|(z & -> & Hz)]]; [auto| |].
              ** right. exists y, z. split; [auto|lia].
              ** right. exists j, z. split; [auto|lia].
           ++ intros [H|(y & z & -> & Hy & Hz)]; [auto|].
              destruct (Z.eq_dec y j); [subst; right; right; eauto|].
              right; left. exists y, z. split; [auto|lia].
      * exists h2. split; [exact E2|]. eapply wrote_ext; [|exact Hw2].
        intros idx. split.
        -- intros [H|(y & z & -> & Hy)]; [|cbn; lia].
           destruct idx as [|x [|y [|z [|w l]]]]; cbn in *; try discriminate; lia.
        -- destruct idx as [|x [|y [|z [|w l]]]]; cbn; intro H; try discriminate; try (exfalso; lia).
           destruct (Z.eq_dec x i); [right; exists y, z; split; [congruence|lia]|left; lia].
    + rewrite E. exists h'. auto.
Qed.

Lemma set_value_error h m v :
  m_loc m = MEM_CPU ->
  (~ supported_fill (m_type m) \/ ~ (1 <= m_num_dims m <= 3)) ->
  exists e, e <> SUCCESS /\ set_value enc h m v SUCCESS = Some (h, e).
Proof.
  intros Hl H. unfold set_value. rewrite Hl. cbn [failed Z.eqb MEM_CPU negb].
  destruct ((m_type m =? MEM_COMPLEX_DOUBLE) || (m_type m =? MEM_COMPLEX_FLOAT)
     || (m_type m =? MEM_DOUBLE) || (m_type m =? MEM_FLOAT) || (m_type m =? MEM_INT)) eqn:Es; cbn [negb].
  - assert (supported_fill (m_type m)) by (unfold supported_fill; lia).
    assert (~ (1 <= m_num_dims m <= 3)) by tauto.
    replace (m_num_dims m =? 1) with false by lia. replace (m_num_dims m =? 2) with false by lia.
    replace (m_num_dims m =? 3) with false by lia. exists ERR_INVALID_ARGUMENT; split; [congruence|auto].
  - destruct (m_num_dims m =? 1); [exists ERR_DATA_TYPE; split; [congruence|reflexivity]|].
    destruct (m_num_dims m =? 2); [exists ERR_DATA_TYPE; split; [congruence|reflexivity]|].
    destruct (m_num_dims m =? 3); [exists ERR_DATA_TYPE; split; [congruence|reflexivity]|].
    exists ERR_INVALID_ARGUMENT; split; [congruence|reflexivity].
Qed.
End Fill.
