(** Proofs about the argument checks. *)
From Verif Require Import Base BaseFacts Mem MemSpec MemFacts Checks.

Definition is_same_shape (c : check) : bool :=
  match c with CSameShape _ _ _ _ => true | _ => false end.

Ltac fst_cases st := destruct st; cbn; try congruence; auto.

Lemma check_shape_from_sticky m d sh st : st <> SUCCESS -> check_shape_from m d sh st = st.
Proof.
  revert d st; induction sh as [|n sh IH]; intros d st H; cbn; [reflexivity|].
  rewrite IH; unfold check_shape_dim; fst_cases st.
Qed.

Lemma run_check_sticky c st : is_same_shape c = false -> st <> SUCCESS -> run_check c st = st.
Proof.
  intros Hc H. destruct c; cbn in *; try discriminate; destruct st; try congruence; reflexivity.
Qed.

Lemma chain_sticky cs st :
  forallb (fun c => negb (is_same_shape c)) cs = true -> st <> SUCCESS ->
  fold_left (fun st c => run_check c st) cs st = st.
Proof.
  revert st; induction cs as [|c cs IH]; intros st H Hs; cbn in *; [reflexivity|].
  apply andb_prop in H. destruct H as [H1 H2]. rewrite run_check_sticky; auto.
  now destruct (is_same_shape c).
Qed.

Lemma chain_first_error cs :
  forallb (fun c => negb (is_same_shape c)) cs = true ->
  fold_left (fun st c => run_check c st) cs SUCCESS =
  match find (fun c => failed (run_check c SUCCESS)) cs with
  | Some c => run_check c SUCCESS
  | None => SUCCESS
  end.
Proof.
  induction cs as [|c cs IH]; intro H; [reflexivity|]. cbn [forallb find fold_left] in *.
  apply andb_prop in H. destruct H as [H1 H2].
  destruct (run_check c SUCCESS) eqn:E; cbn [failed]; auto;
    (rewrite chain_sticky; [congruence|assumption|congruence]).
Qed.

Lemma nth_shape_dim (m : mem) (d : nat) :
  m_num_dims m = Z.of_nat (length (m_shape m)) -> (d < length (m_shape m))%nat ->
  shape_dim (Some m) (Z.of_nat d) = nth d (m_shape m) 0.
Proof.
  intros Hn Hd. unfold shape_dim. rewrite Hn.
  replace ((Z.of_nat d <? 0) || (Z.of_nat d >=? Z.of_nat (length (m_shape m)))) with false by lia.
  now rewrite Nat2Z.id.
Qed.

Lemma skipn_nth_cons (l : list Z) (d : nat) n sh :
  skipn d l = n :: sh -> nth d l 0 = n /\ skipn (S d) l = sh /\ (d < length l)%nat.
Proof.
  revert d; induction l as [|x l IH]; intros [|d] H; cbn in *; try discriminate.
  - inversion H; subst. repeat split; auto. lia.
  - destruct (IH d H) as (A & B & C). repeat split; auto. lia.
Qed.

Lemma check_shape_from_spec (m : mem) (d : nat) sh :
  m_num_dims m = Z.of_nat (length (m_shape m)) ->
  (d + length sh = length (m_shape m))%nat ->
  check_shape_from (Some m) (Z.of_nat d) sh SUCCESS =
  if idx_eqb (skipn d (m_shape m)) sh then SUCCESS else ERR_INVALID_ARGUMENT.
Proof.
  intros Hn. revert d; induction sh as [|n sh IH]; intros d Hl; cbn [length] in Hl.
  - replace d with (length (m_shape m)) by lia. rewrite skipn_all. reflexivity.
  - destruct (skipn d (m_shape m)) as [|x l] eqn:E.
    { apply (f_equal (@length Z)) in E. rewrite skipn_length in E. cbn in E. lia. }
    destruct (skipn_nth_cons _ _ _ _ E) as (A & B & C).
    cbn [check_shape_from idx_eqb]. unfold check_shape_dim at 1. cbn [failed].
    replace (num_dims (Some m) <=? Z.of_nat d) with false by (cbn; lia).
    rewrite nth_shape_dim by assumption. rewrite A.
    replace (Z.of_nat d + 1) with (Z.of_nat (S d)) by lia.
    destruct (Z.eqb_spec x n) as [->|Hne]; cbn [negb andb].
    + rewrite IH by lia. now rewrite B.
    + rewrite check_shape_from_sticky by congruence. reflexivity.
Qed.

Lemma check_shape_spec (m : mem) sh :
  m_num_dims m = Z.of_nat (length (m_shape m)) ->
  (check_shape (Some m) sh SUCCESS = SUCCESS <-> m_shape m = sh) /\
  (m_shape m <> sh -> check_shape (Some m) sh SUCCESS = ERR_INVALID_ARGUMENT).
Proof.
  intro Hn. unfold check_shape. cbn [failed num_dims]. rewrite Hn.
  destruct (Z.eqb_spec (Z.of_nat (length (m_shape m))) (Z.of_nat (length sh))) as [E|E]; cbn [negb].
  - change 0 with (Z.of_nat 0). rewrite check_shape_from_spec by (auto; lia). cbn [skipn].
    destruct (idx_eqb_spec (m_shape m) sh); split; auto; try tauto; split; congruence.
  - split; auto. split; [discriminate|]. intros <-. congruence.
Qed.

Lemma view_shape_iota (f : Z -> Z) n d : map f (iota n d) = map (fun k => f (d + Z.of_nat k)) (seq 0 n).
Proof.
  revert d; induction n as [|n IH]; intro d; [reflexivity|].
  cbn [iota seq map]. rewrite IH. f_equal; [f_equal; lia|].
  rewrite <- (seq_shift n 0), map_map. apply map_ext. intro k. f_equal. lia.
Qed.

Lemma map_nth_seq (l : list Z) : map (fun k => nth k l 0) (seq 0 (length l)) = l.
Proof.
  induction l as [|x l IH]; [reflexivity|]. cbn [length seq map nth]. f_equal.
  rewrite <- (seq_shift (length l) 0), map_map. exact IH.
Qed.

Lemma make_view_ok (m : mem) rank :
  mem_wf m -> m_num_dims m = Z.of_nat rank ->
  make_view (Some m) rank SUCCESS =
  mk_view (m_data m) (m_shape m) (map (fun s => cdiv s (type_size (m_type m))) (m_stride m)).
Proof.
  intros (W1 & W2 & W3 & W4) Hr. unfold make_view. cbn [data_of failed].
  assert (rank = length (m_shape m)) as -> by lia. rewrite !view_shape_iota. f_equal.
  - transitivity (map (fun k => nth k (m_shape m) 0) (seq 0 (length (m_shape m))));
      [|apply map_nth_seq]. apply map_ext_in. intros k Hk.
    apply in_seq in Hk. rewrite Z.add_0_l. apply nth_shape_dim; [auto|lia].
  - transitivity (map (fun s => cdiv s (type_size (m_type m)))
      (map (fun k => nth k (m_stride m) 0) (seq 0 (length (m_stride m)))));
      [|now rewrite map_nth_seq]. rewrite map_map, W1.
    apply map_ext_in. intros k Hk. apply in_seq in Hk. rewrite Z.add_0_l.
    cbn [stride_elems]. unfold stride_elements_dim.
    replace (type_size (m_type m) >? 0) with true by lia. f_equal.
    unfold stride_bytes_dim. rewrite W2.
    replace ((Z.of_nat k <? 0) || (Z.of_nat k >=? Z.of_nat (length (m_shape m)))) with false by lia.
    now rewrite Nat2Z.id.
Qed.

Lemma make_view_failed m rank st :
  st <> SUCCESS -> v_shape (make_view m rank st) = repeat 0 rank.
Proof.
  intro H. unfold make_view. cbn [v_shape].
  assert (failed st = true) as -> by (destruct st; cbn; congruence).
  generalize 0 at 2. induction rank as [|r IH]; intro d; [reflexivity|]. cbn. now rewrite IH.
Qed.

Lemma check_and_view_status (m : option mem) ty rank loc :
  snd (check_and_view m ty rank loc SUCCESS) = SUCCESS <->
  mtype m = ty /\ num_dims m = Z.of_nat rank /\ location m = loc /\ is_read_only m = false.
Proof.
  unfold check_and_view, check_type, check_num_dims, check_location, check_writeable.
  cbn [snd failed]. destruct (Z.eqb_spec (mtype m) ty); cbn [negb failed]; [|split; [discriminate|tauto]].
  destruct (Z.eqb_spec (num_dims m) (Z.of_nat rank)); cbn [negb failed]; [|split; [discriminate|tauto]].
  destruct (Z.eqb_spec (location m) loc); cbn [negb failed]; [|split; [discriminate|tauto]].
  destruct (is_read_only m); cbn; split; try discriminate; try tauto.
  intros (_ & _ & _ & ?); discriminate.
Qed.

Lemma check_and_view_const_status (m : option mem) ty rank loc :
  snd (check_and_view_const m ty rank loc SUCCESS) = SUCCESS <->
  mtype m = ty /\ num_dims m = Z.of_nat rank /\ location m = loc.
Proof.
  unfold check_and_view_const, check_type, check_num_dims, check_location.
  cbn [snd failed]. destruct (Z.eqb_spec (mtype m) ty); cbn [negb failed]; [|split; [discriminate|tauto]].
  destruct (Z.eqb_spec (num_dims m) (Z.of_nat rank)); cbn [negb failed]; [|split; [discriminate|tauto]].
  destruct (Z.eqb_spec (location m) loc); cbn [negb failed]; [|split; [discriminate|tauto]].
  tauto.
Qed.

Lemma check_and_view_ok (m : mem) ty rank loc v :
  mem_wf m -> check_and_view (Some m) ty rank loc SUCCESS = (v, SUCCESS) ->
  v_shape v = m_shape m /\ forall idx, view_ptr (type_size ty) v idx = elem_ptr m idx.
Proof.
  intros W E. pose proof (proj1 (check_and_view_status (Some m) ty rank loc)) as S.
  rewrite E in S. destruct (S eq_refl) as (A & B & C & D). cbn in A, B.
  unfold check_and_view in E. injection E as Hv Hst. rewrite Hst in Hv.
  rewrite make_view_ok in Hv by assumption. subst v. split; [reflexivity|].
  intro idx. unfold view_ptr, elem_ptr, elem_offset. cbn. now rewrite A.
Qed.

Lemma check_and_view_const_ok (m : mem) ty rank loc v :
  mem_wf m -> check_and_view_const (Some m) ty rank loc SUCCESS = (v, SUCCESS) ->
  v_shape v = m_shape m /\ forall idx, view_ptr (type_size ty) v idx = elem_ptr m idx.
Proof.
  intros W E. pose proof (proj1 (check_and_view_const_status (Some m) ty rank loc)) as S.
  rewrite E in S. destruct (S eq_refl) as (A & B & C). cbn in A, B.
  unfold check_and_view_const in E. injection E as Hv Hst. rewrite Hst in Hv.
  rewrite make_view_ok in Hv by assumption. subst v. split; [reflexivity|].
  intro idx. unfold view_ptr, elem_ptr, elem_offset. cbn. now rewrite A.
Qed.

(** *** Data model *)
Lemma check_location_ok m loc st : check_location m loc st = SUCCESS -> st = SUCCESS /\ location m = loc.
Proof. unfold check_location. destruct st; cbn; try discriminate.
  destruct (Z.eqb_spec (location m) loc); cbn; intro; [auto|discriminate]. Qed.
Lemma check_type_ok m ty st : check_type m ty st = SUCCESS -> st = SUCCESS /\ mtype m = ty.
Proof. unfold check_type. destruct st; cbn; try discriminate.
  destruct (Z.eqb_spec (mtype m) ty); cbn; intro; [auto|discriminate]. Qed.
Lemma check_contig_ok m st : check_c_contiguity m st = SUCCESS -> st = SUCCESS /\ is_c_contiguous m = true.
Proof. unfold check_c_contiguity. destruct st; cbn; try discriminate.
  destruct (is_c_contiguous m); cbn; intro; [auto|discriminate]. Qed.
Lemma check_shape_status m sh st : check_shape m sh st = SUCCESS -> st = SUCCESS.
Proof. unfold check_shape. destruct st; cbn; try discriminate; auto. Qed.

Lemma check_shape_ok (m : option mem) sh st :
  (forall m', m = Some m' -> m_num_dims m' = Z.of_nat (length (m_shape m'))) -> sh <> [] ->
  check_shape m sh st = SUCCESS -> st = SUCCESS /\ exists m', m = Some m' /\ m_shape m' = sh.
Proof.
  intros Hw Hne H. pose proof (check_shape_status _ _ _ H); subst st. split; [reflexivity|].
  destruct m as [m|].
  - exists m. split; [reflexivity|]. now apply (check_shape_spec m sh (Hw m eq_refl)).
  - exfalso. unfold check_shape in H. cbn in H. destruct sh; [congruence|]. cbn in H. discriminate.
Qed.

Definition opt_wf (m : option mem) : Prop := forall m', m = Some m' -> mem_wf m'.

Lemma opt_wf_dims m : opt_wf m -> forall m', m = Some m' -> m_num_dims m' = Z.of_nat (length (m_shape m')).
Proof. intros H m' E. now destruct (H m' E) as (_ & ? & _). Qed.

Lemma type_tail m ty loc sh st :
  opt_wf m -> sh <> [] ->
  check_c_contiguity m
    (if negb (ty =? MEM_VOID)
     then check_type m ty (check_location m loc (check_shape m sh st))
     else check_location m loc (check_shape m sh st)) = SUCCESS ->
  st = SUCCESS /\ (ty = MEM_VOID \/ mtype m = ty) /\ location m = loc /\ is_c_contiguous m = true /\
  exists m', m = Some m' /\ m_shape m' = sh.
Proof.
  intros W Hne H. apply check_contig_ok in H. destruct H as [H Hc].
  destruct (Z.eqb_spec ty MEM_VOID) as [Ev|Ev]; cbn [negb] in H.
  - apply check_location_ok in H. destruct H as [H Hl].
    apply (check_shape_ok _ _ _ (opt_wf_dims _ W) Hne) in H. tauto.
  - apply check_type_ok in H. destruct H as [H Ht].
    apply check_location_ok in H. destruct H as [H Hl].
    apply (check_shape_ok _ _ _ (opt_wf_dims _ W) Hne) in H. tauto.
Qed.

Lemma check_uvw_ok m ty loc nt nb :
  opt_wf m -> check_uvw m ty loc nt nb SUCCESS = SUCCESS ->
  (mtype m = MEM_FLOAT \/ mtype m = MEM_DOUBLE) /\ (ty = MEM_VOID \/ mtype m = ty) /\
  location m = loc /\ is_c_contiguous m = true /\
  exists m', m = Some m' /\ m_shape m' = [nt; nb; 3].
Proof.
  intros W H. unfold check_uvw in H. cbn [failed] in H.
  apply type_tail in H; [|assumption|congruence]. destruct H as [H R].
  split; [|exact R]. destruct R as (_ & _ & _ & m' & -> & _).
  destruct (is_floating_point (Some m')) eqn:F; [|discriminate].
  cbn in F |- *. destruct (m_data m'); cbn in F; [lia|discriminate].
Qed.

Lemma check_vis_ok m ty loc nt nb nc np :
  opt_wf m -> check_vis m ty loc nt nb nc np SUCCESS = SUCCESS ->
  is_complex m = true /\ (ty = MEM_VOID \/ mtype m = ty) /\
  location m = loc /\ is_c_contiguous m = true /\
  exists m', m = Some m' /\ m_shape m' = [nt; nb; nc; np].
Proof.
  intros W H. unfold check_vis in H. cbn [failed] in H.
  destruct (is_complex m) eqn:C; cbn [negb] in H; [|discriminate].
  apply type_tail in H; [|assumption|congruence]. tauto.
Qed.

Lemma check_weights_ok m ty loc nt nb nc np :
  opt_wf m -> check_weights m ty loc nt nb nc np SUCCESS = SUCCESS ->
  is_complex m = false /\ (ty = MEM_VOID \/ mtype m = ty) /\
  location m = loc /\ is_c_contiguous m = true /\
  exists m', m = Some m' /\ m_shape m' = [nt; nb; nc; np].
Proof.
  intros W H. unfold check_weights in H. cbn [failed] in H.
  destruct (is_complex m) eqn:C; [discriminate|].
  apply type_tail in H; [|assumption|congruence]. tauto.
Qed.

Lemma uvw_dims (m : mem) nt nb :
  mem_wf m -> m_shape m = [nt; nb; 3] ->
  num_dims (Some m) = 3 /\ shape_dim (Some m) 0 = nt /\ shape_dim (Some m) 1 = nb /\ shape_dim (Some m) 2 = 3.
Proof. intros (_ & W & _) E. unfold shape_dim, num_dims. rewrite W, E. cbn. auto. Qed.

Lemma four_dims (m : mem) a b c d :
  mem_wf m -> m_shape m = [a; b; c; d] ->
  num_dims (Some m) = 4 /\ shape_dim (Some m) 0 = a /\ shape_dim (Some m) 1 = b /\
  shape_dim (Some m) 2 = c /\ shape_dim (Some m) 3 = d.
Proof. intros (_ & W & _) E. unfold shape_dim, num_dims. rewrite W, E. cbn. auto. Qed.

Lemma data_model_lemma vis uvw wt tv tu tw loc nt nb nc np :
  opt_wf vis -> opt_wf uvw -> opt_wf wt ->
  check_weights wt tw loc nt nb nc np
    (check_uvw uvw tu loc nt nb (check_vis vis tv loc nt nb nc np SUCCESS)) = SUCCESS ->
  (is_complex vis = true /\ is_c_contiguous vis = true /\ (tv = MEM_VOID \/ mtype vis = tv) /\
   (exists m, vis = Some m /\ m_shape m = [nt; nb; nc; np])) /\
  ((mtype uvw = MEM_FLOAT \/ mtype uvw = MEM_DOUBLE) /\ is_c_contiguous uvw = true /\
   (tu = MEM_VOID \/ mtype uvw = tu) /\ (exists m, uvw = Some m /\ m_shape m = [nt; nb; 3])) /\
  (is_complex wt = false /\ is_c_contiguous wt = true /\ (tw = MEM_VOID \/ mtype wt = tw) /\
   (exists m, wt = Some m /\ m_shape m = [nt; nb; nc; np])) /\
  get_uvw_metadata uvw SUCCESS = (Some (mtype uvw, loc, nt, nb), SUCCESS) /\
  get_weights_metadata wt SUCCESS = (Some (mtype wt, loc, nt, nb, nc, np), SUCCESS) /\
  get_vis_metadata vis SUCCESS =
    (Some (mtype vis, loc, nt, nb, nc, np),
     if (np =? 4) || (np =? 1) then SUCCESS else ERR_INVALID_ARGUMENT).
Proof.
  intros W1 W2 W3 H.
  assert (H1 : check_uvw uvw tu loc nt nb (check_vis vis tv loc nt nb nc np SUCCESS) = SUCCESS).
  { revert H. destruct (check_uvw uvw tu loc nt nb _); auto; discriminate. }
  assert (H2 : check_vis vis tv loc nt nb nc np SUCCESS = SUCCESS).
  { revert H1. destruct (check_vis _ _ _ _ _ _ _ _); auto; discriminate. }
  rewrite H2 in H1. rewrite H2, H1 in H.
  destruct (check_weights_ok _ _ _ _ _ _ _ W3 H) as (A1 & A2 & A3 & A4 & m3 & A5 & A6).
  destruct (check_uvw_ok _ _ _ _ _ W2 H1) as (B1 & B2 & B3 & B4 & m2 & B5 & B6).
  destruct (check_vis_ok _ _ _ _ _ _ _ W1 H2) as (C1 & C2 & C3 & C4 & m1 & C5 & C6).
  repeat split; eauto.
  - unfold get_uvw_metadata. cbn [failed].
    destruct (uvw_dims m2 nt nb (W2 m2 B5) B6) as (D1 & D2 & D3 & D4). subst uvw.
    rewrite D2, D3, B3. unfold check_dim_size, check_num_dims. rewrite D1, D4.
    assert (is_floating_point (Some m2) = true).
    { cbn in B1, B4 |- *. destruct (m_data m2); [cbn; lia|discriminate]. }
    rewrite H0. cbn [negb orb].
    assert (is_complex (Some m2) = false) as ->.
    { cbn in B1 |- *. destruct B1 as [-> | ->]; destruct (m_data m2); reflexivity. }
    reflexivity.
  - unfold get_weights_metadata. cbn [failed].
    destruct (four_dims m3 nt nb nc np (W3 m3 A5) A6) as (D1 & D2 & D3 & D4 & D5). subst wt.
    rewrite D1, A1, D2, D3, D4, D5, A3. reflexivity.
  - unfold get_vis_metadata. cbn [failed]. rewrite C1. cbn [negb].
    destruct (four_dims m1 nt nb nc np (W1 m1 C5) C6) as (D1 & D2 & D3 & D4 & D5). subst vis.
    rewrite D2, D3, D4, D5, C3. unfold check_num_dims. rewrite D1. cbn [failed Z.eqb negb andb].
    change (4 =? 4) with true. cbn [negb failed andb].
    destruct (Z.eqb_spec np 4), (Z.eqb_spec np 1); reflexivity.
Qed.

(** *** is_matching *)
Lemma all2_eqb_eq a b : length a = length b -> (all2 Z.eqb a b = true <-> a = b).
Proof.
  revert b; induction a as [|x a IH]; intros [|y b] H; simpl in *; try lia; [tauto|].
  rewrite andb_true_iff, IH by lia. rewrite Z.eqb_eq.
  split; [intros []; congruence|intro E; inversion E; auto].
Qed.

Lemma is_matching_spec a b cl :
  mem_wf a -> mem_wf b ->
  (is_matching a b cl = true <->
   m_type a = m_type b /\ (cl = true -> m_loc a = m_loc b) /\
   m_shape a = m_shape b /\ m_stride a = m_stride b).
Proof.
  intros (A1 & A2 & A3 & A4) (B1 & B2 & B3 & B4). unfold is_matching.
  destruct (Z.eqb_spec (m_type a) (m_type b)) as [Et|Et]; cbn [negb].
  2:{ split; [discriminate|tauto]. }
  destruct cl; cbn [andb].
  - destruct (Z.eqb_spec (m_loc a) (m_loc b)) as [El|El]; cbn [negb].
    2:{ split; [discriminate|]. intros (_ & H & _). tauto. }
    destruct (Z.eqb_spec (m_num_dims a) (m_num_dims b)) as [En|En]; cbn [negb].
    + rewrite andb_true_iff, !all2_eqb_eq by lia. tauto.
    + split; [discriminate|]. intros (_ & _ & H & _). rewrite H in A2. lia.
  - destruct (Z.eqb_spec (m_num_dims a) (m_num_dims b)) as [En|En]; cbn [negb].
    + rewrite andb_true_iff, !all2_eqb_eq by lia. split; [intros []; repeat split; auto; discriminate|tauto].
    + split; [discriminate|]. intros (_ & _ & H & _). rewrite H in A2. lia.
Qed.
