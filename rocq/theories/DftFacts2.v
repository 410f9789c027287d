From Coq Require Import Reals Lra Lia.
From Verif Require Import Base BaseFacts Mem MemSpec Checks ChecksFacts CRing Cplx Clamp WHeightFacts FftSpec FftFacts Sets Dft DftSpec DftFacts.
Open Scope Z_scope.

Lemma failed_false st : failed st = false -> st = SUCCESS.
Proof. destruct st; cbn; intro; congruence. Qed.

Lemma shape4_dims (m : mem) a b c d : mem_wf m -> m_shape m = [a; b; c; d] ->
  shape_dim (Some m) 0 = a /\ shape_dim (Some m) 1 = b /\ shape_dim (Some m) 2 = c /\ shape_dim (Some m) 3 = d.
Proof.
  intros (_ & W & _) S. unfold shape_dim. rewrite W, S. cbn. auto.
Qed.

Lemma vis_md_ok (m : mem) md : mem_wf m -> get_vis_metadata (Some m) SUCCESS = (md, SUCCESS) ->
  exists nt nb nc np, m_shape m = [nt; nb; nc; np] /\ (np = 1 \/ np = 4) /\ md = Some (m_type m, m_loc m, nt, nb, nc, np).
Proof.
  intros W. unfold get_vis_metadata. cbn [failed]. destruct (is_complex (Some m)) eqn:C; cbn [negb]; [|discriminate].
  unfold check_num_dims. cbn [failed num_dims]. destruct (Z.eqb_spec (m_num_dims m) 4) as [E|E]; cbn [negb failed andb]; [|discriminate].
  pose proof W as (_ & W2 & _). rewrite E in W2.
  destruct (m_shape m) as [|nt [|nb [|nc [|np [|]]]]] eqn:S; cbn [length] in W2; try lia.
  destruct (shape4_dims m nt nb nc np W S) as (-> & -> & -> & ->).
  destruct (Z.eqb_spec np 4); destruct (Z.eqb_spec np 1); cbn [negb andb]; intro X; injection X as <-; try discriminate;
    exists nt, nb, nc, np; auto.
Qed.

Lemma shape_ok (m : mem) sh st : mem_wf m -> sh <> [] -> check_shape (Some m) sh st = SUCCESS -> st = SUCCESS /\ m_shape m = sh.
Proof.
  intros W N H. destruct (check_shape_ok (Some m) sh st) as (-> & m' & E & S); auto.
  - intros m' E. injection E as <-. now destruct W as (_ & ? & _).
  - injection E as <-. auto.
Qed.

Lemma writeable_ok m st : check_writeable m st = SUCCESS -> st = SUCCESS /\ is_read_only m = false.
Proof. unfold check_writeable. destruct st; cbn; try discriminate. destruct (is_read_only m); intro; [discriminate|auto]. Qed.

Lemma params_v00_ok dirs flux uvw vis st : mem_wf dirs -> mem_wf flux -> mem_wf uvw -> mem_wf vis ->
  check_params_v00 (Some dirs) (Some flux) (Some uvw) (Some vis) st = SUCCESS ->
  exists n nt nb nc np, m_shape dirs = [n; 3] /\ m_shape flux = [n; nc; np] /\ m_shape uvw = [nt; nb; nc; 3] /\
    m_shape vis = [nt; nb; nc; np] /\ (np = 1 \/ np = 4).
Proof.
  intros W1 W2 W3 W4. unfold check_params_v00. destruct (failed st) eqn:F; [intro; subst; discriminate|]. apply failed_false in F. subst st.
  destruct (get_vis_metadata (Some vis) SUCCESS) as [md st] eqn:M.
  assert (D : st <> SUCCESS \/ st = SUCCESS) by (destruct st; auto; left; discriminate).
  destruct md as [[[[[[ty loc] nt] nb] nc] np]|].
  - match goal with |- context [if ?b then _ else _] => destruct b; [discriminate|] end.
    match goal with |- context [if ?b then _ else _] => destruct b; [discriminate|] end.
    intro H. apply shape_ok in H; [|auto|discriminate]. destruct H as [H Su].
    apply shape_ok in H; [|auto|discriminate]. destruct H as [H Sf].
    apply shape_ok in H; [|auto|discriminate]. destruct H as [H Sd].
    apply writeable_ok in H. destruct H as [H _]. apply check_contig_ok in H. destruct H as [H _]. apply check_contig_ok in H. destruct H as [H _].
    apply check_contig_ok in H. destruct H as [H _]. apply check_contig_ok in H. destruct H as [H _]. subst st.
    destruct (vis_md_ok vis _ W4 M) as (nt' & nb' & nc' & np' & Sv & Hp & E). injection E as _ _ <- <- <- <-.
    exists (shape_dim (Some dirs) 0), nt, nb, nc, np. auto.
  - match goal with |- context [if ?b then _ else _] => destruct b; [discriminate|] end.
    match goal with |- context [if ?b then _ else _] => destruct b; [discriminate|] end.
    intro H. apply shape_ok in H; [|auto|discriminate]. destruct H as [H _].
    apply shape_ok in H; [|auto|discriminate]. destruct H as [H _].
    apply shape_ok in H; [|auto|discriminate]. destruct H as [H _].
    apply writeable_ok in H. destruct H as [H _]. apply check_contig_ok in H. destruct H as [H _]. apply check_contig_ok in H. destruct H as [H _].
    apply check_contig_ok in H. destruct H as [H _]. apply check_contig_ok in H. destruct H as [H _]. subst st.
    destruct (vis_md_ok vis _ W4 M) as (? & ? & ? & ? & _ & _ & E). discriminate.
Qed.

Lemma dim_size_ok m d n st : check_dim_size m d n st = SUCCESS -> st = SUCCESS /\ shape_dim m d = n.
Proof. unfold check_dim_size. destruct st; cbn; try discriminate. destruct (Z.eqb_spec (shape_dim m d) n); cbn; intro; [auto|discriminate]. Qed.

Lemma uvw_ok (m : mem) ty loc nt nb st : mem_wf m -> check_uvw (Some m) ty loc nt nb st = SUCCESS -> st = SUCCESS /\ m_shape m = [nt; nb; 3].
Proof.
  intros W H. assert (st = SUCCESS) as -> by (unfold check_uvw in H; destruct st; cbn [failed] in H; auto).
  apply check_uvw_ok in H; [|intros m' E; now injection E as <-]. destruct H as (_ & _ & _ & _ & m' & E & S). injection E as <-. auto.
Qed.

Lemma params_v01_ok dirs flux uvw vis st : mem_wf dirs -> mem_wf flux -> mem_wf uvw -> mem_wf vis -> m_num_dims dirs = 2 ->
  check_params_v01 (Some dirs) (Some flux) (Some uvw) (Some vis) st = SUCCESS ->
  exists n nt nb nc np, m_shape dirs = [n; 3] /\ m_shape flux = [n; nc; np] /\ m_shape uvw = [nt; nb; 3] /\
    m_shape vis = [nt; nb; nc; np] /\ (np = 1 \/ np = 4).
Proof.
  intros W1 W2 W3 W4 N. unfold check_params_v01. destruct (failed st) eqn:F; [intro; subst; discriminate|]. apply failed_false in F. subst st.
  destruct (get_vis_metadata (Some vis) SUCCESS) as [md st] eqn:M.
  assert (D2 : m_shape dirs = [shape_dim (Some dirs) 0; shape_dim (Some dirs) 1]).
  { pose proof W1 as (_ & X & _). rewrite N in X. destruct (m_shape dirs) as [|a [|b [|]]] eqn:S; cbn [length] in X; try lia.
    unfold shape_dim. rewrite N, S. reflexivity. }
  assert (K : forall loc nt nb nc np (md' : option (Z * Z * Z * Z * Z * Z)),
    (let st := check_writeable (Some vis) st in
     let st := check_c_contiguity (Some vis) st in
     let st := check_uvw (Some uvw) MEM_VOID loc nt nb st in
     let st := check_location (Some dirs) loc st in
     let st := check_c_contiguity (Some dirs) st in
     let ncomp := shape_dim (Some dirs) 0 in
     let st := check_dim_size (Some dirs) 1 3 st in
     if failed st then st else
     if negb (is_complex (Some flux)) then ERR_DATA_TYPE else
     let st := check_location (Some flux) loc st in
     let st := check_c_contiguity (Some flux) st in
     check_shape (Some flux) [ncomp; nc; np] st) = SUCCESS ->
    st = SUCCESS /\ m_shape uvw = [nt; nb; 3] /\ m_shape dirs = [shape_dim (Some dirs) 0; 3] /\ m_shape flux = [shape_dim (Some dirs) 0; nc; np]).
  { intros loc nt nb nc np _. cbv zeta. match goal with |- (if failed ?x then _ else _) = _ -> _ => destruct (failed x) eqn:Fx end.
    - intro H. rewrite H in Fx. discriminate.
    - match goal with |- context [if ?b then _ else _] => destruct b; [discriminate|] end.
      apply failed_false in Fx. intro H. apply shape_ok in H; [|auto|discriminate]. destruct H as [_ Sf].
      apply dim_size_ok in Fx. destruct Fx as [H Sd]. apply check_contig_ok in H. destruct H as [H _]. apply check_location_ok in H. destruct H as [H _].
      apply uvw_ok in H; [|auto]. destruct H as [H Su]. apply check_contig_ok in H. destruct H as [H _]. apply writeable_ok in H. destruct H as [H _].
      rewrite Sd in D2. auto. }
  destruct md as [[[[[[ty loc] nt] nb] nc] np]|].
  - intro H. apply (K loc nt nb nc np None) in H. destruct H as (-> & Su & Sd & Sf).
    destruct (vis_md_ok vis _ W4 M) as (nt' & nb' & nc' & np' & Sv & Hp & E). injection E as _ _ <- <- <- <-.
    exists (shape_dim (Some dirs) 0), nt, nb, nc, np. auto.
  - intro H. apply (K MEM_CPU 0 0 0 0 None) in H. destruct H as (-> & _).
    destruct (vis_md_ok vis _ W4 M) as (? & ? & ? & ? & _ & _ & E). discriminate.
Qed.

Lemma int_of_ok z : 0 <= z <= 2147483647 -> int_of z = z.
Proof. intro H. unfold int_of. rewrite Z.mod_small by lia. lia. Qed.

(** Overflow: an execution that ends has computed every position. *)
Lemma v00_overflow ncomp npol nchan nbase ntime dirs flux uvw vis r :
  dft_v00 ncomp npol nchan nbase ntime dirs flux uvw vis = Some r -> 1 <= ntime -> 1 <= nchan -> 1 <= nbase ->
  3 * (nchan * (nbase * (ntime - 1) + (nbase - 1)) + (nchan - 1)) <= 2147483647.
Proof.
  intros E Ht Hc Hb. unfold dft_v00 in E.
  destruct (for_some_at _ _ _ _ _ (ntime - 1) E ltac:(lia)) as (s1 & r1 & E1). clear E.
  destruct (for_some_at _ _ _ _ _ (nchan - 1) E1 ltac:(lia)) as (s2 & r2 & E2). clear E1.
  destruct (for_some_at _ _ _ _ _ (nbase - 1) E2 ltac:(lia)) as (s3 & r3 & E3). clear E2.
  cbv zeta in E3. unfold INDEX_4D in E3.
  assert (T : forall z w, to_int z = Some w -> w = z /\ z <= 2147483647).
  { intros z w. unfold to_int. destruct (_ && _) eqn:X; [|discriminate]. intro Y. injection Y as <-. lia. }
  destruct (to_int (nbase * (ntime - 1))) as [a1|] eqn:A1; [|discriminate]. cbn [bind] in E3. apply T in A1. destruct A1 as [-> _].
  destruct (to_int (nbase * (ntime - 1) + (nbase - 1))) as [a1|] eqn:A1; [|discriminate]. cbn [bind] in E3. apply T in A1. destruct A1 as [-> _].
  destruct (to_int (nchan * (nbase * (ntime - 1) + (nbase - 1)))) as [a1|] eqn:A1; [|discriminate]. cbn [bind] in E3. apply T in A1. destruct A1 as [-> _].
  destruct (to_int (nchan * (nbase * (ntime - 1) + (nbase - 1)) + (nchan - 1))) as [a1|] eqn:A1; [|discriminate]. cbn [bind] in E3. apply T in A1. destruct A1 as [-> _].
  destruct (to_int (3 * (nchan * (nbase * (ntime - 1) + (nbase - 1)) + (nchan - 1)))) as [a1|] eqn:A1; [|discriminate]. apply T in A1. destruct A1 as [_ A1]. exact A1.
Qed.
