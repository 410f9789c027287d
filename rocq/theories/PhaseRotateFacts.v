From Coq Require Import Reals Lra Lia.
From Verif Require Import Base BaseFacts Mem MemSpec Checks ChecksFacts CRing Cplx Sets Dft DftSpec DftFacts2 PhaseRotate PhaseRotateSpec.
Open Scope Z_scope.

(** Like [sets], with the old value *)
Lemma rotate_uvw_ok alias num m (uin uout : nd R) n n1 : 0 <= num -> 3 * num <= n -> 3 * num <= n1 -> shape uin = [n1] -> shape uout = [n] -> (alias = true -> uin = uout) ->
  exists r, rotate_uvw alias num m uin uout = Some r /\ shape r = [n] /\
    (forall i, 0 <= i < num -> row r i = V (m 0%Z * vx (row uin i) + m 1%Z * vy (row uin i) + m 2%Z * vz (row uin i))
      (m 3%Z * vx (row uin i) + m 4%Z * vy (row uin i) + m 5%Z * vz (row uin i)) (m 6%Z * vx (row uin i) + m 7%Z * vy (row uin i) + m 8%Z * vz (row uin i))) /\
    (forall k, k < 0 \/ 3 * num <= k -> elem r [k] = elem uout [k]).
Proof.
  intros Hn Hb Hb1 Si So Al. unfold rotate_uvw.
  match goal with |- context [for_ 0 num ?b uout] => destruct (for_inv (fun k (x : nd R) => shape x = [n] /\
    (forall i, 0 <= i < k -> row x i = V (m 0%Z * vx (row uin i) + m 1%Z * vy (row uin i) + m 2%Z * vz (row uin i))
      (m 3%Z * vx (row uin i) + m 4%Z * vy (row uin i) + m 5%Z * vz (row uin i)) (m 6%Z * vx (row uin i) + m 7%Z * vy (row uin i) + m 8%Z * vz (row uin i))) /\
    (forall j, j < 0 \/ 3 * k <= j -> elem x [j] = elem uout [j])) 0 num b uout Hn) as (r & E & P) end.
  - split; [auto|]. split; [lia|auto].
  - intros i x Hi (S & P & Q).
    set (src := if alias then x else uin).
    assert (Ss : shape src = [n] \/ shape src = [n1]) by (unfold src; destruct alias; auto).
    assert (Es : forall k, 0 <= k < 3 -> elem src [i * 3 + k] = elem uin [3 * i + k]).
    { intros k Hk. unfold src. destruct alias; [rewrite Q by lia; rewrite (Al eq_refl)|]; do 2 f_equal; lia. }
    rewrite !rd_some by (destruct Ss as [ -> | -> ]; apply in_shape_1; lia). cbn [bind]. rewrite !Es by lia.
    rewrite wr_some by (rewrite S; apply in_shape_1; lia). cbn [bind].
    rewrite wr_some by (rewrite shape_upd, S; apply in_shape_1; lia). cbn [bind].
    rewrite wr_some by (rewrite !shape_upd, S; apply in_shape_1; lia).
    eexists. split; [reflexivity|]. split; [now rewrite !shape_upd|]. split.
    + intros j Hj. destruct (Z.eq_dec j i) as [->|N].
      * unfold row. cbn [vx vy vz]. rewrite (Z.mul_comm i 3). f_equal.
        -- rewrite 2 elem_upd_other by (intro X; injection X; lia). now rewrite elem_upd_same.
        -- rewrite elem_upd_other by (intro X; injection X; lia). now rewrite elem_upd_same.
        -- now rewrite elem_upd_same.
      * rewrite <- P by lia. unfold row. rewrite !elem_upd_other by (intro X; injection X; lia). reflexivity.
    + intros j Hj. rewrite !elem_upd_other by (intro X; injection X; lia). apply Q. lia.
  - exists r. auto.
Qed.

Lemma rotate_vis_ok alias nt nb nc np f0 df dl dm dn (uvw : nd R) (vin vout : nd C) n : nt * nb * nc * np <= n ->
  shape uvw = [3 * (nt * nb)] -> shape vin = [nt * nb * nc * np] -> shape vout = [n] -> (alias = true -> vin = vout) ->
  exists r, rotate_vis alias nt nb nc np f0 df dl dm dn uvw vin vout = Some r /\ shape r = [n] /\
    forall t b c p, 0 <= t < nt -> 0 <= b < nb -> 0 <= c < nc -> 0 <= p < np ->
      elem r [pos4 nb nc np t b c p] = Cmul (elem vin [pos4 nb nc np t b c p])
        (cis (2 * PI * ((f0 + IZR c * df) / c_0) * (vx (row uvw (nb * t + b)) * dl + vy (row uvw (nb * t + b)) * dm + vz (row uvw (nb * t + b)) * dn))).
Proof.
  intros Hn Su Si So Al.
  set (U (idx : list Z) (old new : C) := forall t b c p, 0 <= t < nt -> 0 <= b < nb -> 0 <= c < nc -> 0 <= p < np -> idx = [pos4 nb nc np t b c p] ->
    new = Cmul (if alias then old else elem vin idx)
        (cis (2 * PI * ((f0 + IZR c * df) / c_0) * (vx (row uvw (nb * t + b)) * dl + vy (row uvw (nb * t + b)) * dm + vz (row uvw (nb * t + b)) * dn)))).
  assert (X : changes [n]
    (own_all 0 nt (fun t => own_all 0 nb (fun b => own_all 0 nc (fun c => own_all 0 np (fun p => idx_eqb [pos4 nb nc np t b c p])))))
    U (rotate_vis alias nt nb nc np f0 df dl dm dn uvw vin)).
  { unfold rotate_vis. apply changes_for.
    2:{ intros i j idx Hi Hj Oi Oj. repeat (apply own_all_true in Oi; destruct Oi as (? & ? & Oi)). repeat (apply own_all_true in Oj; destruct Oj as (? & ? & Oj)).
      revert Oi Oj. destruct (idx_eqb_spec [pos4 nb nc np i x x0 x1] idx) as [<-|]; [|discriminate].
      destruct (idx_eqb_spec [pos4 nb nc np j x2 x3 x4] [pos4 nb nc np i x x0 x1]) as [E|]; [|discriminate].
      injection E as E. apply pos4_inj in E; auto. intuition. }
    intros t Ht. apply changes_for.
    2:{ intros i j idx Hi Hj Oi Oj. repeat (apply own_all_true in Oi; destruct Oi as (? & ? & Oi)). repeat (apply own_all_true in Oj; destruct Oj as (? & ? & Oj)).
      revert Oi Oj. destruct (idx_eqb_spec [pos4 nb nc np t i x x0] idx) as [<-|]; [|discriminate].
      destruct (idx_eqb_spec [pos4 nb nc np t j x1 x2] [pos4 nb nc np t i x x0]) as [E|]; [|discriminate].
      injection E as E. apply pos4_inj in E; auto. intuition. }
    intros b Hb.
    assert (R1 : forall k, 0 <= k < 3 -> rd uvw [3 * (nb * t + b) + 0 + k] = Some (elem uvw [3 * (nb * t + b) + k])).
    { intros k Hk. rewrite rd_some; [do 2 f_equal; f_equal; lia|]. rewrite Su. apply in_shape_1. nia. }
    eapply changes_ext.
    2:{ intros st Hst. cbv zeta. rewrite !R1 by lia. cbn [bind]. reflexivity. }
    apply changes_for.
    2:{ intros i j idx Hi Hj Oi Oj. repeat (apply own_all_true in Oi; destruct Oi as (? & ? & Oi)). repeat (apply own_all_true in Oj; destruct Oj as (? & ? & Oj)).
      revert Oi Oj. destruct (idx_eqb_spec [pos4 nb nc np t b i x] idx) as [<-|]; [|discriminate].
      destruct (idx_eqb_spec [pos4 nb nc np t b j x0] [pos4 nb nc np t b i x]) as [E|]; [|discriminate].
      injection E as E. apply pos4_inj in E; auto. intuition. }
    intros c Hc. apply changes_for.
    2:{ intros i j idx Hi Hj. destruct (idx_eqb_spec [pos4 nb nc np t b c i] idx) as [<-|]; [|discriminate].
      destruct (idx_eqb_spec [pos4 nb nc np t b c j] [pos4 nb nc np t b c i]) as [E|]; [|discriminate].
      injection E as E. apply pos4_inj in E; auto. intuition. }
    intros p Hp st Hst. change (np * (nc * (nb * t + b) + c) + p) with (pos4 nb nc np t b c p).
    pose proof (pos4_range nt nb nc np t b c p Ht Hb Hc Hp) as Rg.
    assert (I : in_shape [n] [pos4 nb nc np t b c p] = true) by (apply in_shape_1; lia).
    rewrite rd_some by (destruct alias; rewrite ?Hst, ?Si; apply in_shape_1; lia). cbn [bind].
    rewrite wr_some by (rewrite Hst; exact I). eexists. split; [reflexivity|]. split; [now rewrite shape_upd|]. split.
    - intros idx. destruct (idx_eqb_spec [pos4 nb nc np t b c p] idx) as [<-|]; [|discriminate]. intros _.
      rewrite elem_upd_same. intros t' b' c' p' Ht' Hb' Hc' Hp' E. injection E as E. apply pos4_inj in E; auto.
      destruct E as (<- & <- & <- & <-). destruct alias; reflexivity.
    - intros idx. destruct (idx_eqb_spec [pos4 nb nc np t b c p] idx) as [|N]; [discriminate|]. intros _. now rewrite elem_upd_other by auto. }
  destruct (X vout So) as (r & E & S & P & _). exists r. split; [exact E|]. split; [exact S|].
  intros t b c p Ht Hb Hc Hp. rewrite (P [pos4 nb nc np t b c p]) with (t := t) (b := b) (c := c) (p := p); auto.
  - destruct alias; [now rewrite <- (Al eq_refl)|reflexivity].
  - apply own_all_true. exists t. split; [auto|]. apply own_all_true. exists b. split; [auto|]. apply own_all_true. exists c. split; [auto|].
    apply own_all_true. exists p. split; [auto|]. apply idx_eqb_refl.
Qed.

(** What the checks establish *)
Lemma uvw_md_ok (m : mem) md st : mem_wf m -> get_uvw_metadata (Some m) st = (md, SUCCESS) ->
  exists nt nb, st = SUCCESS /\ m_shape m = [nt; nb; 3] /\ md = Some (m_type m, m_loc m, nt, nb).
Proof.
  intros W. unfold get_uvw_metadata. destruct (failed st) eqn:F; [intro X; injection X as _ ->; discriminate F|]. apply failed_false in F. subst st.
  match goal with |- context [check_num_dims _ _ ?s] => set (s0 := s) end.
  intro X. injection X as <- X. apply dim_size_ok in X. destruct X as [X D].
  unfold check_num_dims in X. destruct (failed s0) eqn:F; [rewrite X in F; discriminate|].
  cbn [num_dims] in X. destruct (Z.eqb_spec (m_num_dims m) 3) as [E|]; cbn [negb] in X; [|discriminate].
  pose proof W as (_ & W2 & _). rewrite E in W2.
  destruct (m_shape m) as [|a [|b [|c [|]]]] eqn:Sh; cbn [length] in W2; try lia.
  unfold shape_dim in D. rewrite E, ?Sh in D. change (c = 3) in D. subst c. exists a, b. split; [reflexivity|]. split; [reflexivity|].
  unfold shape_dim. rewrite E, ?Sh. reflexivity.
Qed.

Lemma rotate_uvw_checks uin uout st : mem_wf uin -> mem_wf uout ->
  (let st := check_writeable (Some uout) st in
   let (md, st) := get_uvw_metadata (Some uin) st in
   let '(ty, loc, nt, nb) := match md with Some x => x | None => (MEM_VOID, MEM_CPU, 0, 0) end in
   check_uvw (Some uout) ty loc nt nb st) = SUCCESS ->
  exists nt nb, m_shape uin = [nt; nb; 3] /\ m_shape uout = [nt; nb; 3].
Proof.
  intros W1 W2. cbv zeta. destruct (get_uvw_metadata (Some uin) (check_writeable (Some uout) st)) as [md s1] eqn:E.
  intro H. assert (s1 = SUCCESS) as ->.
  { destruct s1; try reflexivity; exfalso; destruct md as [[[[? ?] ?] ?]|]; unfold check_uvw in H; cbn in H; discriminate. }
  apply uvw_md_ok in E; [|exact W1]. destruct E as (nt & nb & _ & S & ->). apply uvw_ok in H; [|exact W2]. exists nt, nb. tauto.
Qed.

Lemma vis_chk_ok (m : mem) ty loc nt nb nc np st : mem_wf m -> check_vis (Some m) ty loc nt nb nc np st = SUCCESS -> st = SUCCESS /\ m_shape m = [nt; nb; nc; np].
Proof.
  intros W. unfold check_vis. destruct (failed st) eqn:F; [intro; subst; discriminate|]. apply failed_false in F. subst st.
  destruct (negb _); [discriminate|]. intro H.
  assert (X : check_shape (Some m) [nt; nb; nc; np] SUCCESS = SUCCESS).
  { destruct (check_shape (Some m) [nt; nb; nc; np] SUCCESS) eqn:S; try reflexivity; exfalso;
      unfold check_location in H; cbn [failed] in H; destruct (negb (ty =? MEM_VOID)); unfold check_type, check_c_contiguity in H; cbn [failed] in H; discriminate. }
  apply shape_ok in X; [tauto|auto|discriminate].
Qed.
