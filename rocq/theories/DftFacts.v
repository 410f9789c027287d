From Coq Require Import Reals Lra Lia.
From Verif Require Import Base BaseFacts Mem Checks ChecksFacts CRing Cplx Clamp WHeightFacts FftSpec FftFacts Sets Dft DftSpec.
Open Scope Z_scope.

Lemma INDEX_3D_ok n3 n2 n1 i j k : 0 <= i < n3 -> 0 <= j < n2 -> 0 <= k < n1 -> n3 * n2 * n1 <= 2147483648 ->
  INDEX_3D n2 n1 i j k = Some (pos3 n2 n1 i j k).
Proof.
  intros H1 H2 H3 B. unfold INDEX_3D.
  pose proof (pos3_range n3 n2 n1 i j k H1 H2 H3) as R. unfold pos3 in *.
  assert (0 <= n2 * i) by nia. assert (n2 * i + j <= n1 * (n2 * i + j)) by nia.
  rewrite (to_int_ok (n2 * i)) by lia. cbn [bind]. rewrite to_int_ok by lia. cbn [bind].
  rewrite to_int_ok by lia. cbn [bind]. now rewrite to_int_ok by lia.
Qed.

Lemma INDEX_4D_ok n4 n3 n2 n1 i j k l : 0 <= i < n4 -> 0 <= j < n3 -> 0 <= k < n2 -> 0 <= l < n1 -> n4 * n3 * n2 * n1 <= 2147483648 ->
  INDEX_4D n3 n2 n1 i j k l = Some (pos4 n3 n2 n1 i j k l).
Proof.
  intros H1 H2 H3 H4 B. unfold INDEX_4D.
  pose proof (pos4_range n4 n3 n2 n1 i j k l H1 H2 H3 H4) as R. unfold pos4 in *.
  assert (0 <= n3 * i) by nia. assert (n3 * i + j <= n2 * (n3 * i + j)) by nia.
  assert (n2 * (n3 * i + j) + k <= n1 * (n2 * (n3 * i + j) + k)) by nia.
  rewrite (to_int_ok (n3 * i)) by lia. cbn [bind]. rewrite to_int_ok by lia. cbn [bind].
  rewrite to_int_ok by lia. cbn [bind]. rewrite to_int_ok by lia. cbn [bind].
  rewrite to_int_ok by lia. cbn [bind]. now rewrite to_int_ok by lia.
Qed.

Section Dft.
Context (ncomp npol nchan nbase ntime : Z) (dirs : nd R) (flux : nd C).
Context (Hn : 0 <= ncomp) (Hp : 1 <= npol <= 4).
Context (Bd : 3 * ncomp <= 2147483648) (Bf : ncomp * nchan * npol <= 2147483648).
Context (Sd : shape dirs = [3 * ncomp]) (Sf : shape flux = [ncomp * nchan * npol]).

Lemma accumulate_ok c factor uu vv ww : 0 <= c < nchan ->
  exists local, accumulate ncomp npol nchan c factor uu vv ww dirs flux (mk_nd [4] (fun _ => C0)) = Some local /\ shape local = [4] /\
    forall p, 0 <= p < npol -> elem local [p] =
      csum 0 ncomp (fun s => Cmul (cis (-2 * PI * factor * dot3 dirs s uu vv ww)) (flux_of nchan npol flux s c p)).
Proof.
  intro Hc. unfold accumulate.
  match goal with |- context [for_ 0 ncomp ?b ?q0] => destruct (for_inv (fun k (x : nd C) => shape x = [4] /\ forall p, 0 <= p < npol -> elem x [p] =
    csum 0 k (fun s => Cmul (cis (-2 * PI * factor * dot3 dirs s uu vv ww)) (flux_of nchan npol flux s c p))) 0 ncomp b q0 Hn) as (x & E & S & P) end.
  - split; [reflexivity|]. intros p _. cbn [elem]. now rewrite csum_empty by lia.
  - intros s x Hs (S & P). rewrite to_int_ok by lia. cbn [bind].
    rewrite !rd_some by (rewrite Sd; apply in_shape_1; lia). cbn [bind].
    rewrite (INDEX_3D_ok ncomp nchan npol s c 0) by lia. cbn [bind].
    set (ph := cis _).
    match goal with |- context [for_ 0 npol ?b x] => destruct (for_inv (fun k (y : nd C) => shape y = [4] /\ forall p, 0 <= p < npol -> elem y [p] =
      if p <? k then Cadd (elem x [p]) (Cmul ph (flux_of nchan npol flux s c p)) else elem x [p]) 0 npol b x) as (y & E & Sy & Py) end.
    + lia.
    + split; [exact S|]. intros p Hp'. now replace (p <? 0) with false by lia.
    + intros p y Hp' (Sy & Py).
      assert (R : 0 <= pos3 nchan npol s c 0 + p < ncomp * nchan * npol).
      { pose proof (pos3_range ncomp nchan npol s c p Hs Hc Hp'). unfold pos3 in *. lia. }
      rewrite rd_some by (rewrite Sf; apply in_shape_1; exact R). cbn [bind].
      rewrite rd_some by (rewrite Sy; apply in_shape_1; lia). cbn [bind].
      rewrite wr_some by (rewrite Sy; apply in_shape_1; lia).
      eexists. split; [reflexivity|]. split; [exact Sy|]. intros q Hq.
      destruct (Z.eq_dec q p) as [->|N].
      * rewrite elem_upd_same, Py by auto. replace (p <? p) with false by lia. replace (p <? p + 1) with true by lia.
        unfold flux_of, pos3. do 4 f_equal. lia.
      * rewrite elem_upd_other by congruence. rewrite Py by auto. now replace (q <? p + 1) with (q <? p) by lia.
    + exists y. split; [exact E|]. split; [exact Sy|]. intros p Hp'. rewrite Py by auto. replace (p <? npol) with true by lia.
      rewrite csum_snoc by lia. rewrite P by auto. f_equal. unfold ph. unfold dot3, direction.
      replace (3 * s + 0) with (3 * s) by lia. reflexivity.
  - exists x. auto.
Qed.

Context (Bv : ntime * nbase * nchan * npol <= 2147483648).

Lemma write_out_sets (V : list Z -> C -> Prop) t b c local : 0 <= t < ntime -> 0 <= b < nbase -> 0 <= c < nchan -> shape local = [4] ->
  (forall p, 0 <= p < npol -> V [pos4 nbase nchan npol t b c p] (elem local [p])) ->
  sets [ntime * nbase * nchan * npol] (own_all 0 npol (fun p => idx_eqb [pos4 nbase nchan npol t b c p])) V (write_out npol nchan nbase t b c local).
Proof.
  intros Ht Hb Hc S HV. unfold write_out. apply sets_for. intros p Hp'.
  eapply sets_ext; [apply (sets_wr _ [pos4 nbase nchan npol t b c p] (elem local [p]))|reflexivity|].
  - apply in_shape_1. now apply pos4_range.
  - auto.
  - intros st Hst. rewrite (INDEX_4D_ok ntime nbase nchan npol) by auto. cbn [bind].
    rewrite rd_some by (rewrite S; apply in_shape_1; lia). reflexivity.
Qed.

Definition V_of (val : Z -> Z -> Z -> Z -> C) (idx : list Z) (x : C) : Prop :=
  forall t b c p, 0 <= t < ntime -> 0 <= b < nbase -> 0 <= c < nchan -> 0 <= p < npol ->
    idx = [pos4 nbase nchan npol t b c p] -> x = val t b c p.

Lemma V_of_ok val t b c p x : 0 <= t < ntime -> 0 <= b < nbase -> 0 <= c < nchan -> 0 <= p < npol ->
  x = val t b c p -> V_of val [pos4 nbase nchan npol t b c p] x.
Proof.
  intros Ht Hb Hc Hp' -> t' b' c' p' Ht' Hb' Hc' Hp'' E. injection E as E.
  apply pos4_inj in E; auto. now destruct E as (-> & -> & -> & ->).
Qed.

Lemma v00_ok (uvw : nd R) (vis : nd C) : 3 * (ntime * nbase * nchan) <= 2147483648 ->
  shape uvw = [ntime * nbase * nchan * 3] -> shape vis = [ntime * nbase * nchan * npol] ->
  exists r, dft_v00 ncomp npol nchan nbase ntime dirs flux uvw vis = Some r /\ shape r = [ntime * nbase * nchan * npol] /\
    forall t b c p, 0 <= t < ntime -> 0 <= b < nbase -> 0 <= c < nchan -> 0 <= p < npol ->
      elem r [pos4 nbase nchan npol t b c p] = vis00 ncomp npol nchan nbase dirs flux uvw t b c p.
Proof.
  intros Bu Su Sv.
  assert (X : sets [ntime * nbase * nchan * npol]
    (own_all 0 ntime (fun t => own_all 0 nchan (fun c => own_all 0 nbase (fun b => own_all 0 npol (fun p => idx_eqb [pos4 nbase nchan npol t b c p])))))
    (V_of (vis00 ncomp npol nchan nbase dirs flux uvw)) (dft_v00 ncomp npol nchan nbase ntime dirs flux uvw)).
  { unfold dft_v00. apply sets_for. intros t Ht. apply sets_for. intros c Hc. apply sets_for. intros b Hb.
    set (co i := elem uvw [pos4 nbase nchan 3 t b c i]).
    destruct (accumulate_ok c 1 (co 0) (co 1) (co 2) Hc) as (local & E & S & P).
    eapply sets_ext; [apply (write_out_sets _ t b c local Ht Hb Hc S)|reflexivity|].
    - intros p Hp'. apply V_of_ok; auto. rewrite P by auto. unfold vis00. apply csum_ext. intros s _. do 2 f_equal. unfold co. ring.
    - intros st _. rewrite (INDEX_4D_ok ntime nbase nchan 3) by lia. cbn [bind].
      assert (R : forall i, 0 <= i < 3 -> in_shape (shape uvw) [pos4 nbase nchan 3 t b c 0 + i] = true).
      { intros i Hi. rewrite Su. apply in_shape_1. pose proof (pos4_range ntime nbase nchan 3 t b c i Ht Hb Hc Hi). unfold pos4 in *. lia. }
      rewrite (rd_some uvw [pos4 nbase nchan 3 t b c 0]) by (rewrite <- (Z.add_0_r (pos4 nbase nchan 3 t b c 0)); apply R; lia). cbn [bind].
      rewrite !rd_some by (apply R; lia). cbn [bind].
      assert (Q : forall i, elem uvw [pos4 nbase nchan 3 t b c 0 + i] = co i) by (intro i; unfold co, pos4; do 2 f_equal; lia).
      rewrite !Q. change (elem uvw [pos4 nbase nchan 3 t b c 0]) with (co 0). rewrite E. reflexivity. }
  destruct (X vis Sv) as (r & E & S & P & _). exists r. split; [exact E|]. split; [exact S|].
  intros t b c p Ht Hb Hc Hp'. apply (P [pos4 nbase nchan npol t b c p]); auto.
  apply own_all_true. exists t. split; [auto|]. apply own_all_true. exists c. split; [auto|].
  apply own_all_true. exists b. split; [auto|]. apply own_all_true. exists p. split; [auto|]. apply idx_eqb_refl.
Qed.

Lemma v01_ok (uvw : nd R) f0 df (vis : nd C) : 3 * (ntime * nbase) <= 2147483648 ->
  shape uvw = [ntime * nbase * 3] -> shape vis = [ntime * nbase * nchan * npol] ->
  exists r, dft_v01 ncomp npol nchan nbase ntime dirs flux uvw f0 df vis = Some r /\ shape r = [ntime * nbase * nchan * npol] /\
    forall t b c p, 0 <= t < ntime -> 0 <= b < nbase -> 0 <= c < nchan -> 0 <= p < npol ->
      elem r [pos4 nbase nchan npol t b c p] = vis01 ncomp npol nchan nbase dirs flux uvw f0 df t b c p.
Proof.
  intros Bu Su Sv.
  assert (X : sets [ntime * nbase * nchan * npol]
    (own_all 0 ntime (fun t => own_all 0 nbase (fun b => own_all 0 nchan (fun c => own_all 0 npol (fun p => idx_eqb [pos4 nbase nchan npol t b c p])))))
    (V_of (vis01 ncomp npol nchan nbase dirs flux uvw f0 df)) (dft_v01 ncomp npol nchan nbase ntime dirs flux uvw f0 df)).
  { unfold dft_v01. apply sets_for. intros t Ht. apply sets_for. intros b Hb.
    set (co i := elem uvw [pos3 nbase 3 t b i]).
    eapply sets_ext with (f := for_ 0 nchan (fun c vis =>
      let* local := accumulate ncomp npol nchan c ((f0 + IZR c * df) / c_0) (co 0) (co 1) (co 2) dirs flux (mk_nd [4] (fun _ => C0)) in
      write_out npol nchan nbase t b c local vis)); [|reflexivity|].
    - apply sets_for. intros c Hc.
      destruct (accumulate_ok c ((f0 + IZR c * df) / c_0) (co 0) (co 1) (co 2) Hc) as (local & E & S & P).
      eapply sets_ext; [apply (write_out_sets _ t b c local Ht Hb Hc S)|reflexivity|].
      + intros p Hp'. apply V_of_ok; auto. rewrite P by auto. unfold vis01. apply csum_ext. intros s _. do 2 f_equal. unfold c_0. fold co.
        unfold Rdiv. destruct (Req_dec (f0 + IZR c * df) 0) as [Z|Z].
        * rewrite Z. rewrite Rinv_0. rewrite !Rmult_0_l, !Rmult_0_r, Rinv_0. ring.
        * rewrite Rinv_mult, Rinv_inv. unfold co. ring.
      + intros st _. rewrite E. reflexivity.
    - intros st _. rewrite (INDEX_3D_ok ntime nbase 3) by lia. cbn [bind].
      assert (R : forall i, 0 <= i < 3 -> in_shape (shape uvw) [pos3 nbase 3 t b 0 + i] = true).
      { intros i Hi. rewrite Su. apply in_shape_1. pose proof (pos3_range ntime nbase 3 t b i Ht Hb Hi). unfold pos3 in *. lia. }
      rewrite (rd_some uvw [pos3 nbase 3 t b 0]) by (rewrite <- (Z.add_0_r (pos3 nbase 3 t b 0)); apply R; lia). cbn [bind].
      rewrite !rd_some by (apply R; lia). cbn [bind].
      assert (Q : forall i, elem uvw [pos3 nbase 3 t b 0 + i] = co i) by (intro i; unfold co, pos3; do 2 f_equal; lia).
      rewrite !Q. change (elem uvw [pos3 nbase 3 t b 0]) with (co 0). reflexivity. }
  destruct (X vis Sv) as (r & E & S & P & _). exists r. split; [exact E|]. split; [exact S|].
  intros t b c p Ht Hb Hc Hp'. apply (P [pos4 nbase nchan npol t b c p]); auto.
  apply own_all_true. exists t. split; [auto|]. apply own_all_true. exists b. split; [auto|].
  apply own_all_true. exists c. split; [auto|]. apply own_all_true. exists p. split; [auto|]. apply idx_eqb_refl.
Qed.
End Dft.
