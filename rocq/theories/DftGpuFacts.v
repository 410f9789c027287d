From Coq Require Import Reals Lra Lia String.
From Verif Require Import Base BaseFacts Mem Checks ChecksFacts CRing Cplx Clamp WHeightFacts FftSpec FftFacts Sets Dft DftSpec DftFacts DftFacts2 Gpu GpuFacts GpuLaunch GpuLaunchFacts DftGpu.
Open Scope Z_scope.

Lemma int_of_small z : -2147483648 <= z <= 2147483647 -> int_of z = z.
Proof. intro H. unfold int_of. rewrite Z.mod_small by lia. lia. Qed.

Section Dft.
Context (ncomp npol nchan nbase ntime : Z) (dirs : nd R) (flux : nd C).
Context (Hn : 0 <= ncomp) (Hp : npol = 1 \/ npol = 4).
Context (Bf : ncomp * nchan * npol <= 2147483648).
Context (Sd : shape dirs = [3 * ncomp]) (Sf : shape flux = [ncomp * nchan * npol]).

Lemma gpu_accumulate_ok c factor uu vv ww : 0 <= c < nchan ->
  exists local, gpu_accumulate ncomp npol nchan c factor uu vv ww dirs flux (mk_nd [4] (fun _ => C0)) = Some local /\ shape local = [4] /\
    forall p, 0 <= p < npol -> elem local [p] =
      csum 0 ncomp (fun s => Cmul (cis (-2 * PI * factor * dot3 dirs s uu vv ww)) (flux_of nchan npol flux s c p)).
Proof.
  intro Hc. unfold gpu_accumulate.
  match goal with |- context [for_ 0 ncomp ?b ?q0] => destruct (for_inv (fun k (x : nd C) => shape x = [4] /\ forall p, 0 <= p < npol -> elem x [p] =
    csum 0 k (fun s => Cmul (cis (-2 * PI * factor * dot3 dirs s uu vv ww)) (flux_of nchan npol flux s c p))) 0 ncomp b q0 Hn) as (x & E & S & P) end.
  - split; [reflexivity|]. intros p _. cbn [elem]. now rewrite csum_empty by lia.
  - intros s x Hs (S & P). rewrite !rd_some by (rewrite Sd; apply in_shape_1; lia). cbn [bind].
    assert (Hp' : 1 <= npol) by lia. rewrite (INDEX_3D_ok ncomp nchan npol s c 0) by lia. cbn [bind].
    set (ph := cis _).
    assert (R : forall p, 0 <= p < npol -> 0 <= pos3 nchan npol s c 0 + p < ncomp * nchan * npol).
    { intros p Hq. pose proof (pos3_range ncomp nchan npol s c p Hs Hc Hq). unfold pos3 in *. lia. }
    assert (Fin : forall y, shape y = [4] -> (forall p, 0 <= p < npol -> elem y [p] = Cadd (elem x [p]) (Cmul ph (flux_of nchan npol flux s c p))) ->
      shape y = [4] /\ forall p, 0 <= p < npol -> elem y [p] = csum 0 (s + 1) (fun s => Cmul (cis (-2 * PI * factor * dot3 dirs s uu vv ww)) (flux_of nchan npol flux s c p))).
    { intros y Sy Py. split; [exact Sy|]. intros p Hq. rewrite Py by auto. rewrite csum_snoc by lia. rewrite P by auto. f_equal. unfold ph. unfold dot3, direction.
      replace (3 * s + 0) with (3 * s) by lia. reflexivity. }
    destruct Hp as [-> | ->].
    + cbn [Z.eqb Pos.eqb]. rewrite rd_some by (rewrite Sf; apply in_shape_1; specialize (R 0 ltac:(lia)); lia). cbn [bind].
      rewrite rd_some by (rewrite S; apply in_shape_1; lia). cbn [bind]. rewrite wr_some by (rewrite S; apply in_shape_1; lia). eexists. split; [reflexivity|]. apply Fin; [exact S|].
      intros p Hq. assert (p = 0) by lia. subst p. rewrite elem_upd_same. reflexivity.
    + change (4 =? 1) with false. change (4 =? 4) with true. cbv iota.
      match goal with |- context [for_ 0 4 ?b x] => destruct (for_inv (fun k (y : nd C) => shape y = [4] /\ forall p, 0 <= p < 4 -> elem y [p] =
        if p <? k then Cadd (elem x [p]) (Cmul ph (flux_of nchan 4 flux s c p)) else elem x [p]) 0 4 b x) as (y & E & Sy & Py) end.
      * lia.
      * split; [exact S|]. intros p Hp''. now replace (p <? 0) with false by lia.
      * intros p y Hp'' (Sy & Py). rewrite rd_some by (rewrite Sf; apply in_shape_1; now apply R). cbn [bind].
        rewrite rd_some by (rewrite Sy; apply in_shape_1; lia). cbn [bind].
        rewrite wr_some by (rewrite Sy; apply in_shape_1; lia).
        eexists. split; [reflexivity|]. split; [exact Sy|]. intros q Hq.
        destruct (Z.eq_dec q p) as [->|N].
        -- rewrite elem_upd_same, Py by auto. replace (p <? p) with false by lia. replace (p <? p + 1) with true by lia.
           unfold flux_of, pos3. do 4 f_equal. lia.
        -- rewrite elem_upd_other by congruence. rewrite Py by auto. now replace (q <? p + 1) with (q <? p) by lia.
      * exists y. split; [exact E|]. apply Fin; [exact Sy|]. intros p Hq. rewrite Py by auto. now replace (p <? 4) with true by lia.
  - exists x. auto.
Qed.

Context (Bv : ntime * nbase * nchan * npol <= 2147483648).
Lemma gpu_write_out_ok t b c local : 0 <= t < ntime -> 0 <= b < nbase -> 0 <= c < nchan -> shape local = [4] ->
  exists k, gpu_write_out npol nchan nbase t b c (ntime * nbase * nchan * npol) local = Some k /\ NoDup (map loc k) /\
    (forall l, In l (map loc k) <-> exists p, 0 <= p < npol /\ l = pos4 nbase nchan npol t b c p) /\
    forall o x, In o k -> exists p, 0 <= p < npol /\ loc o = pos4 nbase nchan npol t b c p /\ apply Cadd o x = elem local [p].
Proof.
  intros Ht Hb Hc S. assert (Hp' : 1 <= npol <= 4) by lia. unfold gpu_write_out.
  match goal with |- context [for_ 0 npol ?f ?x0] => destruct (for_inv (fun q (k : list (op Z C)) => NoDup (map loc k) /\
    (forall l, In l (map loc k) <-> exists p, 0 <= p < q /\ l = pos4 nbase nchan npol t b c p) /\
    forall o x, In o k -> exists p, 0 <= p < q /\ loc o = pos4 nbase nchan npol t b c p /\ apply Cadd o x = elem local [p]) 0 npol f x0 ltac:(lia)) as (k & E & N & D & V) end.
  - split; [constructor|]. split; [|intros ? ? []]. intro l. cbn. split; [intros []|]. intros (p & Hq & _). lia.
  - intros p k Hq (N & D & V). rewrite (INDEX_4D_ok ntime nbase nchan npol) by auto. cbn [bind]. rewrite rd_some by (rewrite S; apply in_shape_1; lia). cbn [bind].
    rewrite (proj2 (in_shape_1 _ _)) by (now apply pos4_range). eexists. split; [reflexivity|]. rewrite map_app. cbn [map loc]. split; [|split].
    + apply GpuFacts2.nodup_app; [exact N|constructor; [intros []|constructor]|]. intros l Il [<-|[]]. apply D in Il. destruct Il as (p' & Hp'' & E). apply pos4_inj in E; try lia.
    + intro l. rewrite in_app_iff, D. cbn. split.
      * intros [(p' & Hp'' & ->)|[<-|[]]]; [exists p'; split; [lia|reflexivity]|exists p; split; [lia|reflexivity]].
      * intros (p' & Hp'' & ->). destruct (Z.eq_dec p' p) as [->|Ne]; [right; now left|]. left. exists p'. split; [lia|reflexivity].
    + intros o x Io. apply in_app_or in Io. destruct Io as [Io|[<-|[]]].
      * destruct (V o x Io) as (p' & Hp'' & X). exists p'. split; [lia|exact X].
      * exists p. split; [lia|]. split; reflexivity.
  - exists k. auto.
Qed.

(** The locations of a thread *)
Definition vis_dom (id : Z * Z * Z) (l : Z) : Prop := let '(x, y, z) := id in x < nbase /\ y < nchan /\ z < ntime /\ exists p, 0 <= p < npol /\ l = pos4 nbase nchan npol z x y p.
Lemma vis_dom_inj (ths : list (Z * Z * Z)) id id' l : (forall x y z, In (x, y, z) ths -> 0 <= x /\ 0 <= y /\ 0 <= z) -> In id ths -> In id' ths -> vis_dom id l -> vis_dom id' l -> id = id'.
Proof.
  intros Pos I I'. destruct id as [[x y] z], id' as [[x' y'] z']. apply Pos in I. apply Pos in I'. intros (Hx & Hy & Hz & p & Hp1 & ->) (Hx' & Hy' & Hz' & p' & Hp1' & E). apply pos4_inj in E; try lia. destruct E as (-> & -> & -> & ->). reflexivity.
Qed.

Definition val_of (v : Z -> Z -> Z -> Z -> C) (id : Z * Z * Z) (l : Z) (_ : C) : C := let '(x, y, z) := id in v z x y (l - pos4 nbase nchan npol z x y 0).
Lemma thread_ok (body : Z * Z * Z -> option (list (op Z C))) (v : Z -> Z -> Z -> Z -> C) x y z : 0 <= x <= 2147483647 -> 0 <= y <= 2147483647 -> 0 <= z <= 2147483647 ->
  (x < nbase -> y < nchan -> z < ntime -> exists local, body (x, y, z) = gpu_write_out npol nchan nbase z x y (ntime * nbase * nchan * npol) local /\ shape local = [4] /\ forall p, 0 <= p < npol -> elem local [p] = v z x y p) ->
  (nbase <= x \/ nchan <= y \/ ntime <= z -> body (x, y, z) = Some []) -> thread_sets Cadd body vis_dom (val_of v) (x, y, z).
Proof.
  intros Hx Hy Hz In_ Out. destruct (Z_lt_dec x nbase) as [Lx|]; [destruct (Z_lt_dec y nchan) as [Ly|]; [destruct (Z_lt_dec z ntime) as [Lz|]|]|].
  2,3,4: exists []; rewrite Out by lia; split; [reflexivity|]; split; [constructor|]; split; [|intros ? ? []]; intro l; cbn; split; [intros []|intros (? & ? & ? & _); lia].
  destruct (In_ Lx Ly Lz) as (local & E & S & V). destruct (gpu_write_out_ok z x y local ltac:(lia) ltac:(lia) ltac:(lia) S) as (k & Ek & N & D & Va). exists k. rewrite E. split; [exact Ek|]. split; [exact N|]. split.
  - intro l. rewrite D. cbn. split; [intro H; auto|intros (_ & _ & _ & H); exact H].
  - intros o c Io. destruct (Va o c Io) as (p & Hq & L & Ap). rewrite Ap, V by assumption. unfold val_of. rewrite L. f_equal. unfold pos4. lia.
Qed.
Lemma v00_thread (uvw : nd R) x y z : shape uvw = [ntime * nbase * nchan * 3] -> ntime * nbase * nchan <= 2147483648 -> 0 <= x <= 2147483647 -> 0 <= y <= 2147483647 -> 0 <= z <= 2147483647 ->
  thread_sets Cadd (dft_v00_thread ncomp npol nchan nbase ntime dirs flux uvw (ntime * nbase * nchan * npol)) vis_dom (val_of (vis00 ncomp npol nchan nbase dirs flux uvw)) (x, y, z).
Proof.
  intros Su Bu Hx Hy Hz. apply thread_ok; auto.
  - intros Lx Ly Lz. set (co i := elem uvw [pos4 nbase nchan 3 z x y i]).
    destruct (gpu_accumulate_ok y 1 (co 0) (co 1) (co 2) ltac:(lia)) as (local & E & S & P). exists local. split; [|split; [exact S|]].
    + unfold dft_v00_thread. rewrite !int_of_small by lia. replace (4 <? npol) with false by lia. replace (nbase <=? x) with false by lia. replace (nchan <=? y) with false by lia. replace (ntime <=? z) with false by lia. cbn [orb].
      rewrite (INDEX_3D_ok ntime nbase nchan z x y) by lia. cbn [bind].
      assert (Q : forall i, 0 <= i < 3 -> rd uvw [3 * pos3 nbase nchan z x y + i] = Some (co i)).
      { intros i Hi. rewrite rd_some; [f_equal; unfold co, pos3, pos4; do 2 f_equal; lia|]. rewrite Su. apply in_shape_1. pose proof (pos4_range ntime nbase nchan 3 z x y i ltac:(lia) ltac:(lia) ltac:(lia) Hi). unfold pos3, pos4 in *. lia. }
      rewrite <- (Z.add_0_r (3 * pos3 nbase nchan z x y)) at 1. rewrite !Q by lia. cbn [bind]. rewrite E. reflexivity.
    + intros p Hq. rewrite P by assumption. unfold vis00. apply csum_ext. intros s _. do 2 f_equal. unfold co. ring.
  - intro O. unfold dft_v00_thread. rewrite !int_of_small by lia. destruct O as [O|[O|O]]; [replace (nbase <=? x) with true by lia|replace (nchan <=? y) with true by lia|replace (ntime <=? z) with true by lia]; rewrite ?orb_true_r; reflexivity.
Qed.
Lemma v01_thread (uvw : nd R) f0 df x y z : shape uvw = [ntime * nbase * 3] -> ntime * nbase <= 2147483648 -> 0 <= x <= 2147483647 -> 0 <= y <= 2147483647 -> 0 <= z <= 2147483647 ->
  thread_sets Cadd (dft_v01_thread ncomp npol nchan nbase ntime dirs flux uvw f0 df (ntime * nbase * nchan * npol)) vis_dom (val_of (vis01 ncomp npol nchan nbase dirs flux uvw f0 df)) (x, y, z).
Proof.
  intros Su Bu Hx Hy Hz. apply thread_ok; auto.
  - intros Lx Ly Lz. set (co i := elem uvw [pos3 nbase 3 z x i]).
    destruct (gpu_accumulate_ok y ((f0 + IZR y * df) / c_0) (co 0) (co 1) (co 2) ltac:(lia)) as (local & E & S & P). exists local. split; [|split; [exact S|]].
    + unfold dft_v01_thread. rewrite !int_of_small by lia. replace (4 <? npol) with false by lia. replace (nbase <=? x) with false by lia. replace (nchan <=? y) with false by lia. replace (ntime <=? z) with false by lia. cbn [orb].
      assert (I2 : INDEX_2D nbase z x = Some (nbase * z + x)). { unfold INDEX_2D. assert (0 <= nbase * z) by nia. assert (nbase * z + x < 2147483648) by nia. rewrite (to_int_ok (nbase * z)) by lia. cbn [bind]. now rewrite to_int_ok by lia. }
      rewrite I2. cbn [bind].
      assert (Q : forall i, 0 <= i < 3 -> rd uvw [3 * (nbase * z + x) + i] = Some (co i)).
      { intros i Hi. rewrite rd_some; [reflexivity|]. rewrite Su. apply in_shape_1. pose proof (pos3_range ntime nbase 3 z x i ltac:(lia) ltac:(lia) Hi). unfold pos3 in *. lia. }
      rewrite <- (Z.add_0_r (3 * (nbase * z + x))) at 1. rewrite !Q by lia. cbn [bind]. rewrite E. reflexivity.
    + intros p Hq. rewrite P by assumption. unfold vis01. apply csum_ext. intros s _. do 2 f_equal. unfold c_0. fold co.
      unfold Rdiv. destruct (Req_dec (f0 + IZR y * df) 0) as [Z|Z].
      * rewrite Z. rewrite Rinv_0. rewrite !Rmult_0_l, !Rmult_0_r, Rinv_0. ring.
      * rewrite Rinv_mult, Rinv_inv. unfold co. ring.
  - intro O. unfold dft_v01_thread. rewrite !int_of_small by lia. destruct O as [O|[O|O]]; [replace (nbase <=? x) with true by lia|replace (nchan <=? y) with true by lia|replace (ntime <=? z) with true by lia]; rewrite ?orb_true_r; reflexivity.
Qed.
End Dft.
