From Coq Require Import QArith Lia Lqa String.
From Verif Require Import Base BaseFacts Sum CRing QNum Clamp Sets Gpu GpuFacts GpuFacts2 GpuLaunch GpuLaunchFacts PhaseRotateGpu PhaseRotateGpuFacts DegridCustom DegridCustomSpec DegridCustomFacts DegridCustomGpu DegridCustomGpuSpec.
Open Scope Z_scope.

(** ** Rounding *)
Lemma qeven_near q : (inject_Z (qeven q) - (1 # 2) <= q <= inject_Z (qeven q) + (1 # 2))%Q.
Proof.
  unfold qeven. pose proof (Qfloor_le q) as L. pose proof (Qlt_floor q) as U. rewrite inject_Z_plus in U. change (inject_Z 1) with 1%Q in U. cbv zeta.
  destruct (Qcompare_spec (q - inject_Z (Qfloor q)) (1 # 2)); [destruct (Z.even _)| |]; rewrite ?inject_Z_plus; change (inject_Z 1) with 1%Q; split; lra.
Qed.
Lemma nearest_unique q a b : (inject_Z a - (1 # 2) <= q <= inject_Z a + (1 # 2))%Q -> (inject_Z b - (1 # 2) <= q <= inject_Z b + (1 # 2))%Q -> ~ halfway q -> a = b.
Proof.
  intros (A1 & A2) (B1 & B2) N. destruct (Z.lt_trichotomy a b) as [L|[E|L]]; [exfalso|exact E|exfalso].
  - apply N. exists a. assert (inject_Z (a + 1) <= inject_Z b)%Q by (rewrite <- Zle_Qle; lia). rewrite inject_Z_plus in H. change (inject_Z 1) with 1%Q in H. lra.
  - apply N. exists b. assert (inject_Z (b + 1) <= inject_Z a)%Q by (rewrite <- Zle_Qle; lia). rewrite inject_Z_plus in H. change (inject_Z 1) with 1%Q in H. lra.
Qed.
Lemma qeven_qround q : ~ halfway q -> qeven q = qround q.
Proof. intro N. apply (nearest_unique q); auto using qeven_near, qround_near. Qed.
Lemma qeven_even q : nearest_even qeven q.
Proof.
  split; [apply qeven_near|]. intros (z & E). unfold qeven. cbv zeta. assert (F : Qfloor q = z).
  { apply Qfloor_unique; [lra|]. rewrite inject_Z_plus. change (inject_Z 1) with 1%Q. lra. }
  rewrite F. destruct (Qcompare_spec (q - inject_Z z) (1 # 2)); [|lra|lra]. destruct (Z.even z) eqn:Ev; [exact Ev|]. rewrite Z.even_add, Ev. reflexivity.
Qed.
Lemma double2int_id q : in_int (qeven q) -> double2int_rn q = qeven q.
Proof. unfold in_int, double2int_rn. lia. Qed.
Lemma double2int_in q : in_int (double2int_rn q).
Proof. unfold in_int, double2int_rn. lia. Qed.

(** ** A thread *)
Section Thread.
Context {A : cring} (conj : A -> A) (ks wks xs ys zs nt nb nc np os osw : Z) (grid : nd A) (uvw : nd Q) (uvk wk vis : nd A) (theta wstep f0 df : Q) (conjugate : bool).
Context (G : geometry ks wks xs ys zs nt nb nc np os osw wstep) (Su : shape uvw = [nt * nb * 3]).
Context (Gu : shape uvk = [os * ks]) (Gw : shape wk = [osw * wks]) (Gg : shape grid = [nc * zs * ys * xs * np]) (Sv : shape vis = [nt * nb * nc * np]).
Context (P : positions_ok double2int_rn xs nt nb nc os osw uvw theta wstep f0 df) (Hb : nb <= 2147483647) (Hc : nc <= 2147483647) (Ht : nt <= 2147483647).
Notation inside := (inside double2int_rn ks xs ys nb os uvw theta f0 df).
Notation val := (degridded double2int_rn conj ks wks xs ys zs nb np os osw grid uvw uvk wk theta wstep f0 df conjugate).
Let body := degrid_custom_thread conj ks wks xs ys zs nt nb nc np grid uvw uvk wk os osw theta wstep f0 df conjugate (nt * nb * nc * np).
Definition deg_dom (id : Z * Z * Z) (l : Z) : Prop := let '(x, y, z) := id in x < nb /\ y < nc /\ z < nt /\ inside z x y = true /\ exists p, 0 <= p < np /\ l = pos4 nb nc np z x y p.
Definition deg_val (id : Z * Z * Z) (l : Z) (_ : A) : A := let '(x, y, z) := id in val z x y (l mod np).
Lemma pos4_mod t b c p : 0 <= p < np -> pos4 nb nc np t b c p mod np = p.
Proof using. clear. intro H. unfold pos4. rewrite Z.add_comm, Z.mul_comm, Z.mod_add by lia. now apply Z.mod_small. Qed.
Lemma degrid_thread x y z : 0 <= x <= 2147483647 -> 0 <= y <= 2147483647 -> 0 <= z <= 2147483647 -> thread_sets radd body deg_dom deg_val (x, y, z).
Proof using All.
  intros Hx Hy Hz. unfold thread_sets, body, degrid_custom_thread, deg_dom. cbv zeta. rewrite !u32_small by lia. rewrite !(int_of_id x), !(int_of_id y), !(int_of_id z) by (unfold in_int; lia).
  destruct (Z.leb_spec nb x); [|destruct (Z.leb_spec nc y); [|destruct (Z.leb_spec nt z)]]; cbn [orb].
  1,2,3: exists []; split; [reflexivity|]; split; [constructor|]; split; [|intros ? ? []]; intro l; cbn; split; [intros []|intros (? & ? & ? & _); lia].
  assert (Q : forall i, 0 <= i < 3 -> 3 * (nb * z + x) + i = pos3 nb 3 z x i /\ rd uvw [pos3 nb 3 z x i] = Some (elem uvw [pos3 nb 3 z x i])).
  { intros i Hi. split; [unfold pos3; ring|]. apply rd_some. rewrite Su. apply in_shape_1. apply (pos3_range nt nb 3 z x i); lia. }
  destruct (Q 0 ltac:(lia)) as (P0 & R0), (Q 1 ltac:(lia)) as (P1 & R1), (Q 2 ltac:(lia)) as (P2 & R2). rewrite Z.add_0_r in P0. rewrite P1, P2, P0, R0, R1, R2. cbn [bind].
  destruct (coords_ok double2int_rn ks wks xs ys zs nt nb nc np os osw uvw theta wstep f0 df G P z x y ltac:(lia) ltac:(lia) ltac:(lia)) as (sx & sy & sz & hx & hy & E & I & Val).
  unfold wavelengths in E. rewrite E. cbn [bind]. unfold cdiv. rewrite Z.quot_div_nonneg by (destruct G as [Gs _ _ _ _]; lia). rewrite I.
  destruct (inside z x y) eqn:O; cbn [negb].
  2: { exists []. split; [reflexivity|]. split; [constructor|]. split; [|intros ? ? []]. intro l. cbn. split; [intros []|]. intros (_ & _ & _ & K & _). discriminate. }
  destruct (Val eq_refl) as (-> & -> & -> & -> & ->).
  match goal with |- context [for_ 0 np ?f ?x0] => destruct (for_inv (fun q (k : list (op Z A)) => NoDup (map loc k) /\
    (forall l, In l (map loc k) <-> exists p, 0 <= p < q /\ l = pos4 nb nc np z x y p) /\
    forall o v, In o k -> apply radd o v = deg_val (x, y, z) (loc o) v) 0 np f x0 ltac:(destruct G as [Gs _ _ _ _]; lia)) as (k & Ek & N & D & V) end.
  - split; [constructor|]. split; [|intros ? ? []]. intro l. cbn. split; [intros []|]. intros (p & Hq & _). lia.
  - intros p k Hq (N & D & V). rewrite (pol_ok double2int_rn conj ks wks xs ys zs nt nb nc np os osw grid uvw uvk wk theta wstep f0 df G Gu Gw Gg z x y p) by (auto; lia). cbn [bind].
    change (INDEX_4D nb nc np z x y p) with (pos4 nb nc np z x y p). rewrite (proj2 (in_shape_1 _ _)) by (apply (pos4_range nt nb nc np z x y p); lia).
    eexists. split; [reflexivity|]. rewrite map_app. cbn [map loc]. split; [|split].
    + apply nodup_app; [exact N|constructor; [intros []|constructor]|]. intros l Il [<-|[]]. apply D in Il. destruct Il as (p' & Hp'' & Ep). apply pos4_inj in Ep; lia.
    + intro l. rewrite in_app_iff, D. cbn. split.
      * intros [(p' & Hp'' & ->)|[<-|[]]]; [exists p'; split; [lia|reflexivity]|exists p; split; [lia|reflexivity]].
      * intros (p' & Hp'' & ->). destruct (Z.eq_dec p' p) as [->|Ne]; [right; now left|]. left. exists p'. split; [lia|reflexivity].
    + intros o v Io. apply in_app_or in Io. destruct Io as [Io|[<-|[]]]; [now apply V|]. cbn [apply loc deg_val]. rewrite pos4_mod by exact Hq. reflexivity.
  - exists k. split; [exact Ek|]. split; [exact N|]. split; [|exact V]. intro l. rewrite D. cbn. split; [intro X; auto|intros (_ & _ & _ & _ & X); exact X].
Qed.
Notation grid3 := (blocks_of nb 128, blocks_of nc 2, blocks_of nt 2).
Lemma deg_ths x y z : In (x, y, z) (threads3 (to_dim3 grid3) (to_dim3 (128, 2, 2))) -> 0 <= x <= 2147483647 /\ 0 <= y <= nc + 1 /\ 0 <= z <= nt + 1.
Proof using G Hb Hc Ht.
  clear P Gu Gw Gg Su Sv. destruct G as [Gs _ _ _ _]. intro I. pose proof (proj2 (threads_cover nb nc nt 128 2 2 x y z ltac:(lia) ltac:(lia) ltac:(lia) ltac:(lia) ltac:(lia) ltac:(lia)) I).
  pose proof (threads_below nb nc nt 128 2 2 x y z 16777216 ltac:(lia) ltac:(lia) ltac:(lia) ltac:(lia) ltac:(lia) ltac:(lia) ltac:(lia) I). lia.
Qed.
Lemma deg_grid : grid_ok (to_dim3 grid3) (to_dim3 (128, 2, 2)) = (1 <=? nb) && (1 <=? nc) && (1 <=? nt) && (nc <=? 131070) && (nt <=? 131070).
Proof using G Hb Hc Ht. clear P Gu Gw Gg Su Sv. destruct G as [Gs _ _ _ _]. rewrite grid_ok_cover by lia. replace (nb <=? 2147483647 * 128) with true by lia. rewrite andb_true_r. reflexivity. Qed.
Lemma deg_ths_ok : grid_ok (to_dim3 grid3) (to_dim3 (128, 2, 2)) = true -> forall t, In t (threads3 (to_dim3 grid3) (to_dim3 (128, 2, 2))) -> thread_sets radd body deg_dom deg_val t.
Proof using All. rewrite deg_grid. intros Gr [[x y] z] I. apply deg_ths in I. apply degrid_thread; lia. Qed.
Lemma deg_launch n st' r : registered n = true -> launch_kernel radd (Some n) grid3 (128, 2, 2) body SUCCESS vis st' r ->
  if (1 <=? nb) && (1 <=? nc) && (1 <=? nt) && (nc <=? 131070) && (nt <=? 131070) then st' = SUCCESS /\ shape r = [nt * nb * nc * np] /\
    forall t b c p, 0 <= t < nt -> 0 <= b < nb -> 0 <= c < nc -> 0 <= p < np -> vis_at nb nc np r t b c p = if inside t b c then val t b c p else vis_at nb nc np vis t b c p
  else st' = ERR_RUNTIME /\ r = vis.
Proof using All.
  intros Rg L. apply (launch_result _ n _ _ _ vis deg_dom deg_val Rg deg_ths_ok) in L.
  - rewrite deg_grid in L. destruct (_ && _); [|exact L]. destruct L as (-> & S & V & W). split; [reflexivity|]. split; [congruence|]. intros t b c p H1 H2 H3 H4. unfold vis_at. destruct (inside t b c) eqn:O.
    + rewrite (V (b, c, t) (pos4 nb nc np t b c p)).
      * cbn [deg_val]. now rewrite pos4_mod.
      * apply threads_cover; lia.
      * cbn. split; [lia|]. split; [lia|]. split; [lia|]. split; [exact O|]. exists p. split; [exact H4|reflexivity].
    + apply W. intros [[x y] z] I (X1 & X2 & X3 & X4 & p' & Hp' & E). apply deg_ths in I. apply pos4_inj in E; try lia. destruct E as (-> & -> & -> & ->). congruence.
  - intros [[x y] z] [[x' y'] z'] l I I'. apply deg_ths in I. apply deg_ths in I'. intros (Hx & Hy & Hz & _ & p & Hp1 & ->) (Hx' & Hy' & Hz' & _ & p' & Hp1' & E). apply pos4_inj in E; try lia. destruct E as (-> & -> & -> & ->). reflexivity.
Qed.
Lemma deg_launch_exists n : registered n = true -> exists st' r, launch_kernel radd (Some n) grid3 (128, 2, 2) body SUCCESS vis st' r.
Proof using All. intro Rg. exact (launch_exists _ n _ _ _ vis deg_dom deg_val Rg deg_ths_ok). Qed.
End Thread.
