From Coq Require Import QArith Qround String Lia.
From Verif Require Import Base BaseFacts Sum CRing Clamp Sets WHeightFacts FftSpec FftFacts Dft DftFacts DftGpu DftGpuFacts Weighting WeightingSpec WeightingFacts Gpu GpuFacts GpuFacts2 GpuLaunch GpuLaunchFacts GpuAddFacts WeightingGpu WeightingGpuSpec.
Open Scope Z_scope.

Section Facts.
Context {A : cring} (wdiv : A -> A -> A) (nt nb nc np gs : Z) (uvw freq : nd Q) (max : Q).
Context (Hnt : 0 <= nt) (Hnb : 0 <= nb) (Hnc : 0 <= nc) (Hgs : 0 <= gs).
Context (Su : shape uvw = [nt * nb * 3]) (Sf : shape freq = [nc]) (HV : in_view nt nb nc gs uvw freq max) (HI : int_sized nt nb nc np gs uvw freq max).
Notation cu := (cell_u nb gs uvw freq max).
Notation cv := (cell_v nb gs uvw freq max).
Notation on := (on_grid nb gs uvw freq max).
Add Ring Aring : (rth A).

Lemma gpu_cell_ok t b c : 0 <= t < nt -> 0 <= b < nb -> 0 <= c < nc -> gpu_cell gs uvw freq max (pos3 nb 3 t b 0) c = Some (cu t b c, cv t b c).
Proof.
  intros Ht Hb Hc. unfold gpu_cell. cbv zeta. rewrite rd_some by (rewrite Sf; apply in_shape_1; lia). cbn [bind].
  pose proof (pos3_range nt nb 3 t b 0 Ht Hb ltac:(lia)) as R0. pose proof (pos3_range nt nb 3 t b 1 Ht Hb ltac:(lia)) as R1.
  rewrite rd_some by (rewrite Su; apply in_shape_1; lia). cbn [bind]. replace (pos3 nb 3 t b 0 + 1) with (pos3 nb 3 t b 1) by (unfold pos3; lia).
  rewrite rd_some by (rewrite Su; apply in_shape_1; lia). cbn [bind]. destruct HV as [H0 H]. destruct (H t b c Ht Hb Hc) as [H1 H2].
  destruct HI as (_ & _ & _ & _ & _ & _ & _ & _ & H3). destruct (H3 t b c Ht Hb Hc) as [H4 H5].
  destruct (Qeq_bool max 0) eqn:E; [apply Qeq_bool_iff in E; contradiction|].
  unfold cdiv. rewrite Z.quot_div_nonneg by lia.
  change (Qfloor (elem uvw [pos3 nb 3 t b 0] * (elem freq [c] / C_0) / max * inject_Z (gs / 2)) + gs / 2) with (cu t b c).
  change (Qfloor (elem uvw [pos3 nb 3 t b 1] * (elem freq [c] / C_0) / max * inject_Z (gs / 2)) + gs / 2) with (cv t b c).
  rewrite !to_int_ok by lia. reflexivity.
Qed.

Definition inside (id : Z * Z * Z) : bool := let '(x, y, z) := id in (x <? nb) && (y <? nc) && (z <? nt) && on z x y.
Lemma vis_thread_eq body x y z : 0 <= x <= 2147483647 -> 0 <= y <= 2147483647 -> 0 <= z <= 2147483647 ->
  vis_thread (A := A) nt nb nc np gs uvw freq max body (x, y, z) =
  if inside (x, y, z) then body (pos3 gs np (cu z x y) (cv z x y) 0) (Some (pos4 nb nc np z x y 0)) else Some [].
Proof.
  intros Hx Hy Hz. unfold vis_thread, inside. rewrite !int_of_small by lia.
  destruct (Z.leb_spec nb x), (Z.leb_spec nc y), (Z.leb_spec nt z); cbn [orb]; try (replace (x <? nb) with false by lia); try (replace (y <? nc) with false by lia); try (replace (z <? nt) with false by lia); rewrite ?andb_false_r; cbn [andb]; try reflexivity.
  replace (x <? nb) with true by lia. replace (y <? nc) with true by lia. replace (z <? nt) with true by lia. cbn [andb].
  pose proof HI as (I1 & I2 & I3 & I4 & I5 & I6 & I7 & I8 & I9).
  rewrite (INDEX_3D_ok nt nb 3 z x 0) by lia. cbn [bind]. rewrite gpu_cell_ok by lia. cbn [bind]. unfold on_grid.
  destruct (_ && _) eqn:O; [|reflexivity]. destruct (on_range nt nb nc gs uvw freq max HV z x y ltac:(lia) ltac:(lia) ltac:(lia) O) as [Ru Rv].
  rewrite (INDEX_3D_ok gs gs np) by lia. cbn [bind]. rewrite (INDEX_4D_ok nt nb nc np) by lia. reflexivity.
Qed.
Lemma inside_in x y z : 0 <= x -> 0 <= y -> 0 <= z -> inside (x, y, z) = true -> 0 <= x < nb /\ 0 <= y < nc /\ 0 <= z < nt /\ on z x y = true.
Proof. unfold inside. intros. destruct (on z x y); lia. Qed.

(** The kernels that add *)
Lemma adds_loop (v : Z -> list (op Z A)) (w : Z -> Z -> A) (f : Z -> list (op Z A) -> option (list (op Z A))) : 0 <= np ->
  (forall p ops, 0 <= p < np -> f p ops = Some (ops ++ v p)) -> (forall p, 0 <= p < np -> only_adds (v p) /\ forall l, total Z.eqb radd r0 l (v p) = w l p) ->
  exists k, for_ 0 np f [] = Some k /\ only_adds k /\ forall l, total Z.eqb radd r0 l k = rsum 0 np (w l).
Proof.
  intros Hp F V. destruct (for_inv (fun q k => only_adds k /\ forall l, total Z.eqb radd r0 l k = rsum 0 q (w l)) 0 np f [] Hp) as (k & E & K).
  - split; [intros ? []|]. intro l. rewrite sum_empty by lia. reflexivity.
  - intros q k Hq (O & T). rewrite F by auto. eexists. split; [reflexivity|]. destruct (V q Hq) as (O' & T'). split.
    + intros o I. apply in_app_or in I. destruct I; [now apply O|now apply O'].
    + intro l. rewrite (total_app Z.eqb radd r0) by (intros; ring). rewrite T, T', rsum_snoc by lia. reflexivity.
  - eauto.
Qed.

Definition dep (input : nd A) (l : Z) (id : Z * Z * Z) : A :=
  if inside id then let '(x, y, z) := id in rsum 0 np (fun p => if pos3 gs np (cu z x y) (cv z x y) p =? l then weight nb nc np input z x y p else r0) else r0.
Lemma write_thread input x y z : shape input = [nt * nb * nc * np] -> 0 <= x <= 2147483647 -> 0 <= y <= 2147483647 -> 0 <= z <= 2147483647 ->
  exists k, grid_write_gpu nt nb nc np gs uvw freq max input (gs * gs * np) (x, y, z) = Some k /\ only_adds k /\ forall l, total Z.eqb radd r0 l k = dep input l (x, y, z).
Proof.
  intros Si Hx Hy Hz. unfold grid_write_gpu. rewrite vis_thread_eq by auto. unfold dep. destruct (inside (x, y, z)) eqn:I.
  2:{ exists []. split; [reflexivity|]. split; [intros ? []|]. intro l. reflexivity. }
  apply inside_in in I; try lia. destruct I as (Lx & Ly & Lz & O). destruct (on_range nt nb nc gs uvw freq max HV z x y ltac:(lia) ltac:(lia) ltac:(lia) O) as [Ru Rv].
  cbn [bind]. pose proof HI as (I1 & I2 & I3 & I4 & I5 & I6 & I7 & I8 & I9).
  apply (adds_loop (fun p => [Add (pos3 gs np (cu z x y) (cv z x y) p) (weight nb nc np input z x y p)])).
  - lia.
  - intros p ops Hp. replace (pos3 gs np (cu z x y) (cv z x y) 0 + p) with (pos3 gs np (cu z x y) (cv z x y) p) by (unfold pos3; lia).
    replace (pos4 nb nc np z x y 0 + p) with (pos4 nb nc np z x y p) by (unfold pos4; lia).
    pose proof (pos3_range gs gs np _ _ p Ru Rv Hp). pose proof (pos4_range nt nb nc np z x y p Lz Lx Ly Hp).
    rewrite rd_some by (rewrite Si; now apply in_shape_1). cbn [bind]. rewrite (proj2 (in_shape_1 _ _)) by lia. reflexivity.
  - intros p Hp. split; [intros o [<-|[]]; eauto|]. intro l. unfold total. cbn [map added fold_right]. ring.
Qed.
Lemma dep_total input u v p : 0 <= u < gs -> 0 <= v < gs -> 0 <= p < np ->
  rsum 0 nt (fun c => rsum 0 nb (fun a => rsum 0 nc (fun b => dep input (pos3 gs np u v p) (a, b, c)))) = deposited nt nb nc np gs uvw freq max input u v p.
Proof.
  intros Hu Hv Hp. unfold deposited, WeightingSpec.total. apply rsum_ext. intros t Ht. apply rsum_ext. intros b Hb. apply rsum_ext. intros c Hc.
  unfold dep, inside. replace (b <? nb) with true by lia. replace (c <? nc) with true by lia. replace (t <? nt) with true by lia. cbn [andb].
  destruct (on t b c) eqn:O; [|reflexivity]. destruct (on_range nt nb nc gs uvw freq max HV t b c Ht Hb Hc O) as [Ru Rv].
  destruct ((cu t b c =? u) && (cv t b c =? v)) eqn:C.
  - assert (cu t b c = u) as Eu by lia. assert (cv t b c = v) as Ev by lia. rewrite (rsum_one 0 np p).
    + now rewrite Eu, Ev, Z.eqb_refl.
    + exact Hp.
    + intros q Hq N. replace (_ =? _) with false; [reflexivity|]. symmetry. apply Z.eqb_neq. intro X. apply pos3_inj in X; auto. lia.
  - apply rsum_none. intros q Hq. replace (_ =? _) with false; [reflexivity|]. symmetry. apply Z.eqb_neq. intro X. apply pos3_inj in X; auto. lia.
Qed.

Notation own grid := (own_cell nb np gs uvw freq max grid).
Definition two (grid : nd A) (l : Z) (id : Z * Z * Z) : A :=
  if inside id then let '(x, y, z) := id in rsum 0 np (fun p => if l =? 0 then own grid z x y p else if l =? 1 then (own grid z x y p * own grid z x y p)%cr else r0) else r0.
Lemma sum_thread grid x y z : shape grid = [gs * gs * np] -> 0 <= x <= 2147483647 -> 0 <= y <= 2147483647 -> 0 <= z <= 2147483647 ->
  exists k, calc_sum_gpu nt nb nc np gs uvw freq max grid (x, y, z) = Some k /\ only_adds k /\ forall l, total Z.eqb radd r0 l k = two grid l (x, y, z).
Proof.
  intros Sg Hx Hy Hz. unfold calc_sum_gpu. rewrite vis_thread_eq by auto. unfold two. destruct (inside (x, y, z)) eqn:I.
  2:{ exists []. split; [reflexivity|]. split; [intros ? []|]. intro l. reflexivity. }
  apply inside_in in I; try lia. destruct I as (Lx & Ly & Lz & O). destruct (on_range nt nb nc gs uvw freq max HV z x y ltac:(lia) ltac:(lia) ltac:(lia) O) as [Ru Rv].
  pose proof HI as (I1 & I2 & I3 & I4 & I5 & I6 & I7 & I8 & I9).
  apply (adds_loop (fun p => [Add 0 (own grid z x y p); Add 1 (own grid z x y p * own grid z x y p)%cr])).
  - lia.
  - intros p ops Hp. replace (pos3 gs np (cu z x y) (cv z x y) 0 + p) with (pos3 gs np (cu z x y) (cv z x y) p) by (unfold pos3; lia).
    pose proof (pos3_range gs gs np _ _ p Ru Rv Hp).
    rewrite rd_some by (rewrite Sg; now apply in_shape_1). reflexivity.
  - intros p Hp. split; [intros o [<-|[<-|[]]]; eauto|]. intro l. unfold total. cbn [map added fold_right].
    rewrite (Z.eqb_sym 0 l), (Z.eqb_sym 1 l). destruct (Z.eqb_spec l 0) as [->|N]; [cbn; ring|]. destruct (l =? 1); ring.
Qed.
Lemma two_total grid : 
  rsum 0 nt (fun c => rsum 0 nb (fun a => rsum 0 nc (fun b => two grid 0 (a, b, c)))) = WeightingSpec.total nt nb nc gs uvw freq max (fun t b c => rsum 0 np (fun p => own grid t b c p)) /\
  rsum 0 nt (fun c => rsum 0 nb (fun a => rsum 0 nc (fun b => two grid 1 (a, b, c)))) = WeightingSpec.total nt nb nc gs uvw freq max (fun t b c => rsum 0 np (fun p => (own grid t b c p * own grid t b c p)%cr)).
Proof.
  unfold WeightingSpec.total. split; (apply rsum_ext; intros t Ht; apply rsum_ext; intros b Hb; apply rsum_ext; intros c Hc;
  unfold two, inside; replace (b <? nb) with true by lia; replace (c <? nc) with true by lia; replace (t <? nt) with true by lia; reflexivity).
Qed.
Lemma dep_out input l a b c : nb <= a \/ nc <= b \/ nt <= c -> dep input l (a, b, c) = r0.
Proof. intro H. unfold dep, inside. replace (_ && _) with false; [reflexivity|]. destruct (on c a b); lia. Qed.
Lemma two_out grid l a b c : nb <= a \/ nc <= b \/ nt <= c -> two grid l (a, b, c) = r0.
Proof. intro H. unfold two, inside. replace (_ && _) with false; [reflexivity|]. destruct (on c a b); lia. Qed.

(** The kernels that write *)
Definition w_dom (id : Z * Z * Z) (l : Z) : Prop := inside id = true /\ let '(x, y, z) := id in exists p, 0 <= p < np /\ l = pos4 nb nc np z x y p.
Definition w_val (v : Z -> Z -> Z -> Z -> A) (id : Z * Z * Z) (l : Z) (_ : A) : A := let '(x, y, z) := id in v z x y (l - pos4 nb nc np z x y 0).
Lemma writes_thread (v : Z -> Z -> Z -> Z -> A) body x y z : 0 <= x <= 2147483647 -> 0 <= y <= 2147483647 -> 0 <= z <= 2147483647 ->
  (inside (x, y, z) = true -> forall p ops, 0 <= p < np -> body (pos3 gs np (cu z x y) (cv z x y) 0) (pos4 nb nc np z x y 0) p ops = Some (ops ++ [Update (pos4 nb nc np z x y p) (fun _ => v z x y p)])) ->
  thread_sets radd (vis_thread nt nb nc np gs uvw freq max (fun i_s start => let* i_start := start in for_ 0 np (body i_s i_start) [])) w_dom (w_val v) (x, y, z).
Proof.
  intros Hx Hy Hz B. unfold thread_sets. rewrite vis_thread_eq by auto. destruct (inside (x, y, z)) eqn:I.
  2:{ exists []. split; [reflexivity|]. split; [constructor|]. split; [|intros ? ? []]. intro l. cbn [map In w_dom]. split; [intros []|]. intros (F & _). rewrite I in F. discriminate. }
  specialize (B eq_refl). pose proof I as I0. apply inside_in in I; try lia. destruct I as (Lx & Ly & Lz & O). cbn [bind]. pose proof HI as (_ & _ & _ & I4 & _).
  match goal with |- context [for_ 0 np ?f ?x0] => destruct (for_inv (fun q (k : list (op Z A)) => NoDup (map loc k) /\
    (forall l, In l (map loc k) <-> exists p, 0 <= p < q /\ l = pos4 nb nc np z x y p) /\
    forall o a, In o k -> exists p, 0 <= p < q /\ loc o = pos4 nb nc np z x y p /\ apply radd o a = v z x y p) 0 np f x0 ltac:(lia)) as (k & E & N & D & V) end.
  - split; [constructor|]. split; [|intros ? ? []]. intro l. cbn. split; [intros []|]. intros (p & Hq & _). lia.
  - intros p k Hq (N & D & V). rewrite B by auto. eexists. split; [reflexivity|]. rewrite map_app. cbn [map loc]. split; [|split].
    + apply GpuFacts2.nodup_app; [exact N|constructor; [intros []|constructor]|]. intros l Il [<-|[]]. apply D in Il. destruct Il as (p' & Hp'' & E). apply pos4_inj in E; try lia.
    + intro l. rewrite in_app_iff, D. cbn. split.
      * intros [(p' & Hp'' & ->)|[<-|[]]]; [exists p'; split; [lia|reflexivity]|exists p; split; [lia|reflexivity]].
      * intros (p' & Hp'' & ->). destruct (Z.eq_dec p' p) as [->|Ne]; [right; now left|]. left. exists p'. split; [lia|reflexivity].
    + intros o a Io. apply in_app_or in Io. destruct Io as [Io|[<-|[]]].
      * destruct (V o a Io) as (p' & Hp'' & X). exists p'. split; [lia|exact X].
      * exists p. split; [lia|]. split; reflexivity.
  - exists k. split; [exact E|]. split; [exact N|]. split.
    + intro l. rewrite D. unfold w_dom. rewrite I0. split; [auto|]. now intros (_ & H).
    + intros o a Io. destruct (V o a Io) as (p & Hq & L & Ap). rewrite Ap. unfold w_val. rewrite L. f_equal. unfold pos4. lia.
Qed.
Lemma w_dom_inj (ths : list (Z * Z * Z)) id id' l : (forall x y z, In (x, y, z) ths -> 0 <= x /\ 0 <= y /\ 0 <= z) -> In id ths -> In id' ths -> w_dom id l -> w_dom id' l -> id = id'.
Proof.
  intros Pos I I'. destruct id as [[x y] z], id' as [[x' y'] z']. apply Pos in I. apply Pos in I'. intros (In1 & p & Hp1 & ->) (In2 & p' & Hp1' & E).
  apply inside_in in In1; try lia. apply inside_in in In2; try lia. apply pos4_inj in E; try lia. destruct E as (-> & -> & -> & ->). reflexivity.
Qed.
Lemma uniform_thread grid x y z : shape grid = [gs * gs * np] -> 0 <= x <= 2147483647 -> 0 <= y <= 2147483647 -> 0 <= z <= 2147483647 ->
  thread_sets radd (grid_uniform_read_gpu wdiv nt nb nc np gs uvw freq max grid (nt * nb * nc * np)) w_dom (w_val (fun t b c p => wdiv r1 (own grid t b c p))) (x, y, z).
Proof.
  intros Sg Hx Hy Hz. unfold grid_uniform_read_gpu.
  apply (writes_thread (fun t b c p => wdiv r1 (own grid t b c p)) (fun i_pol_s i_pol_start p ops => let* g := rd grid [i_pol_s + p] in
      if in_shape [nt * nb * nc * np] [i_pol_start + p] then Some (ops ++ [Update (i_pol_start + p) (fun _ => wdiv r1 g)]) else None)); auto.
  intros I p ops Hp. apply inside_in in I; try lia. destruct I as (Lx & Ly & Lz & O). destruct (on_range nt nb nc gs uvw freq max HV z x y ltac:(lia) ltac:(lia) ltac:(lia) O) as [Ru Rv].
  replace (pos3 gs np (cu z x y) (cv z x y) 0 + p) with (pos3 gs np (cu z x y) (cv z x y) p) by (unfold pos3; lia).
  replace (pos4 nb nc np z x y 0 + p) with (pos4 nb nc np z x y p) by (unfold pos4; lia).
  pose proof (pos3_range gs gs np _ _ p Ru Rv Hp). pose proof (pos4_range nt nb nc np z x y p Lz Lx Ly Hp).
  rewrite rd_some by (rewrite Sg; now apply in_shape_1). cbn [bind]. rewrite (proj2 (in_shape_1 _ _)) by lia. reflexivity.
Qed.
Lemma briggs_thread grid input rob x y z : shape grid = [gs * gs * np] -> shape input = [nt * nb * nc * np] -> 0 <= x <= 2147483647 -> 0 <= y <= 2147483647 -> 0 <= z <= 2147483647 ->
  thread_sets radd (grid_briggs_read_gpu wdiv nt nb nc np gs uvw freq max grid input rob (nt * nb * nc * np)) w_dom
    (w_val (fun t b c p => wdiv (weight nb nc np input t b c p) (r1 + rob * own grid t b c p)%cr)) (x, y, z).
Proof.
  intros Sg Si Hx Hy Hz. unfold grid_briggs_read_gpu.
  apply (writes_thread (fun t b c p => wdiv (weight nb nc np input t b c p) (r1 + rob * own grid t b c p)%cr) (fun i_pol_s i_pol_start p ops => let* w := rd input [i_pol_start + p] in let* g := rd grid [i_pol_s + p] in
      if in_shape [nt * nb * nc * np] [i_pol_start + p] then Some (ops ++ [Update (i_pol_start + p) (fun _ => wdiv w (r1 + rob * g)%cr)]) else None)); auto.
  intros I p ops Hp. apply inside_in in I; try lia. destruct I as (Lx & Ly & Lz & O). destruct (on_range nt nb nc gs uvw freq max HV z x y ltac:(lia) ltac:(lia) ltac:(lia) O) as [Ru Rv].
  replace (pos3 gs np (cu z x y) (cv z x y) 0 + p) with (pos3 gs np (cu z x y) (cv z x y) p) by (unfold pos3; lia).
  replace (pos4 nb nc np z x y 0 + p) with (pos4 nb nc np z x y p) by (unfold pos4; lia).
  pose proof (pos3_range gs gs np _ _ p Ru Rv Hp). pose proof (pos4_range nt nb nc np z x y p Lz Lx Ly Hp).
  rewrite rd_some by (rewrite Si; now apply in_shape_1). cbn [bind]. rewrite rd_some by (rewrite Sg; now apply in_shape_1). cbn [bind]. rewrite (proj2 (in_shape_1 _ _)) by lia. reflexivity.
Qed.

(** Launches *)
Context (n : string) (Rg : registered n = true).
Lemma write_launch (input grid : nd A) body st' (g : nd A) : shape input = [nt * nb * nc * np] -> shape grid = [gs * gs * np] -> (forall id, body id = grid_write_gpu nt nb nc np gs uvw freq max input (gs * gs * np) id) ->
  launch_kernel radd (Some n) (vis_blocks nb nc nt) vis_threads body SUCCESS grid st' g ->
  if fits3 nb nc nt then st' = SUCCESS /\ shape g = [gs * gs * np] /\ forall u v p, 0 <= u < gs -> 0 <= v < gs -> 0 <= p < np ->
      grid_at np gs g u v p = (grid_at np gs grid u v p + deposited nt nb nc np gs uvw freq max input u v p)%cr
  else st' = ERR_RUNTIME /\ g = grid.
Proof.
  intros Si Sg Hb L. pose proof HI as (I1 & I2 & I3 & I4 & I5 & I6 & I7 & I8 & I9).
  apply (launch_adds n nb nc nt body grid (dep input) ltac:(lia) ltac:(lia) ltac:(lia) Rg) in L.
  - destruct (fits3 nb nc nt); [|exact L]. destruct L as (-> & S' & V). split; [reflexivity|]. split; [congruence|]. intros u v p Hu Hv Hp. unfold grid_at. rewrite V. f_equal. now apply dep_total.
  - intros. rewrite Hb. now apply write_thread.
  - intros. now apply dep_out.
Qed.
Lemma write_launch_exists (input grid : nd A) body : shape input = [nt * nb * nc * np] -> (forall id, body id = grid_write_gpu nt nb nc np gs uvw freq max input (gs * gs * np) id) ->
  exists st' g, launch_kernel radd (Some n) (vis_blocks nb nc nt) vis_threads body SUCCESS grid st' g.
Proof.
  intros Si Hb. pose proof HI as (I1 & I2 & I3 & I4 & I5 & I6 & I7 & I8 & I9).
  apply (launch_adds_exists n nb nc nt body grid (dep input) ltac:(lia) ltac:(lia) ltac:(lia) Rg); intros; rewrite Hb; now apply write_thread.
Qed.
Lemma sum_launch (grid : nd A) s0 st' s : shape grid = [gs * gs * np] ->
  launch_kernel radd (Some n) (vis_blocks nb nc nt) vis_threads (calc_sum_gpu nt nb nc np gs uvw freq max grid) SUCCESS s0 st' s ->
  if fits3 nb nc nt then st' = SUCCESS /\
    elem s [0] = (elem s0 [0] + WeightingSpec.total nt nb nc gs uvw freq max (fun t b c => rsum 0 np (fun p => own grid t b c p)))%cr /\
    elem s [1] = (elem s0 [1] + WeightingSpec.total nt nb nc gs uvw freq max (fun t b c => rsum 0 np (fun p => (own grid t b c p * own grid t b c p)%cr)))%cr
  else st' = ERR_RUNTIME.
Proof.
  intros Sg L. pose proof HI as (I1 & I2 & I3 & I4 & I5 & I6 & I7 & I8 & I9).
  apply (launch_adds n nb nc nt _ s0 (two grid) ltac:(lia) ltac:(lia) ltac:(lia) Rg) in L.
  - destruct (fits3 nb nc nt); [|now destruct L]. destruct L as (-> & _ & V). split; [reflexivity|]. rewrite !V. destruct (two_total grid) as [-> ->]. auto.
  - intros. now apply sum_thread.
  - intros. now apply two_out.
Qed.
Lemma sum_launch_exists (grid : nd A) s0 : shape grid = [gs * gs * np] ->
  exists st' s, launch_kernel radd (Some n) (vis_blocks nb nc nt) vis_threads (calc_sum_gpu nt nb nc np gs uvw freq max grid) SUCCESS s0 st' s.
Proof.
  intros Sg. pose proof HI as (I1 & I2 & I3 & I4 & I5 & I6 & I7 & I8 & I9).
  apply (launch_adds_exists n nb nc nt _ s0 (two grid) ltac:(lia) ltac:(lia) ltac:(lia) Rg); intros; now apply sum_thread.
Qed.
Section Read.
Context (body : Z * Z * Z -> option (list (op Z A))) (v : Z -> Z -> Z -> Z -> A) (out : nd A) (So : shape out = [nt * nb * nc * np]).
Context (Th : forall x y z, 0 <= x <= 2147483647 -> 0 <= y <= 2147483647 -> 0 <= z <= 2147483647 -> thread_sets radd body w_dom (w_val v) (x, y, z)).
Lemma bounds3 : 0 <= nb <= 2147483647 /\ 0 <= nc <= 2147483647 /\ 0 <= nt <= 2147483647 /\ 1 <= np.
Proof. pose proof HI as (I1 & I2 & I3 & I4 & I5 & I6 & I7 & I8 & I9). lia. Qed.
Lemma read_ths : grid_ok (to_dim3 (vis_blocks nb nc nt)) (to_dim3 vis_threads) = true -> forall t, In t (threads3 (to_dim3 (vis_blocks nb nc nt)) (to_dim3 vis_threads)) -> thread_sets radd body w_dom (w_val v) t.
Proof. destruct bounds3 as (B1 & B2 & B3 & _). rewrite grid3_ok by lia. unfold fits3. intros G [[x y] z] I. eapply in3 in I; [|lia..]. apply Th; lia. Qed.
Lemma read_launch st' r : launch_kernel radd (Some n) (vis_blocks nb nc nt) vis_threads body SUCCESS out st' r ->
  if fits3 nb nc nt then st' = SUCCESS /\ forall t b c p, 0 <= t < nt -> 0 <= b < nb -> 0 <= c < nc -> 0 <= p < np ->
      weight nb nc np r t b c p = if on t b c then v t b c p else weight nb nc np out t b c p
  else st' = ERR_RUNTIME /\ r = out.
Proof.
  intro L. destruct bounds3 as (B1 & B2 & B3 & B4).
  assert (Dj : forall t t' l, In t (threads3 (to_dim3 (vis_blocks nb nc nt)) (to_dim3 vis_threads)) -> In t' (threads3 (to_dim3 (vis_blocks nb nc nt)) (to_dim3 vis_threads)) -> w_dom t l -> w_dom t' l -> t = t').
  { intros. eapply w_dom_inj; eauto. intros x y z I. eapply in3 in I; [|lia..]. lia. }
  apply (launch_result radd n _ _ body out w_dom (w_val v) Rg read_ths Dj) in L. rewrite grid3_ok in L by lia. destruct (fits3 nb nc nt); [|exact L].
  destruct L as (-> & _ & V & F). split; [reflexivity|]. intros t b c p Ht Hb Hc Hp. unfold weight. destruct (on t b c) eqn:O.
  - rewrite (V (b, c, t)).
    + cbn [w_val]. f_equal. unfold pos4. lia.
    + unfold vis_blocks, vis_threads. now apply (threads_cover nb nc nt 128 2 2 b c t); lia.
    + split; [unfold inside; rewrite O; lia|]. eauto.
  - apply F. intros [[x y] z] I (In_ & p' & Hp' & E). eapply in3 in I; [|lia..]. apply inside_in in In_; try lia. apply pos4_inj in E; try lia. destruct E as (-> & -> & -> & ->). destruct In_ as (_ & _ & _ & X). congruence.
Qed.
Lemma read_launch_exists : exists st' r, launch_kernel radd (Some n) (vis_blocks nb nc nt) vis_threads body SUCCESS out st' r.
Proof. apply (launch_exists radd n _ _ body out w_dom (w_val v) Rg read_ths). Qed.
End Read.
End Facts.
