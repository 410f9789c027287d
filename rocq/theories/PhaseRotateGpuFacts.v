From Coq Require Import Reals Lra Lia String.
From Verif Require Import Base BaseFacts Mem MemSpec Checks ChecksFacts CRing Cplx Sets FftSpec FftFacts Dft DftSpec DftFacts2 PhaseRotate PhaseRotateSpec PhaseRotateFacts Gpu GpuFacts GpuFacts2 GpuLaunch GpuLaunchFacts PhaseRotateGpu.
Open Scope Z_scope.

(** A location that no thread writes keeps its value *)
Section Untouched.
Context {L A T : Type} (eqb : L -> L -> bool) (plus : A -> A -> A) (eqb_spec : forall a b, reflect (a = b) (eqb a b)).
Lemma untouched (ths : list T) (body : T -> option (list (op L A))) m m' l : runs eqb plus ths body m m' ->
  (forall t k o, In t ths -> body t = Some k -> In o k -> loc o <> l) -> m' l = m l.
Proof.
  intros (ops & F & n & c & St & _ & <-) H.
  assert (X : forall o, In o (left_over (initial m ops)) -> loc o <> l).
  { rewrite left_initial. intros o Io. destruct (forall2_in ths body ops o F Io) as (t & k & It & E & Ik). eauto. }
  assert (Y : m l = fst (initial m ops) l) by reflexivity. rewrite Y. clear Y F H.
  revert X. generalize dependent (initial m ops). intros c0 St X. induction St as [|n c0 c1 c2 S1 _ IH]; [reflexivity|].
  destruct (step_inv eqb plus c0 c1 S1) as (l1 & o & k & r & l2 & Ec & [(l' & f & -> & -> & ->)|(x & -> & _)]).
  - rewrite IH; [reflexivity|]. intros o' I. apply X. unfold left_over in *. rewrite Ec. cbn [snd] in I. rewrite !flat_map_app in *. exact I.
  - rewrite IH.
    + cbn [fst]. unfold put. destruct (eqb_spec (loc o) l) as [E|]; [|reflexivity]. exfalso. apply (X o); [|exact E]. unfold left_over. rewrite Ec, flat_map_app. apply in_or_app. right. now left.
    + intros o' I. apply X. unfold left_over in *. rewrite Ec. cbn [snd] in I. rewrite !flat_map_app in *. apply in_or_app. apply in_app_or in I. destruct I as [I|I]; [now left|right]. cbn in *. now right.
Qed.
End Untouched.

Lemma u32_small x : 0 <= x <= 4294967295 -> u32 x = x.
Proof. intro H. unfold u32. apply Z.mod_small. lia. Qed.

Section Uvw.
Context (alias : bool) (num : Z) (m : Z -> R) (uin uout : nd vec3) (Hn : 0 <= num <= 4294967295) (Si : shape uin = [num]) (So : shape uout = [num]) (Al : alias = true -> uin = uout).
Definition row_dom (id : Z * Z * Z) (l : Z) : Prop := let '(x, y, z) := id in x < num /\ l = x.
Definition row_val (id : Z * Z * Z) (l : Z) (q : vec3) : vec3 := rotate_row m (if alias then q else elem uin [l]).
Lemma uvw_thread x y z : 0 <= x <= 4294967295 -> thread_sets (fun a _ => a) (rotate_uvw_thread alias num m uin num) row_dom row_val (x, y, z).
Proof.
  intro Hx. unfold thread_sets, rotate_uvw_thread, row_dom. rewrite u32_small by exact Hx. destruct (Z.leb_spec num x).
  - exists []. split; [reflexivity|]. split; [constructor|]. split; [|intros ? ? []]. intro l. cbn. split; [intros []|lia].
  - assert (I : in_shape [num] [x] = true) by (apply in_shape_1; lia). unfold row_val. destruct alias; cbn [bind].
    + rewrite I. eexists. split; [reflexivity|]. split; [constructor; [intros []|constructor]|]. split; [intro l; cbn; intuition lia|]. intros o q [<-|[]]. reflexivity.
    + rewrite rd_some by (rewrite Si; exact I). cbn [bind]. rewrite I. eexists. split; [reflexivity|]. split; [constructor; [intros []|constructor]|]. split; [intro l; cbn; intuition lia|]. intros o q [<-|[]]. reflexivity.
Qed.
Lemma uvw_ths x y z : In (x, y, z) (threads3 (to_dim3 (blocks_of num 256, 1, 1)) (to_dim3 (256, 1, 1))) -> 0 <= x <= 4294967295 /\ y = 0 /\ z = 0.
Proof.
  intro I. assert (I2 := I). unfold to_dim3 in I2. rewrite threads3_in in I2. change (1 mod 4294967296) with 1 in I2. change 1 with (blocks_of 1 1) in I at 1. change (blocks_of num 256, blocks_of 1 1, 1) with (blocks_of num 256, blocks_of 1 1, blocks_of 1 1) in I.
  pose proof (threads_below num 1 1 256 1 1 x y z 16777216 ltac:(lia) ltac:(lia) ltac:(lia) ltac:(lia) ltac:(lia) ltac:(lia) ltac:(lia) I).
  pose proof (proj2 (threads_cover num 1 1 256 1 1 x y z ltac:(lia) ltac:(lia) ltac:(lia) ltac:(lia) ltac:(lia) ltac:(lia)) I). lia.
Qed.
Lemma uvw_grid : grid_ok (to_dim3 (blocks_of num 256, 1, 1)) (to_dim3 (256, 1, 1)) = (1 <=? num).
Proof.
  change (blocks_of num 256, 1, 1) with (blocks_of num 256, blocks_of 1 1, blocks_of 1 1). rewrite grid_ok_cover by lia. replace (num <=? 2147483647 * 256) with true by lia. cbn. now rewrite !andb_true_r.
Qed.
Lemma uvw_launch n st' y : registered n = true -> launch_kernel (fun a _ => a) (Some n) (blocks_of num 256, 1, 1) (256, 1, 1) (rotate_uvw_thread alias num m uin num) SUCCESS uout st' y ->
  if 1 <=? num then st' = SUCCESS /\ shape y = [num] /\ forall i, 0 <= i < num -> elem y [i] = rotate_row m (elem uin [i]) else st' = ERR_RUNTIME /\ y = uout.
Proof.
  intros Rg G. apply (launch_result _ n _ _ _ uout row_dom row_val Rg) in G.
  - rewrite uvw_grid in G. destruct (1 <=? num); [|exact G]. destruct G as (-> & S & V & _). split; [reflexivity|]. split; [congruence|]. intros i Hi.
    rewrite (V (i, 0, 0) i).
    + unfold row_val. destruct alias; [now rewrite (Al eq_refl)|reflexivity].
    + change (blocks_of num 256, 1, 1) with (blocks_of num 256, blocks_of 1 1, blocks_of 1 1). apply threads_cover; lia.
    + cbn. lia.
  - intros _ [[x y0] z] I. apply uvw_thread. apply uvw_ths in I. lia.
  - intros [[x y0] z] [[x' y'] z'] l I I' (_ & ->) (_ & ->). apply uvw_ths in I. apply uvw_ths in I'. destruct I as (_ & -> & ->), I' as (_ & -> & ->). reflexivity.
Qed.
Lemma uvw_launch_exists n : registered n = true -> exists st' y, launch_kernel (fun a _ => a) (Some n) (blocks_of num 256, 1, 1) (256, 1, 1) (rotate_uvw_thread alias num m uin num) SUCCESS uout st' y.
Proof.
  intro Rg. apply (launch_exists _ n _ _ _ uout row_dom row_val Rg). intros _ [[x y0] z] I. apply uvw_thread. apply uvw_ths in I. lia.
Qed.
End Uvw.

Section Vis.
Context (alias : bool) (nt nb nc np : Z) (f0 df dl dm dn : R) (uvw : nd R) (vin vout : nd C).
Context (Ht : 0 <= nt <= 4294967295) (Hb : 0 <= nb <= 4294967295) (Hc : 0 <= nc <= 4294967295) (Hp : np = 1 \/ np = 4).
Context (Su : shape uvw = [3 * (nt * nb)]) (Si : shape vin = [nt * nb * nc * np]) (So : shape vout = [nt * nb * nc * np]) (Al : alias = true -> vin = vout).
Definition turn (t b c : Z) : C := cis (2 * PI * ((f0 + IZR c * df) / c_0) * (vx (row uvw (nb * t + b)) * dl + vy (row uvw (nb * t + b)) * dm + vz (row uvw (nb * t + b)) * dn)).
Definition rot_dom (id : Z * Z * Z) (l : Z) : Prop := let '(x, y, z) := id in x < nb /\ y < nc /\ z < nt /\ exists p, 0 <= p < np /\ l = pos4 nb nc np z x y p.
Definition rot_val (id : Z * Z * Z) (l : Z) (v : C) : C := let '(x, y, z) := id in Cmul (turn z x y) (if alias then v else elem vin [l]).
Let body := rotate_vis_thread alias nt nb nc np f0 df dl dm dn uvw vin (nt * nb * nc * np).
Lemma vis_thread x y z : 0 <= x <= 4294967295 -> 0 <= y <= 4294967295 -> 0 <= z <= 4294967295 -> thread_sets Cadd body rot_dom rot_val (x, y, z).
Proof.
  intros Hx Hy Hz. unfold thread_sets, body, rotate_vis_thread, rot_dom. cbv zeta. rewrite !u32_small by assumption. replace (4 <? np) with false by lia. cbn [orb].
  destruct (Z.leb_spec nb x); [|destruct (Z.leb_spec nc y); [|destruct (Z.leb_spec nt z)]]; cbn [orb].
  1,2,3: exists []; split; [reflexivity|]; split; [constructor|]; split; [|intros ? ? []]; intro l; cbn; split; [intros []|intros (? & ? & ? & _); lia].
  assert (Q : forall i, 0 <= i < 3 -> rd uvw [3 * (nb * z + x) + i] = Some (elem uvw [3 * (nb * z + x) + i])).
  { intros i Hi. apply rd_some. rewrite Su. apply in_shape_1. nia. }
  pose proof (Q 0 ltac:(lia)) as Q0. rewrite Z.add_0_r in Q0. rewrite Q0, !Q by lia. cbn [bind].
  match goal with |- context [cis ?p] => assert (cis p = turn z x y) as -> by (unfold turn, row; cbn [vx vy vz]; now rewrite Z.add_0_r) end.
  match goal with |- context [for_ 0 np ?f ?x0] => destruct (for_inv (fun q (k : list (op Z C)) => NoDup (map loc k) /\
    (forall l, In l (map loc k) <-> exists p, 0 <= p < q /\ l = pos4 nb nc np z x y p) /\
    forall o v, In o k -> apply Cadd o v = rot_val (x, y, z) (loc o) v) 0 np f x0 ltac:(lia)) as (k & E & N & D & V) end.
  - split; [constructor|]. split; [|intros ? ? []]. intro l. cbn. split; [intros []|]. intros (p & Hq & _). lia.
  - intros p k Hq (N & D & V). change (np * (nc * (nb * z + x) + y) + p) with (pos4 nb nc np z x y p).
    assert (I : in_shape [nt * nb * nc * np] [pos4 nb nc np z x y p] = true) by (apply in_shape_1; apply pos4_range; lia).
    match goal with |- exists s', bind (if alias then ?u else ?w) ?h = _ /\ _ =>
      assert (U : exists f, (if alias then u else w) = Some f /\ forall v, f v = rot_val (x, y, z) (pos4 nb nc np z x y p) v) end.
    { unfold rot_val. destruct alias; [eexists; split; [reflexivity|]; reflexivity|]. rewrite rd_some by (rewrite Si; exact I). cbn [bind]. eexists. split; [reflexivity|]. reflexivity. }
    destruct U as (f & Ef & Vf). rewrite Ef. cbn [bind]. rewrite I. eexists. split; [reflexivity|]. rewrite map_app. cbn [map loc]. split; [|split].
    + apply nodup_app; [exact N|constructor; [intros []|constructor]|]. intros l Il [<-|[]]. apply D in Il. destruct Il as (p' & Hp'' & E). apply pos4_inj in E; lia.
    + intro l. rewrite in_app_iff, D. cbn. split.
      * intros [(p' & Hp'' & ->)|[<-|[]]]; [exists p'; split; [lia|reflexivity]|exists p; split; [lia|reflexivity]].
      * intros (p' & Hp'' & ->). destruct (Z.eq_dec p' p) as [->|Ne]; [right; now left|]. left. exists p'. split; [lia|reflexivity].
    + intros o v Io. apply in_app_or in Io. destruct Io as [Io|[<-|[]]]; [now apply V|]. apply Vf.
  - exists k. split; [exact E|]. split; [exact N|]. split; [|exact V]. intro l. rewrite D. cbn. split; [intro X; auto|intros (_ & _ & _ & X); exact X].
Qed.
Lemma vis_ths x y z : In (x, y, z) (threads3 (to_dim3 (blocks_of nb 128, blocks_of nc 2, blocks_of nt 2)) (to_dim3 (128, 2, 2))) ->
  0 <= x <= 4294967295 /\ 0 <= y <= nc + 1 /\ 0 <= z <= nt + 1.
Proof.
  intro I. pose proof (proj2 (threads_cover nb nc nt 128 2 2 x y z ltac:(lia) ltac:(lia) ltac:(lia) ltac:(lia) ltac:(lia) ltac:(lia)) I).
  pose proof (threads_below nb nc nt 128 2 2 x y z 33554432 ltac:(lia) ltac:(lia) ltac:(lia) ltac:(lia) ltac:(lia) ltac:(lia) ltac:(lia) I). lia.
Qed.
Lemma vis_grid : grid_ok (to_dim3 (blocks_of nb 128, blocks_of nc 2, blocks_of nt 2)) (to_dim3 (128, 2, 2)) = (1 <=? nb) && (1 <=? nc) && (1 <=? nt) && (nc <=? 131070) && (nt <=? 131070).
Proof. rewrite grid_ok_cover by lia. replace (nb <=? 2147483647 * 128) with true by lia. rewrite andb_true_r. reflexivity. Qed.
Lemma vis_ths_ok : grid_ok (to_dim3 (blocks_of nb 128, blocks_of nc 2, blocks_of nt 2)) (to_dim3 (128, 2, 2)) = true ->
  forall t, In t (threads3 (to_dim3 (blocks_of nb 128, blocks_of nc 2, blocks_of nt 2)) (to_dim3 (128, 2, 2))) -> thread_sets Cadd body rot_dom rot_val t.
Proof. rewrite vis_grid. intros G [[x y] z] I. apply vis_ths in I. apply vis_thread; lia. Qed.
Lemma vis_launch n st' r : registered n = true -> launch_kernel Cadd (Some n) (blocks_of nb 128, blocks_of nc 2, blocks_of nt 2) (128, 2, 2) body SUCCESS vout st' r ->
  if (1 <=? nb) && (1 <=? nc) && (1 <=? nt) && (nc <=? 131070) && (nt <=? 131070) then st' = SUCCESS /\ shape r = [nt * nb * nc * np] /\
    forall t b c p, 0 <= t < nt -> 0 <= b < nb -> 0 <= c < nc -> 0 <= p < np -> elem r [pos4 nb nc np t b c p] = Cmul (turn t b c) (elem vin [pos4 nb nc np t b c p])
  else st' = ERR_RUNTIME /\ r = vout.
Proof.
  intros Rg G. apply (launch_result _ n _ _ _ vout rot_dom rot_val Rg vis_ths_ok) in G.
  - rewrite vis_grid in G. destruct (_ && _); [|exact G]. destruct G as (-> & S & V & _). split; [reflexivity|]. split; [congruence|]. intros t b c p H1 H2 H3 H4.
    rewrite (V (b, c, t) (pos4 nb nc np t b c p)).
    + unfold rot_val. destruct alias; [now rewrite (Al eq_refl)|reflexivity].
    + apply threads_cover; lia.
    + cbn. repeat split; try lia. exists p. split; [exact H4|reflexivity].
  - intros [[x y] z] [[x' y'] z'] l I I'. apply vis_ths in I. apply vis_ths in I'. intros (Hx & Hy & Hz & p & Hp1 & ->) (Hx' & Hy' & Hz' & p' & Hp1' & E). apply pos4_inj in E; try lia. destruct E as (-> & -> & -> & ->). reflexivity.
Qed.
Lemma vis_launch_exists n : registered n = true -> exists st' r, launch_kernel Cadd (Some n) (blocks_of nb 128, blocks_of nc 2, blocks_of nt 2) (128, 2, 2) body SUCCESS vout st' r.
Proof. intro Rg. exact (launch_exists _ n _ _ _ vout rot_dom rot_val Rg vis_ths_ok). Qed.
End Vis.
