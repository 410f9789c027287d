From Coq Require Import String Lia Permutation.
From Verif Require Import Base BaseFacts Sum CRing QNum Tiled TiledSpec TiledFacts Gpu GpuFacts GpuFacts2 GpuLaunch GpuLaunchFacts GpuAddFacts GpuFetch GpuFetchFacts DftGpu TiledGpu TiledGpuSpec.
From Verif Require PhaseRotateGpu PhaseRotateGpuFacts.
Import PhaseRotateGpu(u32). Import PhaseRotateGpuFacts(u32_small).
Open Scope Z_scope.

(** *** Permutations of nested lists *)
Lemma perm_flat_map {X Y} (f g : X -> list Y) l : (forall x, In x l -> Permutation (f x) (g x)) -> Permutation (flat_map f l) (flat_map g l).
Proof. induction l as [|x l IH]; intro H; cbn [flat_map]; [constructor|]. apply Permutation_app; [apply H; now left|]. apply IH. intros. apply H. now right. Qed.
Lemma flat_map_split {X Y} (f g : X -> list Y) l : Permutation (flat_map (fun x => f x ++ g x) l) (flat_map f l ++ flat_map g l).
Proof.
  induction l as [|x l IH]; cbn [flat_map]; [constructor|]. rewrite IH, <- !app_assoc. apply Permutation_app_head. rewrite !app_assoc. apply Permutation_app_tail. apply Permutation_app_comm.
Qed.
Lemma flat_map_nil {X Y} (l : list X) : flat_map (fun _ => @nil Y) l = [].
Proof. induction l; auto. Qed.
Lemma flat_map_swap {A B Y} (f : A -> B -> list Y) la lb :
  Permutation (flat_map (fun a => flat_map (fun b => f a b) lb) la) (flat_map (fun b => flat_map (fun a => f a b) la) lb).
Proof.
  induction la as [|a la IH]; cbn [flat_map]; [now rewrite flat_map_nil|]. rewrite IH. symmetry. apply flat_map_split.
Qed.
Lemma flat_map_prod {A B Y} (f : A * B -> list Y) la lb : flat_map f (list_prod la lb) = flat_map (fun a => flat_map (fun b => f (a, b)) lb) la.
Proof. induction la as [|a la IH]; cbn [list_prod flat_map]; [reflexivity|]. rewrite flat_map_app, IH, flat_map_map. reflexivity. Qed.
Lemma flat_map_cut {Y} n N (f : Z -> list Y) : 0 <= n <= N -> (forall i, n <= i < N -> f i = []) -> flat_map f (zrange 0 N) = flat_map f (zrange 0 n).
Proof.
  intros H Z0. assert (E : forall k, 0 <= k -> n + k <= N -> flat_map f (zrange 0 (n + k)) = flat_map f (zrange 0 n)).
  { apply (natlike_ind (fun k => n + k <= N -> flat_map f (zrange 0 (n + k)) = flat_map f (zrange 0 n))); [now rewrite Z.add_0_r|].
    intros k Hk IH L. replace (n + Z.succ k) with (n + k + 1) by lia. rewrite zrange_snoc by lia. rewrite flat_map_app. cbn [flat_map]. rewrite Z0 by lia. rewrite IH by lia. now rewrite !app_nil_r. }
  specialize (E (N - n) ltac:(lia) ltac:(lia)). now replace (n + (N - n)) with N in E by lia.
Qed.

(** *** The tiles *)
Definition gpu_tiles (P : tparams) (v : Z * Q * Q) : list (Z * Z) :=
  let '(_, pu, pv) := v in
  if fits P v then
    let '(u0, u1, v0, v1) := gpu_ranges P (grid_pos P pu) (grid_pos P pv) in
    flat_map (fun y => map (fun x => (x, y)) (zrange u0 u1)) (zrange v0 v1)
  else [].
Lemma in_tiles u0 u1 v0 v1 t : In t (flat_map (fun y => map (fun x => (x, y)) (zrange u0 u1)) (zrange v0 v1)) <-> u0 <= fst t < u1 /\ v0 <= snd t < v1.
Proof.
  rewrite in_flat_map. split.
  - intros (y & Hy & Hx). apply in_map_iff in Hx. destruct Hx as (x & <- & Hx). apply in_zrange in Hx, Hy. cbn. lia.
  - intros (Hx & Hy). exists (snd t). split; [now apply in_zrange|]. apply in_map_iff. exists (fst t). split; [now destruct t|now apply in_zrange].
Qed.
Lemma nodup_tiles u0 u1 v0 v1 : NoDup (flat_map (fun y => map (fun x => (x, y)) (zrange u0 u1)) (zrange v0 v1)).
Proof.
  assert (G : forall ys : list Z, NoDup ys -> NoDup (flat_map (fun y => map (fun x => (x, y)) (zrange u0 u1)) ys)); [|apply G, NoDup_zrange].
  induction 1 as [|y ys Ny N IH]; cbn [flat_map]; [constructor|]. apply GpuFacts2.nodup_app.
  - apply FinFun.Injective_map_NoDup; [intros a b Q; congruence|apply NoDup_zrange].
  - exact IH.
  - intros t It. apply in_map_iff in It. destruct It as (x & <- & _). intro J. apply in_flat_map in J. destruct J as (y' & Iy & J). apply in_map_iff in J. destruct J as (x' & Q & _). injection Q as _ ->. auto.
Qed.
Lemma gpu_tiles_ok P : 0 < tile_u P -> 0 < tile_v P -> 0 <= support P -> lists_tiles P (gpu_tiles P).
Proof.
  intros Tu Tv Hs [[i pu] pv]. unfold gpu_tiles, belongs. destruct (fits P (i, pu, pv)) eqn:F.
  - unfold gpu_ranges. split; [apply nodup_tiles|]. intros [x y]. rewrite in_tiles. cbn [fst snd].
    rewrite <- !range_overlap by assumption. replace (grid_pos P pu - support P - top_left P (tile_u P)) with (grid_pos P pu - top_left P (tile_u P) - support P) by lia. intuition.
  - split; [constructor|]. intros t. split; [intros []|intros (Q & _); discriminate].
Qed.
Lemma tiles_perm (P : tparams) ts ts' v : lists_tiles P ts -> lists_tiles P ts' -> Permutation (ts v) (ts' v).
Proof. intros H H'. apply NoDup_Permutation; [apply H|apply H'|]. intro t. rewrite (proj2 (H v) t), (proj2 (H' v) t). reflexivity. Qed.
Lemma pairs_perm {E} P ts ts' (mk : Z * Q * Q -> Z * Z -> E) vs : lists_tiles P ts -> lists_tiles P ts' -> Permutation (pairs P ts mk vs) (pairs P ts' mk vs).
Proof. intros H H'. apply perm_flat_map. intros v _. apply Permutation_map. now apply (tiles_perm P). Qed.

(** *** What a thread does *)
Definition vis_at P nb nc (uvw freqs : nd Q) t b c : Z * Q * Q :=
  (nc * (nb * t + b) + c, position P (elem uvw [t; b; 0]) (elem freqs [c]), position P (elem uvw [t; b; 1]) (elem freqs [c])).
Lemma for_list {X} lo hi (body : Z -> list X -> option (list X)) g a : (forall i a, lo <= i < hi -> body i a = Some (a ++ g i)) ->
  for_ lo hi body a = Some (a ++ flat_map g (zrange lo hi)).
Proof.
  intro H. rewrite (for_fold (fun i a => Some (a ++ g i)) (fun i => [i])).
  - assert (E : forall l a, fold_opt (fun i a => Some (a ++ g i)) (flat_map (fun i => [i]) l) a = Some (a ++ flat_map g l)); [|apply E].
    induction l as [|i l IH]; intro a0; cbn [flat_map fold_opt app bind]; [now rewrite app_nil_r|]. rewrite IH. now rewrite <- app_assoc.
  - intros i s Hi. cbn [fold_opt]. rewrite H by exact Hi. reflexivity.
Qed.
Lemma thread_lemma {X} P nt nb nc uvw freqs hit (skip : list X) (h : Z * Q * Q -> Z * Z -> list X) x y z :
  shape uvw = [nt; nb; 3] -> shape freqs = [nc] -> 0 <= x < 4294967296 -> 0 <= y < 4294967296 -> 0 <= z < 4294967296 ->
  (x < nb -> y < nc -> z < nt -> forall t, In t (gpu_tiles P (vis_at P nb nc uvw freqs z x y)) ->
     let '(i, u, v) := vis_at P nb nc uvw freqs z x y in hit i u v (fst t) (snd t) = Some (h (i, u, v) t)) ->
  tile_thread P nt nb nc uvw freqs hit skip (x, y, z) =
    Some (if (x <? nb) && (y <? nc) && (z <? nt) then
            let v := vis_at P nb nc uvw freqs z x y in if fits P v then flat_map (h v) (gpu_tiles P v) else skip
          else []).
Proof.
  intros S1 S2 Hx Hy Hz H. unfold tile_thread. rewrite !u32_small by lia.
  destruct (Z.ltb_spec x nb) as [Lx|Lx]; [|replace (nb <=? x) with true by lia; reflexivity].
  destruct (Z.ltb_spec y nc) as [Ly|Ly]; [|replace (nc <=? y) with true by lia; now rewrite orb_true_r].
  destruct (Z.ltb_spec z nt) as [Lz|Lz]; [|replace (nt <=? z) with true by lia; now rewrite orb_true_r].
  replace (nb <=? x) with false by lia. replace (nc <=? y) with false by lia. replace (nt <=? z) with false by lia. cbn [orb andb].
  rewrite rd_some by (rewrite S2; apply in_shape_1; lia). cbn [bind]. rewrite rd_some by (rewrite S1; apply in_shape_3; lia). cbn [bind]. rewrite rd_some by (rewrite S1; apply in_shape_3; lia). cbn [bind].
  specialize (H Lx Ly Lz). revert H. unfold vis_at, gpu_tiles, fits. set (pu := position P (elem uvw [z; x; 0]) (elem freqs [y])). set (pv := position P (elem uvw [z; x; 1]) (elem freqs [y])). clearbody pu pv.
  destruct (inside P (grid_pos P pu) (grid_pos P pv)); [|reflexivity]. destruct (gpu_ranges P (grid_pos P pu) (grid_pos P pv)) as [[[u0 u1] v0] v1]. intro H.
  set (v := (nc * (nb * z + x) + y, pu, pv)) in *.
  rewrite (for_list _ _ _ (fun y => flat_map (fun x => h v (x, y)) (zrange u0 u1))).
  - cbn [app]. f_equal. rewrite flat_map_flat_map. apply flat_map_ext_in. intros pv' _. now rewrite flat_map_map.
  - intros py a Hy'. rewrite (for_list _ _ _ (fun x => h v (x, py))); [reflexivity|]. intros px a' Hx'. assert (Hh : hit (nc * (nb * z + x) + y) pu pv px py = Some (h v (px, py))) by (apply (H (px, py)); apply in_tiles; cbn; lia). rewrite Hh. reflexivity.
Qed.

(** *** All threads *)
Lemma concat_bodies {T X} (ths : list T) (body : T -> option (list X)) g ops : Forall2 (fun t o => body t = Some o) ths ops -> (forall t, In t ths -> body t = Some (g t)) -> concat ops = flat_map g ths.
Proof.
  induction 1 as [|t o ths ops E F IH]; intro H; [reflexivity|]. cbn [concat flat_map]. rewrite IH by (intros; apply H; now right). rewrite (H t (or_introl eq_refl)) in E. congruence.
Qed.
Definition all_threads nb nc nt := threads3 (to_dim3 (vis_blocks nb nc nt)) (to_dim3 vis_threads).
Lemma thread_bounds nb nc nt x y z : grid_fits nb nc nt -> In (x, y, z) (all_threads nb nc nt) -> 0 <= x < 4294967296 /\ 0 <= y < 4294967296 /\ 0 <= z < 4294967296.
Proof.
  unfold grid_fits. intros H I. unfold all_threads, vis_blocks, vis_threads in I. pose proof (proj2 (threads_cover nb nc nt 128 2 2 x y z ltac:(lia) ltac:(lia) ltac:(lia) ltac:(lia) ltac:(lia) ltac:(lia)) I). lia.
Qed.
Lemma grid_fits_ok nb nc nt : grid_fits nb nc nt -> grid_ok (to_dim3 (vis_blocks nb nc nt)) (to_dim3 vis_threads) = true.
Proof. unfold grid_fits. intro H. rewrite grid3_ok by lia. unfold fits3. lia. Qed.
Lemma threads_perm {X} P nt nb nc uvw freqs (g : Z * Q * Q -> list X) : grid_fits nb nc nt ->
  Permutation (flat_map (fun id => let '(x, y, z) := id in if (x <? nb) && (y <? nc) && (z <? nt) then g (vis_at P nb nc uvw freqs z x y) else []) (all_threads nb nc nt))
    (flat_map g (visibilities P nt nb nc uvw freqs)).
Proof.
  unfold grid_fits. intros (Hb & Hc & Ht). unfold all_threads, vis_blocks, vis_threads, to_dim3, threads3. rewrite !blocks_of_ok by lia.
  pose proof (cover nb 128 ltac:(lia) ltac:(lia)). pose proof (cover nc 2 ltac:(lia) ltac:(lia)). pose proof (cover nt 2 ltac:(lia) ltac:(lia)).
  assert (S : forall k t, 0 <= k <= 2147483647 -> 1 <= t <= 1024 -> 0 <= (k + t - 1) / t < 4294967296). { intros k t Hk Hh. split; [apply Z.div_pos; lia|]. apply Z.div_lt_upper_bound; [lia|]. nia. }
  pose proof (S nb 128 ltac:(lia) ltac:(lia)). pose proof (S nc 2 ltac:(lia) ltac:(lia)). pose proof (S nt 2 ltac:(lia) ltac:(lia)).
  rewrite !Z.mod_small by lia. set (A := (nb + 128 - 1) / 128 * 128) in *. set (B := (nc + 2 - 1) / 2 * 2) in *. set (D := (nt + 2 - 1) / 2 * 2) in *. clearbody A B D. clear S.
  rewrite !flat_map_prod. set (F := fun x y z => if (x <? nb) && (y <? nc) && (z <? nt) then g (vis_at P nb nc uvw freqs z x y) else []).
  assert (N2 : forall (la lb : list Z) (f : Z -> Z -> list X), (forall a b, f a b = []) -> flat_map (fun a => flat_map (fun b => f a b) lb) la = []).
  { intros la lb f Hf. etransitivity; [|apply (flat_map_nil la)]. apply flat_map_ext_in. intros a _. etransitivity; [|apply (flat_map_nil lb)]. apply flat_map_ext_in. intros b _. apply Hf. }
  assert (E1 : flat_map (fun x => flat_map (fun y => flat_map (fun z => F x y z) (zrange 0 D)) (zrange 0 B)) (zrange 0 A) = flat_map (fun x => flat_map (fun y => flat_map (fun z => F x y z) (zrange 0 nt)) (zrange 0 nc)) (zrange 0 nb)).
  { rewrite (flat_map_cut nb A); [|lia|intros x Hx; apply N2; intros y z; unfold F; replace (x <? nb) with false by lia; reflexivity].
    apply flat_map_ext_in. intros x Hx. rewrite (flat_map_cut nc B); [|lia|].
    - apply flat_map_ext_in. intros y Hy. apply flat_map_cut; [lia|]. intros z Hz. unfold F. replace (z <? nt) with false by lia. now rewrite andb_false_r.
    - intros y Hy. etransitivity; [|apply (flat_map_nil (zrange 0 D))]. apply flat_map_ext_in. intros z _. unfold F. replace (y <? nc) with false by lia. now rewrite andb_false_r. }
  etransitivity. { match goal with |- Permutation ?l _ => replace l with (flat_map (fun x => flat_map (fun y => flat_map (fun z => F x y z) (zrange 0 D)) (zrange 0 B)) (zrange 0 A)) end; [rewrite E1; reflexivity|].
    apply flat_map_ext_in. intros x _. apply flat_map_ext_in. intros y _. reflexivity. }
  etransitivity. { apply perm_flat_map. intros x _. apply flat_map_swap. }
  etransitivity. { apply flat_map_swap. }
  unfold visibilities. rewrite flat_map_flat_map. apply perm_flat_map. intros t Ht0. rewrite flat_map_flat_map. apply perm_flat_map. intros b Hb'. rewrite flat_map_map. apply perm_flat_map. intros c Hc'.
  apply in_zrange in Ht0, Hb', Hc'. unfold F. replace (b <? nb) with true by lia. replace (c <? nc) with true by lia. replace (t <? nt) with true by lia. reflexivity.
Qed.
