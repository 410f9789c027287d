From Coq Require Import String Lia Permutation.
From Verif Require Import Base BaseFacts Sum CRing QNum Tiled TiledSpec TiledFacts Gpu GpuFacts GpuFacts2 GpuLaunch GpuLaunchFacts GpuAddFacts GpuFetch GpuFetchFacts DftGpu TiledGpu TiledGpuSpec TiledGpuFacts.
Open Scope Z_scope.

Lemma cell_eqb_spec a b : reflect (a = b) (cell_eqb a b).
Proof. destruct a as [i|i], b as [j|j]; cbn; try (constructor; congruence); destruct (Z.eqb_spec i j); constructor; congruence. Qed.
Lemma in_vis P nt nb nc uvw freqs t b c : 0 <= t < nt -> 0 <= b < nb -> 0 <= c < nc -> In (vis_at P nb nc uvw freqs t b c) (visibilities P nt nb nc uvw freqs).
Proof.
  intros Ht Hb Hc. unfold visibilities. apply in_flat_map. exists t. split; [now apply in_zrange|]. apply in_flat_map. exists b. split; [now apply in_zrange|]. apply in_map_iff. exists c. split; [reflexivity|now apply in_zrange].
Qed.
Lemma cnt_permutation {E} (a b : list (Z * E)) t : Permutation a b -> cnt t a = cnt t b.
Proof. induction 1; rewrite ?cnt_cons; [reflexivity|lia|lia|congruence]. Qed.
Lemma start_permutation {E} (a b : list (Z * E)) t : Permutation a b -> start t a = start t b.
Proof. intro H. unfold start. apply sum_ext. intros. now apply cnt_permutation. Qed.
Lemma entries_permutation {E} (a b : list (Z * E)) t : Permutation a b -> Permutation (entries t a) (entries t b).
Proof.
  intro H. unfold entries. apply Permutation_map. induction H; cbn [filter]; auto.
  - destruct (fst x =? t); [constructor|]; auto.
  - destruct (fst x =? t), (fst y =? t); auto. apply perm_swap.
  - etransitivity; eauto.
Qed.
Lemma pair_range {E} P ts (mk : Z * Q * Q -> Z * Z -> E) vs h : lists_tiles P ts -> tiles_there P vs -> 0 <= num_tiles_u P -> In h (pairs P ts mk vs) -> 0 <= fst h < num_tiles P.
Proof.
  intros L T N I. unfold pairs in I. apply in_flat_map in I. destruct I as (v & Iv & I). apply in_map_iff in I. destruct I as (t & <- & It). cbn [fst].
  apply (proj2 (L v)) in It. destruct (T v t Iv It) as (A & B). unfold num_tiles, num_tiles_u in *. nia.
Qed.

(** *** Counting *)
Definition ops_of P (v : Z * Q * Q) : list (op cell Z) := if fits P v then flat_map (fun t => [Add (Pts (fst t + snd t * num_tiles_u P)) 1]) (gpu_tiles P v) else [Add (Skp 0) 1].
Section Count.
Context (P : tparams) (nt nb nc : Z) (uvw freqs : nd Q).
Context (S1 : shape uvw = [nt; nb; 3]) (S2 : shape freqs = [nc]) (Tu : 0 < tile_u P) (Tv : 0 < tile_v P) (Hs : 0 <= support P) (Hg : 0 <= grid_size P).
Context (F : grid_fits nb nc nt) (T : tiles_there P (visibilities P nt nb nc uvw freqs)).
Let vs := visibilities P nt nb nc uvw freqs.
Lemma count_body x y z : In (x, y, z) (all_threads nb nc nt) -> count_thread P nt nb nc uvw freqs (num_tiles P) (x, y, z) =
  Some (if (x <? nb) && (y <? nc) && (z <? nt) then ops_of P (vis_at P nb nc uvw freqs z x y) else []).
Proof using S1 S2 Tu Tv Hs Hg F T.
  intro I. destruct (thread_bounds nb nc nt x y z F I) as (Hx & Hy & Hz). unfold count_thread.
  rewrite (thread_lemma P nt nb nc uvw freqs _ _ (fun _ t => [Add (Pts (fst t + snd t * num_tiles_u P)) 1]) x y z S1 S2 Hx Hy Hz); [reflexivity|].
  intros Lx Ly Lz t It. destruct (vis_at P nb nc uvw freqs z x y) as [[i u] v] eqn:E.
  assert (R : 0 <= fst t + snd t * num_tiles_u P < num_tiles P).
  { destruct (num_tiles_nonneg P Hg Tu Tv) as [N1 _]. apply (pair_range P (gpu_tiles P) (fun _ _ => tt) vs (_, tt) (gpu_tiles_ok P Tu Tv Hs) T N1).
    unfold pairs. apply in_flat_map. exists (i, u, v). split; [rewrite <- E; now apply in_vis|]. apply in_map_iff. exists t. split; [reflexivity|exact It]. }
  rewrite (proj2 (in_shape_1 _ _) R). reflexivity.
Qed.
Lemma count_total l : total cell_eqb Z.add 0 l (flat_map (ops_of P) vs) =
  match l with Pts k => cnt k (pairs P (gpu_tiles P) (fun _ _ => tt) vs) | Skp k => if k =? 0 then Z.of_nat (length (filter (fun v => negb (fits P v)) vs)) else 0 end.
Proof using.
  clear S1 S2 Tu Tv Hs Hg F T. induction vs as [|v l' IH]; [destruct l as [k|k]; cbn; [reflexivity|now destruct (k =? 0)]|]. cbn [flat_map]. rewrite (total_app cell_eqb Z.add 0) by (intros; lia). rewrite IH. unfold ops_of, pairs at 2.
  cbn [flat_map filter]. fold (pairs P (gpu_tiles P) (fun _ _ => tt) l'). destruct (fits P v) eqn:Fv; cbn [negb].
  - destruct l as [k|k].
    + rewrite cnt_app. f_equal. rewrite map_flat_map_single. induction (gpu_tiles P v) as [|t r IH2]; [reflexivity|]. cbn [map]. rewrite cnt_cons. cbn [fst]. unfold total in *. cbn [map fold_right]. rewrite IH2. f_equal.
    + assert (E : total cell_eqb Z.add 0 (Skp k) (flat_map (fun t => [Add (Pts (fst t + snd t * num_tiles_u P)) 1]) (gpu_tiles P v)) = 0); [|lia].
      rewrite map_flat_map_single. induction (gpu_tiles P v) as [|t r IH2]; [reflexivity|]. exact IH2.
  - assert (G : gpu_tiles P v = []). { unfold gpu_tiles. destruct v as [[i a] b]. now rewrite Fv. } rewrite G. cbn [map app]. destruct l as [k|k]; [reflexivity|].
    cbn [total map fold_right added cell_eqb length]. unfold total. cbn. destruct k; cbn [Z.eqb]; lia.
Qed.
Lemma ops_adds (l : list (Z * Q * Q)) : only_adds (flat_map (ops_of P) l).
Proof using.
  clear S1 S2 Tu Tv Hs Hg F T. intros o I. apply in_flat_map in I. destruct I as (v & _ & I). unfold ops_of in I. destruct (fits P v).
  - apply in_flat_map in I. destruct I as (t & _ & [<-|[]]). eauto.
  - destruct I as [<-|[]]. eauto.
Qed.
Lemma total_permutation (a b : list (op cell Z)) l : Permutation a b -> total cell_eqb Z.add 0 l a = total cell_eqb Z.add 0 l b.
Proof using. clear. unfold total. induction 1; cbn [map fold_right]; [reflexivity|lia|lia|congruence]. Qed.
Lemma count_runs m m' l : runs cell_eqb Z.add (all_threads nb nc nt) (count_thread P nt nb nc uvw freqs (num_tiles P)) m m' ->
  m' l = m l + match l with Pts k => cnt k (pairs P (gpu_tiles P) (fun _ _ => tt) vs) | Skp k => if k =? 0 then Z.of_nat (length (filter (fun v => negb (fits P v)) vs)) else 0 end.
Proof using S1 S2 Tu Tv Hs Hg F T.
  intros (ops & Fo & n & c & St & Fi & <-). rewrite <- count_total.
  pose proof (concat_bodies _ _ (fun id => let '(x, y, z) := id in if (x <? nb) && (y <? nc) && (z <? nt) then ops_of P (vis_at P nb nc uvw freqs z x y) else []) _ Fo ltac:(intros [[x y] z]; apply count_body)) as E.
  pose proof (threads_perm P nt nb nc uvw freqs (ops_of P) F) as Pm. fold vs in Pm. rewrite <- E in Pm.
  rewrite (adding_runs cell_eqb Z.add cell_eqb_spec 0) with (ops := ops) (n := n) (m0 := m); try (intros; lia); try assumption.
  - f_equal. now apply total_permutation.
  - intros o I. apply (ops_adds vs). eapply Permutation_in; [exact Pm|exact I].
Qed.
End Count.

(** *** Sorting *)
Section Sort.
Context {X E : Type} (P : tparams) (nt nb nc : Z) (uvw freqs : nd Q) (hit : Z -> Q -> Q -> Z -> Z -> option (list (job X))).
Context (vals : E -> list X) (mk : Z * Q * Q -> Z * Z -> E).
Context (S1 : shape uvw = [nt; nb; 3]) (S2 : shape freqs = [nc]) (Tu : 0 < tile_u P) (Tv : 0 < tile_v P) (Hs : 0 <= support P) (Hg : 0 <= grid_size P).
Context (F : grid_fits nb nc nt) (T : tiles_there P (visibilities P nt nb nc uvw freqs)).
Context (Hh : forall i u v pu pv, In (i, u, v) (visibilities P nt nb nc uvw freqs) -> hit i u v pu pv = Some [(pu + pv * num_tiles_u P, vals (mk (i, u, v) (pu, pv)))]).
Let vs := visibilities P nt nb nc uvw freqs.
Let body := tile_thread P nt nb nc uvw freqs hit [].
Context (ts : Z * Q * Q -> list (Z * Z)) (Lt : lists_tiles P ts).
Let hs := pairs P ts mk vs.
Definition jobs_of (v : Z * Q * Q) : list (job X) := map (fun t => (fst t + snd t * num_tiles_u P, vals (mk v t))) (gpu_tiles P v).
Definition full : list (job X) := map (fun h => (fst h, vals (snd h))) hs.
Lemma sort_body x y z : In (x, y, z) (all_threads nb nc nt) -> body (x, y, z) = Some (if (x <? nb) && (y <? nc) && (z <? nt) then jobs_of (vis_at P nb nc uvw freqs z x y) else []).
Proof using S1 S2 F Hh.
  intro I. destruct (thread_bounds nb nc nt x y z F I) as (Hx & Hy & Hz). unfold body.
  rewrite (thread_lemma P nt nb nc uvw freqs _ _ (fun v t => [(fst t + snd t * num_tiles_u P, vals (mk v t))]) x y z S1 S2 Hx Hy Hz).
  - destruct (_ && _); [|reflexivity]. cbv zeta. set (v := vis_at _ _ _ _ _ _ _ _). unfold jobs_of. destruct (fits P v) eqn:Fv; [now rewrite map_flat_map_single|].
    assert (G : gpu_tiles P v = []). { clearbody v. unfold gpu_tiles. destruct v as [[i a] b]. now rewrite Fv. } now rewrite G.
  - intros Lx Ly Lz t It. destruct (vis_at P nb nc uvw freqs z x y) as [[i u] v] eqn:E0. rewrite Hh by (rewrite <- E0; now apply in_vis). now destruct t.
Qed.
Lemma full_perm jobs : Forall2 (fun t o => body t = Some o) (all_threads nb nc nt) jobs -> Permutation full (concat jobs).
Proof using S1 S2 F Hh Lt Tu Tv Hs.
  intro Fo. rewrite (concat_bodies _ _ (fun id => let '(x, y, z) := id in if (x <? nb) && (y <? nc) && (z <? nt) then jobs_of (vis_at P nb nc uvw freqs z x y) else []) _ Fo ltac:(intros [[x y] z]; apply sort_body)).
  rewrite (threads_perm P nt nb nc uvw freqs jobs_of F). fold vs. unfold full, hs. rewrite (Permutation_map _ (pairs_perm P ts (gpu_tiles P) mk vs Lt (gpu_tiles_ok P Tu Tv Hs))).
  unfold pairs, jobs_of. clear. induction vs as [|v l IH]; [constructor|]. cbn [flat_map]. rewrite map_app, map_map. cbn [fst snd]. now apply Permutation_app_head.
Qed.
Lemma full_start t : start t full = start t hs.
Proof using. clear. unfold start, full. apply sum_ext. intros k _. apply (cnt_map vals). Qed.
Lemma full_range h : In h full -> 0 <= fst h < num_tiles P.
Proof using Tu Tv Hg T Lt.
  intro I. apply in_map_iff in I. destruct I as (h' & <- & I). cbn [fst]. destruct (num_tiles_nonneg P Hg Tu Tv) as [N1 _]. now apply (pair_range P ts mk vs h' Lt T N1).
Qed.
Lemma entries_map_vals (l : list (Z * E)) t : entries t (map (fun h => (fst h, vals (snd h))) l) = map vals (entries t l).
Proof using. clear. unfold entries. induction l as [|h l IH]; [reflexivity|]. cbn [map filter fst]. destruct (fst h =? t); cbn [map snd]; now rewrite IH. Qed.
Lemma tiles_pos : 0 <= num_tiles P.
Proof using Tu Tv Hg. apply (num_tiles_nonneg P Hg Tu Tv). Qed.

Lemma sort_launch name m : registered name = true -> (forall t, 0 <= t < num_tiles P -> counter m t = start t hs) ->
  (exists m', launch_fetch (Some name) (vis_blocks nb nc nt) vis_threads body SUCCESS m SUCCESS m') /\
  (forall st' m', launch_fetch (Some name) (vis_blocks nb nc nt) vis_threads body SUCCESS m st' m' ->
    st' = SUCCESS /\ (forall t, 0 <= t < num_tiles P -> counter m' t = start (t + 1) hs) /\
    forall t, 0 <= t < num_tiles P -> exists l, Permutation l (entries t hs) /\
      forall i e, nth_error l i = Some e -> forall j x, nth_error (vals e) j = Some x -> out m' j (start t hs + Z.of_nat i) = x) /\
  ~ fetch_oob (num_tiles P) (start (num_tiles P) hs) (vis_blocks nb nc nt) vis_threads body m.
Proof using S1 S2 F Hh Lt Tu Tv Hs Hg T.
  intros Rg Hc. assert (Hc' : forall t, 0 <= t < num_tiles P -> counter m t = start t full) by (intros; rewrite full_start; auto).
  unfold launch_fetch. cbn [failed]. rewrite Rg, (grid_fits_ok nb nc nt F). cbn [negb]. fold (all_threads nb nc nt).
  split; [|split].
  - assert (Y : exists jobs, Forall2 (fun t o => body t = Some o) (all_threads nb nc nt) jobs).
    { assert (A : forall t, In t (all_threads nb nc nt) -> exists o, body t = Some o) by (intros [[x y] z] I; rewrite sort_body by exact I; eauto).
      revert A. generalize (all_threads nb nc nt). induction l as [|t l IH]; intro A; [exists []; constructor|]. destruct (A t (or_introl eq_refl)) as (o & Eo). destruct IH as (os & Fo); [intros; apply A; now right|]. exists (o :: os). now constructor. }
    destruct Y as (jobs & Fo). destruct (finishes (initial m jobs)) as (c & St & Fi). exists (fst c). split; [reflexivity|]. exists jobs. split; [exact Fo|]. exists c. auto.
  - intros st' m' (-> & jobs & Fo & c & St & Fi & <-). split; [reflexivity|].
    pose proof (inv_steps (num_tiles P) full full_range _ _ St (inv_initial (num_tiles P) full m jobs (full_perm jobs Fo) Hc')) as I.
    destruct (inv_finished (num_tiles P) full c I Fi) as (dn & Pm & C & O). split; [intros t Ht; rewrite C by exact Ht; apply full_start|].
    unfold full in Pm. apply Permutation_sym in Pm. apply Permutation_map_inv in Pm. destruct Pm as (l3 & -> & Pm).
    intros t Ht. exists (entries t l3). split; [apply entries_permutation; now symmetry|]. intros i e Ei j x Ej. rewrite <- full_start. apply (O t i (vals e) j x Ht); [|exact Ej]. rewrite entries_map_vals, nth_error_map, Ei. reflexivity.
  - intros [([[x y] z] & I & Bn)|(jobs & c & t & Fo & St & I & Ns)].
    + rewrite sort_body in Bn by exact I. discriminate.
    + apply Ns. rewrite <- full_start. apply (inv_safe (num_tiles P) full full_range c t); [|exact I].
      exact (inv_steps (num_tiles P) full full_range _ _ St (inv_initial (num_tiles P) full m jobs (full_perm jobs Fo) Hc')).
Qed.
End Sort.
