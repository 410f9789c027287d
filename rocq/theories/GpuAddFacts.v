From Coq Require Import String Lia.
From Verif Require Import Base BaseFacts Sum CRing Gpu GpuFacts GpuFacts2 GpuLaunch GpuLaunchFacts DftGpu.
Open Scope Z_scope.

Section Adding.
Context {A : cring}.
Add Ring Aring : (rth A).
Local Open Scope cr_scope.
Definition gsum {X} (l : list X) (h : X -> A) : A := fold_right radd r0 (map h l).
Lemma gsum_range lo hi h : gsum (zrange lo hi) h = rsum lo hi h.
Proof. reflexivity. Qed.
Lemma gsum_app {X} (a b : list X) h : gsum (a ++ b) h = gsum a h + gsum b h.
Proof. unfold gsum. rewrite map_app, fold_right_app. induction (map h a) as [|x xs IH]; cbn [fold_right]; [ring|]. rewrite IH. ring. Qed.
Lemma gsum_prod {X Y} (a : list X) (b : list Y) h : gsum (list_prod a b) h = gsum a (fun x => gsum b (fun y => h (x, y))).
Proof.
  induction a as [|x a IH]; [reflexivity|]. cbn [list_prod]. rewrite gsum_app, IH. unfold gsum at 1. rewrite map_map. reflexivity.
Qed.
Lemma rsum_cut n N (f : Z -> A) : (0 <= n <= N)%Z -> (forall i, (n <= i < N)%Z -> f i = r0) -> rsum 0 N f = rsum 0 n f.
Proof. intros H Z0. rewrite (sum_split _ _ Rcm 0 n N) by lia. rewrite (rsum_none n N) by auto. ring. Qed.

Theorem adding_ring {T} (ths : list T) (body : T -> option (list (op Z A))) (m m' : Z -> A) l (W : T -> A) : runs Z.eqb radd ths body m m' ->
  (forall t k, In t ths -> body t = Some k -> only_adds k /\ total Z.eqb radd r0 l k = W t) -> m' l = m l + gsum ths W.
Proof.
  intros (ops & F & n & c & St & Fi & <-) H.
  assert (X : only_adds (concat ops) /\ total Z.eqb radd r0 l (concat ops) = gsum ths W).
  { clear St Fi. induction F as [|t k ts ks E F IH]; [split; [intros ? []|reflexivity]|]. destruct (H t k (or_introl eq_refl) E) as (O & V).
    destruct IH as (O' & V'); [intros; apply H; auto; now right|]. cbn [concat]. split.
    - intros o I. apply in_app_or in I. destruct I; [now apply O|now apply O'].
    - rewrite (total_app Z.eqb radd r0) by (intros; ring). rewrite V, V'. reflexivity. }
  destruct X as (O & V). rewrite <- V. apply (adding_runs Z.eqb radd Z.eqb_spec r0) with (n := n); auto; intros; ring.
Qed.

(** A launch over times, baselines and channels in which threads only add *)
Section Launch.
Context (n : string) (nb nc nt : Z) (body : Z * Z * Z -> option (list (op Z A))) (x : nd A) (W : Z -> Z * Z * Z -> A).
Context (Hb : (0 <= nb <= 2147483647)%Z) (Hc : (0 <= nc <= 2147483647)%Z) (Ht : (0 <= nt <= 2147483647)%Z) (Rg : registered n = true).
Context (Th : forall a b c, (0 <= a <= 2147483647)%Z -> (0 <= b <= 2147483647)%Z -> (0 <= c <= 2147483647)%Z ->
  exists k, body (a, b, c) = Some k /\ only_adds k /\ forall l, total Z.eqb radd r0 l k = W l (a, b, c)).
Context (Out : forall l a b c, (nb <= a \/ nc <= b \/ nt <= c)%Z -> W l (a, b, c) = r0).
Let ths := threads3 (to_dim3 (vis_blocks nb nc nt)) (to_dim3 vis_threads).
Definition fits3 : bool := ((1 <=? nb) && (1 <=? nc) && (1 <=? nt) && (nc <=? 131070) && (nt <=? 131070))%Z.
Lemma grid3_ok : grid_ok (to_dim3 (vis_blocks nb nc nt)) (to_dim3 vis_threads) = fits3.
Proof using Hb Hc Ht.
  clear Th Out W Rg body n x.
  unfold vis_blocks, vis_threads, fits3. rewrite grid_ok_cover by lia. replace (nb <=? 2147483647 * 128)%Z with true by lia. rewrite andb_true_r. reflexivity.
Qed.
Lemma in3 a b c : In (a, b, c) ths -> (0 <= a <= 2147483647 /\ 0 <= b <= nc + 1 /\ 0 <= c <= nt + 1)%Z.
Proof using Hb Hc Ht.
  clear Th Out W Rg body n x.
  intro I. unfold ths, vis_blocks, vis_threads in *. pose proof (proj2 (threads_cover nb nc nt 128 2 2 a b c ltac:(lia) ltac:(lia) ltac:(lia) ltac:(lia) ltac:(lia) ltac:(lia)) I) as P.
  pose proof (threads_below nb nc nt 128 2 2 a b c 16777216 ltac:(lia) ltac:(lia) ltac:(lia) ltac:(lia) ltac:(lia) ltac:(lia) ltac:(lia) I). lia.
Qed.
Lemma sum3 f : (forall a b c, (nb <= a \/ nc <= b \/ nt <= c)%Z -> f (a, b, c) = r0) ->
  gsum ths f = rsum 0 nt (fun c => rsum 0 nb (fun a => rsum 0 nc (fun b => f (a, b, c)))).
Proof using Hb Hc Ht.
  clear Th Out W Rg body n x.
  intro O. unfold ths, vis_blocks, vis_threads, to_dim3, threads3. rewrite !blocks_of_ok by lia.
  pose proof (cover nb 128 ltac:(lia) ltac:(lia)). pose proof (cover nc 2 ltac:(lia) ltac:(lia)). pose proof (cover nt 2 ltac:(lia) ltac:(lia)).
  assert (S : forall k t, (0 <= k <= 2147483647 -> 1 <= t <= 1024 -> 0 <= (k + t - 1) / t < 4294967296)%Z). { intros k t Hk Hh. split; [apply Z.div_pos; lia|]. apply Z.div_lt_upper_bound; [lia|]. nia. }
  pose proof (S nb 128%Z Hb ltac:(lia)). pose proof (S nc 2%Z Hc ltac:(lia)). pose proof (S nt 2%Z Ht ltac:(lia)).
  rewrite !Z.mod_small by lia. rewrite !gsum_prod, gsum_range.
  set (X := ((nb + 128 - 1) / 128 * 128)%Z) in *. set (Y := ((nc + 2 - 1) / 2 * 2)%Z) in *. set (ZZ := ((nt + 2 - 1) / 2 * 2)%Z) in *.
  rewrite (rsum_cut nb X) by (try lia; intros a Ha; rewrite gsum_range; apply rsum_none; intros b _; rewrite gsum_range; apply rsum_none; intros c _; apply O; lia).
  transitivity (rsum 0 nb (fun a => rsum 0 nc (fun b => rsum 0 nt (fun c => f (a, b, c))))).
  { apply rsum_ext. intros a Ha. rewrite gsum_range. rewrite (rsum_cut nc Y) by (try lia; intros b Hb'; rewrite gsum_range; apply rsum_none; intros c _; apply O; lia).
    apply rsum_ext. intros b Hb'. rewrite gsum_range. apply rsum_cut; [lia|]. intros c Hc'. apply O. lia. }
  transitivity (rsum 0 nb (fun a => rsum 0 nt (fun c => rsum 0 nc (fun b => f (a, b, c))))).
  - apply rsum_ext. intros a _. apply rsum_swap.
  - apply rsum_swap.
Qed.
Lemma launch_adds st' x' : launch_kernel radd (Some n) (vis_blocks nb nc nt) vis_threads body SUCCESS x st' x' ->
  if fits3 then st' = SUCCESS /\ shape x' = shape x /\ forall l, elem x' [l] = elem x [l] + rsum 0 nt (fun c => rsum 0 nb (fun a => rsum 0 nc (fun b => W l (a, b, c))))
  else st' = ERR_RUNTIME /\ x' = x.
Proof.
  unfold launch_kernel. cbn [failed]. rewrite Rg. cbn [negb]. rewrite grid3_ok. destruct fits3 eqn:G; cbn [negb]; [|auto]. intros (-> & m' & R & ->).
  split; [reflexivity|]. split; [reflexivity|]. intro l. cbn [unflat elem hd].
  rewrite (adding_ring _ _ _ _ l (W l) R).
  - unfold flat. f_equal. apply sum3. auto.
  - intros [[a b] c] k I E. apply in3 in I. unfold fits3 in G. destruct (Th a b c ltac:(lia) ltac:(lia) ltac:(lia)) as (k' & E' & O & T). rewrite E in E'. injection E' as <-. auto.
Qed.
Lemma launch_adds_exists : exists st' x', launch_kernel radd (Some n) (vis_blocks nb nc nt) vis_threads body SUCCESS x st' x'.
Proof using Hb Hc Ht Rg Th.
  clear Out.
  unfold launch_kernel. cbn [failed]. rewrite Rg. cbn [negb]. rewrite grid3_ok. destruct fits3 eqn:G; cbn [negb]; [|eauto].
  destruct (runs_exists Z.eqb radd ths body (flat x)) as (m' & R); [|eauto 6].
  intros [[a b] c] I. apply in3 in I. unfold fits3 in G. destruct (Th a b c ltac:(lia) ltac:(lia) ltac:(lia)) as (k' & E' & _). eauto.
Qed.
End Launch.
End Adding.
