From Coq Require Import String Lia.
From Verif Require Import Base BaseFacts Gpu GpuFacts GpuFacts2 GpuLaunch.
Open Scope Z_scope.

(** A kernel whose threads write separate locations, every location at most once per thread *)
Section Owned.
Context {A T : Type} (plus : A -> A -> A) (ths : list T) (body : T -> option (list (op Z A))) (dom : T -> Z -> Prop) (val : T -> Z -> A -> A).
Definition thread_sets (t : T) : Prop := exists k, body t = Some k /\ NoDup (map loc k) /\ (forall l, In l (map loc k) <-> dom t l) /\ forall o x, In o k -> apply plus o x = val t (loc o) x.
Context (Nd : NoDup ths) (Th : forall t, In t ths -> thread_sets t) (Dj : forall t t' l, In t ths -> In t' ths -> dom t l -> dom t' l -> t = t').
Lemma owned_runs m m' : runs Z.eqb plus ths body m m' ->
  (forall t l, In t ths -> dom t l -> m' l = val t l (m l)) /\ (forall l, (forall t, In t ths -> ~ dom t l) -> m' l = m l).
Proof.
  intro R. destruct (disjoint_result Z.eqb plus Z.eqb_spec ths body m m' R Nd) as [X Y].
  - intros t k It E. destruct (Th t It) as (k' & E' & N & _). rewrite E in E'. now injection E' as <-.
  - intros t k o t' k' o' It It' E E' Io Io' L. destruct (Th t It) as (k1 & E1 & _ & D1 & _). destruct (Th t' It') as (k2 & E2 & _ & D2 & _). rewrite E in E1. injection E1 as <-. rewrite E' in E2. injection E2 as <-.
    apply (Dj t t' (loc o)); auto; [apply D1; now apply in_map|]. rewrite L. apply D2. now apply in_map.
  - split.
    + intros t l It D. destruct (Th t It) as (k & E & _ & D1 & V). apply D1 in D. apply in_map_iff in D. destruct D as (o & <- & Io). rewrite (X t k o It E Io). now apply V.
    + intros l H. apply Y. intros t k o It E Io L. destruct (Th t It) as (k' & E' & _ & D1 & _). rewrite E in E'. injection E' as <-. apply (H t It). apply D1. rewrite <- L. now apply in_map.
Qed.
Lemma owned_exists m : exists m', runs Z.eqb plus ths body m m'.
Proof. apply runs_exists. intros t It. destruct (Th t It) as (k & E & _). eauto. Qed.
End Owned.

Lemma threads3_nodup b t : NoDup (threads3 b t).
Proof. destruct b as [[bx by_] bz], t as [[tx ty] tz]. unfold threads3. apply list_prod_nodup; [apply list_prod_nodup|]; apply NoDup_zrange. Qed.
Lemma threads3_in bx by_ bz tx ty tz x y z : In (x, y, z) (threads3 (bx, by_, bz) (tx, ty, tz)) <-> 0 <= x < bx * tx /\ 0 <= y < by_ * ty /\ 0 <= z < bz * tz.
Proof. unfold threads3. rewrite !in_prod_iff, !in_zrange. tauto. Qed.

Lemma blocks_of_ok n t : 0 <= n <= 9223372036854775807 -> 1 <= t <= 1024 -> blocks_of n t = (n + t - 1) / t.
Proof. intros Hn Ht. unfold blocks_of. rewrite (Z.mod_small n) by lia. rewrite Z.mod_small by lia. reflexivity. Qed.
Lemma cover n t : 0 <= n -> 1 <= t -> n <= (n + t - 1) / t * t < n + t.
Proof. intros Hn Ht. pose proof (Z.div_mod (n + t - 1) t ltac:(lia)). pose proof (Z.mod_pos_bound (n + t - 1) t ltac:(lia)). nia. Qed.
Lemma few n t b : 0 <= n -> 1 <= t -> ((n + t - 1) / t <=? b) = (n <=? b * t).
Proof.
  intros Hn Ht. pose proof (cover n t Hn Ht). destruct (Z.leb_spec ((n + t - 1) / t) b), (Z.leb_spec n (b * t)); auto; exfalso.
  - nia.
  - assert (b + 1 <= (n + t - 1) / t) by lia. nia.
Qed.
Lemma some_blocks n t : 0 <= n -> 1 <= t -> (1 <=? (n + t - 1) / t) = (1 <=? n).
Proof.
  intros Hn Ht. pose proof (cover n t Hn Ht). destruct (Z.leb_spec 1 ((n + t - 1) / t)), (Z.leb_spec 1 n); auto; exfalso; nia.
Qed.

(** What a launch does: [Some] registered kernel, no earlier error *)
Section Launch.
Context {A : Type} (plus : A -> A -> A) (n : string) (blocks threads : dim3) (body : Z * Z * Z -> option (list (op Z A))) (x : nd A) (dom : Z * Z * Z -> Z -> Prop) (val : Z * Z * Z -> Z -> A -> A).
Let ths := threads3 (to_dim3 blocks) (to_dim3 threads).
Context (Rg : registered n = true) (Th : grid_ok (to_dim3 blocks) (to_dim3 threads) = true -> forall t, In t ths -> thread_sets plus body dom val t)
  (Dj : forall t t' l, In t ths -> In t' ths -> dom t l -> dom t' l -> t = t').
Lemma launch_result st' x' : launch_kernel plus (Some n) blocks threads body SUCCESS x st' x' ->
  if grid_ok (to_dim3 blocks) (to_dim3 threads) then st' = SUCCESS /\ shape x' = shape x /\
    (forall t l, In t ths -> dom t l -> elem x' [l] = val t l (elem x [l])) /\ (forall l, (forall t, In t ths -> ~ dom t l) -> elem x' [l] = elem x [l])
  else st' = ERR_RUNTIME /\ x' = x.
Proof.
  unfold launch_kernel. cbn [failed]. rewrite Rg. cbn [negb]. destruct (grid_ok _ _) eqn:G; cbn [negb]; [|auto]. intros (-> & m' & R & ->).
  destruct (owned_runs plus ths body dom val (threads3_nodup _ _) (Th eq_refl) Dj _ _ R) as [X Y]. split; [reflexivity|]. split; [reflexivity|]. split; intros; cbn [unflat elem hd]; [now apply X|now apply Y].
Qed.
Lemma launch_exists : exists st' x', launch_kernel plus (Some n) blocks threads body SUCCESS x st' x'.
Proof.
  unfold launch_kernel. cbn [failed]. rewrite Rg. cbn [negb]. destruct (grid_ok _ _) eqn:G; cbn [negb]; [|eauto]. destruct (owned_exists plus ths body dom val (Th eq_refl) (flat x)) as (m' & R). eauto 6.
Qed.
End Launch.

(** Grids with three dimensions of blocks that cover an array *)
Lemma grid_ok_cover nx ny nz tx ty tz : 0 <= nx <= 9223372036854775807 -> 0 <= ny <= 9223372036854775807 -> 0 <= nz <= 9223372036854775807 ->
  1 <= tx <= 1024 -> 1 <= ty <= 1024 -> 1 <= tz <= 64 -> tx * ty * tz <= 1024 -> nx <= 4294967295 -> ny <= 4294967295 -> nz <= 4294967295 ->
  grid_ok (to_dim3 (blocks_of nx tx, blocks_of ny ty, blocks_of nz tz)) (to_dim3 (tx, ty, tz)) =
  (1 <=? nx) && (1 <=? ny) && (1 <=? nz) && (nx <=? 2147483647 * tx) && (ny <=? 65535 * ty) && (nz <=? 65535 * tz).
Proof.
  intros Hx Hy Hz Tx Ty Tz T Bx By Bz. rewrite !blocks_of_ok by lia. unfold to_dim3, grid_ok.
  assert (S : forall n t, 0 <= n <= 4294967295 -> 1 <= t -> 0 <= (n + t - 1) / t < 4294967296). { intros n t Hn Ht. split; [apply Z.div_pos; lia|]. apply Z.div_lt_upper_bound; [lia|]. nia. }
  pose proof (S nx tx ltac:(lia) ltac:(lia)). pose proof (S ny ty ltac:(lia) ltac:(lia)). pose proof (S nz tz ltac:(lia) ltac:(lia)).
  rewrite !Z.mod_small by lia. rewrite !few, !some_blocks by lia.
  replace (1 <=? tx) with true by lia. replace (tx <=? 1024) with true by lia. replace (1 <=? ty) with true by lia. replace (ty <=? 1024) with true by lia. replace (1 <=? tz) with true by lia. replace (tz <=? 64) with true by lia. replace (tx * ty * tz <=? 1024) with true by lia.
  repeat match goal with |- context [?a <=? ?b] => destruct (a <=? b) end; reflexivity.
Qed.
Lemma threads_cover nx ny nz tx ty tz x y z : 0 <= nx <= 4294967295 -> 0 <= ny <= 4294967295 -> 0 <= nz <= 4294967295 -> 1 <= tx <= 1024 -> 1 <= ty <= 1024 -> 1 <= tz <= 1024 ->
  (0 <= x < nx -> 0 <= y < ny -> 0 <= z < nz -> In (x, y, z) (threads3 (to_dim3 (blocks_of nx tx, blocks_of ny ty, blocks_of nz tz)) (to_dim3 (tx, ty, tz)))) /\
  (In (x, y, z) (threads3 (to_dim3 (blocks_of nx tx, blocks_of ny ty, blocks_of nz tz)) (to_dim3 (tx, ty, tz))) -> 0 <= x < nx + tx /\ 0 <= y < ny + ty /\ 0 <= z < nz + tz).
Proof.
  intros Hx Hy Hz Tx Ty Tz. rewrite !blocks_of_ok by lia. unfold to_dim3.
  assert (S : forall n t, 0 <= n <= 4294967295 -> 1 <= t -> 0 <= (n + t - 1) / t < 4294967296). { intros n t Hn Ht. split; [apply Z.div_pos; lia|]. apply Z.div_lt_upper_bound; [lia|]. nia. }
  pose proof (S nx tx ltac:(lia) ltac:(lia)). pose proof (S ny ty ltac:(lia) ltac:(lia)). pose proof (S nz tz ltac:(lia) ltac:(lia)).
  rewrite !Z.mod_small by lia. rewrite threads3_in. pose proof (cover nx tx ltac:(lia) ltac:(lia)). pose proof (cover ny ty ltac:(lia) ltac:(lia)). pose proof (cover nz tz ltac:(lia) ltac:(lia)). split; [intros|intros (? & ? & ?)]; lia.
Qed.
Lemma threads_below nx ny nz tx ty tz x y z k : 0 <= nx <= 4294967295 -> 0 <= ny <= 4294967295 -> 0 <= nz <= 4294967295 -> 1 <= tx <= 1024 -> 1 <= ty <= 1024 -> 1 <= tz <= 1024 -> nx <= k * tx ->
  In (x, y, z) (threads3 (to_dim3 (blocks_of nx tx, blocks_of ny ty, blocks_of nz tz)) (to_dim3 (tx, ty, tz))) -> x < k * tx.
Proof.
  intros Hx Hy Hz Tx Ty Tz Hk. rewrite !blocks_of_ok by lia. unfold to_dim3.
  assert (S : forall n t, 0 <= n <= 4294967295 -> 1 <= t -> 0 <= (n + t - 1) / t < 4294967296). { intros n t Hn Ht. split; [apply Z.div_pos; lia|]. apply Z.div_lt_upper_bound; [lia|]. nia. }
  pose proof (S nx tx ltac:(lia) ltac:(lia)). pose proof (S ny ty ltac:(lia) ltac:(lia)). pose proof (S nz tz ltac:(lia) ltac:(lia)).
  rewrite !Z.mod_small by lia. rewrite threads3_in. intros (X & _). pose proof (few nx tx k ltac:(lia) ltac:(lia)) as F. assert (L : (nx + tx - 1) / tx <= k) by (apply Z.leb_le; rewrite F; apply Z.leb_le; exact Hk). apply (Z.mul_le_mono_nonneg_r _ _ tx ltac:(lia)) in L. lia.
Qed.
