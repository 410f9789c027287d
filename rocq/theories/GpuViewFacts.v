From Coq Require Import String Lia.
From Verif Require Import Base BaseFacts Gpu GpuFacts GpuFacts2 GpuLaunch GpuLaunchFacts GpuView.
Open Scope Z_scope.

Lemma idx_reflect a b : reflect (a = b) (idx_eqb a b).
Proof. apply idx_eqb_spec. Qed.

(** Launches over nx x ny x nz threads in which every thread in range updates one element of its own, and the others do nothing *)
Section Each.
Context {A : Type} (plus : A -> A -> A) (n : string) (nx ny nz tx ty tz : Z) (body : Z * Z * Z -> option (list (op (list Z) A))) (x : nd A).
Context (pos : Z -> Z -> Z -> list Z) (val : Z -> Z -> Z -> A -> A).
Context (Hx : 0 <= nx <= 2147483647) (Hy : 0 <= ny <= 2147483647) (Hz : 0 <= nz <= 2147483647).
Context (Tx : 1 <= tx <= 1024) (Ty : 1 <= ty <= 1024) (Tz : 1 <= tz <= 64) (T : tx * ty * tz <= 1024) (Rg : registered n = true).
Definition in_range (a b c : Z) : bool := (a <? nx) && (b <? ny) && (c <? nz).
Context (Th : forall a b c, 0 <= a < nx + tx - 1 -> 0 <= b < ny + ty - 1 -> 0 <= c < nz + tz - 1 ->
  exists k, body (a, b, c) = Some k /\ if in_range a b c then exists o, k = [o] /\ loc o = pos a b c /\ forall v, apply plus o v = val a b c v else k = []).
Context (Inj : forall a b c a' b' c', 0 <= a < nx -> 0 <= b < ny -> 0 <= c < nz -> 0 <= a' < nx -> 0 <= b' < ny -> 0 <= c' < nz -> pos a b c = pos a' b' c' -> a = a' /\ b = b' /\ c = c').
Let blocks := (blocks_of nx tx, blocks_of ny ty, blocks_of nz tz).
Let ths := threads3 (to_dim3 blocks) (to_dim3 (tx, ty, tz)).
Definition fits_grid : bool := (1 <=? nx) && (1 <=? ny) && (1 <=? nz) && (ny <=? 65535 * ty) && (nz <=? 65535 * tz).
Lemma each_grid : grid_ok (to_dim3 blocks) (to_dim3 (tx, ty, tz)) = fits_grid.
Proof using Hx Hy Hz Tx Ty Tz T.
  clear Th Inj Rg body n x pos val. unfold blocks. rewrite grid_ok_cover by lia. unfold fits_grid. replace (nx <=? 2147483647 * tx) with true by nia. rewrite !andb_true_r. reflexivity.
Qed.
Lemma each_in a b c : In (a, b, c) ths -> 0 <= a < nx + tx - 1 /\ 0 <= b < ny + ty - 1 /\ 0 <= c < nz + tz - 1.
Proof using Hx Hy Hz Tx Ty Tz.
  clear Th Inj Rg body n x pos val. unfold ths, blocks, to_dim3. rewrite !blocks_of_ok by lia.
  assert (S : forall n t, 0 <= n <= 4294967295 -> 1 <= t -> 0 <= (n + t - 1) / t < 4294967296). { intros n t Hn Ht. split; [apply Z.div_pos; lia|]. apply Z.div_lt_upper_bound; [lia|]. nia. }
  pose proof (S nx tx ltac:(lia) ltac:(lia)). pose proof (S ny ty ltac:(lia) ltac:(lia)). pose proof (S nz tz ltac:(lia) ltac:(lia)).
  rewrite !Z.mod_small by lia. rewrite threads3_in. pose proof (cover nx tx ltac:(lia) ltac:(lia)). pose proof (cover ny ty ltac:(lia) ltac:(lia)). pose proof (cover nz tz ltac:(lia) ltac:(lia)). lia.
Qed.
Lemma each_thread a b c : 0 <= a < nx -> 0 <= b < ny -> 0 <= c < nz -> In (a, b, c) ths.
Proof using Hx Hy Hz Tx Ty Tz.
  clear Th Inj Rg body n x pos val. intros. apply (proj1 (threads_cover nx ny nz tx ty tz a b c ltac:(lia) ltac:(lia) ltac:(lia) ltac:(lia) ltac:(lia) ltac:(lia))); assumption.
Qed.
Lemma each_op t k o : In t ths -> body t = Some k -> In o k -> exists a b c, t = (a, b, c) /\ 0 <= a < nx /\ 0 <= b < ny /\ 0 <= c < nz /\ loc o = pos a b c /\ k = [o].
Proof.
  destruct t as [[a b] c]. intros I E Io. apply each_in in I. destruct I as (Ia & Ib & Ic). destruct (Th a b c Ia Ib Ic) as (k' & E' & P). rewrite E in E'. injection E' as <-.
  unfold in_range in P. destruct (Z.ltb_spec a nx), (Z.ltb_spec b ny), (Z.ltb_spec c nz); cbn [andb] in P; try (subst k; destruct Io).
  destruct P as (o' & -> & L & _). destruct Io as [<-|[]]. exists a, b, c. repeat split; try lia. exact L.
Qed.
Lemma each_result st' x' : launch_view plus (Some n) blocks (tx, ty, tz) body SUCCESS x st' x' ->
  if fits_grid then st' = SUCCESS /\ shape x' = shape x /\
    (forall a b c, 0 <= a < nx -> 0 <= b < ny -> 0 <= c < nz -> elem x' (pos a b c) = val a b c (elem x (pos a b c))) /\
    (forall idx, (forall a b c, 0 <= a < nx -> 0 <= b < ny -> 0 <= c < nz -> idx <> pos a b c) -> elem x' idx = elem x idx)
  else st' = ERR_RUNTIME /\ x' = x.
Proof.
  unfold launch_view. cbn [failed]. rewrite Rg. cbn [negb]. rewrite each_grid. destruct fits_grid; cbn [negb]; [|auto]. intros (-> & m' & R & ->).
  split; [reflexivity|]. split; [reflexivity|]. cbn [elem].
  destruct (disjoint_result idx_eqb plus idx_reflect ths body (elem x) m' R (threads3_nodup _ _)) as [X Y].
  - intros t k It E. destruct k as [|o k]; [constructor|]. destruct (each_op t (o :: k) o It E (or_introl eq_refl)) as (? & ? & ? & _ & _ & _ & _ & _ & E'). rewrite E'. cbn [map]. constructor; [intros []|constructor].
  - intros t k o t' k' o' It It' E E' Io Io' L. destruct (each_op t k o It E Io) as (a & b & c & -> & A1 & B1 & C1 & L1 & _). destruct (each_op t' k' o' It' E' Io') as (a' & b' & c' & -> & A2 & B2 & C2 & L2 & _).
    rewrite L1, L2 in L. destruct (Inj a b c a' b' c' A1 B1 C1 A2 B2 C2 L) as (-> & -> & ->). reflexivity.
  - split.
    + intros a b c A1 B1 C1. destruct (Th a b c ltac:(lia) ltac:(lia) ltac:(lia)) as (k & E & P). unfold in_range in P.
      replace (a <? nx) with true in P by lia. replace (b <? ny) with true in P by lia. replace (c <? nz) with true in P by lia. cbn [andb] in P. destruct P as (o & -> & L & V).
      rewrite <- L. rewrite (X (a, b, c) [o] o (each_thread a b c A1 B1 C1) E (or_introl eq_refl)). apply V.
    + intros idx H. apply Y. intros t k o It E Io L. destruct (each_op t k o It E Io) as (a & b & c & -> & A1 & B1 & C1 & L1 & _). apply (H a b c A1 B1 C1). congruence.
Qed.
Lemma each_exists : exists st' x', launch_view plus (Some n) blocks (tx, ty, tz) body SUCCESS x st' x'.
Proof using Th Hx Hy Hz Tx Ty Tz T Rg.
  clear Inj. unfold launch_view. cbn [failed]. rewrite Rg. cbn [negb]. destruct (grid_ok _ _); cbn [negb]; [|eauto].
  destruct (runs_exists idx_eqb plus ths body (elem x)) as (m' & R); [|eauto 6].
  intros [[a b] c] I. apply each_in in I. destruct (Th a b c) as (k & E & _); try lia. eauto.
Qed.
End Each.
