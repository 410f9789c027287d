(** Addition of vectors in GPU memory (proofs only). *)
From Coq Require Import Lia String.
From Verif Require Import Base BaseFacts Mem Gpu GpuFacts GpuFacts2 GpuLaunch GpuLaunchFacts GpuView GpuViewFacts PhaseRotateGpu VectorAddGpu VectorAddGpuSpec.
Open Scope Z_scope.

(** *** A location that no thread writes keeps its value *)
Section Untouched.
Context {L A : Type} (eqb : L -> L -> bool) (plus : A -> A -> A) (eqb_spec : forall a b, reflect (a = b) (eqb a b)) (l : L).
Definition avoids (c : config (L := L) (A := A)) : Prop := forall t o, In t (snd c) -> In o (fst t) -> loc o <> l.
Lemma avoids_step c c' : avoids c -> step eqb plus c c' -> avoids c' /\ fst c' l = fst c l.
Proof using eqb_spec.
  intros H St. destruct (step_inv eqb plus c c' St) as (l1 & o & k & r & l2 & E & X).
  assert (Ho : loc o <> l) by (apply (H (o :: k, r)); [rewrite E; apply in_or_app; right; now left|now left]).
  assert (Hk : forall o', In o' k -> loc o' <> l) by (intros o' I; apply (H (o :: k, r)); [rewrite E; apply in_or_app; right; now left|now right]).
  assert (Hr : forall t o', In t l1 \/ In t l2 -> In o' (fst t) -> loc o' <> l) by (intros t o' [I|I] Io; apply (H t o'); try assumption; rewrite E; apply in_or_app; [now left|right; now right]).
  destruct X as [(l0 & f & Eo & _ & ->)|(x & -> & _)]; (split; [intros t o' I Io; cbn [snd] in I; apply in_app_or in I; destruct I as [I|[<-|I]]|]); try (apply (Hr t); [tauto|exact Io]).
  - cbn [fst] in Io. destruct Io as [<-|Io]; [exact Ho|now apply Hk].
  - reflexivity.
  - cbn [fst] in Io. now apply Hk.
  - cbn [fst]. unfold put. destruct (eqb_spec (loc o) l); [contradiction|reflexivity].
Qed.
Lemma avoids_steps n c c' : steps eqb plus n c c' -> avoids c -> fst c' l = fst c l.
Proof using eqb_spec. induction 1 as [|n c c1 c2 S1 _ IH]; intro H; [reflexivity|]. destruct (avoids_step c c1 H S1) as [H1 E]. rewrite IH by exact H1. exact E. Qed.
Lemma runs_untouched {T} (ths : list T) body m m' : runs eqb plus ths body m m' -> (forall t k o, In t ths -> body t = Some k -> In o k -> loc o <> l) -> m' l = m l.
Proof using eqb_spec.
  intros (ops & F & n & c & St & Fi & <-) H. change (m l) with (fst (initial m ops) l). apply (avoids_steps _ _ _ St). intros t o I Io. unfold initial in I. cbn [snd] in I. apply in_map_iff in I. destruct I as (k & <- & I). cbn [fst] in Io.
  clear St Fi n c. induction F as [|t k' ths ops E F IH]; [destruct I|]. destruct I as [<-|I]; [apply (H t k' o); auto; now left|]. apply IH; auto. intros; apply (H t0 k0 o0); auto; now right.
Qed.
End Untouched.

Section Add.
Context {A : Type} (add : A -> A -> A) (a_m b_m out_m : option mem) (a b : option (nd A)) (out : nd A).
Let n := num_elements out_m.
Context (Ok : gpu_addable a_m b_m out_m) (Ha : has_elements a n) (Hb : has_elements b n) (Ho : shape out = [n]) (Hn : 0 <= n <= 549755813632).
Let ths := threads3 (to_dim3 (blocks_of n 256, 1, 1)) (to_dim3 (256, 1, 1)).
Lemma add_in x y z : In (x, y, z) ths <-> 0 <= x < (n + 255) / 256 * 256 /\ y = 0 /\ z = 0.
Proof using Hn.
  unfold ths, to_dim3. rewrite blocks_of_ok by lia. replace (n + 256 - 1) with (n + 255) by lia. assert (0 <= (n + 255) / 256 < 4294967296) by (split; [apply Z.div_pos; lia|apply Z.div_lt_upper_bound; lia]).
  rewrite (Z.mod_small ((n + 255) / 256)) by lia. rewrite threads3_in. change (1 mod 4294967296) with 1. change (256 mod 4294967296) with 256. lia.
Qed.
Lemma input_ok (x : option (nd A)) i : has_elements x n -> 0 <= i < n -> exists v, input_at x i = Some v /\ or_old v (elem out [i]) = before x out i.
Proof using.
  intros H Hi. destruct x as [x|]; [|exists None; split; reflexivity]. cbn [has_elements] in H. unfold input_at. rewrite rd_some by (rewrite H; apply in_shape_1; lia). cbn [bind]. eexists. split; reflexivity.
Qed.
Lemma thread_ok x y z : 0 <= x -> exists k, add_thread add n a b (shape out) (x, y, z) = Some k /\
  (if x mod 4294967296 <? n then exists f, k = [Update [x mod 4294967296] f] /\ f (elem out [x mod 4294967296]) = add (before a out (x mod 4294967296)) (before b out (x mod 4294967296)) else k = []).
Proof using Ha Hb Ho.
  intro Hx. unfold add_thread, u32. pose proof (Z.mod_pos_bound x 4294967296 ltac:(lia)). set (i := x mod 4294967296) in *. clearbody i. destruct (Z.ltb_spec i n); [|eauto].
  destruct (input_ok a i Ha ltac:(lia)) as (u & Eu & Bu). destruct (input_ok b i Hb ltac:(lia)) as (v & Ev & Bv). rewrite Eu, Ev. cbn [bind]. rewrite Ho. rewrite (proj2 (in_shape_1 n i)) by lia.
  eexists. split; [reflexivity|]. eexists. split; [reflexivity|]. cbv beta. rewrite Bu, Bv. reflexivity.
Qed.
Lemma add_launch st' r : gpu_vector_add add a_m b_m out_m a b out SUCCESS st' r <->
  (if (1 <=? n) && (n <=? 549755813632) then st' = SUCCESS /\ exists m', runs idx_eqb add ths (add_thread add n a b (shape out)) (elem out) m' /\ r = mk_nd (shape out) m' else st' = ERR_RUNTIME /\ r = out).
Proof using Ok Hn.
  destruct Ok as (R & Lo & T & Ta & Tb & La & Lb & Na & Nb). unfold gpu_vector_add. cbn [failed]. cbv zeta. rewrite R, Ta, Tb, La, Lb, Na, Nb, Lo, !Z.eqb_refl. cbn [negb orb]. fold n.
  assert (G : grid_ok (to_dim3 (blocks_of n 256, 1, 1)) (to_dim3 (256, 1, 1)) = (1 <=? n) && (n <=? 549755813632)).
  { unfold to_dim3. rewrite blocks_of_ok by lia. replace (n + 256 - 1) with (n + 255) by lia. assert (0 <= (n + 255) / 256 <= 2147483647) by (split; [apply Z.div_pos; lia|apply Z.lt_succ_r; apply Z.div_lt_upper_bound; lia]).
    rewrite (Z.mod_small ((n + 255) / 256)) by lia. change (1 mod 4294967296) with 1. change (256 mod 4294967296) with 256. unfold grid_ok.
    change (1 <=? 1) with true. change (1 <=? 65535) with true. change (1 <=? 256) with true. change (256 <=? 1024) with true. change (1 <=? 1024) with true. change (1 <=? 64) with true. change (256 * 1 * 1 <=? 1024) with true. rewrite !andb_true_r.
    replace ((n + 255) / 256 <=? 2147483647) with true by lia. replace (n <=? 549755813632) with true by lia. rewrite !andb_true_r.
    pose proof (cover n 256 ltac:(lia) ltac:(lia)) as C. replace (n + 256 - 1) with (n + 255) in C by lia. destruct (Z.leb_spec 1 n), (Z.leb_spec 1 ((n + 255) / 256)); try reflexivity; lia. }
  destruct T as [-> | ->]; cbn [Z.eqb Pos.eqb MEM_DOUBLE MEM_FLOAT]; unfold launch_view; cbn [failed];
    match goal with |- context [registered ?s] => change (registered s) with true end; cbn [negb]; rewrite G; destruct ((1 <=? n) && (n <=? 549755813632)); cbn [negb]; reflexivity.
Qed.
Lemma add_result st' r : 1 <= n <= 4294967296 -> gpu_vector_add add a_m b_m out_m a b out SUCCESS st' r ->
  st' = SUCCESS /\ shape r = [n] /\ (forall i, 0 <= i < n -> elem r [i] = add (before a out i) (before b out i)) /\ (forall idx, (forall i, 0 <= i < n -> idx <> [i]) -> elem r idx = elem out idx).
Proof using Ok Ha Hb Ho Hn.
  intros Hl E. apply add_launch in E. replace ((1 <=? n) && (n <=? 549755813632)) with true in E by lia. destruct E as (-> & m' & R & ->). split; [reflexivity|]. split; [exact Ho|]. cbn [elem].
  pose proof (cover n 256 ltac:(lia) ltac:(lia)) as Cv. replace (n + 256 - 1) with (n + 255) in Cv by lia.
  assert (Small : forall x, 0 <= x < (n + 255) / 256 * 256 -> x < 4294967296). { intros x Hx. assert ((n + 255) / 256 < 16777217) by (apply Z.div_lt_upper_bound; lia). lia. }
  assert (Op : forall x y z k o, In (x, y, z) ths -> add_thread add n a b (shape out) (x, y, z) = Some k -> In o k -> 0 <= x < n /\ loc o = [x] /\ k = [o] /\ apply add o (elem out [x]) = add (before a out x) (before b out x)).
  { intros x y z k o I Ek Io. apply add_in in I. destruct I as (Ix & _ & _). destruct (thread_ok x y z ltac:(lia)) as (k' & E' & P). rewrite Ek in E'. injection E' as <-. rewrite Z.mod_small in P by (specialize (Small x Ix); lia).
    destruct (Z.ltb_spec x n); [|subst k; destruct Io]. destruct P as (f & -> & V). destruct Io as [<-|[]]. repeat split; try lia. exact V. }
  destruct (disjoint_result idx_eqb add idx_reflect ths _ (elem out) m' R (threads3_nodup _ _)) as [X Y].
  - intros [[x y] z] k I Ek. destruct k as [|o k]; [constructor|]. destruct (Op x y z _ o I Ek (or_introl eq_refl)) as (_ & _ & Q & _). rewrite Q. cbn [map]. constructor; [intros []|constructor].
  - intros [[x y] z] k o [[x' y'] z'] k' o' I I' Ek Ek' Io Io' Q. destruct (Op x y z k o I Ek Io) as (_ & L1 & _ & _). destruct (Op x' y' z' k' o' I' Ek' Io') as (_ & L2 & _ & _). rewrite L1, L2 in Q. injection Q as <-.
    apply add_in in I. apply add_in in I'. destruct I as (_ & -> & ->), I' as (_ & -> & ->). reflexivity.
  - split.
    + intros i Hi. assert (I : In (i, 0, 0) ths) by (apply add_in; lia). destruct (thread_ok i 0 0 ltac:(lia)) as (k & Ek & P). rewrite Z.mod_small in P by lia. destruct (Z.ltb_spec i n); [|lia]. destruct P as (f & -> & V).
      rewrite <- V. exact (X (i, 0, 0) _ (Update [i] f) I Ek (or_introl eq_refl)).
    + intros idx H. apply Y. intros [[x y] z] k o I Ek Io Q. destruct (Op x y z k o I Ek Io) as (Hx & L1 & _). apply (H x Hx). congruence.
Qed.
Lemma add_exists : exists st' r, gpu_vector_add add a_m b_m out_m a b out SUCCESS st' r.
Proof using Ok Ha Hb Ho Hn.
  destruct ((1 <=? n) && (n <=? 549755813632)) eqn:G.
  - destruct (runs_exists idx_eqb add ths (add_thread add n a b (shape out)) (elem out)) as (m' & R).
    { intros [[x y] z] I. apply add_in in I. destruct (thread_ok x y z ltac:(lia)) as (k & E & _). eauto. }
    exists SUCCESS, (mk_nd (shape out) m'). apply add_launch. rewrite G. split; [reflexivity|]. eauto.
  - exists ERR_RUNTIME, out. apply add_launch. rewrite G. auto.
Qed.
Lemma add_wrap st' r : 4294967296 < n -> gpu_vector_add add a_m b_m out_m a b out SUCCESS st' r -> st' = SUCCESS /\ forall i, 4294967296 <= i -> elem r [i] = elem out [i].
Proof using Ok Ha Hb Ho Hn.
  intros Hl E. apply add_launch in E. replace ((1 <=? n) && (n <=? 549755813632)) with true in E by lia. destruct E as (-> & m' & R & ->). split; [reflexivity|]. intros i Hi. cbn [elem].
  apply (runs_untouched idx_eqb add idx_reflect [i] ths _ _ _ R). intros [[x y] z] k o I Ek Io Q. apply add_in in I. destruct I as (Hx & _). destruct (thread_ok x y z ltac:(lia)) as (k' & E' & P). rewrite Ek in E'. injection E' as <-.
  destruct (_ <? n); [|subst k; destruct Io]. destruct P as (f & -> & _). destruct Io as [<-|[]]. cbn [loc] in Q. injection Q as Q. pose proof (Z.mod_pos_bound x 4294967296 ltac:(lia)). lia.
Qed.
End Add.
