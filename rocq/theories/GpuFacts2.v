From Coq Require Import Permutation Lra.
From Verif Require Import Base BaseFacts Sum Cplx Gpu GpuFacts EsKernelsSpec EsKernelsFacts EsKernelsFacts2.
Open Scope Z_scope.

Section Kernel.
Context {L A T : Type} (eqb : L -> L -> bool) (plus : A -> A -> A) (eqb_spec : forall a b, reflect (a = b) (eqb a b)) (ths : list T) (body : T -> option (list (op L A))).

Lemma forall2_in (ops : list (list (op L A))) o : Forall2 (fun t o => body t = Some o) ths ops -> In o (concat ops) -> exists t k, In t ths /\ body t = Some k /\ In o k.
Proof.
  intros F. induction F as [|t k l ks E F IH]; [intros []|]. cbn [concat]. intro I. apply in_app_or in I. destruct I as [I|I].
  - exists t, k. split; [now left|]. auto.
  - destruct (IH I) as (t' & k' & I' & X). exists t', k'. split; [now right|]. exact X.
Qed.
Lemma forall2_in_rev (ops : list (list (op L A))) t k o : Forall2 (fun t o => body t = Some o) ths ops -> In t ths -> body t = Some k -> In o k -> In o (concat ops).
Proof.
  intros F It E Io. induction F as [|t' k' l ks E' F IH]; [destruct It|]. cbn [concat]. apply in_or_app. destruct It as [->|It]; [|right; auto].
  left. rewrite E in E'. injection E' as <-. exact Io.
Qed.
Lemma forall2_nodup (ops : list (list (op L A))) : Forall2 (fun t o => body t = Some o) ths ops -> NoDup ths ->
  (forall t k, In t ths -> body t = Some k -> NoDup (map loc k)) ->
  (forall t k o t' k' o', In t ths -> In t' ths -> body t = Some k -> body t' = Some k' -> In o k -> In o' k' -> loc o = loc o' -> t = t') ->
  NoDup (map loc (concat ops)).
Proof.
  intros F. induction F as [|t k l ks E F IH]; intros N N1 D; [constructor|]. inversion N as [|? ? Nt N']. subst. cbn [concat]. rewrite map_app.
  assert (G : forall o o', In o k -> In o' (concat ks) -> loc o <> loc o').
  { intros o o' I I' Q. assert (X : exists t' k', In t' l /\ body t' = Some k' /\ In o' k').
    { clear - F I'. induction F as [|t' k' l ks E F IH]; [destruct I'|]. cbn [concat] in I'. apply in_app_or in I'. destruct I' as [I'|I'].
      - exists t', k'. split; [now left|auto].
      - destruct (IH I') as (a & b & X & Y). exists a, b. split; [now right|exact Y]. }
    destruct X as (t' & k' & It' & E' & Io'). assert (t = t') by (apply (D t k o t' k' o'); auto; [now left|now right]). subst. contradiction. }
  assert (Nk : NoDup (map loc k)) by (apply (N1 t); [now left|exact E]).
  assert (Nks : NoDup (map loc (concat ks))).
  { apply IH; auto.
    - intros; apply (N1 t0); auto. now right.
    - intros t1 k1 o1 t2 k2 o2 I1 I2. apply D; now right. }
  clear - Nk Nks G. induction k as [|o k IH]; [exact Nks|]. cbn [map app] in *. inversion Nk as [|? ? X Y]. subst. constructor.
  - intro I. apply in_app_or in I. destruct I as [I|I]; [contradiction|]. apply in_map_iff in I. destruct I as (o' & E & I). apply (G o o'); auto. now left.
  - apply IH; [|exact Y]. intros; apply G; [now right|auto].
Qed.

Theorem disjoint_result m m' : runs eqb plus ths body m m' -> NoDup ths -> (forall t k, In t ths -> body t = Some k -> NoDup (map loc k)) ->
  (forall t k o t' k' o', In t ths -> In t' ths -> body t = Some k -> body t' = Some k' -> In o k -> In o' k' -> loc o = loc o' -> t = t') ->
  (forall t k o, In t ths -> body t = Some k -> In o k -> m' (loc o) = apply plus o (m (loc o))) /\
  (forall l, (forall t k o, In t ths -> body t = Some k -> In o k -> loc o <> l) -> m' l = m l).
Proof.
  intros (ops & F & n & c & St & Fi & <-) N N1 D. pose proof (forall2_nodup ops F N N1 D) as Nd.
  destruct (disjoint_runs eqb plus eqb_spec m ops n c Nd St Fi) as (X & Y). split.
  - intros t k o It E Io. apply X. eapply forall2_in_rev; eauto.
  - intros l H. apply Y. intros o Io. destruct (forall2_in ops o F Io) as (t & k & It & E & Ik). eauto.
Qed.
End Kernel.

Lemma nodup_app {X} (a b : list X) : NoDup a -> NoDup b -> (forall x, In x a -> ~ In x b) -> NoDup (a ++ b).
Proof.
  intros Na Nb D. induction a as [|x a IH]; [exact Nb|]. inversion Na; subst. cbn [app]. constructor.
  - intro I. apply in_app_or in I. destruct I as [I|I]; [contradiction|]. apply (D x); [now left|exact I].
  - apply IH; auto. intros y Iy. apply D. now right.
Qed.
Lemma list_prod_nodup {X Y} (a : list X) (b : list Y) : NoDup a -> NoDup b -> NoDup (list_prod a b).
Proof.
  intros Na Nb. induction a as [|x a IH]; [constructor|]. inversion Na as [|? ? Nx Na']. subst. cbn [list_prod]. apply nodup_app.
  - apply FinFun.Injective_map_NoDup; [intros u v E; now injection E|exact Nb].
  - now apply IH.
  - intros [u v] I1 I2. apply in_map_iff in I1. destruct I1 as (? & E & _). injection E as <- <-. apply in_prod_iff in I2. now apply Nx.
Qed.
Lemma threads_nodup bx by_ tx ty : NoDup (launch_threads bx by_ tx ty).
Proof. apply list_prod_nodup; apply NoDup_zrange. Qed.
Lemma threads_in bx by_ tx ty x y : In (x, y) (launch_threads bx by_ tx ty) <-> (0 <= x < bx * tx /\ 0 <= y < by_ * ty).
Proof. unfold launch_threads. rewrite in_prod_iff, !in_zrange. reflexivity. Qed.

Lemma lsum_prod {X Y} (a : list X) (b : list Y) h : lsum (list_prod a b) h = lsum a (fun x => lsum b (fun y => h (x, y))).
Proof. induction a as [|x a IH]; [reflexivity|]. cbn [list_prod]. rewrite lsum_app, IH, lsum_map. reflexivity. Qed.

(** Atomic additions: the total of what the threads add *)
Section Adding.
Context {L T : Type} (eqb : L -> L -> bool) (eqb_spec : forall a b, reflect (a = b) (eqb a b)) (ths : list T) (body : T -> option (list (op L R))).
Theorem adding_result (m m' : L -> R) l (W : T -> R) : runs eqb Rplus ths body m m' ->
  (forall t k, In t ths -> body t = Some k -> only_adds k /\ total eqb Rplus 0%R l k = W t) -> m' l = (m l + lsum ths W)%R.
Proof.
  intros (ops & F & n & c & St & Fi & <-) H.
  assert (X : only_adds (concat ops) /\ total eqb Rplus 0%R l (concat ops) = lsum ths W).
  { clear St Fi. induction F as [|t k ts ks E F IH]; [split; [intros ? []|reflexivity]|]. destruct (H t k (or_introl eq_refl) E) as (O & V).
    destruct IH as (O' & V'); [intros; apply H; auto; now right|]. cbn [concat]. split.
    - intros o I. apply in_app_or in I. destruct I; [now apply O|now apply O'].
    - rewrite (total_app eqb Rplus 0%R) by (intros; ring). rewrite V, V'. reflexivity. }
  destruct X as (O & V). rewrite <- V. apply (adding_runs eqb Rplus eqb_spec 0%R) with (n := n); auto; intros; ring.
Qed.
End Adding.
