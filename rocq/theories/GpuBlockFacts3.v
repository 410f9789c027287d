(** Reasoning phase by phase, about all executions of a block and about the existence of one. *)
From Coq Require Import Lia.
From Verif Require Import Base GpuBlock GpuBlockFacts.
Open Scope Z_scope.

Section Rule.
Context {L A : Type} (eqb : L -> L -> bool) (eqb_ok : forall x y, eqb x y = true <-> x = y).
Notation prog := (prog L A). Notation mem := (L -> A). Notation bexec := (bexec (A := A) eqb). Notation solo := (solo (A := A) eqb).
Notation foot1 := (foot1 (L := L) (A := A)).

Definition det (T : Z) (W : Z -> L -> Prop) (m : mem) (c : Z -> prog) (m1 : mem) (c1 : Z -> prog) : Prop :=
  (forall t, 0 <= t < T -> c1 t = release (snd (solo m (c t)))) /\
  (forall t l, 0 <= t < T -> W t l -> m1 l = fst (solo m (c t)) l) /\ (forall l, (forall t, 0 <= t < T -> ~ W t l) -> m1 l = m l).
(** Threads that do not share what they write go to the next barrier, whatever their order *)
Definition rule (T : Z) (X : mem * (Z -> prog) -> Prop) : Prop := forall m c (W R : Z -> L -> Prop),
  (forall t, 0 <= t < T -> foot1 (W t) (R t) (c t)) -> (forall t t' l, 0 <= t < T -> 0 <= t' < T -> t <> t' -> W t l -> ~ R t' l /\ ~ W t' l) ->
  (forall m1 c1, det T W m c m1 c1 -> X (m1, c1)) -> X (m, c).

Lemma rule_all T s' (Q : Prop) : (forall t, 0 <= t < T -> snd s' t = Done) -> rule T (fun s => bexec T s s' -> Q).
Proof.
  intros Fin m c W R F D K E. destruct (phase eqb eqb_ok T m c W R s' F D E Fin) as (m1 & c1 & E1 & P1 & V1 & N1). apply (K m1 c1); [split; auto|exact E1].
Qed.

Lemma phase_forward T (m : mem) (c : Z -> prog) W R : 0 <= T -> (forall t, 0 <= t < T -> foot1 (W t) (R t) (c t)) ->
  (forall t t' l, 0 <= t < T -> 0 <= t' < T -> t <> t' -> W t l -> ~ R t' l /\ ~ W t' l) ->
  exists m1 c1, bexec T (m, c) (m1, c1) /\ det T W m c m1 c1.
Proof.
  intros HT F D.
  assert (G : forall k, 0 <= k -> k <= T -> exists m1 c1, bexec T (m, c) (m1, c1) /\ (forall t, 0 <= t < k -> c1 t = snd (solo m (c t))) /\ (forall t, k <= t -> c1 t = c t) /\
    (forall t l, 0 <= t < k -> W t l -> m1 l = fst (solo m (c t)) l) /\ (forall l, (forall t, 0 <= t < k -> ~ W t l) -> m1 l = m l)).
  { apply (natlike_ind (fun k => k <= T -> exists m1 c1, bexec T (m, c) (m1, c1) /\ (forall t, 0 <= t < k -> c1 t = snd (solo m (c t))) /\ (forall t, k <= t -> c1 t = c t) /\
    (forall t l, 0 <= t < k -> W t l -> m1 l = fst (solo m (c t)) l) /\ (forall l, (forall t, 0 <= t < k -> ~ W t l) -> m1 l = m l))).
    - intros _. exists m, c. split; [apply be_refl|]. repeat split; intros; lia || reflexivity.
    - intros k Hk IH Q. destruct (IH ltac:(lia)) as (m1 & c1 & E1 & P1 & O1 & V1 & N1).
      destruct (solo_exec eqb T k (c1 k) ltac:(lia) m1 c1 eq_refl) as (c2 & E2 & C2 & O2). rewrite (O1 k) in E2, C2 by lia.
      assert (Ag : forall l, R k l \/ W k l -> m1 l = m l). { intros l H. apply N1. intros t Ht Wl. destruct (D t k l ltac:(lia) ltac:(lia) ltac:(lia) Wl). tauto. }
      destruct (solo_frame eqb (W k) (R k) (c k) m1 m (F k ltac:(lia)) Ag) as [S1 S2].
      exists (fst (solo m1 (c k))), c2. split; [eapply bexec_trans; eauto|]. split; [|split; [|split]].
      + intros t Ht. destruct (Z.eq_dec t k) as [->|N]; [congruence|]. rewrite O2 by assumption. apply P1. lia.
      + intros t Ht. rewrite O2 by lia. apply O1. lia.
      + intros t l Ht Wl. destruct (Z.eq_dec t k) as [->|N]; [apply S2; auto|].
        rewrite (solo_keep eqb eqb_ok (W k) (R k)) by (try (apply F; lia); destruct (D t k l ltac:(lia) ltac:(lia) N Wl); assumption). apply V1; [lia|exact Wl].
      + intros l H. rewrite (solo_keep eqb eqb_ok (W k) (R k)) by (try (apply F; lia); apply H; lia). apply N1. intros t Ht. apply H. lia. }
  destruct (G T HT ltac:(lia)) as (m1 & c1 & E1 & P1 & _ & V1 & N1).
  assert (Wt : forall t, 0 <= t < T -> waiting (c1 t) = true) by (intros t Ht; rewrite P1 by assumption; apply solo_waiting).
  assert (Dec : (exists t, 0 <= t < T /\ at_barrier (c1 t) = true) \/ forall t, 0 <= t < T -> at_barrier (c1 t) = false).
  { clear - HT. assert (H : forall k, 0 <= k -> (exists t, 0 <= t < k /\ at_barrier (c1 t) = true) \/ forall t, 0 <= t < k -> at_barrier (c1 t) = false).
    { apply (natlike_ind (fun k => (exists t, 0 <= t < k /\ at_barrier (c1 t) = true) \/ forall t, 0 <= t < k -> at_barrier (c1 t) = false)); [right; lia|].
      intros k Hk [(t & Ht & B)|N]; [left; exists t; split; [lia|exact B]|]. destruct (at_barrier (c1 k)) eqn:B; [left; exists k; split; [lia|exact B]|].
      right. intros t Ht. destruct (Z.eq_dec t k) as [->|]; [exact B|apply N; lia]. }
    exact (H T HT). }
  destruct Dec as [Ba|No].
  - exists m1, (fun t => release (c1 t)). split; [eapply bexec_trans; [exact E1|eapply be_step; [apply b_sync; assumption|apply be_refl]]|]. split; [|split; assumption]. intros t Ht. now rewrite P1.
  - exists m1, c1. split; [exact E1|]. split; [|split; assumption]. intros t Ht. rewrite <- P1 by assumption. specialize (No t Ht). specialize (Wt t Ht). destruct (c1 t); (reflexivity || discriminate).
Qed.
Definition ends (T : Z) (Q : mem -> Prop) (s : mem * (Z -> prog)) : Prop := exists s', bexec T s s' /\ (forall t, 0 <= t < T -> snd s' t = Done) /\ Q (fst s').
Lemma rule_some T (Q : mem -> Prop) : 0 <= T -> rule T (ends T Q).
Proof.
  intros HT m c W R F D K. destruct (phase_forward T m c W R HT F D) as (m1 & c1 & E & Dt). destruct (K m1 c1 Dt) as (s' & E' & X). exists s'. split; [eapply bexec_trans; eauto|exact X].
Qed.
Lemma ends_done T (Q : mem -> Prop) m (c : Z -> prog) : (forall t, 0 <= t < T -> c t = Done) -> Q m -> ends T Q (m, c).
Proof. intros C H. exists (m, c). split; [apply be_refl|]. auto. Qed.
(** One thread goes first *)
Lemma ends_first T (Q : mem -> Prop) m (c : Z -> prog) t : 0 <= t < T -> (forall c1, c1 t = snd (solo m (c t)) -> (forall t', t' <> t -> c1 t' = c t') -> ends T Q (fst (solo m (c t)), c1)) -> ends T Q (m, c).
Proof.
  intros Ht K. destruct (solo_exec eqb T t (c t) Ht m c eq_refl) as (c1 & E & C1 & O1). destruct (K c1 C1 O1) as (s' & E' & X). exists s'. split; [eapply bexec_trans; eauto|exact X].
Qed.
Lemma all_done T s' m (c : Z -> prog) : (forall t, 0 <= t < T -> c t = Done) -> bexec T (m, c) s' -> fst s' = m.
Proof.
  intros Dn E. inversion E as [|s s1 s2 St E1]; subst; [reflexivity|]. exfalso.
  inversion St as [m0 c0 t l k Ht Et|m0 c0 t l v k Ht Et|m0 c0 Wa (t & Ht & Ba)]; subst; rewrite Dn in * by assumption; discriminate.
Qed.
(** A launch of one block *)
Lemma launch_one T kernel m m' : launch eqb 1 T kernel m m' -> exists s', bexec T (m, kernel 0) s' /\ (forall t, 0 <= t < T -> snd s' t = Done) /\ fst s' = m'.
Proof.
  intros (g & E & F). assert (G : forall s s', gexec eqb 1 T s s' -> bexec T (fst s, snd s 0) (fst s', snd s' 0)).
  { clear. intros s s' E. induction E as [s|s s1 s2 St E IH]; [apply be_refl|]. inversion St as [m g b m' c' Hb Bs]; subst. assert (b = 0) as -> by lia. cbn [fst snd] in *. rewrite block_same in IH. eapply be_step; eauto. }
  apply G in E. cbn [fst snd] in E. eexists. split; [exact E|]. split; [|reflexivity]. intros t Ht. cbn [snd]. apply F; lia.
Qed.
Lemma launch_ends_one T kernel m (Q : mem -> Prop) : ends T Q (m, kernel 0) -> exists m', launch eqb 1 T kernel m m' /\ Q m'.
Proof.
  intros (s' & E & F & H). destruct (lift_block eqb 1 T 0 ltac:(lia) _ _ E kernel eq_refl) as (g & G & B & _). cbn [fst] in G. exists (fst s'). split; [|exact H]. exists g. split; [exact G|].
  intros b t Hb Ht. assert (b = 0) as -> by lia. rewrite B. now apply F.
Qed.
End Rule.
