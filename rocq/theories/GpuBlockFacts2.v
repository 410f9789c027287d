(** One phase between barriers, also for executions that do not get to its end *)
From Coq Require Import Lia.
From Verif Require Import Base BaseFacts GpuBlock GpuBlockFacts.
Open Scope Z_scope.

Section Phase.
Context {L A : Type} (eqb : L -> L -> bool) (eqb_ok : forall x y, eqb x y = true <-> x = y).
Notation prog := (prog L A). Notation mem := (L -> A). Notation put := (put (A := A) eqb). Notation bstep := (bstep (A := A) eqb). Notation bexec := (bexec (A := A) eqb).
Notation solo := (solo (A := A) eqb).

(** Nothing is accessed outside [V] before the next barrier when the values read satisfy [C] *)
Fixpoint safe1 (V : L -> Prop) (C : L -> A -> Prop) (p : prog) : Prop := match p with Ld l k => V l /\ forall v, C l v -> safe1 V C (k v) | St l v k => V l /\ C l v /\ safe1 V C k | _ => True end.
Lemma safe1_next V C p l : safe1 V C p -> next_access p = Some l -> V l.
Proof. destruct p; cbn; intros S E; try discriminate; injection E as <-; apply S. Qed.
(** The next access of every thread is to [V]; and when all have ended the memory satisfies [Post] *)
Definition claim (T : Z) (V : L -> Prop) (Post : mem -> Prop) (s : mem * (Z -> prog)) : Prop :=
  (forall t l, 0 <= t < T -> next_access (snd s t) = Some l -> V l) /\ ((forall t, 0 <= t < T -> snd s t = Done) -> Post (fst s)).

Lemma phase_claim T V C W R Post (m : mem) (c : Z -> prog) s' : (forall t, 0 <= t < T -> foot1 (W t) (R t) (c t)) ->
  (forall t t' l, 0 <= t < T -> 0 <= t' < T -> t <> t' -> W t l -> ~ R t' l /\ ~ W t' l) ->
  (forall t, 0 <= t < T -> safe1 V C (c t)) -> (forall l, V l -> C l (m l)) -> bexec T (m, c) s' ->
  (forall m1 c1, bexec T (m1, c1) s' -> (forall t, 0 <= t < T -> c1 t = release (snd (solo m (c t)))) ->
    (forall t l, 0 <= t < T -> W t l -> m1 l = fst (solo m (c t)) l) -> (forall l, (forall t, 0 <= t < T -> ~ W t l) -> m1 l = m l) -> claim T V Post s') -> claim T V Post s'.
Proof.
  intros F D Sf Cm E X.
  assert (G : (forall t, 0 <= t < T -> safe1 V C (snd s' t)) \/ exists m1 c1, bexec T (m1, c1) s' /\ (forall t, 0 <= t < T -> c1 t = release (snd (solo m (c t)))) /\
      (forall t l, 0 <= t < T -> W t l -> m1 l = fst (solo m (c t)) l) /\ (forall l, (forall t, 0 <= t < T -> ~ W t l) -> m1 l = m l)).
  { assert (G : forall s1 s2, bexec T s1 s2 -> (forall t, 0 <= t < T -> foot1 (W t) (R t) (snd s1 t)) ->
      (forall t, 0 <= t < T -> snd (solo (fst s1) (snd s1 t)) = snd (solo m (c t))) ->
      (forall t l, 0 <= t < T -> W t l -> fst (solo (fst s1) (snd s1 t)) l = fst (solo m (c t)) l) -> (forall l, (forall t, 0 <= t < T -> ~ W t l) -> fst s1 l = m l) ->
      (forall t, 0 <= t < T -> safe1 V C (snd s1 t)) -> (forall l, V l -> C l (fst s1 l)) ->
      (forall t, 0 <= t < T -> safe1 V C (snd s2 t)) \/ exists m1 c1, bexec T (m1, c1) s2 /\ (forall t, 0 <= t < T -> c1 t = release (snd (solo m (c t)))) /\
        (forall t l, 0 <= t < T -> W t l -> m1 l = fst (solo m (c t)) l) /\ (forall l, (forall t, 0 <= t < T -> ~ W t l) -> m1 l = m l)).
    { clear E X Sf Cm s'. intros s1 s2 E. induction E as [[m1 c1]|s1 s1' s2 St E IH]; cbn [fst snd] in *; intros F1 P1 V1 N1 S1 C1; [left; exact S1|].
      inversion St as [m0 c0 t l k Ht Et|m0 c0 t l v k Ht Et|m0 c0 Wa Ba]; subst; cbn [fst snd] in *.
      - pose proof (S1 t Ht) as St1. rewrite Et in St1. cbn in St1. apply IH; auto.
        + intros t' Ht'. destruct (Z.eq_dec t' t) as [->|N]; [|rewrite set_other by assumption; auto]. rewrite set_same. specialize (F1 t Ht). rewrite Et in F1. cbn in F1. apply F1.
        + intros t' Ht'. destruct (Z.eq_dec t' t) as [->|N]; [|rewrite set_other by assumption; auto]. rewrite set_same. specialize (P1 t Ht). rewrite Et in P1. exact P1.
        + intros t' l' Ht' W'. destruct (Z.eq_dec t' t) as [->|N]; [|rewrite set_other by assumption; auto]. rewrite set_same. specialize (V1 t l' Ht W'). rewrite Et in V1. exact V1.
        + intros t' Ht'. destruct (Z.eq_dec t' t) as [->|N]; [|rewrite set_other by assumption; auto]. rewrite set_same. apply St1. apply C1. apply St1.
      - assert (Wl : W t l) by (specialize (F1 t Ht); rewrite Et in F1; apply F1). pose proof (S1 t Ht) as St1. rewrite Et in St1. cbn in St1.
        assert (Ag : forall t' l', 0 <= t' < T -> t' <> t -> R t' l' \/ W t' l' -> put m0 l v l' = m0 l').
        { intros t' l' Ht' Ne H. apply (put_other eqb eqb_ok). intros <-. destruct (D t t' l Ht Ht' ltac:(auto) Wl). tauto. }
        apply IH; auto.
        + intros t' Ht'. destruct (Z.eq_dec t' t) as [->|N]; [|rewrite set_other by assumption; auto]. rewrite set_same. specialize (F1 t Ht). rewrite Et in F1. cbn in F1. apply F1.
        + intros t' Ht'. destruct (Z.eq_dec t' t) as [->|N].
          * rewrite set_same. specialize (P1 t Ht). rewrite Et in P1. exact P1.
          * rewrite set_other by assumption. rewrite <- P1 by assumption. apply (solo_frame eqb (W t') (R t')); auto; intros l0 H0; apply (Ag t'); auto.
        + intros t' l' Ht' W'. destruct (Z.eq_dec t' t) as [->|N].
          * rewrite set_same. specialize (V1 t l' Ht W'). rewrite Et in V1. exact V1.
          * rewrite set_other by assumption. rewrite <- V1 by assumption. apply (solo_frame eqb (W t') (R t')); auto; intros l0 H0; apply (Ag t'); auto.
        + intros l' H. rewrite <- N1 by assumption. apply (put_other eqb eqb_ok). intros <-. exact (H t Ht Wl).
        + intros t' Ht'. destruct (Z.eq_dec t' t) as [->|N]; [|rewrite set_other by assumption; auto]. rewrite set_same. apply St1.
        + intros l' Vl. unfold GpuBlock.put. destruct (eqb l l') eqn:El; [|auto]. apply eqb_ok in El. subst. apply St1.
      - right. exists m0, (fun t => release (c0 t)). split; [exact E|]. split.
        + intros t Ht. rewrite <- P1 by assumption. rewrite solo_rest by auto. reflexivity.
        + split; [|exact N1]. intros t l Ht Wl. rewrite <- V1 by assumption. rewrite solo_rest by auto. reflexivity. }
    apply (G (m, c) s' E F); cbn [fst snd]; auto. }
  destruct G as [S|(m1 & c1 & E1 & A1 & A2 & A3)]; [|exact (X m1 c1 E1 A1 A2 A3)]. split.
  - intros t l Ht Nx. exact (safe1_next V C _ l (S t Ht) Nx).
  - intro Dn. destruct (phase eqb eqb_ok T m c W R s' F D E Dn) as (m1 & c1 & E1 & A1 & A2 & A3). apply (X m1 c1 E1 A1 A2 A3). exact Dn.
Qed.
Lemma done_claim T V (Post : mem -> Prop) m c s' : (forall t, 0 <= t < T -> c t = Done) -> bexec T (m, c) s' -> Post m -> claim T V Post s'.
Proof.
  intros Dn E P. inversion E as [|s s1 s2 St E1]; subst.
  - split; cbn [fst snd]; auto. intros t l Ht. rewrite Dn by assumption. discriminate.
  - exfalso. inversion St as [m0 c0 t l k Ht Et|m0 c0 t l v k Ht Et|m0 c0 Wa (t & Ht & Ba)]; subst; rewrite Dn in * by assumption; discriminate.
Qed.
End Phase.
