(** Facts about launches with atomic additions: what no thread writes is kept; threads that only access what is there never leave it. *)
From Coq Require Import Lia.
From Verif Require Import Base BaseFacts GpuAtom.
Open Scope Z_scope.

Section Facts.
Context {L A : Type} (eqb : L -> L -> bool) (add : A -> A -> A) (eqb_ok : forall x y, eqb x y = true <-> x = y).
(** Every access of a program, whatever it loads: [W] for the locations it writes, [R] for those it reads, [S] if it may get stuck *)
Fixpoint within (S : Prop) (W R : L -> Prop) (p : prog L A) : Prop :=
  match p with
  | Done => True | Stuck => S
  | Ld l k => R l /\ forall v, within S W R (k v)
  | St l v k => W l /\ within S W R k
  | Atomic l v k => W l /\ within S W R k
  | Sync k => within S W R k
  end.
Lemma within_tstep S W R m p m' p' : within S W R p -> tstep eqb add m p = Some (m', p') -> within S W R p' /\ forall l, ~ W l -> m' l = m l.
Proof.
  destruct p as [| |l k|l v k|l v k|k]; cbn [tstep within]; intros I E; try discriminate; injection E as <- <-.
  - split; [apply I|auto].
  - split; [apply I|]. intros l' N. unfold put. destruct (eqb l l') eqn:Q; [|reflexivity]. apply eqb_ok in Q. subst l'. now destruct N.
  - split; [apply I|]. intros l' N. unfold put. destruct (eqb l l') eqn:Q; [|reflexivity]. apply eqb_ok in Q. subst l'. now destruct N.
Qed.
Lemma within_exec S W R B T s s' : exec eqb add B T s s' -> (forall b t, 0 <= b < B -> 0 <= t < T -> within S W R (snd s b t)) ->
  (forall b t, 0 <= b < B -> 0 <= t < T -> within S W R (snd s' b t)) /\ forall l, ~ W l -> fst s' l = fst s l.
Proof.
  intro E. induction E as [s|s s1 s2 St E IH]; intro I; [split; [exact I|reflexivity]|].
  assert (K : (forall b t, 0 <= b < B -> 0 <= t < T -> within S W R (snd s1 b t)) /\ forall l, ~ W l -> fst s1 l = fst s l).
  { inversion St as [m g b t m' p Hb Ht Es|m g b Hb Wa Ba]; subst; cbn [fst snd] in *.
    - destruct (within_tstep S W R m _ m' p (I b t Hb Ht) Es) as (I1 & K1). split; [|exact K1]. intros b' t' Hb' Ht'. unfold set_thread. destruct ((b' =? b) && (t' =? t))%bool; [exact I1|now apply I].
    - split; [|reflexivity]. intros b' t' Hb' Ht'. unfold release_block. destruct (b' =? b); [|now apply I]. specialize (I b' t' Hb' Ht'). destruct (snd (m, g) b' t') eqn:Ep; cbn [snd] in Ep; rewrite Ep in *; exact I. }
  destruct K as (K1 & K2). destruct (IH K1) as (I1 & I2). split; [exact I1|]. intros l N. now rewrite I2, K2.
Qed.
Lemma launch_keeps S W R B T kernel m m' : (forall b t, 0 <= b < B -> 0 <= t < T -> within S W R (kernel b t)) -> launch eqb add B T kernel m m' -> forall l, ~ W l -> m' l = m l.
Proof. intros I (g & E & _). exact (proj2 (within_exec S W R B T _ _ E I)). Qed.
Lemma within_safe (V : L -> Prop) B T kernel m : (forall b t, 0 <= b < B -> 0 <= t < T -> within False V V (kernel b t)) -> ~ out_of_bounds eqb add B T V kernel m.
Proof.
  intros I (m' & g & b & t & E & Hb & Ht & Bad). pose proof (proj1 (within_exec False V V B T _ _ E I) b t Hb Ht) as H. cbn [snd] in H.
  destruct (g b t); cbn [bad_access within] in *; tauto.
Qed.
Lemma within_mono (S S' : Prop) (W R W' R' : L -> Prop) p : (S -> S') -> (forall l, W l -> W' l) -> (forall l, R l -> R' l) -> within S W R p -> within S' W' R' p.
Proof. intros HS HW HR. induction p; cbn [within]; intuition auto. Qed.
Lemma exec_trans B T a b c : exec eqb add B T a b -> exec eqb add B T b c -> exec eqb add B T a c.
Proof. intros E F. induction E; [exact F|]. eapply e_step; eauto. Qed.

(** A set of programs that steps and barriers do not leave *)
Lemma stays (C : Z -> Z -> prog L A -> Prop) B T : (forall b t m p m' p', C b t p -> tstep eqb add m p = Some (m', p') -> C b t p') -> (forall b t p, C b t p -> C b t (release p)) ->
  forall s s', exec eqb add B T s s' -> (forall b t, C b t (snd s b t)) -> forall b t, C b t (snd s' b t).
Proof.
  intros C1 C2 s s' E. induction E as [s|s s1 s2 St E IH]; intro I; [exact I|]. apply IH. clear IH E.
  inversion St as [m g b t m' p Hb Ht Es|m g b Hb Wa Ba]; subst; cbn [fst snd] in *; intros b' t'.
  - unfold set_thread. destruct (Z.eqb_spec b' b) as [->|]; [|apply I]. destruct (Z.eqb_spec t' t) as [->|]; [|apply I]. cbn [andb]. exact (C1 b t m _ m' p (I b t) Es).
  - unfold release_block. destruct (b' =? b); [apply C2|]; apply I.
Qed.

(** Executions by a schedule: [Some (b, t)] is a step of a thread, [None] with a block a barrier *)
Fixpoint run (T : Z) (sched : list (Z * option Z)) (m : L -> A) (g : Z -> Z -> prog L A) : option ((L -> A) * (Z -> Z -> prog L A)) :=
  match sched with
  | [] => Some (m, g)
  | (b, Some t) :: r => match tstep eqb add m (g b t) with Some (m', p) => run T r m' (set_thread g b t p) | None => None end
  | (b, None) :: r => if forallb (fun t => waiting (g b t)) (zrange 0 T) && existsb (fun t => at_barrier (g b t)) (zrange 0 T) then run T r m (release_block g b) else None
  end.
Lemma run_exec B T sched : (forall b t, In (b, Some t) sched -> 0 <= b < B /\ 0 <= t < T) -> (forall b, In (b, None) sched -> 0 <= b < B) ->
  forall m g s, run T sched m g = Some s -> exec eqb add B T (m, g) s.
Proof.
  induction sched as [|[b [t|]] r IH]; intros H1 H2 m g s; cbn [run].
  - intro E. injection E as <-. apply e_refl.
  - destruct (tstep eqb add m (g b t)) as [[m' p]|] eqn:Es; [|discriminate]. intro E. destruct (H1 b t (or_introl eq_refl)) as (Hb & Ht). eapply e_step; [exact (s_thread eqb add B T m g b t m' p Hb Ht Es)|].
    apply IH; [| |exact E]; intros; [apply H1|apply H2]; now right.
  - destruct (forallb _ _ && existsb _ _)%bool eqn:C; [|discriminate]. apply andb_true_iff in C. destruct C as (C1 & C2). intro E. eapply e_step.
    + apply s_sync with (b := b); [apply H2; now left| |].
      * intros t Ht. rewrite forallb_forall in C1. apply C1. now apply in_zrange.
      * apply existsb_exists in C2. destruct C2 as (t & I & C2). exists t. split; [now apply in_zrange|exact C2].
    + apply IH; [| |exact E]; intros; [apply H1|apply H2]; now right.
Qed.
End Facts.
