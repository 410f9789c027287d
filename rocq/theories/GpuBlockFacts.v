(** Facts about launches with barriers: phases in which every thread writes locations that no other thread uses are deterministic; blocks with
    separate memory can be considered one at a time; executions end. *)
From Coq Require Import Lia.
From Verif Require Import Base BaseFacts GpuBlock.
Open Scope Z_scope.

Section Facts.
Context {L A : Type} (eqb : L -> L -> bool) (eqb_ok : forall x y, eqb x y = true <-> x = y).
Notation prog := (prog L A). Notation mem := (L -> A). Notation put := (put (A := A) eqb). Notation bstep := (bstep (A := A) eqb). Notation bexec := (bexec (A := A) eqb).
Notation gstep := (gstep (A := A) eqb). Notation gexec := (gexec (A := A) eqb). Notation launch := (launch (A := A) eqb).

Lemma put_same (m : mem) l v : put m l v l = v.
Proof. unfold GpuBlock.put. now rewrite (proj2 (eqb_ok l l) eq_refl). Qed.
Lemma put_other (m : mem) l v l' : l <> l' -> put m l v l' = m l'.
Proof. intro N. unfold GpuBlock.put. destruct (eqb l l') eqn:E; [|reflexivity]. apply eqb_ok in E. easy. Qed.
Lemma set_same c t (p : prog) : set_thread c t p t = p.
Proof. unfold set_thread. now rewrite Z.eqb_refl. Qed.
Lemma set_other c t (p : prog) t' : t' <> t -> set_thread c t p t' = c t'.
Proof. intro N. unfold set_thread. now rewrite (proj2 (Z.eqb_neq t' t) N). Qed.
Lemma block_same (g : grid) b (c : block (L := L) (A := A)) : set_block g b c b = c.
Proof. unfold set_block. now rewrite Z.eqb_refl. Qed.
Lemma block_other (g : grid) b (c : block (L := L) (A := A)) b' : b' <> b -> set_block g b c b' = g b'.
Proof. intro N. unfold set_block. now rewrite (proj2 (Z.eqb_neq b' b) N). Qed.

Lemma bexec_trans T a b c : bexec T a b -> bexec T b c -> bexec T a c.
Proof. induction 1; eauto using be_step. Qed.
Lemma gexec_trans B T a b c : gexec B T a b -> gexec B T b c -> gexec B T a c.
Proof. induction 1; eauto using ge_step. Qed.

(** A thread alone, up to its next barrier or its end *)
Fixpoint solo (m : mem) (p : prog) : mem * prog := match p with Ld l k => solo m (k (m l)) | St l v k => solo (put m l v) k | _ => (m, p) end.
Fixpoint foot1 (W R : L -> Prop) (p : prog) : Prop := match p with Ld l k => R l /\ forall v, foot1 W R (k v) | St l v k => W l /\ foot1 W R k | _ => True end.
Fixpoint foot (W R : L -> Prop) (p : prog) : Prop := match p with Ld l k => R l /\ forall v, foot W R (k v) | St l v k => W l /\ foot W R k | Sync k => foot W R k | Done => True end.

Lemma solo_waiting m p : waiting (snd (solo m p)) = true.
Proof. revert m. induction p as [|l k IH|l v k IH|k IH]; intro m; cbn; auto. Qed.
Lemma solo_rest m p : waiting p = true -> solo m p = (m, p).
Proof. destruct p; cbn; (discriminate || reflexivity). Qed.
Lemma solo_frame W R p : forall m1 m2, foot1 W R p -> (forall l, R l \/ W l -> m1 l = m2 l) -> snd (solo m1 p) = snd (solo m2 p) /\ forall l, R l \/ W l -> fst (solo m1 p) l = fst (solo m2 p) l.
Proof.
  induction p as [|l k IH|l v k IH|k IH]; intros m1 m2 F E; cbn in *.
  - auto.
  - destruct F as [Rl F]. rewrite (E l) by auto. apply IH; auto.
  - destruct F as [Wl F]. apply IH; auto. intros l' H. unfold GpuBlock.put. destruct (eqb l l'); auto.
  - auto.
Qed.
Lemma solo_keep W R p : forall m, foot1 W R p -> forall l, ~ W l -> fst (solo m p) l = m l.
Proof.
  induction p as [|l k IH|l v k IH|k IH]; intros m F x Nx; cbn in *; auto.
  - apply IH; [apply F|exact Nx].
  - destruct F as [Wl F]. rewrite IH by assumption. apply put_other. intros ->. easy.
Qed.

(** From the beginning of a phase to its end *)
Lemma phase T (m : mem) (c : Z -> prog) W R s' : (forall t, 0 <= t < T -> foot1 (W t) (R t) (c t)) ->
  (forall t t' l, 0 <= t < T -> 0 <= t' < T -> t <> t' -> W t l -> ~ R t' l /\ ~ W t' l) ->
  bexec T (m, c) s' -> (forall t, 0 <= t < T -> snd s' t = Done) ->
  exists m1 c1, bexec T (m1, c1) s' /\ (forall t, 0 <= t < T -> c1 t = release (snd (solo m (c t)))) /\
    (forall t l, 0 <= t < T -> W t l -> m1 l = fst (solo m (c t)) l) /\ (forall l, (forall t, 0 <= t < T -> ~ W t l) -> m1 l = m l).
Proof.
  intros F D E Fin.
  assert (G : forall s1 s2, bexec T s1 s2 -> (forall t, 0 <= t < T -> snd s2 t = Done) ->
    (forall t, 0 <= t < T -> foot1 (W t) (R t) (snd s1 t)) -> (forall t, 0 <= t < T -> snd (solo (fst s1) (snd s1 t)) = snd (solo m (c t))) ->
    (forall t l, 0 <= t < T -> W t l -> fst (solo (fst s1) (snd s1 t)) l = fst (solo m (c t)) l) -> (forall l, (forall t, 0 <= t < T -> ~ W t l) -> fst s1 l = m l) ->
    exists m1 c1, bexec T (m1, c1) s2 /\ (forall t, 0 <= t < T -> c1 t = release (snd (solo m (c t)))) /\
      (forall t l, 0 <= t < T -> W t l -> m1 l = fst (solo m (c t)) l) /\ (forall l, (forall t, 0 <= t < T -> ~ W t l) -> m1 l = m l)).
  { clear E Fin s'. intros s1 s2 E. induction E as [[m1 c1]|s1 s1' s2 St E IH]; cbn [fst snd] in *; intros Fin F1 P1 V1 N1.
    - exists m1, c1. split; [apply be_refl|]. split.
      + intros t Ht. rewrite <- P1, Fin by assumption. reflexivity.
      + split; [|exact N1]. intros t l Ht Wl. rewrite <- V1 by assumption. rewrite Fin by assumption. reflexivity.
    - inversion St as [m0 c0 t l k Ht Et|m0 c0 t l v k Ht Et|m0 c0 Wa Ba]; subst; cbn [fst snd] in *.
      + apply IH; auto.
        * intros t' Ht'. destruct (Z.eq_dec t' t) as [->|N]; [|rewrite set_other by assumption; auto]. rewrite set_same. specialize (F1 t Ht). rewrite Et in F1. cbn in F1. apply F1.
        * intros t' Ht'. destruct (Z.eq_dec t' t) as [->|N]; [|rewrite set_other by assumption; auto]. rewrite set_same. specialize (P1 t Ht). rewrite Et in P1. exact P1.
        * intros t' l' Ht' W'. destruct (Z.eq_dec t' t) as [->|N]; [|rewrite set_other by assumption; auto]. rewrite set_same. specialize (V1 t l' Ht W'). rewrite Et in V1. exact V1.
      + assert (Wl : W t l) by (specialize (F1 t Ht); rewrite Et in F1; apply F1).
        assert (Ag : forall t' l', 0 <= t' < T -> t' <> t -> R t' l' \/ W t' l' -> put m0 l v l' = m0 l').
        { intros t' l' Ht' Ne H. apply put_other. intros <-. destruct (D t t' l Ht Ht' ltac:(auto) Wl). tauto. }
        apply IH; auto.
        * intros t' Ht'. destruct (Z.eq_dec t' t) as [->|N]; [|rewrite set_other by assumption; auto]. rewrite set_same. specialize (F1 t Ht). rewrite Et in F1. cbn in F1. apply F1.
        * intros t' Ht'. destruct (Z.eq_dec t' t) as [->|N].
          -- rewrite set_same. specialize (P1 t Ht). rewrite Et in P1. exact P1.
          -- rewrite set_other by assumption. rewrite <- P1 by assumption. apply (solo_frame (W t') (R t')); auto; intros l0 H0; apply (Ag t'); auto.
        * intros t' l' Ht' W'. destruct (Z.eq_dec t' t) as [->|N].
          -- rewrite set_same. specialize (V1 t l' Ht W'). rewrite Et in V1. exact V1.
          -- rewrite set_other by assumption. rewrite <- V1 by assumption. apply (solo_frame (W t') (R t')); auto; intros l0 H0; apply (Ag t'); auto.
        * intros l' H. rewrite <- N1 by assumption. apply put_other. intros <-. exact (H t Ht Wl).
      + exists m0, (fun t => release (c0 t)). split; [exact E|]. split.
        * intros t Ht. rewrite <- P1 by assumption. rewrite solo_rest by auto. reflexivity.
        * split; [|exact N1]. intros t l Ht Wl. rewrite <- V1 by assumption. rewrite solo_rest by auto. reflexivity. }
  apply (G (m, c) s' E Fin); cbn [fst snd]; auto.
Qed.

Lemma foot_foot1 W R p : foot W R p -> foot1 W R p.
Proof. induction p as [|l k IH|l v k IH|k IH]; cbn; intuition. Qed.
Lemma foot_release W R p : foot W R p -> foot W R (release p).
Proof. destruct p; cbn; auto. Qed.

(** Blocks with separate memory *)
Lemma project B T W R m g s' : (forall b t, 0 <= b < B -> 0 <= t < T -> foot (W b) (R b) (g b t)) ->
  (forall b b' l, 0 <= b < B -> 0 <= b' < B -> b <> b' -> W b l -> ~ R b' l /\ ~ W b' l) ->
  gexec B T (m, g) s' ->
  (forall b, 0 <= b < B -> exists m1, bexec T (m, g b) (m1, snd s' b) /\ forall l, W b l -> m1 l = fst s' l) /\ (forall l, (forall b, 0 <= b < B -> ~ W b l) -> fst s' l = m l).
Proof.
  intros F D E.
  assert (G : forall s1 s2, gexec B T s1 s2 -> (forall b t, 0 <= b < B -> 0 <= t < T -> foot (W b) (R b) (snd s1 b t)) ->
    (forall b m0, 0 <= b < B -> (forall l, R b l \/ W b l -> m0 l = fst s1 l) -> exists m1, bexec T (m0, snd s1 b) (m1, snd s2 b) /\ forall l, W b l -> m1 l = fst s2 l) /\
    (forall l, (forall b, 0 <= b < B -> ~ W b l) -> fst s2 l = fst s1 l)).
  { clear E s'. intros s1 s2 E. induction E as [s1|s1 s1' s2 St E IH]; intros F1.
    - split; [|auto]. intros b m0 Hb Ag. exists m0. split; [apply be_refl|]. intros l Wl. apply Ag. auto.
    - inversion St as [m0 g0 b m' c' Hb Bs]; subst. cbn [fst snd] in *.
      assert (K : (forall t, 0 <= t < T -> foot (W b) (R b) (c' t)) /\ (forall l, ~ W b l -> m' l = m0 l) /\
        forall mx, (forall l, R b l \/ W b l -> mx l = m0 l) -> exists mx', bstep T (mx, g0 b) (mx', c') /\ forall l, R b l \/ W b l -> mx' l = m' l).
      { inversion Bs as [m1 c1 t l k Ht Et|m1 c1 t l v k Ht Et|m1 c1 Wa Ba]; subst.
        - split; [|split].
          + intros t' Ht'. destruct (Z.eq_dec t' t) as [->|N]; [|rewrite set_other by assumption; auto]. rewrite set_same. specialize (F1 b t Hb Ht). rewrite Et in F1. cbn in F1. apply F1.
          + auto.
          + intros mx Ag. exists mx. split; [|exact Ag]. specialize (F1 b t Hb Ht). rewrite Et in F1. cbn in F1. rewrite <- (Ag l) by (left; apply F1). eapply b_load; eauto.
        - pose proof (F1 b t Hb Ht) as Ft. rewrite Et in Ft. cbn in Ft. split; [|split].
          + intros t' Ht'. destruct (Z.eq_dec t' t) as [->|N]; [|rewrite set_other by assumption; auto]. rewrite set_same. apply Ft.
          + intros l' Nl. apply put_other. intros <-. tauto.
          + intros mx Ag. exists (put mx l v). split; [eapply b_store; eauto|]. intros l' H. unfold GpuBlock.put. destruct (eqb l l'); auto.
        - split; [|split].
          + intros t' Ht'. apply foot_release. auto.
          + auto.
          + intros mx Ag. exists mx. split; [|exact Ag]. apply b_sync; auto. }
      destruct K as (Kf & Kn & Ks). destruct IH as [IH1 IH2].
      { intros b' t Hb' Ht. destruct (Z.eq_dec b' b) as [->|N]; [rewrite block_same|rewrite block_other by assumption]; auto. }
      split.
      + intros b' mx Hb' Ag. destruct (Z.eq_dec b' b) as [->|N].
        * destruct (Ks mx Ag) as (mx' & S1 & Ag'). destruct (IH1 b mx' Hb Ag') as (m1 & E1 & A1). rewrite block_same in E1. exists m1. split; [|exact A1]. eapply be_step; eauto.
        * destruct (IH1 b' mx Hb') as (m1 & E1 & A1).
          -- intros l H. rewrite (Ag l H). symmetry. apply Kn. intro Wl. destruct (D b b' l Hb Hb' ltac:(auto) Wl). tauto.
          -- rewrite block_other in E1 by assumption. eauto.
      + intros l H. rewrite IH2 by assumption. apply Kn. auto. }
  destruct (G _ _ E F) as [G1 G2]. split; [|exact G2]. intros b Hb. apply G1; auto.
Qed.

(** Nothing is accessed outside [V] when the values read satisfy [C] *)
Fixpoint safe (V : L -> Prop) (C : L -> A -> Prop) (p : prog) : Prop := match p with Ld l k => V l /\ forall v, C l v -> safe V C (k v) | St l v k => V l /\ C l v /\ safe V C k | Sync k => safe V C k | Done => True end.
Lemma safe_release V C p : safe V C p -> safe V C (release p).
Proof. destruct p; cbn; auto. Qed.
Lemma safe_exec B T V C s s' : gexec B T s s' -> (forall b t, 0 <= b < B -> 0 <= t < T -> safe V C (snd s b t)) -> (forall l, V l -> C l (fst s l)) ->
  (forall b t, 0 <= b < B -> 0 <= t < T -> safe V C (snd s' b t)) /\ (forall l, V l -> C l (fst s' l)).
Proof.
  induction 1 as [s|s s1 s2 St E IH]; intros F M; [auto|]. inversion St as [m g b m' c' Hb Bs]; subst. cbn [fst snd] in *.
  assert (K : (forall t, 0 <= t < T -> safe V C (c' t)) /\ forall l, V l -> C l (m' l)).
  { inversion Bs as [m1 c1 t l k Ht Et|m1 c1 t l v k Ht Et|m1 c1 Wa Ba]; subst.
    - pose proof (F b t Hb Ht) as Ft. rewrite Et in Ft. cbn in Ft. split; [|exact M]. intros t' Ht'. destruct (Z.eq_dec t' t) as [->|N]; [|rewrite set_other by assumption; auto]. rewrite set_same. apply Ft. apply M. apply Ft.
    - pose proof (F b t Hb Ht) as Ft. rewrite Et in Ft. cbn in Ft. split.
      + intros t' Ht'. destruct (Z.eq_dec t' t) as [->|N]; [|rewrite set_other by assumption; auto]. rewrite set_same. apply Ft.
      + intros l' Vl. unfold GpuBlock.put. destruct (eqb l l') eqn:El; [|auto]. apply eqb_ok in El. subst. apply Ft.
    - split; [|exact M]. intros t Ht. apply safe_release. auto. }
  destruct K as [K1 K2]. apply IH; [|exact K2]. intros b' t Hb' Ht. destruct (Z.eq_dec b' b) as [->|N]; [rewrite block_same|rewrite block_other by assumption]; auto.
Qed.
Lemma safe_never B T V C kernel m : (forall b t, 0 <= b < B -> 0 <= t < T -> safe V C (kernel b t)) -> (forall l, V l -> C l (m l)) -> ~ out_of_bounds eqb B T V kernel m.
Proof.
  intros F M (m' & g & b & t & l & E & Hb & Ht & Nx & Nv). destruct (safe_exec B T V C _ _ E F M) as [S _]. specialize (S b t Hb Ht). cbn [snd] in S.
  destruct (g b t) as [|l' k|l' v k|k]; cbn in *; try discriminate; inversion Nx; subst; tauto.
Qed.

(** Executions that end *)
Lemma solo_exec T t p : 0 <= t < T -> forall m c, c t = p -> exists c', bexec T (m, c) (fst (solo m p), c') /\ c' t = snd (solo m p) /\ forall t', t' <> t -> c' t' = c t'.
Proof.
  intro Ht. induction p as [|l k IH|l v k IH|k IH]; intros m c E; cbn.
  - exists c. split; [apply be_refl|]. auto.
  - destruct (IH (m l) m (set_thread c t (k (m l))) (set_same _ _ _)) as (c' & E' & C1 & C2). exists c'. split; [eapply be_step; [eapply b_load; eauto|exact E']|]. split; [exact C1|]. intros t' N. rewrite C2, set_other by assumption. reflexivity.
  - destruct (IH (put m l v) (set_thread c t k) (set_same _ _ _)) as (c' & E' & C1 & C2). exists c'. split; [eapply be_step; [eapply b_store; eauto|exact E']|]. split; [exact C1|]. intros t' N. rewrite C2, set_other by assumption. reflexivity.
  - exists c. split; [apply be_refl|]. auto.
Qed.

(** At most [n] barriers *)
Fixpoint syncs (n : nat) (p : prog) : Prop := match p with Ld l k => forall v, syncs n (k v) | St l v k => syncs n k | Sync k => match n with O => False | S n => syncs n k end | Done => True end.
Lemma solo_syncs n p : forall m, syncs n p -> syncs n (snd (solo m p)).
Proof. induction p as [|l k IH|l v k IH|k IH]; intros m H; cbn in *; auto. Qed.
Lemma syncs_up n p : forall k, syncs n p -> (n <= k)%nat -> syncs k p.
Proof. revert n. induction p as [|l f IH|l v p IH|p IH]; intros n k H Le; cbn in *; eauto. destruct n; [easy|]. destruct k; [lia|]. apply (IH n); [exact H|lia]. Qed.

Lemma all_wait T n : 0 <= T -> forall m c, (forall t, 0 <= t < T -> syncs n (c t)) -> exists m' c', bexec T (m, c) (m', c') /\ forall t, 0 <= t < T -> syncs n (c' t) /\ waiting (c' t) = true.
Proof.
  intros HT m c F. assert (G : forall k, 0 <= k -> k <= T -> exists m' c', bexec T (m, c) (m', c') /\ forall t, 0 <= t < T -> syncs n (c' t) /\ (t < k -> waiting (c' t) = true)).
  { apply (natlike_ind (fun k => k <= T -> exists m' c', bexec T (m, c) (m', c') /\ forall t, 0 <= t < T -> syncs n (c' t) /\ (t < k -> waiting (c' t) = true))).
    - intro. exists m, c. split; [apply be_refl|]. intros t Ht. split; [auto|lia].
    - intros k Hk IH Q. destruct (IH ltac:(lia)) as (m1 & c1 & E1 & P1). destruct (solo_exec T k (c1 k) ltac:(lia) m1 c1 eq_refl) as (c2 & E2 & C2 & O2). eexists _, c2. split; [eapply bexec_trans; eauto|].
      intros t Ht. destruct (Z.eq_dec t k) as [->|N]; [rewrite C2; split; [apply solo_syncs; now apply P1|intros _; apply solo_waiting]|]. rewrite O2 by assumption. split; [now apply P1|]. intro. apply P1; lia. }
  destruct (G T HT ltac:(lia)) as (m' & c' & E & P). exists m', c'. split; [exact E|]. intros t Ht. split; [now apply P|apply P; lia].
Qed.
Lemma block_ends T n : 0 <= T -> forall m c, (forall t, 0 <= t < T -> syncs n (c t)) -> exists m' c', bexec T (m, c) (m', c') /\ forall t, 0 <= t < T -> c' t = Done.
Proof.
  intro HT. induction n as [|n IH]; intros m c F; destruct (all_wait T _ HT m c F) as (m1 & c1 & E1 & P1).
  - exists m1, c1. split; [exact E1|]. intros t Ht. destruct (P1 t Ht) as [S W]. destruct (c1 t); cbn in *; (reflexivity || discriminate || easy).
  - assert (Dec : (exists t, 0 <= t < T /\ at_barrier (c1 t) = true) \/ forall t, 0 <= t < T -> at_barrier (c1 t) = false).
    { clear - HT. assert (G : forall k, 0 <= k -> (exists t, 0 <= t < k /\ at_barrier (c1 t) = true) \/ forall t, 0 <= t < k -> at_barrier (c1 t) = false).
      { apply (natlike_ind (fun k => (exists t, 0 <= t < k /\ at_barrier (c1 t) = true) \/ forall t, 0 <= t < k -> at_barrier (c1 t) = false)).
        - right. intros; lia.
        - intros k Hk [(t & Ht & E)|N]; [left; exists t; split; [lia|exact E]|]. destruct (at_barrier (c1 k)) eqn:E; [left; exists k; split; [lia|exact E]|]. right. intros t Ht. destruct (Z.eq_dec t k) as [->|]; [exact E|]. apply N. lia. }
      exact (G T HT). }
    destruct Dec as [Ex|No].
    + destruct (IH m1 (fun t => release (c1 t))) as (m2 & c2 & E2 & P2).
      * intros t Ht. destruct (P1 t Ht) as [S W]. destruct (c1 t); cbn in *; (discriminate || auto).
      * exists m2, c2. split; [|exact P2]. eapply bexec_trans; [exact E1|]. eapply be_step; [apply b_sync; [|exact Ex]|exact E2]. intros t Ht. now apply P1.
    + exists m1, c1. split; [exact E1|]. intros t Ht. destruct (P1 t Ht) as [S W]. specialize (No t Ht). destruct (c1 t); cbn in *; (reflexivity || discriminate).
Qed.

Lemma lift_block B T b : 0 <= b < B -> forall s s', bexec T s s' -> forall g, g b = snd s -> exists g', gexec B T (fst s, g) (fst s', g') /\ g' b = snd s' /\ forall b', b' <> b -> g' b' = g b'.
Proof.
  intros Hb s s' E. induction E as [s|s s1 s2 St E IH]; intros g Eg.
  - exists g. split; [apply ge_refl|]. auto.
  - destruct s as [m c]. destruct s1 as [m1 c1]. cbn [fst snd] in *. destruct (IH (set_block g b c1) (block_same _ _ _)) as (g' & E' & C1 & C2). exists g'. split.
    + eapply ge_step; [apply g_step with (b := b) (c' := c1) (m' := m1); [exact Hb|rewrite Eg; exact St]|exact E'].
    + split; [exact C1|]. intros b' N. rewrite C2, block_other by assumption. reflexivity.
Qed.
Lemma launch_ends B T n kernel m : 0 <= T -> (forall b t, 0 <= b < B -> 0 <= t < T -> syncs n (kernel b t)) -> exists m', launch B T kernel m m'.
Proof.
  intros HT F. destruct (Z_le_gt_dec B 0) as [NB|PB].
  { exists m, kernel. split; [apply ge_refl|]. intros b t Hb. lia. }
  assert (G : forall k, 0 <= k -> k <= B -> exists m' g, gexec B T (m, kernel) (m', g) /\ (forall b t, 0 <= b < k -> 0 <= t < T -> g b t = Done) /\ forall b, k <= b -> g b = kernel b).
  { apply (natlike_ind (fun k => k <= B -> exists m' g, gexec B T (m, kernel) (m', g) /\ (forall b t, 0 <= b < k -> 0 <= t < T -> g b t = Done) /\ forall b, k <= b -> g b = kernel b)).
    - intro. exists m, kernel. split; [apply ge_refl|]. split; [intros; lia|auto].
    - intros k Hk IH Q. destruct (IH ltac:(lia)) as (m1 & g1 & E1 & D1 & K1). destruct (block_ends T n HT m1 (g1 k)) as (m2 & c2 & E2 & P2).
      { intros t Ht. rewrite K1 by lia. apply F; lia. }
      destruct (lift_block B T k ltac:(lia) _ _ E2 g1 eq_refl) as (g2 & E3 & C3 & O3). cbn [fst snd] in *. exists m2, g2. split; [eapply gexec_trans; eauto|]. split.
      + intros b t Hb Ht. destruct (Z.eq_dec b k) as [->|N]; [rewrite C3; auto|]. rewrite O3 by assumption. apply D1; lia.
      + intros b Hb. rewrite O3 by lia. apply K1. lia. }
  destruct (G B ltac:(lia) ltac:(lia)) as (m' & g & E & D & _). exists m', g. split; [exact E|exact D].
Qed.
End Facts.
