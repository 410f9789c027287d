(** Facts about the mutex (proofs only). *)
From Coq Require Import Lia.
From Verif Require Import Base Mutex MutexSpec.

Section Facts.
Context {S L : Type} (prog : L -> action S L) (inside : L -> bool) (B : bracketed prog inside) (n : Z) (x0 : S) (f0 : Z -> L) (O : all_outside inside n f0).
Definition inv (s : state S L) : Prop := exists xb fb, serial prog n x0 f0 xb fb /\
  match holder s with
  | None => shared s = xb /\ (forall t, fb t = local s t) /\ all_outside inside n (local s)
  | Some h => 0 <= h < n /\ (forall u, u <> h -> fb u = local s u) /\ (forall u, 0 <= u < n -> u <> h -> inside (local s u) = false) /\ inside (local s h) = true /\
      exists l1, prog (fb h) = Lock l1 /\ alone prog xb l1 (shared s) (local s h)
  end.
Lemma set_same (f : Z -> L) t l : set_local f t l t = l.
Proof using. clear. unfold set_local. now rewrite Z.eqb_refl. Qed.
Lemma set_other (f : Z -> L) t l u : u <> t -> set_local f t l u = f u.
Proof using. clear. intro N. unfold set_local. now replace (u =? t) with false by lia. Qed.
Lemma inv_holder s t : inv s -> 0 <= t < n -> inside (local s t) = true -> holder s = Some t.
Proof using.
  clear. intros (xb & fb & _ & H) Ht I. destruct (holder s) as [h|].
  - destruct H as (_ & _ & H & _). destruct (Z.eq_dec t h) as [->|N]; [reflexivity|]. rewrite H in I by assumption. discriminate.
  - destruct H as (_ & _ & H). rewrite H in I by assumption. discriminate.
Qed.
Lemma inv_start : inv (start x0 f0).
Proof using O. exists x0, f0. split; [constructor|]. cbn. auto. Qed.
Lemma inv_step s s' : inv s -> step prog true n s s' -> inv s'.
Proof using B.
  clear O. intros I St. pose proof (fun t => inv_holder s t I) as Own. destruct I as (xb & fb & Ser & H). destruct St as [x h f t l Ht E Hh|x h f t l Ht E|x h f t g x' l Ht E G|x h f t l Ht E]; cbn [holder shared local] in *; pose proof (B (f t)) as Bt; rewrite E in Bt.
  - rewrite (Hh eq_refl) in H. destruct H as (<- & Q & Out). exists x, fb. split; [exact Ser|]. cbn [holder shared local]. split; [exact Ht|]. split; [intros u N; rewrite set_other by exact N; apply Q|].
    split; [intros u Hu N; rewrite set_other by exact N; now apply Out|]. rewrite set_same. split; [tauto|]. exists l. split; [now rewrite Q|constructor].
  - rewrite (Own t Ht (proj1 Bt)) in H. destruct H as (_ & Q & Out & In_ & l1 & El & A). exists x, (set_local fb t l). split; [now apply (r_section _ _ _ _ xb fb t l1 x (f t) l)|]. cbn [holder shared local]. split; [reflexivity|]. split.
    + intro u. unfold set_local. destruct (Z.eqb_spec u t); [reflexivity|now apply Q].
    + intros u Hu. destruct (Z.eq_dec u t) as [->|N]; [rewrite set_same; tauto|rewrite set_other by exact N; now apply Out].
  - rewrite (Own t Ht (proj1 Bt)) in H. destruct H as (_ & Q & Out & In_ & l1 & El & A). exists xb, fb. split; [exact Ser|]. cbn [holder shared local]. rewrite (Own t Ht (proj1 Bt)). split; [exact Ht|].
    split; [intros u N; rewrite set_other by exact N; now apply Q|]. split; [intros u Hu N; rewrite set_other by exact N; now apply Out|]. rewrite set_same.
    split; [destruct Bt as (_ & Bt); specialize (Bt x); rewrite G in Bt; exact Bt|]. exists l1. split; [exact El|]. now apply (a_access _ _ _ x (f t) g).
  - destruct h as [h|].
    + destruct H as (Hh & Q & Out & In_ & l1 & El & A). destruct (Z.eq_dec t h) as [->|N].
      * exists xb, fb. split; [exact Ser|]. cbn [holder shared local]. split; [exact Hh|]. split; [intros u N; rewrite set_other by exact N; now apply Q|]. split; [intros u Hu N; rewrite set_other by exact N; now apply Out|].
        rewrite set_same. split; [congruence|]. exists l1. split; [exact El|]. now apply (a_private _ _ _ x (f h)).
      * exists xb, (set_local fb t l). split; [apply r_private; [exact Ser|exact Ht|now rewrite Q]|]. cbn [holder shared local]. split; [exact Hh|].
        split; [intros u Nu; unfold set_local; destruct (Z.eqb_spec u t); [reflexivity|now apply Q]|].
        split; [intros u Hu Nu; destruct (Z.eq_dec u t) as [->|Nt]; [rewrite set_same, Bt; now apply Out|rewrite set_other by exact Nt; now apply Out]|].
        rewrite !set_other by congruence. split; [exact In_|]. exists l1. split; [exact El|exact A].
    + destruct H as (<- & Q & Out). exists x, (set_local fb t l). split; [apply r_private; [exact Ser|exact Ht|now rewrite Q]|]. cbn [holder shared local]. split; [reflexivity|]. split.
      * intro u. unfold set_local. destruct (Z.eqb_spec u t); [reflexivity|apply Q].
      * intros u Hu. destruct (Z.eq_dec u t) as [->|N]; [rewrite set_same, Bt; now apply Out|rewrite set_other by exact N; now apply Out].
Qed.
Lemma inv_steps s : steps prog true n (start x0 f0) s -> inv s.
Proof using B O. intro H. remember (start x0 f0) as a eqn:Ea. induction H as [a|a s s' H IH St]; [subst a; apply inv_start|]. apply (inv_step s); [now apply IH|exact St]. Qed.
Lemma progress s : steps prog true n (start x0 f0) s -> (exists t, 0 <= t < n /\ prog (local s t) <> Return) -> exists s', step prog true n s s'.
Proof using B O.
  intros H (t & Ht & N). pose proof (inv_steps s H) as (xb & fb & _ & I). destruct s as [x h f]. cbn [holder shared local] in *. destruct h as [h|].
  - destruct I as (Hh & _ & _ & In_ & _). pose proof (B (f h)) as Bh. destruct (prog (f h)) as [l|l|g|l|] eqn:E.
    + destruct Bh. congruence.
    + eexists. now apply (s_unlock prog true n x (Some h) f h l).
    + destruct (g x) as [x' l] eqn:G. eexists. now apply (s_access prog true n x (Some h) f h g x' l).
    + eexists. now apply (s_private prog true n x (Some h) f h l).
    + congruence.
  - destruct I as (_ & _ & Out). pose proof (B (f t)) as Bt. rewrite (Out t Ht) in Bt. destruct (prog (f t)) as [l|l|g|l|] eqn:E.
    + eexists. now apply (s_lock prog true n x None f t l).
    + destruct Bt. congruence.
    + destruct Bt. congruence.
    + eexists. now apply (s_private prog true n x None f t l).
    + congruence.
Qed.
End Facts.
