From Coq Require Import Permutation.
From Verif Require Import Base BaseFacts Atomics.

Section Facts.
Context {A : Type} (dec : Z -> A) (enc : A -> Z) (want : A -> A -> bool) (f : A -> A -> A).
Notation look := (look dec want). Notation tstep := (tstep dec enc want f). Notation step := (step dec enc want f). Notation steps := (steps dec enc want f).

Definition apply1 (v : A) (w : Z) : Z := if want v (dec w) then enc (f v (dec w)) else w.
(** Running operations one after the other, checking what each returns *)
Fixpoint replay (w : Z) (H : list (A * Z)) : option Z :=
  match H with [] => Some w | (v, r) :: H => if r =? w then replay (apply1 v w) H else None end.
Lemma replay_app w H1 H2 : replay w (H1 ++ H2) = match replay w H1 with Some w' => replay w' H2 | None => None end.
Proof. revert w. induction H1 as [|[v r] H1 IH]; intro w; cbn; [reflexivity|]. destruct (r =? w); [apply IH|reflexivity]. Qed.

Definition completed (ths : list (A * tstate)) : list (A * Z) := flat_map (fun '(v, s) => match s with Done r => [(v, r)] | _ => [] end) ths.
Lemma completed_app a b : completed (a ++ b) = completed a ++ completed b.
Proof. apply flat_map_app. Qed.

Definition good (mem0 : Z) (vs : list A) (c : config) : Prop :=
  map fst (snd c) = vs /\ (forall v o, In (v, Try o) (snd c) -> want v (dec o) = true) /\
  exists H, Permutation H (completed (snd c)) /\ replay mem0 H = Some (fst c).

Lemma good_step mem0 vs c c' : good mem0 vs c -> step c c' -> good mem0 vs c'.
Proof.
  intros (V & T & H & P & R) St. destruct St as [mem l1 v s l2 mem' s' E]. cbn [fst snd] in *.
  assert (V' : map fst (l1 ++ (v, s') :: l2) = vs) by (rewrite map_app in *; exact V).
  rewrite completed_app in P. change ((v, s) :: l2) with ([(v, s)] ++ l2) in P. rewrite completed_app in P.
  assert (Tl : forall s2, (forall o, s2 = Try o -> want v (dec o) = true) -> forall v' o, In (v', Try o) (l1 ++ (v, s2) :: l2) -> want v' (dec o) = true).
  { intros s2 K v' o I. apply in_app_or in I. destruct I as [I|[I|I]]; [apply T; apply in_or_app; auto|injection I as <- ->; auto|apply T; apply in_or_app; right; right; exact I]. }
  split; [exact V'|].
  assert (Lk : tstep v mem s = Some (mem, look v mem) -> (mem', s') = (mem, look v mem) -> (s = Start \/ exists o, s = Try o) ->
    (forall v0 o, In (v0, Try o) (l1 ++ (v, s') :: l2) -> want v0 (dec o) = true) /\ exists H, Permutation H (completed (l1 ++ (v, s') :: l2)) /\ replay mem0 H = Some mem').
  { intros _ Ee Hs. injection Ee as -> ->. unfold look, Atomics.look. destruct (want v (dec mem)) eqn:W.
    - split; [apply Tl; intros o Eo; injection Eo as <-; exact W|]. exists H. split; [|exact R]. rewrite completed_app. destruct Hs as [->|(o & ->)]; exact P.
    - split; [apply Tl; discriminate|]. exists (H ++ [(v, mem)]). split.
      + rewrite completed_app. change (completed ((v, Done mem) :: l2)) with ((v, mem) :: completed l2). etransitivity; [apply Permutation_app_comm|]. cbn [app].
        apply Permutation_cons_app. destruct Hs as [->|(o & ->)]; exact P.
      + rewrite replay_app, R. cbn [replay]. rewrite Z.eqb_refl. unfold apply1. now rewrite W. }
  cbn [fst snd]. destruct s as [|o|r]; cbn [Atomics.tstep] in E.
  - apply Lk; auto. congruence.
  - destruct (Z.eqb_spec mem o) as [->|N].
    + injection E as <- <-. split; [apply Tl; discriminate|]. exists (H ++ [(v, o)]). split.
      * rewrite completed_app. change (completed ((v, Done o) :: l2)) with ((v, o) :: completed l2). etransitivity; [apply Permutation_app_comm|]. cbn [app].
        apply Permutation_cons_app. exact P.
      * rewrite replay_app, R. cbn [replay]. rewrite Z.eqb_refl. unfold apply1. rewrite (T v o) by (apply in_or_app; right; left; reflexivity). reflexivity.
    + apply Lk; eauto; [|congruence]. cbn. destruct (Z.eqb_spec mem o); [contradiction|reflexivity].
  - discriminate.
Qed.

Lemma good_initial mem vs : good mem vs (initial mem vs).
Proof.
  split; [cbn; rewrite map_map; cbn; apply map_id|]. split.
  - intros v o I. apply in_map_iff in I. destruct I as (x & E & _). discriminate.
  - exists []. split; [|reflexivity]. cbn [initial snd]. induction vs as [|v vs IH]; [constructor|exact IH].
Qed.
Lemma good_steps n mem0 vs c c' : good mem0 vs c -> steps n c c' -> good mem0 vs c'.
Proof. intros G S. induction S; auto. apply IHS. eapply good_step; eauto. Qed.

(** Termination: pending threads, threads before their first read, and threads whose last seen pattern is out of date *)
Definition weight (N mem : Z) (s : tstate) : Z := match s with Start => N + 2 | Try o => if o =? mem then N + 1 else N + 2 | Done _ => 0 end.
Definition total (N mem : Z) (ths : list (A * tstate)) : Z := fold_right (fun t a => weight N mem (snd t) + a) 0 ths.
Lemma total_app N mem a b : total N mem (a ++ b) = total N mem a + total N mem b.
Proof. unfold total. induction a as [|x a IH]; cbn [app fold_right]; lia. Qed.
Lemma weight_change N mem mem' s : 0 <= N -> weight N mem' s <= weight N mem s + 1.
Proof. intro H. destruct s as [|o|r]; cbn; [lia| |lia]. destruct (o =? mem'), (o =? mem); lia. Qed.
Lemma total_change N mem mem' ths : 0 <= N -> total N mem' ths <= total N mem ths + Z.of_nat (length ths).
Proof. intro H. induction ths as [|[v s] ths IH]; cbn [total fold_right length]; [lia|]. fold (total N mem' ths) (total N mem ths). pose proof (weight_change N mem mem' s H). cbn [snd]. lia. Qed.
Lemma weight_look N mem v : 0 <= N -> weight N mem (look v mem) <= N + 1.
Proof. intro H. unfold Atomics.look. destruct (want v (dec mem)); cbn; [rewrite Z.eqb_refl; lia|lia]. Qed.
Lemma step_total N c c' : Z.of_nat (length (snd c)) <= N -> step c c' -> 1 + total N (fst c') (snd c') <= total N (fst c) (snd c) /\ length (snd c') = length (snd c).
Proof.
  intros L St. destruct St as [mem l1 v s l2 mem' s' E]. cbn [fst snd] in *. rewrite app_length in *. cbn [length] in *.
  split; [|now rewrite app_length]. rewrite !total_app. cbn [total fold_right snd]. fold (total N mem' l2) (total N mem l2).
  destruct s as [|o|r]; cbn [Atomics.tstep] in E; [|destruct (Z.eqb_spec mem o) as [->|Ne]|discriminate].
  - injection E as <- <-. pose proof (weight_look N mem v ltac:(lia)). cbn [weight]. lia.
  - injection E as <- <-. pose proof (total_change N o (enc (f v (dec o))) l1 ltac:(lia)). pose proof (total_change N o (enc (f v (dec o))) l2 ltac:(lia)). cbn [weight]. rewrite Z.eqb_refl. lia.
  - injection E as <- <-. pose proof (weight_look N mem v ltac:(lia)). cbn [weight]. destruct (Z.eqb_spec o mem); [congruence|]. lia.
Qed.
Lemma total_nonneg N mem ths : 0 <= N -> 0 <= total N mem ths.
Proof. intro H. induction ths as [|[v s] ths IH]; cbn [total fold_right]; [lia|]. fold (total N mem ths). assert (0 <= weight N mem s) by (destruct s as [|o|]; cbn; try destruct (o =? mem); lia). cbn [snd]. lia. Qed.
Lemma steps_total N n c c' : Z.of_nat (length (snd c)) <= N -> steps n c c' -> Z.of_nat n + total N (fst c') (snd c') <= total N (fst c) (snd c).
Proof.
  intros L S. revert L. induction S as [|n c c' c'' St S IH]; intro L; [lia|]. destruct (step_total N c c' L St) as [H E]. rewrite <- E in L. specialize (IH L). lia.
Qed.
Lemma total_initial N mem vs : total N mem (snd (initial mem vs)) = Z.of_nat (length vs) * (N + 2).
Proof. cbn [initial snd]. induction vs as [|v vs IH]; [reflexivity|]. cbn [map total fold_right snd weight length]. fold (total N mem (map (fun v => (v, Start)) vs)). rewrite IH. lia. Qed.

Lemma progress c : ~ finished c -> exists c', step c c'.
Proof.
  destruct c as [mem ths]. intro N. assert (X : exists l1 v s l2, ths = l1 ++ (v, s) :: l2 /\ forall r, s <> Done r).
  { clear -N. induction ths as [|[v s] ths IH].
    - exfalso. apply N. intros v s [].
    - destruct s as [|o|r]; [exists [], v, Start, ths; split; [reflexivity|discriminate]|exists [], v, (Try o), ths; split; [reflexivity|discriminate]|].
      destruct IH as (l1 & v' & s' & l2 & -> & H).
      + intro F. apply N. intros v' s' [I|I]; [injection I as <- <-; eauto|eapply F; eauto].
      + exists ((v, Done r) :: l1), v', s', l2. auto. }
  destruct X as (l1 & v & s & l2 & -> & H). destruct s as [|o|r]; [| |exfalso; now apply (H r)].
  - eexists. econstructor. reflexivity.
  - destruct (Z.eq_dec mem o) as [->|Ne]; eexists; econstructor; cbn; [rewrite Z.eqb_refl; reflexivity|]. destruct (Z.eqb_spec mem o); [contradiction|reflexivity].
Qed.
Lemma completed_finished c vs : map fst (snd c) = vs -> finished c -> map fst (completed (snd c)) = vs.
Proof.
  destruct c as [mem ths]. cbn [snd]. intros <- F. induction ths as [|[v s] ths IH]; [reflexivity|]. destruct (F v s (or_introl eq_refl)) as (r & ->). cbn. f_equal.
  apply IH. intros v' s' I. apply (F v' s'). now right.
Qed.
End Facts.
