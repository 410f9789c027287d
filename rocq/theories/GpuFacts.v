From Coq Require Import Permutation.
From Verif Require Import Base BaseFacts Gpu.
Open Scope Z_scope.

Section Facts.
Context {L A : Type} (eqb : L -> L -> bool) (plus : A -> A -> A) (eqb_spec : forall a b, reflect (a = b) (eqb a b)).
Notation op := (op L A). Notation step := (step eqb plus). Notation steps := (steps eqb plus). Notation tstep := (tstep eqb plus). Notation runs := (runs eqb plus).
Notation put := (put eqb).

Definition loc (o : op) : L := match o with Update l _ => l | Add l _ => l end.
Definition apply (o : op) (x : A) : A := match o with Update _ f => f x | Add _ v => plus x v end.
Definition left_over (c : config (L := L) (A := A)) : list op := flat_map fst (snd c).

Lemma put_same (m : L -> A) l (v : A) : put m l v l = v.
Proof. unfold put, Gpu.put. destruct (eqb_spec l l); congruence. Qed.
Lemma put_other (m : L -> A) l l' (v : A) : l <> l' -> put m l v l' = m l'.
Proof. unfold put, Gpu.put. destruct (eqb_spec l l'); congruence. Qed.

(** A step either loads, or does the first operation of some thread *)
Lemma step_inv c c' : step c c' -> exists l1 o k r l2,
  snd c = l1 ++ (o :: k, r) :: l2 /\
  ((exists l f, o = Update l f /\ r = None /\ c' = (fst c, l1 ++ (o :: k, Some (fst c l)) :: l2)) \/
   (exists x, c' = (put (fst c) (loc o) (apply o x), l1 ++ (k, None) :: l2) /\ (r = Some x \/ x = fst c (loc o)) /\ (forall l f, o = Update l f -> r = Some x) /\ (forall l v, o = Add l v -> x = fst c l))).
Proof.
  intros [m l1 [ops r] l2 m' t' E]. cbn [fst snd] in *. destruct ops as [|[l f|l v] k]; cbn [Gpu.tstep] in E; [discriminate| |].
  - destruct r as [x|]; injection E as <- <-.
    + exists l1, (Update l f), k, (Some x), l2. split; [reflexivity|]. right. exists x. split; [reflexivity|]. split; [now left|]. split; [reflexivity|discriminate].
    + exists l1, (Update l f), k, None, l2. split; [reflexivity|]. left. exists l, f. auto.
  - injection E as <- <-. exists l1, (Add l v), k, r, l2. split; [reflexivity|]. right. exists (m l). split; [reflexivity|]. split; [now right|]. split; [discriminate|].
    intros l' v' E'. injection E' as <- <-. reflexivity.
Qed.

(** Every run can be continued to the end, and has a bounded length. *)
Definition cost1 (o : op) : nat := match o with Update _ _ => 2 | Add _ _ => 1 end.
Definition tcost (t : list op * option A) : nat :=
  match t with (Update _ _ :: k, Some _) => S (list_sum (map cost1 k)) | (k, _) => list_sum (map cost1 k) end.
Definition cost (c : config (L := L) (A := A)) : nat := list_sum (map tcost (snd c)).

Lemma step_cost c c' : step c c' -> cost c = S (cost c').
Proof.
  intros [m l1 [ops r] l2 m' t' E]. unfold cost. cbn [snd]. rewrite !map_app, !list_sum_app. cbn [map list_sum fold_right].
  assert (X : tcost (ops, r) = S (tcost t')).
  { destruct ops as [|[l f|l v] k]; cbn [Gpu.tstep] in E; [discriminate| |].
    - destruct r as [x|]; injection E as <- <-; cbn [tcost].
      + destruct k as [|[]]; reflexivity.
      + reflexivity.
    - injection E as <- <-. destruct k as [|[]]; reflexivity. }
  rewrite X. unfold list_sum. cbn [fold_right]. lia.
Qed.
Lemma progress (c : config (L := L) (A := A)) : finished c \/ exists c', step c c'.
Proof.
  destruct c as [m ths]. assert (X : finished (L := L) (m, ths) \/ exists l1 t l2, ths = l1 ++ t :: l2 /\ fst t <> []).
  { clear. induction ths as [|t ths IH]; [left; intros ? []|]. destruct (fst t) as [|o k] eqn:E.
    - destruct IH as [F|(l1 & t' & l2 & -> & N)].
      + left. intros t' [<-|I]; [exact E|now apply F].
      + right. exists (t :: l1), t', l2. auto.
    - right. exists [], t, ths. split; [reflexivity|]. congruence. }
  destruct X as [F|(l1 & [ops r] & l2 & -> & N)]; [now left|]. right. cbn [fst] in N. destruct ops as [|[l f|l v] k]; [congruence| |].
  - destruct r as [x|]; eexists; constructor; reflexivity.
  - eexists. constructor. reflexivity.
Qed.
Lemma completes (c : config (L := L) (A := A)) : exists c', steps (cost c) c c' /\ finished c'.
Proof.
  remember (cost c) as n eqn:E. revert c E. induction n as [|n IH]; intros c E.
  - destruct (progress c) as [F|(c' & S1)]; [exists c; split; [constructor|exact F]|]. apply step_cost in S1. lia.
  - destruct (progress c) as [F|(c' & S1)].
    + exfalso. destruct c as [m ths]. unfold cost in E. cbn [snd] in E. assert (X : list_sum (map tcost ths) = O); [|lia]. clear E.
      induction ths as [|[ops r] ths IHt]; [reflexivity|]. unfold list_sum in *. cbn [map fold_right]. rewrite IHt by (intros t I; apply F; right; exact I).
      specialize (F (ops, r) (or_introl eq_refl)). cbn [fst] in F. subst ops. reflexivity.
    + destruct (IH c') as (c2 & S2 & F2); [apply step_cost in S1; lia|]. exists c2. split; [econstructor; eauto|exact F2].
Qed.
Lemma steps_cost n c c' : steps n c c' -> (n + cost c' = cost c)%nat.
Proof. induction 1 as [|n c c' c'' S1 _ IH]; [reflexivity|]. apply step_cost in S1. lia. Qed.

Lemma runs_exists {T} (ths : list T) body m : (forall t, In t ths -> exists o, body t = Some o) -> exists m', runs ths body m m'.
Proof.
  intro B. assert (X : exists ops, Forall2 (fun t o => body t = Some o) ths ops).
  { induction ths as [|t ths IH]; [exists []; constructor|]. destruct (B t (or_introl eq_refl)) as (o & E). destruct IH as (ops & F); [intros; apply B; now right|].
    exists (o :: ops). now constructor. }
  destruct X as (ops & F). destruct (completes (initial m ops)) as (c & S1 & Fi). exists (fst c), ops. split; [exact F|]. exists (cost (initial m ops)), c. auto.
Qed.

Lemma left_initial m ops : left_over (initial m ops) = concat ops.
Proof. unfold left_over, initial. cbn [snd]. rewrite flat_map_concat_map, map_map. cbn [fst]. now rewrite map_id. Qed.
Lemma left_finished c : finished c -> left_over c = [].
Proof.
  destruct c as [m ths]. unfold finished, left_over. cbn [snd]. induction ths as [|t ths IH]; intro F; [reflexivity|]. cbn [flat_map].
  rewrite (F t (or_introl eq_refl)). apply IH. intros; apply F; now right.
Qed.

(** No two operations on the same location: every schedule has the same result. *)
Definition inv1 (m0 : L -> A) (all : list op) (c : config (L := L) (A := A)) : Prop :=
  (exists dn, Permutation all (dn ++ left_over c) /\ (forall o, In o dn -> fst c (loc o) = apply o (m0 (loc o)))) /\
  (forall l, ~ (exists o, In o all /\ loc o = l) -> fst c l = m0 l) /\ (forall o, In o (left_over c) -> fst c (loc o) = m0 (loc o)) /\
  (forall o k x, In (o :: k, Some x) (snd c) -> x = m0 (loc o)).

Lemma NoDup_perm_split (all dn rest : list op) o : NoDup (map loc all) -> Permutation all (dn ++ o :: rest) -> forall o', In o' (dn ++ rest) -> loc o' <> loc o.
Proof.
  intros N P o' I E. assert (N' : NoDup (map loc (o :: dn ++ rest))).
  { eapply Permutation_NoDup; [|exact N]. apply Permutation_map. rewrite P. symmetry. apply Permutation_middle. }
  cbn [map] in N'. inversion N' as [|? ? X _]. apply X. rewrite <- E. now apply in_map.
Qed.

Lemma inv1_step m0 all c c' : NoDup (map loc all) -> inv1 m0 all c -> step c c' -> inv1 m0 all c'.
Proof.
  intros N ((dn & P & D) & Fr & Rm & Rg) St. destruct (step_inv c c' St) as (l1 & o & k & r & l2 & Ec & [(l & f & -> & -> & ->)|(x & -> & _ & Hu & Ha)]); cbn [fst snd].
  - assert (El : left_over (fst c, l1 ++ (Update l f :: k, Some (fst c l)) :: l2) = left_over c).
    { unfold left_over. rewrite Ec. cbn [snd]. rewrite !flat_map_app. reflexivity. }
    unfold inv1. cbn [fst snd]. rewrite El. split; [exists dn; auto|]. split; [exact Fr|]. split; [exact Rm|].
    intros o k' x I. apply in_app_or in I. destruct I as [I|[I|I]]; [apply (Rg o k'); rewrite Ec; apply in_or_app; now left| |apply (Rg o k'); rewrite Ec; apply in_or_app; right; now right].
    injection I as <- <- <-. cbn [loc]. apply (Rm (Update l f)). unfold left_over. rewrite Ec, flat_map_app. apply in_or_app. right. left. reflexivity.
  - assert (Ex : x = m0 (loc o)).
    { destruct o as [l f|l v]; cbn [loc].
      - apply (Rg (Update l f) k). rewrite Ec. apply in_or_app. right. left. now rewrite (Hu l f eq_refl).
      - rewrite (Ha l v eq_refl). apply (Rm (Add l v)). unfold left_over. rewrite Ec, flat_map_app. apply in_or_app. right. left. reflexivity. }
    assert (Pl : Permutation (left_over c) (o :: flat_map fst l1 ++ k ++ flat_map fst l2)).
    { unfold left_over. rewrite Ec, flat_map_app. cbn [flat_map fst]. cbn [app]. symmetry. apply Permutation_middle. }
    assert (El : left_over (put (fst c) (loc o) (apply o x), l1 ++ (k, None) :: l2) = flat_map fst l1 ++ k ++ flat_map fst l2).
    { unfold left_over. cbn [snd]. rewrite flat_map_app. reflexivity. }
    set (rest := flat_map fst l1 ++ k ++ flat_map fst l2) in *.
    assert (P2 : Permutation all (dn ++ o :: rest)) by (rewrite P; now apply Permutation_app_head).
    pose proof (NoDup_perm_split _ _ _ _ N P2) as Df.
    unfold inv1. rewrite El. cbn [fst snd]. split; [|split; [|split]].
    + exists (o :: dn). split; [rewrite P2; symmetry; apply Permutation_middle|]. intros o' [<-|I].
      * now rewrite put_same, Ex.
      * rewrite put_other by (intro E; apply (Df o'); [apply in_or_app; now left|now rewrite E]). now apply D.
    + intros l Nl. rewrite put_other; [now apply Fr|]. intro E. apply Nl. exists o. split; [|exact E]. apply (Permutation_in o (Permutation_sym P2)). apply in_or_app. right. now left.
    + intros o' I. rewrite put_other by (intro E; apply (Df o'); [apply in_or_app; now right|now rewrite E]). apply Rm. apply (Permutation_in o' (Permutation_sym Pl)). now right.
    + intros o' k' y I. apply (Rg o' k'). rewrite Ec. apply in_app_or in I. apply in_or_app. destruct I as [I|[I|I]]; [now left|discriminate|right; now right].
Qed.
Lemma inv1_steps m0 all n c c' : NoDup (map loc all) -> steps n c c' -> inv1 m0 all c -> inv1 m0 all c'.
Proof. intros N. induction 1; auto. intro. apply IHsteps. eapply inv1_step; eauto. Qed.

Theorem disjoint_runs m0 ops n c : NoDup (map loc (concat ops)) -> steps n (initial m0 ops) c -> finished c ->
  (forall o, In o (concat ops) -> fst c (loc o) = apply o (m0 (loc o))) /\ (forall l, (forall o, In o (concat ops) -> loc o <> l) -> fst c l = m0 l).
Proof.
  intros N St F. assert (I : inv1 m0 (concat ops) c).
  { eapply inv1_steps; eauto. split; [exists []; split; [now rewrite left_initial|intros ? []]|]. split; [reflexivity|]. split; [reflexivity|].
    intros o k x I. unfold initial in I. cbn [snd] in I. apply in_map_iff in I. destruct I as (? & E & _). discriminate. }
  destruct I as ((dn & P & D) & Fr & _). rewrite (left_finished c F), app_nil_r in P. split.
  - intros o I. apply D. now apply (Permutation_in o P).
  - intros l Nl. apply Fr. intros (o & I & E). now apply (Nl o I).
Qed.

(** Only atomic additions: every location ends with its old value plus everything added to it. *)
Context (zero : A) (assoc : forall x y z, plus x (plus y z) = plus (plus x y) z) (comm : forall x y, plus x y = plus y x) (unit_ : forall x, plus x zero = x).
Definition added (l : L) (o : op) : A := match o with Add l' v => if eqb l' l then v else zero | Update _ _ => zero end.
Definition total (l : L) (ops : list op) : A := fold_right plus zero (map (added l) ops).
Definition only_adds (ops : list op) : Prop := forall o, In o ops -> exists l v, o = Add l v.

Lemma total_app l a b : total l (a ++ b) = plus (total l a) (total l b).
Proof. unfold total. rewrite map_app, fold_right_app. induction (map (added l) a) as [|x xs IH]; cbn [fold_right]; [now rewrite comm, unit_|]. now rewrite IH, assoc. Qed.

Lemma adds_step c c' : only_adds (left_over c) -> step c c' -> only_adds (left_over c') /\ forall l, plus (fst c' l) (total l (left_over c')) = plus (fst c l) (total l (left_over c)).
Proof.
  intros On St. destruct (step_inv c c' St) as (l1 & o & k & r & l2 & Ec & X).
  assert (Io : In o (left_over c)) by (unfold left_over; rewrite Ec, flat_map_app; apply in_or_app; right; now left).
  destruct (On o Io) as (l0 & v & ->). destruct X as [(? & ? & ? & _)|(x & -> & _ & _ & Ha)]; [discriminate|]. rewrite (Ha l0 v eq_refl). cbn [loc apply fst].
  assert (El : left_over (put (fst c) l0 (plus (fst c l0) v), l1 ++ (k, None) :: l2) = flat_map fst l1 ++ k ++ flat_map fst l2) by (unfold left_over; cbn [snd]; rewrite flat_map_app; reflexivity).
  assert (El0 : left_over c = flat_map fst l1 ++ Add l0 v :: k ++ flat_map fst l2) by (unfold left_over; rewrite Ec, flat_map_app; reflexivity).
  rewrite El. rewrite El0. split.
  - intros o I. apply On. rewrite El0. apply in_app_or in I. apply in_or_app. destruct I; [now left|right; now right].
  - intro l. change (Add l0 v :: k ++ flat_map fst l2) with ([Add l0 v] ++ k ++ flat_map fst l2). rewrite !total_app. replace (total l [Add l0 v]) with (if eqb l0 l then v else zero) by (unfold total; cbn [map added fold_right]; now rewrite unit_).
    destruct (eqb_spec l0 l) as [<-|Ne].
    + rewrite put_same. set (a := total l0 (flat_map fst l1)). set (b := plus (total l0 k) _). rewrite (assoc a v b), (comm a v). now rewrite !assoc.
    + rewrite put_other by exact Ne. set (b := plus (total l k) _). rewrite (comm zero b), unit_. reflexivity.
Qed.
Lemma adds_steps n c c' : steps n c c' -> only_adds (left_over c) -> forall l, plus (fst c' l) (total l (left_over c')) = plus (fst c l) (total l (left_over c)).
Proof.
  induction 1 as [|n c c' c'' S1 _ IH]; intros On l; [reflexivity|]. destruct (adds_step c c' On S1) as (On' & E). rewrite IH by exact On'. apply E.
Qed.
Theorem adding_runs m0 ops n c l : only_adds (concat ops) -> steps n (initial m0 ops) c -> finished c -> fst c l = plus (m0 l) (total l (concat ops)).
Proof.
  intros On St F. pose proof (adds_steps _ _ _ St) as E. rewrite left_initial in E. specialize (E On l). rewrite (left_finished c F) in E.
  unfold total at 1 in E. cbn [map fold_right] in E. rewrite unit_ in E. exact E.
Qed.
End Facts.
