From Coq Require Import String Lia Permutation.
From Verif Require Import Base BaseFacts Sum Tiled TiledSpec TiledFacts GpuFetch.
Open Scope Z_scope.

Section Facts.
Context {V : Type}.
Context (n : Z) (Hn : 0 <= n) (full : list (job V)) (full_ok : forall h, In h full -> 0 <= fst h < n).
Notation B t := (start t full).

(** Jobs for which no slot has been taken *)
Definition waiting (t : tstate (V := V)) : list (job V) := match t with (_ :: r, Some _) => r | (r, _) => r end.
Definition flying (t : tstate (V := V)) (k : Z) (vs : list V) (s : Z) (j : nat) : Prop := exists r, t = ((k, vs) :: r, Some (s, j)).
Definition inv (c : config (V := V)) : Prop := exists dn,
  Permutation full (dn ++ flat_map waiting (snd c)) /\
  (forall t, 0 <= t < n -> counter (fst c) t = B t + cnt t dn) /\
  (forall th k vs s j, In th (snd c) -> flying th k vs s j -> 0 <= k < n /\ exists i, nth_error (entries k dn) i = Some vs /\ s = B k + Z.of_nat i) /\
  (forall t i vs j v, 0 <= t < n -> nth_error (entries t dn) i = Some vs -> nth_error vs j = Some v ->
     out (fst c) j (B t + Z.of_nat i) = v \/ exists th j', In th (snd c) /\ flying th t vs (B t + Z.of_nat i) j' /\ (j' <= j)%nat).

Lemma cnt_perm (a b : list (job V)) t : Permutation a b -> cnt t a = cnt t b.
Proof using. clear. induction 1; rewrite ?cnt_cons; [reflexivity|lia|lia|congruence]. Qed.
Lemma cnt_le dn w t : Permutation full (dn ++ w) -> cnt t dn <= cnt t full.
Proof. intro P. rewrite (cnt_perm _ _ t P), cnt_app. pose proof (cnt_nonneg t w). lia. Qed.
Lemma nth_cnt {E} (dn : list (Z * E)) t i e : nth_error (entries t dn) i = Some e -> 0 <= Z.of_nat i < cnt t dn.
Proof. intro H. assert (X : (i < length (entries t dn))%nat) by (apply nth_error_Some; congruence). unfold cnt. lia. Qed.
Lemma slot_unique t i t' i' : 0 <= t -> 0 <= t' -> 0 <= i < cnt t full -> 0 <= i' < cnt t' full -> B t + i = B t' + i' -> t = t' /\ i = i'.
Proof using.
  clear Hn full_ok. intros Ht Ht' Hi Hi' E. assert (N := fun t => B_next full t). unfold TiledFacts.B in N. assert (M := fun a b => B_mono full a b). unfold TiledFacts.B in M.
  destruct (Z.lt_trichotomy t t') as [L|[->|L]].
  - specialize (M (t + 1) t' ltac:(lia) ltac:(lia)). rewrite N in M by lia. lia.
  - split; [reflexivity|lia].
  - specialize (M (t' + 1) t ltac:(lia) ltac:(lia)). rewrite N in M by lia. lia.
Qed.
Lemma entries_snoc {E} t (dn : list (Z * E)) k e : entries t (dn ++ [(k, e)]) = entries t dn ++ if k =? t then [e] else [].
Proof. unfold entries. rewrite filter_app, map_app. cbn [filter fst]. destruct (k =? t); reflexivity. Qed.

Lemma in_split_thread {X} (l1 l2 : list X) t x : In x (l1 ++ t :: l2) -> x = t \/ In x (l1 ++ l2).
Proof. intro I. apply in_app_iff in I. destruct I as [I|[I|I]]; [right; apply in_app_iff; auto|now left|right; apply in_app_iff; auto]. Qed.
Lemma in_join_thread {X} (l1 l2 : list X) t x : In x (l1 ++ l2) -> In x (l1 ++ t :: l2).
Proof. intro I. apply in_app_iff in I. apply in_app_iff. cbn. tauto. Qed.

Lemma inv_step c c' : step c c' -> inv c -> inv c'.
Proof.
  intros [m l1 t l2 m' t' E] (dn & P & C & F & O). cbn [fst snd] in *.
  destruct t as [[|[k vs] r] fl]; [discriminate|]. cbn [tstep] in E.
  assert (Hm : In ((k, vs) :: r, fl) (l1 ++ ((k, vs) :: r, fl) :: l2)) by (apply in_app_iff; cbn; auto).
  destruct fl as [[s j]|].
  - destruct (F _ k vs s j Hm ltac:(exists r; reflexivity)) as (Hk & i & Ei & Es). destruct (nth_error vs j) as [v|] eqn:Ev; injection E as <- <-.
    + exists dn. cbn [fst snd]. split; [|split; [exact C|split]].
      * rewrite flat_map_app in *. cbn [flat_map waiting] in *. exact P.
      * intros th k' vs' s' j' I Fl. apply in_split_thread in I. destruct I as [->|I]; [|apply (F th k' vs' s' j'); [now apply in_join_thread|exact Fl]].
        destruct Fl as (r' & Q). injection Q as <- <- <- <- <-. split; [exact Hk|]. eauto.
      * intros t i' vs' j2 v2 Ht Ei' Ev2. cbn [out set_out].
        assert (U : B t + Z.of_nat i' = s -> t = k /\ i' = i).
        { intro Q. subst s. pose proof (cnt_le dn _ t P). pose proof (cnt_le dn _ k P). pose proof (nth_cnt _ _ _ _ Ei). pose proof (nth_cnt _ _ _ _ Ei').
          destruct (slot_unique t (Z.of_nat i') k (Z.of_nat i) ltac:(lia) ltac:(lia) ltac:(lia) ltac:(lia) Q). split; lia. }
        destruct (Nat.eqb_spec j2 j) as [->|Nj]; destruct (Z.eqb_spec (B t + Z.of_nat i') s) as [Es'|Ns]; cbn [andb].
        -- left. destruct (U Es') as (-> & ->). congruence.
        -- destruct (O t i' vs' j v2 Ht Ei' Ev2) as [W|(th & j' & I & Fl & Le)]; [now left|]. right. exists th, j'. split; [|auto]. apply in_split_thread in I. destruct I as [->|I]; [|now apply in_join_thread].
           destruct Fl as (r' & Q). injection Q as _ _ _ Q _. congruence.
        -- destruct (O t i' vs' j2 v2 Ht Ei' Ev2) as [W|(th & j' & I & Fl & Le)]; [now left|]. right. apply in_split_thread in I. destruct I as [->|I].
           ++ destruct Fl as (r' & Q). injection Q as <- <- <- <- <-. exists ((k, vs) :: r, Some (s, S j)), (S j). split; [apply in_app_iff; cbn; auto|]. split; [exists r; congruence|]. lia.
           ++ exists th, j'. split; [now apply in_join_thread|auto].
        -- destruct (O t i' vs' j2 v2 Ht Ei' Ev2) as [W|(th & j' & I & Fl & Le)]; [now left|]. right. exists th, j'. split; [|auto]. apply in_split_thread in I. destruct I as [->|I]; [|now apply in_join_thread].
           destruct Fl as (r' & Q). injection Q as _ _ _ Q _. congruence.
    + exists dn. cbn [fst snd]. split; [|split; [exact C|split]].
      * rewrite flat_map_app in *. cbn [flat_map waiting] in *. destruct r; exact P.
      * intros th k' vs' s' j' I Fl. apply in_split_thread in I. destruct I as [->|I]; [|apply (F th k' vs' s' j'); [now apply in_join_thread|exact Fl]]. destruct Fl as (r' & Q). discriminate.
      * intros t i' vs' j2 v2 Ht Ei' Ev2. destruct (O t i' vs' j2 v2 Ht Ei' Ev2) as [W|(th & j' & I & Fl & Le)]; [now left|]. apply in_split_thread in I. destruct I as [->|I]; [|right; exists th, j'; split; [now apply in_join_thread|auto]].
        destruct Fl as (r' & Q). injection Q as <- <- <- <- <-. apply nth_error_None in Ev. assert (X : (j2 < length vs)%nat) by (apply nth_error_Some; congruence). lia.
  - injection E as <- <-.
    assert (Hk : 0 <= k < n). { apply (full_ok (k, vs)). rewrite P. apply in_app_iff. right. rewrite flat_map_app. apply in_app_iff. right. cbn [flat_map waiting]. now left. }
    exists (dn ++ [(k, vs)]). cbn [fst snd counter set_counter]. split; [|split; [|split]].
    + rewrite P, !flat_map_app. cbn [flat_map waiting]. rewrite <- app_assoc. apply Permutation_app_head. cbn [app]. symmetry. apply Permutation_middle.
    + intros t Ht. rewrite cnt_app, cnt_cons. cbn [fst]. change (cnt t (@nil (job V))) with 0. rewrite (Z.eqb_sym k t). destruct (Z.eqb_spec t k) as [->|N]; [rewrite C by lia; lia|rewrite C by lia; lia].
    + intros th k' vs' s' j' I Fl. apply in_split_thread in I. destruct I as [->|I].
      * destruct Fl as (r' & Q). injection Q as <- <- <- <- <-. split; [exact Hk|]. exists (length (entries k dn)). rewrite entries_snoc, Z.eqb_refl. rewrite nth_error_app2, Nat.sub_diag by lia. split; [reflexivity|]. rewrite C by lia. reflexivity.
      * destruct (F th k' vs' s' j' ltac:(now apply in_join_thread) Fl) as (Hk' & i & Ei & Es). split; [exact Hk'|]. exists i. split; [|exact Es]. rewrite entries_snoc. rewrite nth_error_app1; [exact Ei|]. apply nth_error_Some. congruence.
    + intros t i vs' j v Ht Ei Ev. rewrite entries_snoc in Ei. destruct (Nat.lt_ge_cases i (length (entries t dn))) as [L|L].
      * rewrite nth_error_app1 in Ei by exact L. destruct (O t i vs' j v Ht Ei Ev) as [W|(th & j' & I & Fl & Le)]; [now left|]. right. exists th, j'. split; [|auto]. apply in_split_thread in I. destruct I as [->|I]; [|now apply in_join_thread]. destruct Fl as (r' & Q). discriminate.
      * rewrite nth_error_app2 in Ei by exact L. destruct (Z.eqb_spec k t) as [->|N]; [|destruct (i - length (entries t dn))%nat; discriminate].
        destruct (i - length (entries t dn))%nat as [|q] eqn:Eq; [|destruct q; discriminate]. injection Ei as <-. right. exists ((t, vs) :: r, Some (counter m t, 0%nat)), 0%nat. split; [apply in_app_iff; cbn; auto|]. split; [|lia].
        exists r. do 3 f_equal. rewrite C by lia. unfold cnt. lia.
Qed.
Lemma inv_steps c c' : steps c c' -> inv c -> inv c'.
Proof. induction 1; [auto|]. intro I. apply IHsteps. eapply inv_step; eauto. Qed.
Lemma inv_initial m jobs : Permutation full (concat jobs) -> (forall t, 0 <= t < n -> counter m t = B t) -> inv (initial m jobs).
Proof.
  intros P C. exists []. unfold initial. cbn [fst snd app]. split; [|split; [|split]].
  - rewrite P. clear. induction jobs as [|o jobs IH]; [constructor|]. cbn [map concat flat_map]. replace (waiting (o, None)) with o by (now destruct o). now apply Permutation_app_head.
  - intros t Ht. rewrite C by exact Ht. change (cnt t (@nil (job V))) with 0. lia.
  - intros th k vs s j I (r & ->). apply in_map_iff in I. destruct I as (o & Q & _). discriminate.
  - intros t i vs j v Ht Ei. destruct i; discriminate.
Qed.
(** No access outside *)
Lemma inv_safe c t : inv c -> In t (snd c) -> tsafe n (B n) t.
Proof.
  intros (dn & P & C & F & _) I. destruct t as [[|[k vs] r] [[s j]|]]; cbn [tsafe]; auto.
  - destruct (nth_error vs j) as [v|]; [|exact Logic.I]. destruct (F _ k vs s j I ltac:(exists r; reflexivity)) as (Hk & i & Ei & ->).
    pose proof (nth_cnt _ _ _ _ Ei). pose proof (cnt_le dn _ k P). assert (N := B_next full k ltac:(lia)). assert (M := B_mono full (k + 1) n ltac:(lia) ltac:(lia)). assert (M0 := B_mono full 0 k ltac:(lia) ltac:(lia)).
    unfold TiledFacts.B in *. change (start 0 full) with 0 in M0. lia.
  - apply (full_ok (k, vs)). rewrite P. apply in_app_iff. right. apply in_flat_map. exists ((k, vs) :: r, None). split; [exact I|]. now left.
Qed.
(** The result *)
Lemma inv_finished c : inv c -> finished c -> exists dn, Permutation full dn /\
  (forall t, 0 <= t < n -> counter (fst c) t = B (t + 1)) /\
  forall t i vs j v, 0 <= t < n -> nth_error (entries t dn) i = Some vs -> nth_error vs j = Some v -> out (fst c) j (B t + Z.of_nat i) = v.
Proof.
  intros (dn & P & C & F & O) Fi. exists dn.
  assert (W : flat_map waiting (snd c) = []). { unfold finished in Fi. clear -Fi. induction (snd c) as [|t l IH]; [reflexivity|]. cbn [flat_map]. rewrite IH by (intros; apply Fi; now right). specialize (Fi t (or_introl eq_refl)). destruct t as [[|] fl]; [|discriminate]. now destruct fl. }
  rewrite W, app_nil_r in P. split; [exact P|]. split.
  - intros t Ht. rewrite C by exact Ht. rewrite <- (cnt_perm _ _ t P). symmetry. apply (B_next full). lia.
  - intros t i vs j v Ht Ei Ev. destruct (O t i vs j v Ht Ei Ev) as [E|(th & j' & I & (r & ->) & _)]; [exact E|]. specialize (Fi _ I). discriminate.
Qed.
(** Some schedule ends *)
Definition job_work (x : job V) : nat := (length (snd x) + 2)%nat.
Definition work (t : tstate (V := V)) : nat := (match t with (r, None) => list_sum (map job_work r) | ([], _) => 0 | (x :: r, Some (_, j)) => (length (snd x) - j) + 1 + list_sum (map job_work r) end)%nat.
Lemma tstep_work m t m' t' : tstep m t = Some (m', t') -> (work t' < work t)%nat.
Proof using V.
  clear Hn full_ok full n.
  destruct t as [[|[k vs] r] [[s j]|]]; cbn [tstep]; try discriminate.
  - destruct (nth_error vs j) as [v|] eqn:Ev; intro E; injection E as _ <-; cbn [work snd].
    + assert (X : (j < length vs)%nat) by (apply nth_error_Some; congruence). lia.
    + destruct r; cbn [work]; lia.
  - intro E. injection E as _ <-. cbn [work snd map]. change (list_sum (?a :: ?b)) with (a + list_sum b)%nat. unfold job_work. cbn [snd]. lia.
Qed.
Lemma finishes (c : config (V := V)) : exists c', steps c c' /\ finished c'.
Proof using V. clear Hn full_ok full n.
  remember (list_sum (map work (snd c))) as w eqn:Ew. revert c Ew. induction w as [w IH] using (well_founded_induction Wf_nat.lt_wf). intros c Ew.
  assert (D : finished c \/ exists l1 t l2, snd c = l1 ++ t :: l2 /\ fst t <> []).
  { unfold finished. clear. induction (snd c) as [|t l IH]; [left; intros ? []|]. destruct (fst t) eqn:E; [|right; exists [], t, l; split; [reflexivity|congruence]].
    destruct IH as [IH|(l1 & t' & l2 & -> & N)]; [left; intros t' [<-|I]; auto|right; exists (t :: l1), t', l2; auto]. }
  destruct D as [D|(l1 & t & l2 & E & N)]; [exists c; split; [constructor|exact D]|]. destruct c as [m ts]. cbn [snd] in *. subst ts.
  assert (S1 : exists m' t', tstep m t = Some (m', t')). { destruct t as [[|[k vs] r] [[s j]|]]; cbn [fst] in N; try congruence; cbn [tstep]; [destruct (nth_error vs j)|]; eauto. }
  destruct S1 as (m' & t' & E). pose proof (tstep_work _ _ _ _ E) as L.
  destruct (IH (list_sum (map work (l1 ++ t' :: l2)))) with (c := (m', l1 ++ t' :: l2)) as (c' & S & Fi); [|reflexivity|].
  - subst w. rewrite !map_app, !list_sum_app. cbn [map]. change (list_sum (?a :: ?b)) with (a + list_sum b)%nat. lia.
  - exists c'. split; [|exact Fi]. exact (steps_S _ _ _ (step_thread m l1 t l2 m' t' E) S).
Qed.
End Facts.
