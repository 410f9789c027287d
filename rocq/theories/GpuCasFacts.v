From Coq Require Import String Lia Permutation.
From Verif Require Import Base BaseFacts GpuCas GpuCasSpec.
Open Scope Z_scope.
Section Facts.
Context {L V : Type} (leqb : L -> L -> bool) (same : V -> V -> bool).
Context (leqb_spec : forall a b, reflect (a = b) (leqb a b)) (same_spec : forall a b, reflect (a = b) (same a b)).
Notation step := (step leqb same). Notation steps := (steps leqb same). Notation tstep := (tstep leqb same).
Lemma put_act m (o : rmw L V) l : put leqb m (at_ o) (act o (m (at_ o))) l = if leqb (at_ o) l then act o (m l) else m l.
Proof. unfold put. destruct (leqb_spec (at_ o) l) as [<-|]; reflexivity. Qed.
Definition pending (t : tstate (L := L) (V := V)) : list (rmw L V) :=
  match t with (o :: k, Some r) => if go o r then o :: k else k | (ops, _) => ops end.
Lemma in_order_snoc (dn : list (rmw L V)) o l x : in_order leqb (dn ++ [o]) l x = if leqb (at_ o) l then act o (in_order leqb dn l x) else in_order leqb dn l x.
Proof. unfold in_order. rewrite fold_left_app. reflexivity. Qed.
(** A step of a thread does nothing, or does the next operation at once *)
Lemma tstep_pending m t m' t' : tstep m t = Some (m', t') ->
  (pending t' = pending t /\ m' = m) \/ (exists o, pending t = o :: pending t' /\ forall l, m' l = if leqb (at_ o) l then act o (m l) else m l).
Proof.
  destruct t as [[|o k] [r|]]; cbn [GpuCas.tstep]; try discriminate.
  - destruct (go o r) eqn:G.
    + destruct (same_spec (m (at_ o)) r) as [E|N]; intro X; injection X as <- <-.
      * right. exists o. cbn [pending]. rewrite G. split; [now destruct k|]. intro l. unfold put. destruct (leqb_spec (at_ o) l) as [<-|]; [|reflexivity]. unfold act. now rewrite E, G.
      * cbn [pending]. rewrite G. destruct (go o (m (at_ o))) eqn:G2; [left; auto|]. right. exists o. split; [reflexivity|]. intro l. destruct (leqb_spec (at_ o) l) as [<-|]; [|reflexivity]. unfold act. now rewrite G2.
    + intro X. injection X as <- <-. left. cbn [pending]. rewrite G. split; [now destruct k|reflexivity].
  - intro X. injection X as <- <-. cbn [pending]. destruct (go o (m (at_ o))) eqn:G2; [left; auto|]. right. exists o. split; [reflexivity|]. intro l. destruct (leqb_spec (at_ o) l) as [<-|]; [|reflexivity]. unfold act. now rewrite G2.
Qed.
Definition inv (m0 : L -> V) (all : list (rmw L V)) (c : config (L := L) (V := V)) : Prop :=
  exists dn, Permutation all (dn ++ flat_map pending (snd c)) /\ forall l, fst c l = in_order leqb dn l (m0 l).
Lemma inv_step m0 all c c' : step c c' -> inv m0 all c -> inv m0 all c'.
Proof.
  intros [m l1 t l2 m' t' E] (dn & P & M). cbn [fst snd] in *. rewrite flat_map_app in P. cbn [flat_map] in P.
  destruct (tstep_pending _ _ _ _ E) as [(Et & ->)|(o & Et & Em)].
  - exists dn. cbn [fst snd]. rewrite flat_map_app. cbn [flat_map]. rewrite Et. auto.
  - exists (dn ++ [o]). cbn [fst snd]. rewrite flat_map_app. cbn [flat_map]. rewrite Et in P. split.
    + rewrite P. rewrite <- app_assoc. apply Permutation_app_head. cbn [app]. symmetry. apply Permutation_middle.
    + intro l. rewrite Em, in_order_snoc, M. reflexivity.
Qed.
Lemma flat_initial (ops : list (list (rmw L V))) : flat_map pending (map (fun o => (o, None)) ops) = concat ops.
Proof. induction ops as [|o ops IH]; [reflexivity|]. cbn [map flat_map concat]. rewrite IH. f_equal. destruct o; reflexivity. Qed.
Lemma flat_finished c : finished (L := L) (V := V) c -> flat_map pending (snd c) = [].
Proof.
  intro F. unfold finished in F. induction (snd c) as [|t l IH]; [reflexivity|]. cbn [flat_map]. rewrite IH by (intros; apply F; now right). rewrite app_nil_r.
  specialize (F t (or_introl eq_refl)). destruct t as [k r]. cbn in F. subst k. destruct r; reflexivity.
Qed.
Theorem serial m0 ops n c : steps n (initial m0 ops) c -> finished c -> one_at_a_time leqb (concat ops) m0 (fst c).
Proof.
  intros St F.
  assert (I : inv m0 (concat ops) c).
  { assert (I0 : inv m0 (concat ops) (initial m0 ops)) by (exists []; split; [cbn [app initial snd]; now rewrite flat_initial|reflexivity]).
    revert I0. induction St; auto. intro. apply IHSt; [exact F|]. eapply inv_step; eauto. }
  destruct I as (dn & P & M). rewrite (flat_finished c F), app_nil_r in P. exists dn. split; [now symmetry|exact M].
Qed.

(** Every schedule ends *)
Definition phase (m : L -> V) (t : tstate (L := L) (V := V)) : nat :=
  match t with ([], _) => 0 | (_, None) => 3 | (o :: _, Some r) => if same (m (at_ o)) r then 1 else 2 end.
Definition ops_left (c : config (L := L) (V := V)) : nat := length (flat_map fst (snd c)).
Definition phases (c : config (L := L) (V := V)) : nat := list_sum (map (phase (fst c)) (snd c)).
Definition width (c : config (L := L) (V := V)) : nat := length (snd c).
Lemma phase_le m t : (phase m t <= 3)%nat.
Proof. destruct t as [[|o k] [r|]]; cbn [phase]; try lia. destruct (same _ _); lia. Qed.
Lemma phases_le c : (phases c <= 3 * width c)%nat.
Proof.
  unfold phases, width. induction (snd c) as [|t l IH]; cbn [map length]; [cbn; lia|]. change (list_sum (phase (fst c) t :: map (phase (fst c)) l)) with (phase (fst c) t + list_sum (map (phase (fst c)) l))%nat. pose proof (phase_le (fst c) t). lia.
Qed.
Lemma sum_app m (l1 l2 : list (tstate (L := L) (V := V))) : list_sum (map (phase m) (l1 ++ l2)) = (list_sum (map (phase m) l1) + list_sum (map (phase m) l2))%nat.
Proof. rewrite map_app, list_sum_app. reflexivity. Qed.
Lemma step_measure c c' : step c c' -> width c' = width c /\ ((ops_left c' < ops_left c)%nat \/ (ops_left c' = ops_left c /\ (phases c' < phases c)%nat)).
Proof.
  intros [m l1 t l2 m' t' E]. unfold width, ops_left, phases. cbn [fst snd]. split; [rewrite !app_length; reflexivity|].
  rewrite !flat_map_app. cbn [flat_map]. rewrite !app_length.
  destruct t as [[|o k] [r|]]; cbn [GpuCas.tstep] in E; try discriminate.
  - destruct (go o r).
    + destruct (same_spec (m (at_ o)) r) as [E1|N1]; injection E as <- <-; cbn [fst length].
      * left. lia.
      * right. split; [reflexivity|]. rewrite !sum_app. cbn [map]. change (list_sum (?a :: ?b)) with (a + list_sum b)%nat. cbn [phase].
        destruct (same_spec (m (at_ o)) (m (at_ o))); [|congruence]. destruct (same_spec (m (at_ o)) r); [congruence|]. lia.
    + injection E as <- <-. cbn [fst length]. left. lia.
  - injection E as <- <-. cbn [fst]. right. split; [reflexivity|]. rewrite !sum_app. cbn [map]. change (list_sum (?a :: ?b)) with (a + list_sum b)%nat. cbn [phase].
    destruct (same_spec (m (at_ o)) (m (at_ o))); [|congruence]. lia.
Qed.
Lemma steps_bound n c c' : steps n c c' -> (n <= ops_left c * (3 * width c + 1) + phases c)%nat.
Proof.
  induction 1 as [|n c c1 c2 S1 _ IH]; [lia|]. destruct (step_measure c c1 S1) as (W & D). rewrite W in IH. pose proof (phases_le c1) as P. rewrite W in P.
  destruct D as [D|(D1 & D2)]; [|rewrite D1 in IH; lia]. assert (X : (ops_left c1 * (3 * width c + 1) + (3 * width c + 1) <= ops_left c * (3 * width c + 1))%nat) by nia. lia.
Qed.
Lemma progress c : ~ finished c -> exists c', step c c'.
Proof.
  intro N. destruct c as [m ts]. assert (X : exists l1 t l2, ts = l1 ++ t :: l2 /\ fst t <> []).
  { unfold finished in N. cbn [snd] in N. clear -N. induction ts as [|t ts IH]; [exfalso; apply N; intros ? []|]. destruct (fst t) as [|o k] eqn:E.
    - destruct IH as (l1 & t' & l2 & -> & H); [intro F; apply N; intros t' [<-|I]; auto|]. exists (t :: l1), t', l2. split; [reflexivity|exact H].
    - exists [], t, ts. split; [reflexivity|]. rewrite E. discriminate. }
  destruct X as (l1 & t & l2 & -> & H). assert (Y : exists m' t', tstep m t = Some (m', t')).
  { destruct t as [[|o k] [r|]]; cbn [fst] in H; try congruence; cbn [GpuCas.tstep]; [|eauto]. destruct (go o r); [|eauto]. destruct (same _ _); eauto. }
  destruct Y as (m' & t' & E). exists (m', l1 ++ t' :: l2). now constructor.
Qed.
Lemma finishes c : exists n c', steps n c c' /\ finished c'.
Proof.
  remember (ops_left c * (3 * width c + 1) + phases c)%nat as k eqn:Ek. revert c Ek. induction k as [k IH] using (well_founded_induction Wf_nat.lt_wf). intros c Ek.
  assert (D : finished c \/ ~ finished c).
  { destruct c as [m ts]. unfold finished. cbn [snd]. clear. induction ts as [|t ts IH]; [left; intros ? []|]. destruct IH as [IH|IH]; [|right; intro F; apply IH; intros; apply F; now right].
    destruct (fst t) as [|o k] eqn:E; [left; intros t' [<-|I]; auto|]. right. intro F. specialize (F t (or_introl eq_refl)). congruence. }
  destruct D as [D|D]; [exists 0%nat, c; split; [constructor|exact D]|]. destruct (progress c D) as (c1 & S1). destruct (step_measure c c1 S1) as (W & M).
  destruct (IH (ops_left c1 * (3 * width c1 + 1) + phases c1)%nat) with (c := c1) as (n & c' & St & F); [|reflexivity|].
  - rewrite W. pose proof (phases_le c1) as P. rewrite W in P. subst k. destruct M as [M|(M1 & M2)]; [|rewrite M1; lia]. assert (X : (ops_left c1 * (3 * width c + 1) + (3 * width c + 1) <= ops_left c * (3 * width c + 1))%nat) by nia. lia.
  - exists (S n), c'. split; [econstructor; eauto|exact F].
Qed.
Lemma initial_measure m (ops : list (list (rmw L V))) : ops_left (initial m ops) = length (concat ops) /\ width (initial m ops) = length ops.
Proof. unfold ops_left, width, initial. cbn [snd]. split; [|apply map_length]. f_equal. induction ops as [|o ops IH]; [reflexivity|]. cbn [map flat_map concat fst]. now rewrite IH. Qed.
End Facts.
