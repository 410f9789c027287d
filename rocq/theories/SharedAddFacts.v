(** Threads adding to a shared array (proofs only). *)
From Coq Require Import Lia Permutation.
From Verif Require Import Base BaseFacts Sum SharedAdd SharedAddSpec.

Section Facts.
Context {I A : Type} (eqb : I -> I -> bool) (eqb_ok : forall i j, eqb i j = true <-> i = j) (add : A -> A -> A) (zero : A) (cm : cmonoid add zero).
Notation thread := (@thread I A). Notation state := (@state I A). Notation piece := (@piece I A).

Lemma add_0r x : add x zero = x. Proof. rewrite (cm_comm _ _ cm). apply (cm_unit _ _ cm). Qed.
(** All that is added at index [i] by a list of additions *)
Definition tot (i : I) (us : list (I * A)) : A := fold_right (fun u a => if eqb (fst u) i then add (snd u) a else a) zero us.
Lemma tot_app i a b : tot i (a ++ b) = add (tot i a) (tot i b).
Proof.
  induction a as [|u a IH]; cbn [app tot fold_right]; [now rewrite (cm_unit _ _ cm)|]. fold (tot i (a ++ b)) (tot i a). rewrite IH.
  destruct (eqb (fst u) i); [apply (cm_assoc _ _ cm)|reflexivity].
Qed.
Lemma tot_perm i a b : Permutation a b -> tot i a = tot i b.
Proof.
  induction 1; [reflexivity| | |congruence].
  - cbn [tot fold_right]. fold (tot i l) (tot i l'). now rewrite IHPermutation.
  - cbn [tot fold_right]. fold (tot i l). destruct (eqb (fst x) i), (eqb (fst y) i); try reflexivity. rewrite !(cm_assoc _ _ cm). now rewrite (cm_comm _ _ cm (snd y)).
Qed.
Lemma apply_tot us : forall M i, apply eqb add us M i = add (M i) (tot i us).
Proof.
  induction us as [|[j x] us IH]; intros M i; unfold apply; cbn [fold_left]; [cbn; now rewrite add_0r|]. fold (apply eqb add us (put eqb M j (add (M j) x))).
  change (apply eqb add us (put eqb M j (add (M j) x)) i = add (M i) (tot i ((j, x) :: us))). rewrite IH. unfold put. cbn [tot fold_right fst snd]. fold (tot i us).
  destruct (eqb j i) eqn:E; [|reflexivity]. apply eqb_ok in E. subst j. symmetry. apply (cm_assoc _ _ cm).
Qed.

Definition remaining (t : thread) : list (I * A) := match t with Out r => concat r | Busy us r => us ++ concat r | Loaded _ i x us r => (i, x) :: us ++ concat r end.
Definition inside (t : thread) : bool := match t with Out _ => false | _ => true end.
Definition steps_left (t : thread) : Z :=
  match t with Out r => work r | Busy us r => 2 * Z.of_nat (length us) + 1 + work r | Loaded _ _ _ us r => 2 * Z.of_nat (length us) + 2 + work r end.

(** One term of a sum replaced *)
Lemma sum_set {B} (op : B -> B -> B) (e : B) (C : cmonoid op e) n k (f g : Z -> B) : 0 <= k < n -> (forall i, 0 <= i < n -> i <> k -> g i = f i) ->
  exists rest, sum op e 0 n f = op (f k) rest /\ sum op e 0 n g = op (g k) rest.
Proof.
  intros Hk H. exists (op (sum op e 0 k f) (sum op e (k + 1) n f)).
  assert (S : forall h, sum op e 0 n h = op (h k) (op (sum op e 0 k h) (sum op e (k + 1) n h))).
  { intro h. rewrite (sum_split op e C 0 k n) by lia. rewrite (sum_cons op e k n) by lia. rewrite !(cm_assoc _ _ C). now rewrite (cm_comm _ _ C (h k)). }
  split; [apply S|]. rewrite S. f_equal. f_equal; apply sum_ext; intros i Hi; apply H; lia.
Qed.

Context (locked : bool) (n : Z) (M0 : I -> A) (progs : Z -> list piece).
Definition total (i : I) : A := sum add zero 0 n (fun t => tot i (concat (progs t))).
Definition total_work : Z := sum Z.add 0 0 n (fun t => work (progs t)).

Definition inv (k : Z) (s : state) : Prop :=
  (forall i, add (mem s i) (sum add zero 0 n (fun t => tot i (remaining (threads s t)))) = add (M0 i) (total i)) /\
  (forall t v i x us r, 0 <= t < n -> threads s t = Loaded v i x us r -> v = mem s i) /\
  (locked = true -> (forall t, 0 <= t < n -> inside (threads s t) = true -> held s = true) /\
                    (held s = true -> exists t, 0 <= t < n /\ inside (threads s t) = true) /\
                    (forall t u, 0 <= t < n -> 0 <= u < n -> t <> u -> inside (threads s t) = true -> inside (threads s u) = true -> False)) /\
  (locked = false -> forall t u i x y, 0 <= t < n -> 0 <= u < n -> t <> u -> In (i, x) (remaining (threads s t)) -> In (i, y) (remaining (threads s u)) -> False) /\
  k + sum Z.add 0 0 n (fun t => steps_left (threads s t)) = total_work.

Lemma inv_start : (locked = false -> separate n progs) -> inv 0 (start M0 progs).
Proof.
  intro H. split; [|split; [|split; [|split]]].
  - reflexivity.
  - intros t v i x us r _ E. discriminate.
  - intros _. split; [intros t _ E; discriminate|]. split; [discriminate|]. intros t u _ _ _ E; discriminate.
  - intros L t u i x y Ht Hu N. cbn. exact (H L t u i x y Ht Hu N).
  - reflexivity.
Qed.

Lemma set_same (th : Z -> thread) t x : set_thread th t x t = x. Proof. unfold set_thread. now rewrite Z.eqb_refl. Qed.
Lemma set_other (th : Z -> thread) t x u : u <> t -> set_thread th t x u = th u. Proof. intro H. unfold set_thread. now replace (u =? t) with false by lia. Qed.

(** A step that only changes the place of thread [t], which keeps the same additions to do *)
Lemma sum_same i th t x : 0 <= t < n -> tot i (remaining x) = tot i (remaining (th t)) -> sum add zero 0 n (fun u => tot i (remaining (set_thread th t x u))) = sum add zero 0 n (fun u => tot i (remaining (th u))).
Proof. intros Ht E. apply sum_ext. intros u Hu. destruct (Z.eq_dec u t) as [->|N]; [now rewrite set_same|now rewrite set_other]. Qed.
Lemma left_step k th t x : 0 <= t < n -> steps_left x + 1 = steps_left (th t) -> k + sum Z.add 0 0 n (fun t => steps_left (th t)) = total_work ->
  k + 1 + sum Z.add 0 0 n (fun u => steps_left (set_thread th t x u)) = total_work.
Proof.
  intros Ht E H. destruct (sum_set Z.add 0 Zcm n t (fun t => steps_left (th t)) (fun u => steps_left (set_thread th t x u)) Ht) as (rest & F & G).
  - intros i Hi N. now rewrite set_other.
  - rewrite F in H. rewrite G, set_same. lia.
Qed.
Lemma remaining_sub th t x u i y : (forall i y, In (i, y) (remaining x) -> In (i, y) (remaining (th t))) -> In (i, y) (remaining (set_thread th t x u)) -> In (i, y) (remaining (th u)).
Proof. intros S H. destruct (Z.eq_dec u t) as [->|N]; [rewrite set_same in H; now apply S|now rewrite set_other in H]. Qed.

Lemma inv_step k s s' : inv k s -> step eqb add locked n s s' -> inv (k + 1) s'.
Proof.
  intros (V1 & V2 & V3 & V4 & V5) St. destruct St as [M h th t p r Ht E L|M h th t i x us r Ht E|M h th t v i x us r Ht E|M h th t r Ht E]; unfold inv; cbn [mem held threads] in *.
  - split; [|split; [|split; [|split]]].
    + intro i. rewrite sum_same; [apply V1|exact Ht|]. now rewrite E.
    + intros u v i x us q Hu. destruct (Z.eq_dec u t) as [->|N]; [rewrite set_same; discriminate|]. rewrite set_other by assumption. now apply V2.
    + intro LK. specialize (L LK). destruct (V3 LK) as (A1 & A2 & A3). split; [reflexivity|]. split; [intros _; exists t; split; [exact Ht|now rewrite set_same]|].
      intros u w Hu Hw N. destruct (Z.eq_dec u t) as [->|Nu].
      * rewrite (set_other th t _ w) by lia. intros _ Q. specialize (A1 w Hw Q). congruence.
      * rewrite (set_other th t _ u) by assumption. intros Q _. specialize (A1 u Hu Q). congruence.
    + intros LK u w i x y Hu Hw N P Q. apply (V4 LK u w i x y Hu Hw N); (eapply remaining_sub; [|eassumption]; rewrite E; cbn; auto).
    + apply left_step; auto. rewrite E. cbn [steps_left work fold_right]. unfold work. lia.
  - split; [|split; [|split; [|split]]].
    + intro j. rewrite sum_same; [apply V1|exact Ht|]. now rewrite E.
    + intros u v j y vs q Hu. destruct (Z.eq_dec u t) as [->|N]; [rewrite set_same; intro Q; injection Q as <- <- _ _ _; reflexivity|]. rewrite set_other by assumption. now apply V2.
    + intro LK. destruct (V3 LK) as (A1 & A2 & A3).
      assert (IN : forall u, inside (set_thread th t (Loaded (M i) i x us r) u) = inside (th u)). { intro u. destruct (Z.eq_dec u t) as [->|N]; [now rewrite set_same, E|now rewrite set_other]. }
      split; [intros u Hu; rewrite IN; now apply A1|]. split; [intro Q; destruct (A2 Q) as (u & Hu & B); exists u; now rewrite IN|]. intros u w Hu Hw N. rewrite !IN. now apply A3.
    + intros LK u w j y z Hu Hw N P Q. apply (V4 LK u w j y z Hu Hw N); (eapply remaining_sub; [|eassumption]; rewrite E; cbn; auto).
    + apply left_step; auto. rewrite E. cbn [steps_left length]. lia.
  - pose proof (V2 t v i x us r Ht E) as Ev. subst v. split; [|split; [|split; [|split]]].
    + intro j. rewrite <- (V1 j). destruct (sum_set add zero cm n t (fun t => tot j (remaining (th t))) (fun u => tot j (remaining (set_thread th t (Busy us r) u))) Ht) as (rest & F & G).
      { intros u Hu N. now rewrite set_other. }
      rewrite F, G, set_same, E. cbn [remaining tot fold_right fst snd]. fold (tot j (us ++ concat r)). unfold put. destruct (eqb i j) eqn:EQ; [|reflexivity].
      apply eqb_ok in EQ. subst j. rewrite !(cm_assoc _ _ cm). reflexivity.
    + intros u v j y vs q Hu. destruct (Z.eq_dec u t) as [->|N]; [rewrite set_same; discriminate|]. rewrite set_other by assumption. intro Q. rewrite (V2 u v j y vs q Hu Q). unfold put.
      destruct (eqb i j) eqn:EQ; [|reflexivity]. apply eqb_ok in EQ. subst j. exfalso. destruct locked eqn:LK.
      * destruct (V3 eq_refl) as (_ & _ & A3). apply (A3 u t Hu Ht N); [now rewrite Q|now rewrite E].
      * apply (V4 eq_refl u t i y x Hu Ht N); [rewrite Q; now left|rewrite E; now left].
    + intro LK. destruct (V3 LK) as (A1 & A2 & A3).
      assert (IN : forall u, inside (set_thread th t (Busy us r) u) = inside (th u)). { intro u. destruct (Z.eq_dec u t) as [->|N]; [now rewrite set_same, E|now rewrite set_other]. }
      split; [intros u Hu; rewrite IN; now apply A1|]. split; [intro Q; destruct (A2 Q) as (u & Hu & B); exists u; now rewrite IN|]. intros u w Hu Hw N. rewrite !IN. now apply A3.
    + intros LK u w j y z Hu Hw N P Q. apply (V4 LK u w j y z Hu Hw N); (eapply remaining_sub; [|eassumption]; rewrite E; cbn [remaining]; intros a b Hab; now right).
    + apply left_step; auto. rewrite E. cbn [steps_left]. lia.
  - split; [|split; [|split; [|split]]].
    + intro j. rewrite sum_same; [apply V1|exact Ht|]. now rewrite E.
    + intros u v j y vs q Hu. destruct (Z.eq_dec u t) as [->|N]; [rewrite set_same; discriminate|]. rewrite set_other by assumption. now apply V2.
    + intro LK. destruct (V3 LK) as (A1 & A2 & A3).
      assert (IN : forall u, 0 <= u < n -> inside (set_thread th t (Out r) u) = false). { intros u Hu. destruct (Z.eq_dec u t) as [->|N]; [now rewrite set_same|]. rewrite set_other by assumption. destruct (inside (th u)) eqn:B; [|reflexivity]. exfalso. apply (A3 u t Hu Ht N B). now rewrite E. }
      split; [intros u Hu; rewrite IN by assumption; discriminate|]. split; [discriminate|]. intros u w Hu Hw N. rewrite !IN by assumption. discriminate.
    + intros LK u w j y z Hu Hw N P Q. apply (V4 LK u w j y z Hu Hw N); (eapply remaining_sub; [|eassumption]; rewrite E; cbn; auto).
    + apply left_step; auto. rewrite E. cbn [steps_left length]. lia.
Qed.
Lemma inv_steps k s : (locked = false -> separate n progs) -> steps eqb add locked n k (start M0 progs) s -> inv k s.
Proof. intros H St. remember (start M0 progs) as s0. induction St; subst; [now apply inv_start|]. eapply inv_step; [now apply IHSt|eassumption]. Qed.

Lemma tot_concat i : forall m, tot i (concat (concat (map progs m))) = fold_right add zero (map (fun t => tot i (concat (progs t))) m).
Proof. induction m as [|t m IH]; [reflexivity|]. cbn [map concat fold_right]. rewrite concat_app, tot_app. now rewrite IH. Qed.
Lemma perm_concat {B} (l l' : list (list B)) : Permutation l l' -> Permutation (concat l) (concat l').
Proof.
  induction 1; cbn [concat]; [constructor|now apply Permutation_app_head| |now transitivity (concat l')].
  rewrite !app_assoc. apply Permutation_app_tail, Permutation_app_comm.
Qed.
Lemma final k s order : (locked = false -> separate n progs) -> steps eqb add locked n k (start M0 progs) s -> finished n s -> Permutation order (all_pieces n progs) ->
  forall i, mem s i = apply eqb add (concat order) M0 i.
Proof.
  intros H St F P i. destruct (inv_steps k s H St) as (V1 & _). rewrite apply_tot, (tot_perm i _ _ (perm_concat _ _ P)). unfold all_pieces. rewrite tot_concat.
  specialize (V1 i). rewrite (sum_none _ _ cm) in V1; [|intros t Ht; now rewrite (F t Ht)]. rewrite add_0r in V1. exact V1.
Qed.

Lemma work_nonneg l : 0 <= work (I := I) (A := A) l.
Proof. induction l as [|p l IH]; [reflexivity|]. cbn [work fold_right]. fold (work l). lia. Qed.
Lemma left_nonneg t : 0 <= steps_left t.
Proof. destruct t; cbn; pose proof (work_nonneg todo); lia. Qed.
Lemma sum_nonneg (f : Z -> Z) : (forall t, 0 <= f t) -> 0 <= sum Z.add 0 0 n f.
Proof. intro H. unfold sum. induction (zrange 0 n) as [|x l IH]; cbn; [lia|]. specialize (H x). lia. Qed.
Lemma work_app (a b : list piece) : work (a ++ b) = work a + work b.
Proof. induction a as [|p a IH]; [reflexivity|]. cbn [app work fold_right]. fold (work (a ++ b)) (work a). lia. Qed.
Lemma total_work_all : total_work = work (all_pieces n progs).
Proof. unfold total_work, all_pieces, sum. induction (zrange 0 n) as [|t l IH]; [reflexivity|]. cbn [map concat fold_right]. rewrite work_app. now rewrite IH. Qed.
Lemma bounded k s : (locked = false -> separate n progs) -> steps eqb add locked n k (start M0 progs) s -> k <= work (all_pieces n progs).
Proof. intros H St. destruct (inv_steps k s H St) as (_ & _ & _ & _ & V). rewrite <- total_work_all. pose proof (sum_nonneg (fun t => steps_left (threads s t)) (fun t => left_nonneg _)). lia. Qed.
Lemma inside_step s t : 0 <= t < n -> inside (threads s t) = true -> exists s', step eqb add locked n s s'.
Proof.
  intros Ht E. destruct s as [M h th]. cbn [threads] in E. destruct (th t) as [r|us r|v i x us r] eqn:ET; [discriminate| |].
  - destruct us as [|[i x] us]; eexists; [eapply s_leave|eapply s_load]; eassumption.
  - eexists. eapply s_store; eassumption.
Qed.
Lemma search (P : Z -> bool) : (forall t, 0 <= t < n -> P t = true) \/ exists t, 0 <= t < n /\ P t = false.
Proof.
  destruct (forallb P (zrange 0 n)) eqn:E.
  - left. intros t Ht. rewrite forallb_forall in E. apply E, in_zrange, Ht.
  - right. assert (Q : existsb (fun t => negb (P t)) (zrange 0 n) = true). { clear -E. induction (zrange 0 n) as [|x l IH]; [discriminate|]. cbn in *. destruct (P x); cbn in *; auto. }
    apply existsb_exists in Q. destruct Q as (t & Ht & B). exists t. split; [now apply in_zrange|]. now apply negb_true_iff.
Qed.
Lemma progress k s : (locked = false -> separate n progs) -> steps eqb add locked n k (start M0 progs) s -> finished n s \/ exists s', step eqb add locked n s s'.
Proof.
  intros H St. destruct (inv_steps k s H St) as (_ & _ & V3 & _).
  destruct (search (fun t => negb (inside (threads s t)))) as [NI|(t & Ht & B)].
  2:{ right. apply (inside_step s t Ht). now apply negb_false_iff. }
  destruct (search (fun t => match threads s t with Out [] => true | _ => false end)) as [F|(t & Ht & B)].
  - left. intros t Ht. specialize (F t Ht). cbv beta in F. destruct (threads s t) as [[|]| |]; try discriminate. reflexivity.
  - right. destruct s as [M h th]. cbn [threads held] in *. pose proof (NI t Ht) as NIt. cbv beta in NIt. destruct (th t) as [[|p r]| |] eqn:ET; try discriminate.
    eexists. eapply s_enter; [exact Ht|exact ET|]. intro L. destruct (V3 L) as (_ & A2 & _). destruct h; [|reflexivity]. destruct (A2 eq_refl) as (u & Hu & B'). specialize (NI u Hu). cbv beta in NI. rewrite B' in NI. discriminate.
Qed.
End Facts.
