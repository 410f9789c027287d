From Coq Require Import QArith Lia Permutation.
From Verif Require Import Base BaseFacts Sum Loops Sets Flagger FlaggerSpec FlaggerFacts FlaggerFacts2.
Open Scope Z_scope.

(** [sets] with an additional state for which an invariant holds *)
Definition psets {S A} (sh : list Z) (I J : S -> Prop) (own : list Z -> bool) (V : list Z -> A -> Prop) (f : S * nd A -> option (S * nd A)) : Prop :=
  forall sc st, I sc -> shape st = sh -> exists sc' st', f (sc, st) = Some (sc', st') /\ J sc' /\ shape st' = sh /\
    (forall idx, own idx = true -> V idx (elem st' idx)) /\ (forall idx, own idx = false -> elem st' idx = elem st idx).

Lemma psets_for {S A} sh lo hi (I : Z -> S -> Prop) own (V : list Z -> A -> Prop) body : lo <= hi ->
  (forall i, lo <= i < hi -> psets sh (I i) (I (i + 1)) (own i) V (body i)) -> psets sh (I lo) (I hi) (own_all lo hi own) V (for_ lo hi body).
Proof.
  intros L B sc st HI Ss.
  destruct (for_inv (fun k (s : S * nd A) => k <= hi /\ I k (fst s) /\ shape (snd s) = sh /\ (forall idx, own_all lo k own idx = true -> V idx (elem (snd s) idx)) /\
      (forall idx, own_all lo k own idx = false -> elem (snd s) idx = elem st idx)) lo hi body (sc, st) L) as ([sc' st'] & E & _ & P).
  - cbn [fst snd]. split; [exact L|]. split; [exact HI|]. split; [exact Ss|]. split; [|reflexivity]. intros idx H. apply own_all_true in H. destruct H as (i & Hi & _). lia.
  - intros i [sc1 s] Hi (_ & I1 & S1 & P1 & P2). cbn [fst snd] in *. destruct (B i Hi sc1 s I1 S1) as (sc2 & s' & E & I2 & S2 & Q1 & Q2).
    exists (sc2, s'). cbn [fst snd]. split; [exact E|]. split; [lia|]. split; [exact I2|]. split; [exact S2|]. split.
    + intros idx H. destruct (own i idx) eqn:O; [auto|]. rewrite Q2 by auto. apply P1.
      apply own_all_true in H. destruct H as (j & Hj & Oj). apply own_all_true. exists j. split; [|exact Oj].
      assert (j <> i) by congruence. lia.
    + intros idx H. pose proof (proj1 (own_all_false _ _ _ _) H) as H'. rewrite Q2 by (apply H'; lia). apply P2.
      apply own_all_false. intros j Hj. apply H'. lia.
  - cbn [fst snd] in P. exists sc', st'. split; [exact E|exact P].
Qed.

Lemma psets_weak {S A} sh (I J I' J' : S -> Prop) own (V : list Z -> A -> Prop) f :
  psets sh I J own V f -> (forall s, I' s -> I s) -> (forall s, J s -> J' s) -> psets sh I' J' own V f.
Proof. intros H HI HJ sc st Hs Ss. destruct (H sc st (HI _ Hs) Ss) as (sc' & st' & E & X & R). exists sc', st'. auto. Qed.

Section All.
Context {A : num} (sort_len : forall l : list A, length (nsort l) = length l).
Context {V : Type} (mag : V -> A) (junk : A) (vis : nd V) (alpha thr_mag thr_var thr_broad : A) (step window wmh nt nb nc np : Z).
Context (Hstep : 1 <= step) (Hns : 2 <= nc / step) (Hwmh : 2 <= wmh) (Hnt : 0 <= nt) (Hnp : 0 <= np).
Context (Svis : shape vis = [nt * nb * nc * np]).
Notation n := (nt * nb * nc * np).
Notation fl b p t c := (flagged alpha thr_mag thr_var thr_broad step window wmh nt nc (magnitude mag vis nb nc np b p) t c).

Definition sized (sc : @scratch A) : Prop :=
  shape (samples sc) = [nsamp step nc] /\ shape (transit_score sc) = [nc] /\ shape (transit_samples sc) = [nsamp step nc] /\ shape (median_history sc) = [nt].

Definition own_t (b p t : Z) (idx : list Z) : bool :=
  own1 mag vis thr_mag thr_broad step window wmh nb nc np b p t idx || (0 <? t) && own2 mag vis alpha thr_var step window nb nc np b p t idx.
Definition own_b (b : Z) : list Z -> bool := own_all 0 np (fun p => own_all 0 nt (own_t b p)).

Lemma baseline_ok b : 0 <= b < nb ->
  psets [n] sized sized (own_b b) is1 (flag_baseline mag (Some junk) vis alpha thr_mag thr_var thr_broad step window wmh nt nb nc np b).
Proof.
  intro Hb. unfold flag_baseline, own_b. apply (psets_for _ _ _ (fun _ => sized)); [exact Hnp|]. intros p Hp.
  apply (psets_weak _ (inv mag vis alpha step nt nb nc np b p 0) (inv mag vis alpha step nt nb nc np b p nt)).
  - apply (psets_for [n] 0 nt (inv mag vis alpha step nt nb nc np b p)); [exact Hnt|]. intros t Ht sc st HI Ss.
    apply (flag_time_ok sort_len mag junk vis alpha thr_mag thr_var thr_broad step window wmh nt nb nc np Hstep Hns Hwmh Svis b p Hb Hp t sc st Ht HI Ss).
  - intros s (S1 & S2 & S3 & S4). unfold inv. repeat (split; [assumption|]). split; intros; lia.
  - intros s (S1 & S2 & S3 & S4 & _). unfold sized. auto.
Qed.

Lemma own_b_true b idx : 0 <= b < nb -> own_b b idx = true <->
  exists p t c, 0 <= p < np /\ 0 <= t < nt /\ 0 <= c < nc /\ idx = [at_ nb nc np b p t c] /\ fl b p t c.
Proof.
  intro Hb. unfold own_b. rewrite own_all_true. split.
  - intros (p & Hp & H). apply own_all_true in H. destruct H as (t & Ht & H). unfold own_t in H. apply orb_prop in H. destruct H as [H|H].
    + unfold own1 in H. apply own_all_true in H. destruct H as (c & Hc & H). apply andb_prop in H. destruct H as [D R].
      apply (reach_true step window nb nc np Hstep Hns b p t c idx Hc) in R. destruct R as (d & Hd & -> & N).
      exists p, t, d. repeat (split; [lia || reflexivity|]). exists c. split; [exact Hc|]. split; [left; exact D|]. destruct N as [->|[N1 N2]]; [auto|right; lia].
    + apply andb_prop in H. destruct H as [T H]. unfold own2 in H. apply own_all_true in H. destruct H as (c & Hc & H). apply andb_prop in H. destruct H as [D R].
      apply (reach2_true step window nb nc np Hstep Hns b p t c idx Hc) in R. destruct R as (d & Hd & [-> | ->] & N).
      * exists p, t, d. repeat (split; [lia || reflexivity|]). exists c. split; [exact Hc|]. split; [right; left; split; [lia|exact D]|]. destruct N as [->|[N1 N2]]; [auto|right; lia].
      * exists p, (t - 1), d. repeat (split; [lia || reflexivity|]). exists c. split; [exact Hc|]. split; [right; right; replace (t - 1 + 1) with t by lia; split; [lia|exact D]|]. destruct N as [->|[N1 N2]]; [auto|right; lia].
  - intros (p & t & c & Hp & Ht & Hc & -> & d & Hd & D & N). exists p. split; [exact Hp|]. apply own_all_true.
    assert (N' : near window d c) by (unfold near; destruct N as [->|[? ?]]; [auto|right; lia]).
    destruct D as [D|[[T D]|[T D]]].
    + exists t. split; [exact Ht|]. unfold own_t. apply orb_true_iff. left. unfold own1. apply own_all_true. exists d. split; [exact Hd|]. rewrite D. cbn [andb].
      apply (reach_true step window nb nc np Hstep Hns b p t d _ Hd). exists c. auto.
    + exists t. split; [exact Ht|]. unfold own_t. apply orb_true_iff. right. assert (0 <? t = true) as -> by lia. cbn [andb]. unfold own2. apply own_all_true. exists d. split; [exact Hd|]. rewrite D. cbn [andb].
      apply (reach2_true step window nb nc np Hstep Hns b p t d _ Hd). exists c. auto.
    + exists (t + 1). split; [lia|]. unfold own_t. apply orb_true_iff. right. assert (0 <? t + 1 = true) as -> by lia. cbn [andb]. unfold own2. apply own_all_true. exists d. split; [exact Hd|]. rewrite D. cbn [andb].
      apply (reach2_true step window nb nc np Hstep Hns b p (t + 1) d _ Hd). exists c. split; [exact Hc|]. split; [right; f_equal; f_equal; lia|exact N'].
Qed.

Lemma at_inj b p t c b' p' t' c' : 0 <= b < nb -> 0 <= p < np -> 0 <= c < nc -> 0 <= b' < nb -> 0 <= p' < np -> 0 <= c' < nc ->
  at_ nb nc np b p t c = at_ nb nc np b' p' t' c' -> b = b' /\ p = p' /\ t = t' /\ c = c'.
Proof. intros H1 H2 H3 H4 H5 H6 E. rewrite !P_pos4 in E. apply pos4_inj in E; auto. tauto. Qed.

(** One baseline *)
Lemma own_b_at b b' p t c : 0 <= b < nb -> 0 <= b' < nb -> 0 <= p < np -> 0 <= t < nt -> 0 <= c < nc ->
  own_b b [at_ nb nc np b' p t c] = true <-> b = b' /\ fl b p t c.
Proof.
  intros Hb Hb' Hp Ht Hc. rewrite own_b_true by auto. split.
  - intros (p' & t' & c' & Hp' & Ht' & Hc' & E & F). injection E as E. apply at_inj in E; auto. destruct E as (-> & -> & -> & ->). auto.
  - intros (-> & F). exists p, t, c. auto.
Qed.

Lemma schedule_ok sched : (forall kb, In kb sched -> 0 <= snd kb < nb) -> forall scs flags, (forall k, sized (scs k)) -> shape flags = [n] ->
  exists scs' flags', flag_schedule mag (Some junk) vis alpha thr_mag thr_var thr_broad step window wmh nt nb nc np sched scs flags = Some (scs', flags') /\
    shape flags' = [n] /\
    (forall idx, existsb (fun kb => own_b (snd kb) idx) sched = true -> elem flags' idx = 1) /\
    (forall idx, existsb (fun kb => own_b (snd kb) idx) sched = false -> elem flags' idx = elem flags idx).
Proof.
  unfold flag_schedule. induction sched as [|[k b] l IH]; intros Hs scs flags Hk Sf.
  - exists scs, flags. split; [reflexivity|]. split; [exact Sf|]. split; [discriminate|reflexivity].
  - cbn [fold_left]. change (bind (Some (scs, flags)) ?f) with (f (scs, flags)). cbn beta iota.
    destruct (baseline_ok b ltac:(apply (Hs (k, b)); left; reflexivity) (scs k) flags (Hk k) Sf) as (sc' & fl' & E & I' & S' & P & Q).
    cbn [bind]. rewrite E. cbn [bind].
    destruct (IH ltac:(intros; apply Hs; right; auto) (fun j => if Nat.eqb j k then sc' else scs j) fl') as (scs2 & fl2 & E2 & S2 & P2 & Q2).
    { intro j. destruct (Nat.eqb j k); auto. } { exact S'. }
    exists scs2, fl2. split; [exact E2|]. split; [exact S2|]. cbn [existsb snd]. split; intros idx H.
    + destruct (existsb (fun kb => own_b (snd kb) idx) l) eqn:X; [auto|]. rewrite Q2 by auto. apply P. now rewrite orb_false_r in H.
    + apply orb_false_iff in H. destruct H. rewrite Q2, Q; auto.
Qed.

Lemma new_scratch_ok : exists sc : @scratch A, new_scratch step nt nc = Some sc /\ sized sc.
Proof.
  unfold new_scratch. destruct (Z.eqb_spec step 0); [lia|]. cbn [bind]. cbv zeta. rewrite (ns_eq step wmh nc) by assumption.
  pose proof (Z.mul_div_le nc step ltac:(lia)). assert (0 <= nc) by nia.
  destruct (@new_array_ok A (nsamp step nc)) as (a & -> & Sa); [unfold nsamp; lia|]. cbn [bind].
  destruct (@new_array_ok A nc) as (a2 & -> & Sa2); [lia|]. cbn [bind].
  destruct (@new_array_ok A nt) as (a3 & -> & Sa3); [lia|]. cbn [bind]. eexists. split; [reflexivity|]. unfold sized. auto.
Qed.

Lemma flagger_ok sched flags : Permutation (map snd sched) (zrange 0 nb) -> shape flags = [n] ->
  exists flags', flagger mag (Some junk) vis alpha thr_mag thr_var thr_broad step window wmh nt nb nc np sched flags = Some flags' /\ shape flags' = [n] /\
    (forall idx, elem flags' idx = 1 \/ elem flags' idx = elem flags idx) /\
    forall b p t c, 0 <= b < nb -> 0 <= p < np -> 0 <= t < nt -> 0 <= c < nc ->
      (fl b p t c -> elem flags' [at_ nb nc np b p t c] = 1) /\
      (~ fl b p t c -> elem flags' [at_ nb nc np b p t c] = elem flags [at_ nb nc np b p t c]).
Proof.
  intros Hp Sf. unfold flagger. destruct new_scratch_ok as (sc & -> & Hsc). cbn [bind].
  assert (Hs : forall kb, In kb sched -> 0 <= snd kb < nb).
  { intros kb H. apply in_zrange. eapply Permutation_in; [exact Hp|]. now apply in_map. }
  destruct (schedule_ok sched Hs (fun _ => sc) flags (fun _ => Hsc) Sf) as (scs & fl' & E & S' & P & Q). rewrite E. cbn [bind].
  exists fl'. split; [reflexivity|]. split; [exact S'|].
  split. { intro idx. destruct (existsb (fun kb => own_b (snd kb) idx) sched) eqn:X; [left; auto|right; auto]. }
  intros b p t c Hb Hpp Ht Hc. split.
  - intro F. apply P. apply existsb_exists.
    assert (In b (map snd sched)) as I by (eapply Permutation_in; [apply Permutation_sym; exact Hp|now apply in_zrange]).
    apply in_map_iff in I. destruct I as ([k b'] & <- & I). exists (k, b'). split; [exact I|]. cbn [snd] in *. apply own_b_at; auto.
  - intro F. apply Q. destruct (existsb _ sched) eqn:X; [|reflexivity]. exfalso. apply existsb_exists in X. destruct X as ([k b'] & I & O). cbn [snd] in O.
    apply own_b_at in O; auto. { destruct O as [-> O]. auto. } apply (Hs _ I).
Qed.
End All.

Lemma flagged_dec {A : num} (al tm tv tb : A) step window wmh nt nc m t c :
  flagged al tm tv tb step window wmh nt nc m t c \/ ~ flagged al tm tv tb step window wmh nt nc m t c.
Proof.
  set (f := fun d => (detect_mag tm tb step wmh nc m t d || (0 <? t) && detect_change al tv step nc m t d || (t + 1 <? nt) && detect_change al tv step nc m (t + 1) d) &&
    ((c =? d) || (Z.abs (c - d) <=? window) && negb (c =? 0))).
  destruct (existsb f (zrange 0 nc)) eqn:E; [left|right].
  - apply existsb_exists in E. destruct E as (d & Hd & E). apply in_zrange in Hd. exists d. split; [lia|]. unfold f in E. apply andb_prop in E. destruct E as [E1 E2]. split; [|lia].
    unfold detected. destruct (detect_mag _ _ _ _ _ _ _ _); [auto|]. destruct (detect_change al tv step nc m t d); [destruct (0 <? t) eqn:T|rewrite andb_false_r in E1; cbn [orb] in E1].
    + right. left. split; [lia|reflexivity].
    + right. right. cbn [andb orb] in E1. apply andb_prop in E1. split; [lia|tauto].
    + right. right. apply andb_prop in E1. split; [lia|tauto].
  - intros (d & Hd & D & N). assert (X : existsb f (zrange 0 nc) = true); [|congruence]. apply existsb_exists. exists d. split; [apply in_zrange; lia|].
    unfold f. apply andb_true_intro. split; [|lia]. destruct D as [-> | [[T ->] | [T ->]]]; [reflexivity| |].
    + assert (0 <? t = true) as -> by lia. now rewrite andb_true_r, orb_true_r.
    + assert (t + 1 <? nt = true) as -> by lia. now rewrite !orb_true_r.
Qed.

(** Without a value for the read outside the history, no run with at least one time sample ends. *)
Section Out.
Context {A : num} {V : Type} (mag : V -> A) (vis : nd V) (alpha thr_mag thr_var thr_broad : A) (step window wmh nt nb nc np : Z).

Lemma shape_for_wr {B} lo hi (g : Z -> nd B -> option (nd B)) a a' : (forall i x y, g i x = Some y -> shape y = shape x) -> for_ lo hi g a = Some a' -> shape a' = shape a.
Proof.
  intros H E. destruct (Z.le_gt_cases lo hi) as [L|L]; [|rewrite for_empty in E by lia; congruence].
  apply (for_inv_partial (fun _ s => shape s = shape a) lo hi g a a'); auto. intros k s t _ IH F. rewrite (H _ _ _ F). exact IH.
Qed.
Lemma wr_shape {B} (a a' : nd B) i v : wr a i v = Some a' -> shape a' = shape a.
Proof. intro E. apply wr_inv in E. destruct E as [_ ->]. apply shape_upd. Qed.

Lemma flag_time_out b p sf : flag_time mag None vis alpha thr_mag thr_var thr_broad step window wmh nb nc np b p 0 sf = None.
Proof.
  destruct sf as [sc flags]. unfold flag_time. cbv zeta. change (0 + 1) with 1. change (0 =? 0) with true. cbv iota.
  set (mw := Z.min 1 wmh). unfold new_array at 1. destruct (Z.ltb_spec mw 0) as [L|L]; [reflexivity|]. cbn [bind].
  destruct (for_ 0 _ _ (samples sc)) as [smp|]; [|reflexivity]. cbn [bind]. destruct (qsort smp _) as [smp'|]; [|reflexivity]. cbn [bind].
  destruct (median_calc None smp' _) as [md|]; [|reflexivity]. cbn [bind]. destruct (median_dev_calc None smp' _ md) as [mdd|]; [|reflexivity]. cbn [bind].
  destruct (wr _ _ md) as [hist|]; [|reflexivity]. cbn [bind].
  match goal with |- context [for_ 0 mw ?f ?m] => destruct (for_ 0 mw f m) as [ma|] eqn:E; [|reflexivity] end. cbn [bind].
  apply shape_for_wr in E. 2:{ intros i x y H. destruct (rd hist _); [|discriminate]. cbn [bind] in H. exact (wr_shape _ _ _ _ H). }
  cbn [shape] in E. destruct (qsort ma mw) as [ma'|] eqn:Q; [|reflexivity]. cbn [bind].
  assert (S' : shape ma' = [mw]). { unfold qsort in Q. destruct (_ && _); [|discriminate]. injection Q as <-. cbn [shape]. exact E. }
  unfold median_calc at 1, rd_or, rd. rewrite S'. assert (mw = 0 \/ mw = 1) as [M|M] by lia; rewrite M; reflexivity.
Qed.

Lemma flagger_out sched flags : 1 <= nt -> 1 <= np -> sched <> [] -> flagger mag None vis alpha thr_mag thr_var thr_broad step window wmh nt nb nc np sched flags = None.
Proof.
  intros Ht Hp Hs. unfold flagger. destruct (new_scratch step nt nc) as [sc|]; [|reflexivity]. cbn [bind].
  destruct sched as [|[k b] l]; [congruence|]. unfold flag_schedule. cbn [fold_left bind].
  assert (X : forall x, flag_baseline mag None vis alpha thr_mag thr_var thr_broad step window wmh nt nb nc np b x = None).
  { intro x. destruct (flag_baseline _ _ _ _ _ _ _ _ _ _ _ _ _ _ _ x) eqn:E; [|reflexivity]. exfalso. unfold flag_baseline in E.
    apply for_some_at with (i := 0) in E; [|lia]. destruct E as (a & a' & E). apply for_some_at with (i := 0) in E; [|lia].
    destruct E as (c & c' & E). rewrite flag_time_out in E. discriminate. }
  rewrite X. cbn [bind].
  match goal with |- context [fold_left ?f l None] => assert (Y : fold_left f l None = None) end.
  { clear. induction l as [|[k b] l IH]; [reflexivity|]. cbn [fold_left bind]. exact IH. }
  rewrite Y. reflexivity.
Qed.
End Out.
