(** Proofs about sub-grid operations. *)
From Verif Require Import Base BaseFacts Sum CRing Loops Subgrid SubgridSpec.

Lemma while_up fuel g x : 0 < g -> (Z.to_nat (- x) <= fuel)%nat ->
  exists y, while_ fuel (fun i => i <? 0) (fun i => i + g) x = Some y /\ y mod g = x mod g /\
    0 <= y /\ (0 <= x -> y = x) /\ (x < 0 -> y < g).
Proof.
  intros Hg. revert x. induction fuel as [|k IH]; intros x Hf; cbn [while_].
  - destruct (Z.ltb_spec x 0) as [L|L]; [lia|]. exists x. repeat split; auto; lia.
  - destruct (Z.ltb_spec x 0) as [L|L].
    + destruct (IH (x + g)) as (y & E & M & P & Q & R); [lia|]. exists y. split; [exact E|]. split.
      * rewrite M. replace (x + g) with (x + 1 * g) by lia. apply Z.mod_add. lia.
      * split; [exact P|]. split; [lia|]. intros _. destruct (Z.le_gt_cases 0 (x + g)); [rewrite Q; lia|auto].
    + exists x. repeat split; auto; lia.
Qed.

Lemma while_down fuel g x : 0 < g -> 0 <= x -> (Z.to_nat (x - g + 1) <= fuel)%nat ->
  while_ fuel (fun i => g <=? i) (fun i => i - g) x = Some (x mod g).
Proof.
  intros Hg. revert x. induction fuel as [|k IH]; intros x Hx Hf; cbn [while_].
  - destruct (Z.leb_spec g x) as [L|L]; [lia|]. now rewrite Z.mod_small by lia.
  - destruct (Z.leb_spec g x) as [L|L].
    + rewrite IH by lia. replace (x mod g) with ((x - g + 1 * g) mod g) by (f_equal; lia). now rewrite Z.mod_add by lia.
    + now rewrite Z.mod_small by lia.
Qed.

Lemma wrap_lemma g x : 0 < g -> wrap g x = Some (x mod g).
Proof.
  intro Hg. unfold wrap. destruct (while_up (S (Z.to_nat (Z.abs x))) g x Hg) as (y & E & M & P & Q & R); [lia|].
  rewrite E. cbn [bind]. destruct (Z.le_gt_cases 0 x) as [L|L].
  - rewrite (Q L) in *. rewrite while_down by lia. reflexivity.
  - specialize (R L). rewrite while_down by lia. now rewrite M.
Qed.

(** A grid without pixels: the loop does not end. *)
Lemma wrap_zero x : x <> 0 -> wrap 0 x = None.
Proof.
  intro Hx. unfold wrap.
  assert (U : forall k, x < 0 -> while_ k (fun i => i <? 0) (fun i => i + 0) x = None).
  { induction k as [|k IH]; intro L; cbn [while_]; replace (x <? 0) with true by lia; [reflexivity|].
    replace (x + 0) with x by lia. auto. }
  assert (D : forall k, 0 < x -> while_ k (fun i => 0 <=? i) (fun i => i - 0) x = None).
  { induction k as [|k IH]; intro L; cbn [while_]; replace (0 <=? x) with true by lia; [reflexivity|].
    replace (x - 0) with x by lia. auto. }
  destruct (Z.lt_trichotomy x 0) as [L|[L|L]]; [|lia|].
  - now rewrite U.
  - cbn [while_]. replace (x <? 0) with false by lia. cbn [bind].
    change (while_ (S (Z.to_nat (Z.abs x))) (fun i => 0 <=? i) (fun i => i - 0) x = None). now apply D.
Qed.

Lemma cdiv2 x : 0 <= x -> cdiv x 2 = x / 2.
Proof. intro H. unfold cdiv. apply Z.quot_div_nonneg; lia. Qed.

Lemma pixel_range g s off i : 0 < g -> 0 <= pixel g s off i < g.
Proof. intro H. unfold pixel. apply Z.mod_pos_bound. lia. Qed.

Lemma pixel_inj g s off i j : 0 < g -> s <= g -> 0 <= i < s -> 0 <= j < s ->
  pixel g s off i = pixel g s off j -> i = j.
Proof.
  intros Hg Hs Hi Hj E. unfold pixel in E.
  set (k := g / 2 - s / 2 + off) in *.
  replace (i + g / 2 - s / 2 + off) with (i + k) in E by lia.
  replace (j + g / 2 - s / 2 + off) with (j + k) in E by lia.
  assert (D : (i - j) mod g = 0).
  { replace (i - j) with ((i + k) - (j + k)) by lia. rewrite Zminus_mod, E, Z.sub_diag. apply Z.mod_0_l. lia. }
  apply Z.mod_divide in D; [|lia]. destruct D as [q Hq].
  assert (q = 0) by nia. lia.
Qed.

Section Facts.
  Context {A : cring}.
  Add Ring Aring2 : (rth A).

  Definition hit (b : bool) (x : A) : A := if b then x else r0.
  Definition added (p q : Z -> Z) (sub : nd A) (factor : A) n m (idx : list Z) : A :=
    rsum 0 n (fun i => rsum 0 m (fun j => hit (idx_eqb [p i; q j] idx) (elem sub [i; j] * factor)%cr)).

  Lemma add_lemma (grid sub : nd A) gu gv su sv ou ov factor :
    shape grid = [gu; gv] -> shape sub = [su; sv] -> 0 < gu -> 0 < gv -> 0 <= su -> 0 <= sv ->
    exists g', subgrid_add grid ou ov sub factor = Some g' /\ shape g' = [gu; gv] /\
      forall idx, elem g' idx =
        (elem grid idx + added (pixel gu su (- ou)) (pixel gv sv (- ov)) sub factor su sv idx)%cr.
  Proof.
    intros S1 S2 G1 G2 U1 U2. unfold subgrid_add, dim. rewrite S1, S2. cbn [nth].
    apply (for_adds [gu; gv]); [lia|exact S1|]. intros i st Hi Ss.
    rewrite wrap_lemma by lia. cbn [bind].
    apply (for_adds [gu; gv]); [lia|exact Ss|]. intros j st2 Hj Ss2.
    rewrite wrap_lemma by lia. cbn [bind]. rewrite !cdiv2 by lia.
    replace ((i + gu / 2 - su / 2 - ou) mod gu) with (pixel gu su (- ou) i) by (unfold pixel; f_equal; lia).
    replace ((j + gv / 2 - sv / 2 - ov) mod gv) with (pixel gv sv (- ov) j) by (unfold pixel; f_equal; lia).
    pose proof (pixel_range gu su (- ou) i G1). pose proof (pixel_range gv sv (- ov) j G2).
    rewrite rd_some by (rewrite Ss2; apply in_shape_2; lia). cbn [bind].
    rewrite rd_some by (rewrite S2; apply in_shape_2; lia). cbn [bind].
    rewrite wr_some by (rewrite Ss2; apply in_shape_2; lia).
    eexists. split; [reflexivity|]. split; [exact Ss2|]. intro idx. cbn [upd elem]. unfold hit.
    destruct (idx_eqb_spec [pixel gu su (- ou) i; pixel gv sv (- ov) j] idx) as [<-|]; [reflexivity|ring].
  Qed.

  Lemma cut_lemma (grid sub : nd A) gu gv su sv ou ov :
    shape grid = [gu; gv] -> shape sub = [su; sv] -> 0 < gu -> 0 < gv -> 0 <= su -> 0 <= sv ->
    exists s', subgrid_cut_out grid ou ov sub = Some s' /\ shape s' = [su; sv] /\
      forall i j, 0 <= i < su -> 0 <= j < sv -> elem s' [i; j] = elem grid [pixel gu su ou i; pixel gv sv ov j].
  Proof.
    intros S1 S2 G1 G2 U1 U2. unfold subgrid_cut_out, dim. rewrite S1, S2. cbn [nth].
    destruct (for_set2 su sv (fun i j _ => elem grid [pixel gu su ou i; pixel gv sv ov j])
      (fun i j s => let* j1 := wrap gv (j + cdiv gv 2 - cdiv sv 2 + ov) in
                    let* v := rd grid [pixel gu su ou i; j1] in wr s [i; j] v) 0 su 0 sv sub) as (s' & E & S' & P & _);
      auto; try lia.
    - intros i j st Hi Hj Ss. rewrite wrap_lemma by lia. cbn [bind]. rewrite !cdiv2 by lia.
      change ((j + gv / 2 - sv / 2 + ov) mod gv) with (pixel gv sv ov j).
      pose proof (pixel_range gu su ou i G1). pose proof (pixel_range gv sv ov j G2).
      rewrite rd_some by (rewrite S1; apply in_shape_2; lia). cbn [bind].
      now rewrite wr_some by (rewrite Ss; apply in_shape_2; lia).
    - exists s'. split; [|split; [exact S'|exact P]]. rewrite <- E. apply for_ext.
      intros i st Hi. rewrite wrap_lemma by lia. cbn [bind]. rewrite (cdiv2 gu), (cdiv2 su) by lia. reflexivity.
  Qed.

  (** What landed at a pixel outside the window: nothing. *)
  Lemma added_none p q (sub : nd A) f n m idx :
    (forall i j, 0 <= i < n -> 0 <= j < m -> idx <> [p i; q j]) -> added p q sub f n m idx = r0.
  Proof.
    intro H. unfold added. apply rsum_none. intros i Hi. apply rsum_none. intros j Hj. unfold hit.
    rewrite idx_eqb_neq; [reflexivity|]. intro K. apply (H i j Hi Hj). congruence.
  Qed.

  Lemma added_one p q (sub : nd A) f n m i j : 0 <= i < n -> 0 <= j < m ->
    (forall i', 0 <= i' < n -> p i' = p i -> i' = i) -> (forall j', 0 <= j' < m -> q j' = q j -> j' = j) ->
    added p q sub f n m [p i; q j] = (elem sub [i; j] * f)%cr.
  Proof.
    intros Hi Hj IP IQ. unfold added. rewrite (rsum_one 0 n i); auto.
    - rewrite (rsum_one 0 m j); auto.
      + unfold hit. now rewrite idx_eqb_refl.
      + intros j' Hj' N. unfold hit. rewrite idx_eqb_neq; [reflexivity|]. intro K. injection K as K. apply N, IQ; auto.
    - intros i' Hi' N. apply rsum_none. intros j' Hj'. unfold hit. rewrite idx_eqb_neq; [reflexivity|].
      intro K. injection K as K1 K2. apply N, IP; auto.
  Qed.

  Lemma adjoint_lemma (grid sub : nd A) gu gv su sv ou ov c a :
    shape grid = [gu; gv] -> shape sub = [su; sv] -> 0 < gu -> 0 < gv -> 0 <= su -> 0 <= sv ->
    subgrid_cut_out grid ou ov sub = Some c ->
    subgrid_add (zeros [gu; gv]) (- ou) (- ov) sub r1 = Some a ->
    dot su sv c sub = dot gu gv grid a.
  Proof.
    intros S1 S2 G1 G2 U1 U2 EC EA.
    destruct (cut_lemma grid sub gu gv su sv ou ov) as (c' & E1 & _ & P1); auto. rewrite EC in E1. injection E1 as <-.
    destruct (add_lemma (zeros [gu; gv]) sub gu gv su sv (- ou) (- ov) r1) as (a' & E2 & _ & P2); auto.
    rewrite EA in E2. injection E2 as <-. rewrite !Z.opp_involutive in P2.
    set (p := pixel gu su ou) in *. set (q := pixel gv sv ov) in *.
    unfold dot.
    transitivity (rsum 0 su (fun i => rsum 0 sv (fun j => rsum 0 gu (fun x => rsum 0 gv (fun y =>
      hit (idx_eqb [p i; q j] [x; y]) (elem grid [x; y] * elem sub [i; j])%cr))))).
    { apply rsum_ext. intros i Hi. apply rsum_ext. intros j Hj. rewrite P1 by auto. fold p q.
      pose proof (pixel_range gu su ou i G1) as Rp. pose proof (pixel_range gv sv ov j G2) as Rq. fold p in Rp. fold q in Rq.
      rewrite (rsum_one 0 gu (p i)); auto.
      - rewrite (rsum_one 0 gv (q j)); auto.
        + unfold hit. now rewrite idx_eqb_refl.
        + intros y Hy N. unfold hit. rewrite idx_eqb_neq; [reflexivity|congruence].
      - intros x Hx N. apply rsum_none. intros y Hy. unfold hit. rewrite idx_eqb_neq; [reflexivity|congruence]. }
    transitivity (rsum 0 gu (fun x => rsum 0 gv (fun y => rsum 0 su (fun i => rsum 0 sv (fun j =>
      hit (idx_eqb [p i; q j] [x; y]) (elem grid [x; y] * elem sub [i; j])%cr))))).
    { transitivity (rsum 0 su (fun i => rsum 0 gu (fun x => rsum 0 sv (fun j => rsum 0 gv (fun y =>
      hit (idx_eqb [p i; q j] [x; y]) (elem grid [x; y] * elem sub [i; j])%cr))))).
      { apply rsum_ext. intros i Hi. apply rsum_swap. }
      rewrite rsum_swap. apply rsum_ext. intros x Hx.
      transitivity (rsum 0 su (fun i => rsum 0 gv (fun y => rsum 0 sv (fun j =>
        hit (idx_eqb [p i; q j] [x; y]) (elem grid [x; y] * elem sub [i; j])%cr)))).
      { apply rsum_ext. intros i Hi. apply rsum_swap. }
      apply rsum_swap. }
    apply rsum_ext. intros x Hx. apply rsum_ext. intros y Hy. rewrite P2. unfold added, zeros. cbn [elem].
    transitivity (elem grid [x; y] * rsum 0 su (fun i => rsum 0 sv (fun j => hit (idx_eqb [p i; q j] [x; y]) (elem sub [i; j] * r1))))%cr.
    2:{ ring. }
    rewrite rsum_mul_l. apply rsum_ext. intros i Hi. rewrite rsum_mul_l. apply rsum_ext. intros j Hj.
    unfold hit. destruct idx_eqb; ring.
  Qed.

  (** Cutting out what was added. *)
  Lemma roundtrip_lemma (grid sub out : nd A) gu gv su sv ou ov f :
    shape grid = [gu; gv] -> shape sub = [su; sv] -> shape out = [su; sv] ->
    0 <= su <= gu -> 0 <= sv <= gv -> 0 < gu -> 0 < gv ->
    exists g' b c, subgrid_add grid ou ov sub f = Some g' /\
      subgrid_cut_out grid (- ou) (- ov) out = Some b /\
      subgrid_cut_out g' (- ou) (- ov) out = Some c /\
      forall i j, 0 <= i < su -> 0 <= j < sv -> elem c [i; j] = (elem b [i; j] + elem sub [i; j] * f)%cr.
  Proof.
    intros S1 S2 S3 U1 U2 G1 G2.
    destruct (add_lemma grid sub gu gv su sv ou ov f) as (g' & E1 & T1 & P1); auto; try lia.
    destruct (cut_lemma grid out gu gv su sv (- ou) (- ov)) as (b & E2 & _ & P2); auto; try lia.
    destruct (cut_lemma g' out gu gv su sv (- ou) (- ov)) as (c & E3 & _ & P3); auto; try lia.
    exists g', b, c. repeat split; auto. intros i j Hi Hj. rewrite P3, P2, P1 by auto. f_equal.
    apply added_one; auto; intros k Hk E.
    - apply (pixel_inj gu su (- ou)); auto; lia.
    - apply (pixel_inj gv sv (- ov)); auto; lia.
  Qed.

  Lemma outside_lemma (grid sub : nd A) gu gv su sv ou ov f g' :
    shape grid = [gu; gv] -> shape sub = [su; sv] -> 0 < gu -> 0 < gv -> 0 <= su -> 0 <= sv ->
    subgrid_add grid ou ov sub f = Some g' ->
    forall x y, (forall i j, 0 <= i < su -> 0 <= j < sv -> ~ (x = pixel gu su (- ou) i /\ y = pixel gv sv (- ov) j)) ->
      elem g' [x; y] = elem grid [x; y].
  Proof.
    intros S1 S2 G1 G2 U1 U2 E x y H.
    destruct (add_lemma grid sub gu gv su sv ou ov f) as (g1 & E1 & T1 & P1); auto. rewrite E in E1. injection E1 as <-.
    rewrite P1, added_none; [ring|]. intros i j Hi Hj K. injection K as K1 K2. now apply (H i j Hi Hj).
  Qed.

  (** *** Shifting the stack *)
  Lemma shift_lemma (sg : nd A) w n :
    shape sg = [w; n; n] -> 0 <= w -> 0 <= n ->
    exists sg', shift_subgrids sg = Some sg' /\ shape sg' = [w; n; n] /\
      forall k j i, 0 <= k < w -> 0 <= j < n -> 0 <= i < n ->
        elem sg' [k; j; i] = elem sg [(if k =? w - 1 then k else k + 1); j; i].
  Proof.
    intros S Hw Hn. unfold shift_subgrids, dim. rewrite S. cbn [nth].
    destruct (Z.eq_dec w 0) as [->|W].
    { rewrite for_empty by lia. exists sg. split; [reflexivity|]. split; [exact S|]. intros; lia. }
    pose (V := fun idx => match idx with [a; b; c] => elem sg [a + 1; b; c] | _ => elem sg idx end).
    pose (own1 := fun k idx => match idx with [a; b; c] => (a =? k) && (0 <=? b) && (b <? n) && (0 <=? c) && (c <? n) | _ => false end).
    pose (own2 := fun k j idx => match idx with [a; b; c] => (a =? k) && (b =? j) && (0 <=? c) && (c <? n) | _ => false end).
    destruct (for_put [w; n; n] own1 V
       (fun k sg => for_ 0 n (fun j sg => for_ 0 n (fun i sg =>
          let* v := rd sg [k + 1; j; i] in wr sg [k; j; i] v) sg) sg) 0 (w - 1) sg) as (sg' & E & S' & P & Q);
      [lia|exact S| |].
    - intros k st Hk Ss F.
      destruct (for_put [w; n; n] (own2 k) V
         (fun j sg => for_ 0 n (fun i sg => let* v := rd sg [k + 1; j; i] in wr sg [k; j; i] v) sg) 0 n st)
         as (st' & E & S' & P' & Q'); [lia|exact Ss| |].
      + intros j s1 Hj Hs1 F1.
        destruct (for_put [w; n; n] (fun i idx => idx_eqb [k; j; i] idx) V
          (fun i sg => let* v := rd sg [k + 1; j; i] in wr sg [k; j; i] v) 0 n s1)
         as (s1' & E1 & S1' & P1' & Q1'); [lia|exact Hs1| |].
        * intros i s2 Hi Hs2 F2. rewrite rd_some by (rewrite Hs2; apply in_shape_3; lia). cbn [bind].
          rewrite wr_some by (rewrite Hs2; apply in_shape_3; lia). eexists. split; [reflexivity|].
          split; [exact Hs2|]. intro idx. cbn [upd elem].
          destruct (idx_eqb_spec [k; j; i] idx) as [<-|]; [|reflexivity].
          unfold V. rewrite F2, F1, F; [reflexivity| | |]; intros x Hx; unfold own1, own2.
          -- lia.
          -- lia.
          -- apply idx_eqb_neq. intro K. injection K as K1. lia.
        * exists s1'. split; [exact E1|]. split; [exact S1'|]. intro idx. destruct (own2 k j idx) eqn:O.
          -- unfold own2 in O. destruct idx as [|x [|y [|z [|]]]]; try discriminate.
             apply (P1' z); [lia|]. replace x with k by lia. replace y with j by lia. apply idx_eqb_refl.
          -- apply Q1'. intros i Hi. destruct (idx_eqb_spec [k; j; i] idx) as [<-|]; [|reflexivity]. unfold own2 in O. lia.
      + exists st'. split; [exact E|]. split; [exact S'|]. intro idx. destruct (own1 k idx) eqn:O.
        * unfold own1 in O. destruct idx as [|x [|y [|z [|]]]]; try discriminate.
          apply (P' y); [lia|]. unfold own2. lia.
        * apply Q'. intros j Hj. destruct (own2 k j idx) eqn:O2; [|reflexivity].
          unfold own1, own2 in *. destruct idx as [|x [|y [|z [|]]]]; try discriminate. lia.
    - exists sg'. split; [exact E|]. split; [exact S'|]. intros k j i Hk Hj Hi.
      destruct (Z.eqb_spec k (w - 1)) as [->|N].
      + apply Q. intros i' Hi'. unfold own1. lia.
      + rewrite (P k [k; j; i]); [reflexivity|lia|]. unfold own1. lia.
  Qed.
End Facts.
