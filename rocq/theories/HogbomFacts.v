(** Proofs about Hogbom CLEAN. *)
From Verif Require Import Base BaseFacts Sum CRing Hogbom HogbomSpec.
Open Scope Z_scope.

Lemma Qcltb_spec a b : reflect (a < b)%Qc (Qcltb a b).
Proof. unfold Qcltb. destruct (Qclt_le_dec a b); constructor; auto. now apply Qcle_not_lt. Qed.
Lemma Qcle_trans' a b c : (a <= b -> b <= c -> a <= c)%Qc. Proof. apply Qcle_trans. Qed.

Lemma find_max_lemma size a N : shape a = [N] -> 0 < size -> size <= N ->
  exists k, find_max size a = Some (elem a [k], k) /\ first_peak size a k.
Proof.
  intros S H0 H1. unfold find_max. rewrite rd_some by (rewrite S; apply in_shape_1; lia). cbn [bind].
  destruct (for_inv (fun i st => fst st = elem a [snd st] /\ 0 <= snd st /\ (snd st < i \/ snd st = 0) /\
     (forall j, 0 <= j < i -> (elem a [j] <= elem a [snd st])%Qc) /\
     (forall j, 0 <= j < snd st -> (elem a [j] < elem a [snd st])%Qc)) 0 size
     (fun i st => let* r := rd a [i] in Some (if Qcltb (fst st) r then (r, i) else st)) (elem a [0], 0)) as ([h k] & E & P); [lia| | |].
  - cbn [fst snd]. repeat split; try lia; try (intros; lia).
  - intros i [h k] Hi (A & B & C & D & F). cbn [fst snd] in *. subst h.
    rewrite rd_some by (rewrite S; apply in_shape_1; lia). cbn [bind].
    destruct (Qcltb_spec (elem a [k]) (elem a [i])) as [L|L]; eexists; (split; [reflexivity|]); cbn [fst snd].
    + split; [reflexivity|]. split; [lia|]. split; [left; lia|]. split.
      * intros j Hj. destruct (Z.eq_dec j i) as [->|N']; [apply Qcle_refl|].
        apply Qclt_le_weak. apply Qcle_lt_trans with (elem a [k]); [apply D; lia|exact L].
      * intros j Hj. apply Qcle_lt_trans with (elem a [k]); [apply D; lia|exact L].
    + split; [reflexivity|]. split; [lia|]. split; [lia|]. split; [|exact F].
      intros j Hj. destruct (Z.eq_dec j i) as [->|N']; [now apply Qcnot_lt_le|]. apply D. lia.
  - cbn [fst snd] in P. destruct P as (-> & B & C & D & F). exists k. split; [exact E|].
    split; [destruct C as [C|C]; lia|]. split; [exact D|exact F].
Qed.

Lemma flat_inj n i j i' j' : 0 <= j < n -> 0 <= j' < n -> n * i + j = n * i' + j' -> i = i' /\ j = j'.
Proof.
  intros Hj Hj' E. assert (i = i').
  { destruct (Z.lt_trichotomy i i') as [L|[L|L]]; [|exact L|]; exfalso.
    - assert (n * i + n <= n * i') by nia. lia.
    - assert (n * i' + n <= n * i) by nia. lia. }
  subst i'. lia.
Qed.
Lemma flat_range n i j : 0 <= i < n -> 0 <= j < n -> 0 <= n * i + j < n * n.
Proof. intros. nia. Qed.
Lemma unflat n k : 0 < n -> 0 <= k < n * n -> exists i j, 0 <= i < n /\ 0 <= j < n /\ k = n * i + j /\ cdiv k n = i /\ cmod k n = j.
Proof.
  intros Hn Hk. exists (k / n), (k mod n). pose proof (Z.mod_pos_bound k n Hn). pose proof (Z.div_mod k n ltac:(lia)).
  repeat split; try lia.
  - apply Z.div_pos; lia.
  - apply Z.div_lt_upper_bound; lia.
  - unfold cdiv. apply Z.quot_div_nonneg; lia.
  - unfold cmod. apply Z.rem_mod_nonneg; lia.
Qed.

Lemma subtract_lemma n psf v x y res : shape res = [n * n] -> shape psf = [2 * n * (2 * n)] -> 0 <= n -> 0 <= x < n -> 0 <= y < n ->
  exists res', subtract n (2 * n) psf v x y res = Some res' /\ shape res' = [n * n] /\
    forall i j, 0 <= i < n -> 0 <= j < n -> elem res' [n * i + j] =
      (elem res [(n * i + j)%Z] - v * elem psf [(2 * n * (n - x + i) + (n - y + j))%Z])%Qc.
Proof.
  intros S1 S2 Hn Hx Hy. unfold subtract.
  pose (D := fun i j => (v * elem psf [(2 * n * (n - x + i) + (n - y + j))%Z])%Qc).
  match goal with |- context [for_ 0 n ?b res] => destruct (for_inv (fun k st => shape st = [n * n] /\
    forall i j, 0 <= i < n -> 0 <= j < n -> elem st [n * i + j] = if i <? k then (elem res [(n * i + j)%Z] - D i j)%Qc else elem res [n * i + j])
    0 n b res) as (res' & E & S' & P) end; [lia| | |].
  - split; [exact S1|]. intros i j Hi Hj. replace (i <? 0) with false by lia. reflexivity.
  - intros k st Hk (Ss & P).
    match goal with |- context [for_ 0 n ?b st] => destruct (for_inv (fun m s2 => shape s2 = [n * n] /\
      forall i j, 0 <= i < n -> 0 <= j < n -> elem s2 [n * i + j] =
        if (i <? k) || ((i =? k) && (j <? m)) then (elem res [(n * i + j)%Z] - D i j)%Qc else elem res [n * i + j])
      0 n b st) as (s' & E & S' & P') end; [lia| | |].
    + split; [exact Ss|]. intros i j Hi Hj. rewrite P by auto. replace ((i <? k) || ((i =? k) && (j <? 0))) with (i <? k) by lia. reflexivity.
    + intros m s2 Hm (S2' & P2). cbv beta.
      pose proof (flat_range n k m Hk Hm) as FR.
      rewrite rd_some by (rewrite S2'; apply in_shape_1; lia). cbn [bind].
      rewrite (rd_some psf) by (rewrite S2; apply in_shape_1; nia). cbn [bind].
      rewrite wr_some by (rewrite S2'; apply in_shape_1; lia).
      eexists. split; [reflexivity|]. split; [exact S2'|]. intros i j Hi Hj.
      destruct (Z.eq_dec i k) as [->|N1].
      * destruct (Z.eq_dec j m) as [->|N2].
        -- rewrite elem_upd_same. rewrite P2 by auto. replace ((k <? k) || ((k =? k) && (m <? m))) with false by lia.
           replace ((k <? k) || ((k =? k) && (m <? m + 1))) with true by lia. reflexivity.
        -- rewrite elem_upd_other by (intro Q; injection Q as Q; apply N2; lia). rewrite P2 by auto.
           replace ((k <? k) || ((k =? k) && (j <? m + 1))) with ((k <? k) || ((k =? k) && (j <? m))) by lia. reflexivity.
      * rewrite elem_upd_other by (intro Q; injection Q as Q; apply flat_inj in Q; try lia). rewrite P2 by auto.
        replace ((i <? k) || ((i =? k) && (j <? m + 1))) with ((i <? k) || ((i =? k) && (j <? m))) by lia. reflexivity.
    + exists s'. split; [exact E|]. split; [exact S'|]. intros i j Hi Hj. rewrite P' by auto.
      replace (i <? k + 1) with ((i <? k) || ((i =? k) && (j <? n))) by lia. reflexivity.
  - exists res'. split; [exact E|]. split; [exact S'|]. intros i j Hi Hj. rewrite P by auto.
    replace (i <? n) with true by lia. reflexivity.
Qed.

Lemma clean_lemma n psf gain threshold left : shape psf = [2 * n * (2 * n)] -> 0 < n ->
  forall comp res, shape comp = [n * n] -> shape res = [n * n] ->
  exists comp' res' k, clean_loop left n (2 * n) psf gain threshold (comp, res) = Some (comp', res') /\
    shape comp' = [n * n] /\ shape res' = [n * n] /\
    cycles n psf gain threshold k (comp, res) (comp', res') /\ (k <= left)%nat /\
    ((k < left)%nat -> forall i, 0 <= i < n * n -> (elem res' [i] < threshold)%Qc).
Proof.
  intros Sp Hn. induction left as [|left IH]; intros comp res S1 S2.
  - exists comp, res, O. split; [reflexivity|]. repeat split; auto; try lia. constructor.
  - cbn [clean_loop].
    destruct (find_max_lemma (n * n) res (n * n) S2 ltac:(nia) ltac:(lia)) as (k & E & F). rewrite E. cbn [bind].
    pose proof F as (Hk & Fmax & Ffirst).
    rewrite rd_some by (rewrite S2; apply in_shape_1; lia). cbn [bind].
    destruct (Qcltb_spec (elem res [k]) threshold) as [L|L].
    + exists comp, res, O. split; [reflexivity|]. repeat split; auto; try lia; [constructor|].
      intros _ i Hi. apply Qcle_lt_trans with (elem res [k]); auto.
    + destruct (unflat n k Hn Hk) as (x & y & Hx & Hy & Ek & Ex & Ey). rewrite Ex, Ey.
      rewrite rd_some by (rewrite S1; apply in_shape_1; lia). cbn [bind].
      rewrite wr_some by (rewrite S1; apply in_shape_1; lia). cbn [bind].
      destruct (subtract_lemma n psf (gain * elem res [k])%Qc x y res S2 Sp ltac:(lia) Hx Hy) as (res1 & E1 & S3 & P1).
      rewrite E1. cbn [bind]. set (comp1 := upd comp [k] (elem comp [k] + gain * elem res [k])%Qc).
      destruct (IH comp1 res1 S1 S3) as (comp' & res' & m & E2 & A & B & C & D & G).
      exists comp', res', (S m). split; [exact E2|]. split; [exact A|]. split; [exact B|]. split; [|split; [lia|intro; apply G; lia]].
      apply cycles_S with (comp1, res1); [|exact C].
      exists x, y. split; [exact Hx|]. split; [exact Hy|]. cbn [fst snd]. rewrite <- Ek. split; [exact F|]. split; [now apply Qcnot_lt_le|].
      split.
      * intros j Hj. destruct (Z.eqb_spec j k) as [->|N].
        -- unfold comp1. now rewrite elem_upd_same.
        -- unfold comp1. rewrite elem_upd_other by congruence. ring.
      * exact P1.
Qed.

(** *** The residual stays dirty - comp * psf *)
Lemma shift_consistent n psf dirty v x y (s s' : nd Qc * nd Qc) : 0 < n -> 0 <= x < n -> 0 <= y < n ->
  (forall k, 0 <= k < n * n -> elem (fst s') [k] = (elem (fst s) [k] + (if (k =? n * x + y)%Z then v else 0))%Qc) ->
  (forall i j, 0 <= i < n -> 0 <= j < n -> elem (snd s') [n * i + j] = (elem (snd s) [(n * i + j)%Z] - v * elem psf [(2 * n * (n - x + i) + (n - y + j))%Z])%Qc) ->
  consistent n psf dirty s -> consistent n psf dirty s'.
Proof.
  intros Hn Hx Hy PC PR C i j Hi Hj. rewrite PR by auto. rewrite C by auto.
  assert (E : convolved n (fst s') psf i j =
    (convolved n (fst s) psf i j + v * elem psf [(2 * n * (n - x + i) + (n - y + j))%Z])%Qc).
  { unfold convolved.
    transitivity (sum Qcplus 0%Qc 0 n (fun x' => sum Qcplus 0%Qc 0 n (fun y' =>
       (elem (fst s) [(n * x' + y')%Z] * elem psf [(2 * n * (n - x' + i) + (n - y' + j))%Z] +
        (if (n * x' + y' =? n * x + y)%Z then v * elem psf [(2 * n * (n - x' + i) + (n - y' + j))%Z] else 0))%Qc))).
    - apply sum_ext. intros x' Hx'. apply sum_ext. intros y' Hy'. rewrite PC by (apply flat_range; lia).
      destruct (n * x' + y' =? n * x + y); ring.
    - transitivity (sum Qcplus 0%Qc 0 n (fun x' => (sum Qcplus 0%Qc 0 n (fun y' => elem (fst s) [(n * x' + y')%Z] * elem psf [(2 * n * (n - x' + i) + (n - y' + j))%Z]) +
         sum Qcplus 0%Qc 0 n (fun y' => if (n * x' + y' =? n * x + y)%Z then v * elem psf [(2 * n * (n - x' + i) + (n - y' + j))%Z] else 0))%Qc)).
      + apply sum_ext. intros x' Hx'. apply (rsum_add (A := Qc_ring)).
      + rewrite (rsum_add (A := Qc_ring)). cbn [radd Qc_ring]. f_equal.
        rewrite (rsum_one (A := Qc_ring) 0 n x).
        * rewrite (rsum_one (A := Qc_ring) 0 n y).
          -- now rewrite Z.eqb_refl.
          -- lia.
          -- intros y' Hy' Ny. destruct (Z.eqb_spec (n * x + y') (n * x + y)) as [Q|Q]; [lia|reflexivity].
        * lia.
        * intros x' Hx' Nx. apply (rsum_none (A := Qc_ring)). intros y' Hy'.
          destruct (Z.eqb_spec (n * x' + y') (n * x + y)) as [Q|Q]; [|reflexivity]. apply flat_inj in Q; lia. }
  rewrite E. ring.
Qed.

Lemma minor_consistent n psf dirty gain threshold s s' : 0 < n ->
  consistent n psf dirty s -> minor_cycle n psf gain threshold s s' -> consistent n psf dirty s'.
Proof.
  intros Hn C (x & y & Hx & Hy & F & T & PC & PR). cbv zeta in *. eapply (shift_consistent n psf dirty (gain * elem (snd s) [(n * x + y)%Z])%Qc x y s s'); eauto.
Qed.

Lemma cycles_consistent n psf dirty gain threshold k s s' : 0 < n -> cycles n psf gain threshold k s s' ->
  consistent n psf dirty s -> consistent n psf dirty s'.
Proof. intros Hn C. induction C; auto. intro H0. apply IHC. eapply minor_consistent; eauto. Qed.

Lemma zero_consistent n psf (dirty res : nd Qc) : (forall i, 0 <= i < n * n -> elem res [i] = elem dirty [i]) ->
  consistent n psf dirty (mk_nd [n * n] (fun _ => 0%Qc), res).
Proof.
  intros H i j Hi Hj. cbn [fst snd]. rewrite H by now apply flat_range.
  replace (convolved n (mk_nd [n * n] (fun _ => 0%Qc)) psf i j) with 0%Qc; [ring|].
  unfold convolved. symmetry. apply (rsum_none (A := Qc_ring)). intros x Hx. apply (rsum_none (A := Qc_ring)). intros y Hy.
  cbn [elem r0 Qc_ring]. apply Qcmult_0_l.
Qed.

Lemma copy_lemma N n (dirty : nd Qc) (blank : nd Qc) M : shape dirty = [M] -> shape blank = [N] -> 0 <= n -> n <= N -> n <= M ->
  exists r, for_ 0 n (fun i r => let* x := rd dirty [i] in wr r [i] x) blank = Some r /\ shape r = [N] /\
    forall i, 0 <= i < n -> elem r [i] = elem dirty [i].
Proof.
  intros S1 S2 Hn H1 H2.
  destruct (for_inv (fun k r => shape r = [N] /\ forall i, 0 <= i < k -> elem r [i] = elem dirty [i]) 0 n
    (fun i r => let* x := rd dirty [i] in wr r [i] x) blank) as (r & E & A & B); auto.
  - split; [exact S2|]. intros; lia.
  - intros i r Hi (A & B). rewrite rd_some by (rewrite S1; apply in_shape_1; lia). cbn [bind].
    rewrite wr_some by (rewrite A; apply in_shape_1; lia). eexists. split; [reflexivity|]. split; [exact A|].
    intros j Hj. destruct (Z.eq_dec j i) as [->|N']; [now rewrite elem_upd_same|]. rewrite elem_upd_other by congruence. apply B. lia.
  - exists r. auto.
Qed.

Lemma hogbom_lemma n cb1 mo sk dirty psf gain threshold limit :
  0 < n -> 1 <= limit -> (0 < gain)%Qc -> nth0 cb1 0 = 4 -> nth0 mo 0 = n -> nth0 sk 0 = n ->
  let psf_a := mk_nd [2 * n * (2 * n)] (fun idx => psf (nth0 idx 0)) in
  let dirty_a := mk_nd [n * n] (fun idx => dirty (nth0 idx 0)) in
  exists comp res k, hogbom [n; n] [2 * n; 2 * n] cb1 mo [n; n] sk dirty psf gain threshold limit = Some (SUCCESS, (comp, res)) /\
    (exists res0, (forall i, 0 <= i < n * n -> elem res0 [i] = dirty i) /\
      cycles n psf_a gain threshold k (mk_nd [n * n] (fun _ => 0%Qc), res0) (comp, res)) /\
    Z.of_nat k <= limit /\
    (Z.of_nat k < limit -> forall i, 0 <= i < n * n -> (elem res [i] < threshold)%Qc) /\
    consistent n psf_a dirty_a (comp, res).
Proof.
  intros Hn Hl Hg C4 Cm Cs psf_a dirty_a. unfold hogbom, hogbom_checks. rewrite C4, Cm, Cs.
  cbn [nth0 nth size_of fold_right]. unfold nth0. cbn [nth]. rewrite !Z.eqb_refl. cbn [negb].
  replace (2 * n =? n * 2) with true by lia. replace (limit <? 1) with false by lia. cbn [negb].
  destruct (Qcltb_spec 0 gain) as [_|N]; [|contradiction]. cbn [failed].
  rewrite !Z.mul_1_r.
  destruct (copy_lemma (n * n) (n * n) dirty_a (mk_nd [n * n] (fun _ => 0%Qc)) (n * n)) as (res0 & E0 & S0 & P0); try reflexivity; try nia.
  unfold dirty_a, nth0 in E0. rewrite E0. cbn [bind].
  destruct (clean_lemma n psf_a gain threshold (Z.to_nat limit) eq_refl Hn (mk_nd [n * n] (fun _ => 0%Qc)) res0 eq_refl S0)
    as (comp & res & k & E & A & B & C & D & G).
  exists comp, res, k. unfold psf_a, nth0 in E. rewrite E. cbn [bind]. split; [reflexivity|]. split.
  - exists res0. split; [|exact C]. intros i Hi. now rewrite P0.
  - split; [lia|]. split; [intro; apply G; lia|].
    eapply cycles_consistent; eauto. apply zero_consistent. exact P0.
Qed.
