(** Proofs about multi-scale CLEAN. *)
From Verif Require Import Base BaseFacts Sum CRing Hogbom HogbomSpec HogbomFacts MsClean MsCleanSpec.
Open Scope Z_scope.

(** Visiting the m x n elements at [base + n*i + j]. *)
Lemma for_flat {A} n m N base (T : Z -> Z -> A -> A) body (a : nd A) :
  0 <= n -> 0 <= m -> 0 <= base -> base + m * n <= N -> shape a = [N] ->
  (forall i j st, 0 <= i < m -> 0 <= j < n -> shape st = [N] ->
     body i j st = Some (upd st [base + n * i + j] (T i j (elem st [base + n * i + j])))) ->
  exists a', for_ 0 m (fun i => for_ 0 n (body i)) a = Some a' /\ shape a' = [N] /\
    (forall i j, 0 <= i < m -> 0 <= j < n -> elem a' [base + n * i + j] = T i j (elem a [base + n * i + j])) /\
    (forall k, k < base \/ base + m * n <= k -> elem a' [k] = elem a [k]).
Proof.
  intros Hn Hm Hb HN S B.
  pose (V := fun b k => if (base <=? k) && (k <? b) then T ((k - base) / n) ((k - base) mod n) (elem a [k]) else elem a [k]).
  match goal with |- context [for_ 0 m ?b a] => destruct (for_inv (fun i st => shape st = [N] /\
    forall k, elem st [k] = V (base + n * i) k) 0 m b a) as (a' & E & S' & P) end; [lia| | |].
  - split; [exact S|]. intro k. unfold V. replace ((base <=? k) && (k <? base + n * 0)) with false by lia. reflexivity.
  - intros i st Hi (Ss & P).
    destruct (for_inv (fun j st => shape st = [N] /\ forall k, elem st [k] = V (base + n * i + j) k) 0 n (body i) st)
      as (s' & E & S' & P'); [lia| | |].
    + split; [exact Ss|]. intro k. rewrite P. f_equal. lia.
    + intros j s2 Hj (S2 & P2). rewrite B by auto. eexists. split; [reflexivity|]. split; [exact S2|].
      intro k. destruct (Z.eq_dec k (base + n * i + j)) as [->|N1].
      * rewrite elem_upd_same, P2. unfold V at 1. replace ((base <=? base + n * i + j) && (base + n * i + j <? base + n * i + j)) with false by lia.
        unfold V. replace ((base <=? base + n * i + j) && (base + n * i + j <? base + n * i + (j + 1))) with true by nia.
        rewrite <- (Z.div_unique (base + n * i + j - base) n i j), <- (Z.mod_unique (base + n * i + j - base) n i j) by lia. reflexivity.
      * rewrite elem_upd_other by congruence. rewrite P2. unfold V.
        replace ((base <=? k) && (k <? base + n * i + (j + 1))) with ((base <=? k) && (k <? base + n * i + j)) by lia. reflexivity.
    + exists s'. split; [exact E|]. split; [exact S'|]. intro k. rewrite P'. f_equal. lia.
  - exists a'. split; [exact E|]. split; [exact S'|]. split.
    + intros i j Hi Hj. rewrite P. unfold V. replace ((base <=? base + n * i + j) && (base + n * i + j <? base + n * m)) with true by nia.
      rewrite <- (Z.div_unique (base + n * i + j - base) n i j), <- (Z.mod_unique (base + n * i + j - base) n i j) by lia. reflexivity.
    + intros k Hk. rewrite P. unfold V. replace ((base <=? k) && (k <? base + n * m)) with false by lia. reflexivity.
Qed.

Lemma ix3_range n ns s i j : 0 <= s < ns -> 0 <= i < n -> 0 <= j < n -> 0 <= n * (n * s + i) + j < ns * n * n.
Proof. intros. assert (0 <= n * s + i) by nia. assert (n * s + i < ns * n) by nia. nia. Qed.
Lemma ix4_range p ns s q i j : 0 <= s < ns -> 0 <= q < ns -> 0 <= i < p -> 0 <= j < p ->
  0 <= p * (p * (ns * s + q) + i) + j < ns * ns * p * p.
Proof. intros. assert (0 <= ns * s + q < ns * ns) by nia. apply ix3_range; lia. Qed.

(** *** Peak searches: a doubly nested maximum *)
Lemma max2_lemma n (f : Z -> Z -> Qc) (body : Z -> Z -> Qc * Z * Z -> option (Qc * Z * Z)) :
  0 < n ->
  (forall x y st, 0 <= x < n -> 0 <= y < n -> body x y st = Some (if Qcltb (fst (fst st)) (f x y) then (f x y, x, y) else st)) ->
  exists v x y, for_ 0 n (fun x => for_ 0 n (body x)) (0%Qc, 0, 0) = Some (v, x, y) /\ positive_peak n f v x y.
Proof.
  intros Hn B.
  pose (I := fun x y (st : Qc * Z * Z) => 0 <= snd (fst st) < n /\ 0 <= snd st < n /\ (0 <= fst (fst st))%Qc /\
    (forall i j, 0 <= i < n -> 0 <= j < n -> i < x \/ (i = x /\ j < y) -> (f i j <= fst (fst st))%Qc) /\
    (fst (fst st) = f (snd (fst st)) (snd st) \/ fst (fst st) = 0%Qc /\ snd (fst st) = 0 /\ snd st = 0)).
  destruct (for_inv (fun x st => I x 0 st) 0 n (fun x => for_ 0 n (body x)) (0%Qc, 0, 0)) as ([[v x] y] & E & P); [lia| | |].
  - unfold I. cbn [fst snd]. split; [lia|]. split; [lia|]. split; [apply Qcle_refl|]. split; [|right; repeat split; reflexivity].
    intros; exfalso; lia.
  - intros x st Hx Px. destruct (for_inv (fun y st => I x y st) 0 n (body x) st) as (st' & E & P'); [lia|exact Px| |].
    + intros y [[v a] b] Hy (A1 & A2 & A3 & A4 & A5). cbn [fst snd] in *. rewrite B by auto. cbn [fst snd].
      destruct (Qcltb_spec v (f x y)) as [L|L]; eexists; (split; [reflexivity|]); unfold I; cbn [fst snd].
      * split; [lia|]. split; [lia|]. split; [apply Qcle_trans with v; [auto|now apply Qclt_le_weak]|]. split; [|now left].
        intros i j Hi Hj O. destruct (Z.eq_dec i x) as [->|]; [destruct (Z.eq_dec j y) as [->|]|]; [apply Qcle_refl| |];
          (apply Qcle_trans with v; [apply A4; auto; lia|now apply Qclt_le_weak]).
      * split; [lia|]. split; [lia|]. split; [exact A3|]. split; [|exact A5].
        intros i j Hi Hj O. destruct (Z.eq_dec i x) as [->|]; [destruct (Z.eq_dec j y) as [->|]|]; [now apply Qcnot_lt_le| |];
          apply A4; auto; lia.
    + exists st'. split; [exact E|]. unfold I in *. destruct P' as (A1 & A2 & A3 & A4 & A5). repeat (split; auto).
      intros i j Hi Hj O. apply A4; auto. lia.
  - exists v, x, y. split; [exact E|]. destruct P as (A1 & A2 & A3 & A4 & A5). cbn [fst snd] in *.
    unfold positive_peak. repeat (split; auto; try lia). intros i j Hi Hj. apply A4; auto. lia.
Qed.

Lemma max2v_lemma n (f : Z -> Z -> Qc) (body : Z -> Z -> Qc -> option Qc) :
  0 <= n ->
  (forall x y st, 0 <= x < n -> 0 <= y < n -> body x y st = Some (if Qcltb st (f x y) then f x y else st)) ->
  exists v, for_ 0 n (fun x => for_ 0 n (body x)) 0%Qc = Some v /\ psf_peak n f v.
Proof.
  intros Hn B.
  pose (I := fun x y (st : Qc) => (0 <= st)%Qc /\
    (forall i j, 0 <= i < n -> 0 <= j < n -> i < x \/ (i = x /\ j < y) -> (f i j <= st)%Qc) /\
    (st = 0%Qc \/ exists i j, 0 <= i < n /\ 0 <= j < n /\ st = f i j)).
  destruct (for_inv (fun x st => I x 0 st) 0 n (fun x => for_ 0 n (body x)) 0%Qc) as (v & E & P); [lia| | |].
  - unfold I. split; [apply Qcle_refl|]. split; [|now left]. intros; exfalso; lia.
  - intros x st Hx Px. destruct (for_inv (fun y st => I x y st) 0 n (body x) st) as (st' & E & P'); [lia|exact Px| |].
    + intros y v Hy (A3 & A4 & A5). rewrite B by auto.
      destruct (Qcltb_spec v (f x y)) as [L|L]; eexists; (split; [reflexivity|]); unfold I.
      * split; [apply Qcle_trans with v; [auto|now apply Qclt_le_weak]|]. split; [|right; exists x, y; auto].
        intros i j Hi Hj O. destruct (Z.eq_dec i x) as [->|]; [destruct (Z.eq_dec j y) as [->|]|]; [apply Qcle_refl| |];
          (apply Qcle_trans with v; [apply A4; auto; lia|now apply Qclt_le_weak]).
      * split; [exact A3|]. split; [|exact A5].
        intros i j Hi Hj O. destruct (Z.eq_dec i x) as [->|]; [destruct (Z.eq_dec j y) as [->|]|]; [now apply Qcnot_lt_le| |];
          apply A4; auto; lia.
    + exists st'. split; [exact E|]. unfold I in *. destruct P' as (A3 & A4 & A5). repeat (split; auto).
      intros i j Hi Hj O. apply A4; auto. lia.
  - exists v. split; [exact E|]. destruct P as (A3 & A4 & A5). split; [exact A3|]. split; [|exact A5].
    intros i j Hi Hj. apply A4; auto. lia.
Qed.

Lemma scale_peak_lemma ns n sres i : shape sres = [ns * n * n] -> 0 < n -> 0 <= i < ns ->
  exists v x y, scale_peak n sres i = Some (v, x, y) /\ positive_peak n (img n sres i) v x y.
Proof.
  intros S Hn Hi. unfold scale_peak. apply max2_lemma; [exact Hn|]. intros x y st Hx Hy. cbv beta.
  unfold INDEX_3D. rewrite rd_some by (rewrite S; apply in_shape_1; now apply ix3_range). reflexivity.
Qed.

Lemma scale_peaks_lemma ns n sres : shape sres = [ns * n * n] -> 0 < n -> 0 <= ns ->
  exists pk, scale_peaks ns n sres = Some pk /\ shape pk = [ns] /\
    forall i, 0 <= i < ns -> positive_peak n (img n sres i) (fst (fst (elem pk [i]))) (snd (fst (elem pk [i]))) (snd (elem pk [i])).
Proof.
  intros S Hn Hs. unfold scale_peaks.
  match goal with |- context [for_ 0 ns ?b ?a] => destruct (for_inv (fun k pk => shape pk = [ns] /\
    forall i, 0 <= i < k -> positive_peak n (img n sres i) (fst (fst (elem pk [i]))) (snd (fst (elem pk [i]))) (snd (elem pk [i])))
    0 ns b a) as (pk & E & Sp & P) end; [lia| | |].
  - split; [reflexivity|]. intros; lia.
  - intros i pk Hi (Sp & P). destruct (scale_peak_lemma ns n sres i S Hn Hi) as (v & x & y & E & Q). rewrite E. cbn [bind].
    rewrite wr_some by (rewrite Sp; apply in_shape_1; lia). eexists. split; [reflexivity|]. split; [exact Sp|].
    intros k Hk. destruct (Z.eq_dec k i) as [->|N]; [now rewrite elem_upd_same|].
    rewrite elem_upd_other by congruence. apply P. lia.
  - exists pk. auto.
Qed.

Lemma coupling_lemma ns p spsf : shape spsf = [ns * ns * p * p] -> 0 <= p -> 0 <= ns ->
  exists cm, coupling ns p spsf = Some cm /\ shape cm = [ns * ns] /\
    forall s q, 0 <= s < ns -> 0 <= q < ns -> psf_peak p (img2 ns p spsf s q) (elem cm [ns * s + q]).
Proof.
  intros S Hp Hs. unfold coupling.
  match goal with |- context [for_ 0 ns ?b ?a] => destruct (for_inv (fun k cm => shape cm = [ns * ns] /\
    forall s q, 0 <= s < k -> 0 <= q < ns -> psf_peak p (img2 ns p spsf s q) (elem cm [ns * s + q]))
    0 ns b a) as (cm & E & Sc & P) end; [lia| | |].
  - split; [reflexivity|]. intros; lia.
  - intros s cm Hs' (Sc & P).
    match goal with |- context [for_ 0 ns ?b cm] => destruct (for_inv (fun m cm => shape cm = [ns * ns] /\
      forall s' q, (0 <= s' < s /\ 0 <= q < ns) \/ (s' = s /\ 0 <= q < m) -> psf_peak p (img2 ns p spsf s' q) (elem cm [ns * s' + q]))
      0 ns b cm) as (cm' & E & Sc' & P') end; [lia| | |].
    + split; [exact Sc|]. intros s' q [O|O]; [apply P; tauto|lia].
    + intros q c2 Hq (S2 & P2). cbv beta.
      destruct (max2v_lemma p (img2 ns p spsf s q)
        (fun x y m => let* v := rd spsf [INDEX_4D ns p p s q x y] in Some (if Qcltb m v then v else m))) as (v & Ev & Pv); [lia| |].
      { intros x y m Hx Hy. unfold INDEX_4D. rewrite rd_some by (rewrite S; apply in_shape_1; now apply ix4_range). reflexivity. }
      rewrite Ev. cbn [bind]. unfold INDEX_2D.
      rewrite wr_some by (rewrite S2; apply in_shape_1; now apply flat_range).
      eexists. split; [reflexivity|]. split; [exact S2|]. intros s' q' O.
      destruct (Z.eq_dec s' s) as [->|N1]; [destruct (Z.eq_dec q' q) as [->|N2]|].
      * now rewrite elem_upd_same.
      * rewrite elem_upd_other by (intro Q; injection Q as Q; lia). apply P2. lia.
      * rewrite elem_upd_other by (intro Q; injection Q as Q; apply flat_inj in Q; lia). apply P2. lia.
    + exists cm'. split; [exact E|]. split; [exact Sc'|]. intros s' q H1 H2. apply P'. lia.
  - exists cm. split; [exact E|]. split; [exact Sc|]. intros s q H1 H2. now apply P.
Qed.

Lemma best_scale_lemma ns cm pk : shape cm = [ns * ns] -> shape pk = [ns] -> 0 < ns ->
  exists v m, best_scale ns cm pk = Some (v, m) /\ 0 <= m < ns /\
    (forall s, 0 <= s < ns -> (fst (fst (elem pk [s])) / elem cm [(ns * s + s)%Z] <= v)%Qc) /\
    (v = (fst (fst (elem pk [m])) / elem cm [(ns * m + m)%Z])%Qc \/ v = 0%Qc /\ m = 0).
Proof.
  intros Sc Sp Hs. unfold best_scale.
  match goal with |- context [for_ 0 ns ?b ?a] => destruct (for_inv (fun k st => 0 <= snd st < ns /\
    (forall s, 0 <= s < k -> (fst (fst (elem pk [s])) / elem cm [(ns * s + s)%Z] <= fst st)%Qc) /\
    (fst st = (fst (fst (elem pk [snd st])) / elem cm [(ns * snd st + snd st)%Z])%Qc \/ fst st = 0%Qc /\ snd st = 0))
    0 ns b a) as ([v m] & E & P1 & P2 & P3) end; [lia| | |].
  - cbn [fst snd]. split; [lia|]. split; [intros; lia|now right].
  - intros i [v m] Hi (P1 & P2 & P3). cbn [fst snd] in *. rewrite rd_some by (rewrite Sp; apply in_shape_1; lia). cbn [bind].
    unfold INDEX_2D. rewrite rd_some by (rewrite Sc; apply in_shape_1; now apply flat_range). cbn [bind].
    destruct (Qcltb_spec v (fst (fst (elem pk [i])) / elem cm [(ns * i + i)%Z])) as [L|L]; eexists; (split; [reflexivity|]); cbn [fst snd].
    + split; [lia|]. split; [|now left]. intros s Hs'. destruct (Z.eq_dec s i) as [->|]; [apply Qcle_refl|].
      apply Qcle_trans with v; [apply P2; lia|now apply Qclt_le_weak].
    + split; [lia|]. split; [|exact P3]. intros s Hs'. destruct (Z.eq_dec s i) as [->|]; [now apply Qcnot_lt_le|]. apply P2; lia.
  - exists v, m. auto.
Qed.

Lemma add_kernel_lemma ns n p kern v m x y comp : shape comp = [n * n] -> shape kern = [ns * p * p] ->
  2 * n <= p -> 0 <= m < ns -> 0 <= x < n -> 0 <= y < n ->
  exists comp', add_kernel n p kern v m x y comp = Some comp' /\ shape comp' = [n * n] /\
    forall i j, 0 <= i < n -> 0 <= j < n ->
      img n comp' 0 i j = (img n comp 0 i j + v * img p kern m (n - x + i)%Z (n - y + j)%Z)%Qc.
Proof.
  intros S1 S2 Hp Hm Hx Hy. unfold add_kernel.
  destruct (for_flat n n (n * n) 0 (fun i j a => (a + v * img p kern m (n - x + i)%Z (n - y + j)%Z)%Qc)
    (fun i j c => let* a := rd c [INDEX_2D n i j] in let* k := rd kern [INDEX_3D p p m (n - x + i) (n - y + j)] in
       wr c [INDEX_2D n i j] (a + v * k)%Qc) comp) as (c' & E & S' & P & _); try lia; auto.
  - intros i j st Hi Hj Ss. unfold INDEX_2D, INDEX_3D. rewrite rd_some by (rewrite Ss; apply in_shape_1; now apply flat_range). cbn [bind].
    rewrite rd_some by (rewrite S2; apply in_shape_1; apply ix3_range; lia). cbn [bind].
    rewrite wr_some by (rewrite Ss; apply in_shape_1; now apply flat_range). replace (0 + n * i + j) with (n * i + j) by lia. reflexivity.
  - exists c'. split; [exact E|]. split; [exact S'|]. intros i j Hi Hj. unfold img at 1 2.
    replace (n * (n * 0 + i) + j) with (0 + n * i + j) by lia. now apply P.
Qed.

Lemma cross_lemma ns n p spsf v m x y sres : shape sres = [ns * n * n] -> shape spsf = [ns * ns * p * p] ->
  2 * n <= p -> 0 <= m < ns -> 0 <= x < n -> 0 <= y < n ->
  exists sres', cross_subtract ns n p spsf v m x y sres = Some sres' /\ shape sres' = [ns * n * n] /\
    forall s i j, 0 <= s < ns -> 0 <= i < n -> 0 <= j < n ->
      img n sres' s i j = (img n sres s i j - v * img2 ns p spsf s m (n - x + i)%Z (n - y + j)%Z)%Qc.
Proof.
  intros S1 S2 Hp Hm Hx Hy. unfold cross_subtract.
  match goal with |- context [for_ 0 ns ?b sres] => destruct (for_inv (fun k st => shape st = [ns * n * n] /\
    forall s i j, 0 <= s < ns -> 0 <= i < n -> 0 <= j < n ->
      img n st s i j = (img n sres s i j - (if (s <? k)%Z then v * img2 ns p spsf s m (n - x + i)%Z (n - y + j)%Z else 0))%Qc)
    0 ns b sres) as (r' & E & S' & P) end; [lia| | |].
  - split; [exact S1|]. intros s i j Hs Hi Hj. replace (s <? 0) with false by lia. ring.
  - intros s st Hs (Ss & P).
    destruct (for_flat n n (ns * n * n) (n * n * s) (fun i j a => (a - v * img2 ns p spsf s m (n - x + i)%Z (n - y + j)%Z)%Qc)
      (fun i j r => let* a := rd r [INDEX_3D n n s i j] in let* k := rd spsf [INDEX_4D ns p p s m (n - x + i) (n - y + j)] in
        wr r [INDEX_3D n n s i j] (a - v * k)%Qc) st) as (st' & E & S' & Q1 & Q2); try lia; auto; try nia.
    + intros i j s2 Hi Hj S3. unfold INDEX_3D, INDEX_4D. rewrite rd_some by (rewrite S3; apply in_shape_1; now apply ix3_range). cbn [bind].
      rewrite rd_some by (rewrite S2; apply in_shape_1; apply ix4_range; lia). cbn [bind].
      rewrite wr_some by (rewrite S3; apply in_shape_1; now apply ix3_range).
      replace (n * n * s + n * i + j) with (n * (n * s + i) + j) by lia. reflexivity.
    + exists st'. split; [exact E|]. split; [exact S'|]. intros s' i j Hs' Hi Hj.
      destruct (Z.eq_dec s' s) as [->|N].
      * unfold img at 1. replace (n * (n * s + i) + j) with (n * n * s + n * i + j) by lia. rewrite Q1 by auto.
        replace (n * n * s + n * i + j) with (n * (n * s + i) + j) by lia. change (elem st [n * (n * s + i) + j]) with (img n st s i j).
        rewrite P by auto. replace (s <? s) with false by lia. replace (s <? s + 1) with true by lia. ring.
      * unfold img at 1. rewrite Q2; [change (elem st [n * (n * s' + i) + j]) with (img n st s' i j); rewrite P by auto;
          replace (s' <? s + 1) with (s' <? s) by lia; reflexivity|].
        assert (0 <= n * i + j < n * n) by now apply flat_range.
        destruct (Z.lt_trichotomy s' s) as [L|[L|L]]; [left|contradiction|right].
        -- assert (n * n * (s' + 1) <= n * n * s) by nia. lia.
        -- assert (n * n * (s + 1) <= n * n * s') by nia. lia.
  - exists r'. split; [exact E|]. split; [exact S'|]. intros s i j Hs Hi Hj. rewrite P by auto. replace (s <? ns) with true by lia. reflexivity.
Qed.

Lemma ms_loop_lemma ns n p kern spsf cm gain threshold left : shape kern = [ns * p * p] -> shape spsf = [ns * ns * p * p] ->
  shape cm = [ns * ns] -> (forall s, 0 <= s < ns -> psf_peak p (img2 ns p spsf s s) (elem cm [ns * s + s])) ->
  0 < n -> 0 < ns -> 2 * n <= p ->
  forall comp sres, shape comp = [n * n] -> shape sres = [ns * n * n] ->
  exists comp' sres' k, ms_loop left ns n p kern spsf cm gain threshold (comp, sres) = Some (comp', sres') /\
    ms_cycles ns n p kern spsf gain threshold k (comp, sres) (comp', sres') /\ (k <= left)%nat /\
    ((k < left)%nat -> exists v m x y, choice ns n p spsf sres' v m x y /\ (img n sres' m x y < threshold)%Qc).
Proof.
  intros Sk Sp Sc Hc Hn Hs Hp. induction left as [|left IH]; intros comp sres S1 S2.
  - exists comp, sres, O. split; [reflexivity|]. split; [constructor|]. split; lia.
  - cbn [ms_loop]. destruct (scale_peaks_lemma ns n sres S2 Hn ltac:(lia)) as (pk & E & S3 & P). rewrite E. cbn [bind].
    destruct (best_scale_lemma ns cm pk Sc S3 Hs) as (v & m & E2 & Hm & B1 & B2). rewrite E2. cbn [bind].
    rewrite rd_some by (rewrite S3; apply in_shape_1; lia). cbn [bind].
    pose proof (P m Hm) as (Hx & Hy & _). set (x := snd (fst (elem pk [m]))) in *. set (y := snd (elem pk [m])) in *.
    assert (CH : choice ns n p spsf sres v m x y).
    { split; [exact Hm|]. split; [exact Hx|]. split; [exact Hy|].
      exists (fun s => elem cm [ns * s + s]), (fun s => fst (fst (elem pk [s]))), (fun s => snd (fst (elem pk [s]))), (fun s => snd (elem pk [s])).
      split; [exact Hc|]. split; [exact P|]. split; [exact B1|]. split; [exact B2|]. split; reflexivity. }
    unfold INDEX_3D. rewrite rd_some by (rewrite S2; apply in_shape_1; apply ix3_range; lia). cbn [bind].
    change (elem sres [n * (n * m + x) + y]) with (img n sres m x y).
    destruct (Qcltb_spec (img n sres m x y) threshold) as [L|L].
    + exists comp, sres, O. split; [reflexivity|]. split; [constructor|]. split; [lia|]. intros _. exists v, m, x, y. auto.
    + destruct (add_kernel_lemma ns n p kern (gain * v)%Qc m x y comp S1 Sk Hp Hm Hx Hy) as (c1 & E3 & S4 & P3). rewrite E3. cbn [bind].
      destruct (cross_lemma ns n p spsf (gain * v)%Qc m x y sres S2 Sp Hp Hm Hx Hy) as (r1 & E4 & S5 & P4). rewrite E4. cbn [bind].
      destruct (IH c1 r1 S4 S5) as (c' & r' & k & E5 & A & B & C).
      exists c', r', (S k). split; [exact E5|]. split; [|split; [lia|intro; apply C; lia]].
      apply ms_cycles_S with (c1, r1); [|exact A]. exists v, m, x, y. cbn [fst snd].
      split; [exact CH|]. split; [now apply Qcnot_lt_le|]. split; [exact P3|exact P4].
Qed.

(** *** Residuals and model are explained by the same list of components *)
Lemma ms_cycles_lemma ns n p kern spsf gain threshold k st st' : ms_cycles ns n p kern spsf gain threshold k st st' ->
  exists l, length l = k /\
    (forall i j, 0 <= i < n -> 0 <= j < n -> img n (fst st') 0 i j = (img n (fst st) 0 i j + model_of n p kern l i j)%Qc) /\
    (forall s i j, 0 <= s < ns -> 0 <= i < n -> 0 <= j < n ->
       img n (snd st') s i j = (img n (snd st) s i j - explained ns n p spsf l s i j)%Qc).
Proof.
  induction 1 as [st|k st s1 s2 (v & m & x & y & _ & _ & P1 & P2) _ (l & L & Q1 & Q2)].
  - exists []. split; [reflexivity|]. split; intros; cbn [model_of explained fold_right]; ring.
  - exists ((gain * v, m, x, y)%Qc :: l). split; [cbn [length]; lia|]. split.
    + intros i j Hi Hj. rewrite Q1, P1 by auto. cbn [model_of fold_right]. fold (model_of n p kern l i j). ring.
    + intros s i j Hs Hi Hj. rewrite Q2, P2 by auto. cbn [explained fold_right]. fold (explained ns n p spsf l s i j). ring.
Qed.

Lemma ms_clean_lemma n p ns cb mo sk dirty psf kern_f spsf_f sres_f gain threshold limit :
  0 < n -> 0 < ns -> 2 * n <= p -> nth0 cb 0 = 4 -> nth0 mo 0 = n -> nth0 sk 0 = n ->
  let kern := mk_nd [ns * p * p] (fun idx => kern_f (nth0 idx 0)) in
  let spsf := mk_nd [ns * ns * p * p] (fun idx => spsf_f (nth0 idx 0)) in
  let sres0 := mk_nd [ns * n * n] (fun idx => sres_f (nth0 idx 0)) in
  exists comp sres k l, ms_clean [n; n] [p; p] cb [ns] mo [n; n] sk dirty psf kern_f spsf_f sres_f gain threshold limit =
      Some (SUCCESS, (comp, sres)) /\
    ms_cycles ns n p kern spsf gain threshold k (mk_nd [n * n] (fun _ => 0%Qc), sres0) (comp, sres) /\
    Z.of_nat k <= Z.max 0 limit /\
    (Z.of_nat k < limit -> exists v m x y, choice ns n p spsf sres v m x y /\ (img n sres m x y < threshold)%Qc) /\
    length l = k /\
    (forall i j, 0 <= i < n -> 0 <= j < n -> img n comp 0 i j = model_of n p kern l i j) /\
    (forall s i j, 0 <= s < ns -> 0 <= i < n -> 0 <= j < n ->
       img n sres s i j = (img n sres0 s i j - explained ns n p spsf l s i j)%Qc).
Proof.
  intros Hn Hs Hp C4 Cm Ck kern spsf sres0. unfold ms_clean, ms_checks. rewrite C4, Cm, Ck.
  unfold nth0. cbn [nth size_of fold_right]. rewrite !Z.eqb_refl. cbn [negb failed]. rewrite !Z.mul_1_r.
  destruct (copy_lemma (n * n) (n * n) (mk_nd [n * n] (fun idx => dirty (nth 0 idx 0))) (mk_nd [n * n] (fun _ => 0%Qc)) (n * n))
    as (r0 & E0 & _); try reflexivity; try nia. rewrite E0. cbn [bind].
  destruct (copy_lemma (p * p) (p * p) (mk_nd [p * p] (fun idx => psf (nth 0 idx 0))) (mk_nd [p * p] (fun _ => 0%Qc)) (p * p))
    as (p0 & E1 & _); try reflexivity; try nia. rewrite E1. cbn [bind].
  destruct (coupling_lemma ns p spsf eq_refl ltac:(lia) ltac:(lia)) as (cm & E2 & S2 & P2). unfold spsf, nth0 in E2. rewrite E2. cbn [bind].
  destruct (ms_loop_lemma ns n p kern spsf cm gain threshold (Z.to_nat limit) eq_refl eq_refl S2 ltac:(intros; now apply P2) Hn Hs Hp
    (mk_nd [n * n] (fun _ => 0%Qc)) sres0 eq_refl eq_refl) as (comp & sres & k & E & A & B & C).
  destruct (ms_cycles_lemma _ _ _ _ _ _ _ _ _ _ A) as (l & L & Q1 & Q2). cbn [fst snd] in *.
  exists comp, sres, k, l. unfold kern, spsf, sres0, nth0 in E. rewrite E. cbn [bind].
  split; [reflexivity|]. split; [exact A|]. split; [lia|]. split; [intro; apply C; lia|]. split; [exact L|]. split; [|exact Q2].
  intros i j Hi Hj. rewrite Q1 by auto. unfold img. cbn [elem]. ring.
Qed.
