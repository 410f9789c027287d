(** Convolution (proofs only). *)
From Verif Require Import Base BaseFacts Sum CRing Loops Cplx Fft FftSpec FftFacts FftFacts2 FftFacts3 FftConv FftConvSpec.
From Coq Require Import Lra Lia.
Open Scope Z_scope.

(** *** The padded size *)
Lemma land_pred_0 x : 0 < x -> Z.land x (x - 1) = 0 -> exists k, 0 <= k /\ x = 2 ^ k.
Proof.
  intros Hx H. exists (Z.log2 x). split; [apply Z.log2_nonneg|].
  pose proof (Z.log2_spec x Hx) as [L1 L2]. set (k := Z.log2 x) in *. assert (Hk : 0 <= k) by apply Z.log2_nonneg.
  destruct (Z.eq_dec x (2 ^ k)) as [E|NE]; [exact E|exfalso].
  assert (B1 : Z.testbit x k = true) by (apply Z.bit_log2; lia).
  assert (L3 : Z.log2 (x - 1) = k) by (apply Z.log2_unique; lia).
  assert (B2 : Z.testbit (x - 1) k = true) by (rewrite <- L3; apply Z.bit_log2; lia).
  assert (K : Z.testbit (Z.land x (x - 1)) k = true) by (rewrite Z.land_spec, B1, B2; reflexivity).
  rewrite H, Z.bits_0 in K. discriminate.
Qed.
Lemma land_pred_pow k : 0 <= k -> Z.land (2 ^ k) (2 ^ k - 1) = 0.
Proof.
  intro H. replace (2 ^ k - 1) with (Z.ones k) by (rewrite Z.ones_equiv; lia). rewrite Z.land_ones by lia. apply Z.mod_same. 
  pose proof (Z.pow_pos_nonneg 2 k); lia.
Qed.

Lemma pad_pow2_lemma : forall fuel p q k, 0 < p -> 0 <= k -> q = 2 ^ k -> p <= q -> q - p < Z.of_nat fuel ->
  exists r j, pad_pow2 fuel p = Some r /\ p <= r <= q /\ 0 <= j /\ r = 2 ^ j.
Proof.
  induction fuel as [|f IH]; intros p q k Hp Hk Hq HL HF; [lia|]. cbn [pad_pow2].
  destruct (Z.eqb_spec (Z.land p (p - 1)) 0) as [E|E].
  - destruct (land_pred_0 p Hp E) as (j & Hj & Ej). exists p, j. repeat split; auto; lia.
  - assert (p <> q) by (intros ->; apply E; subst q; now apply land_pred_pow).
    destruct (IH (p + 1) q k) as (r & j & E2 & A & B & D); auto; try lia.
    exists r, j. repeat split; auto; lia.
Qed.

Lemma pad_dim_lemma n1 n2 : 0 < n1 -> 0 < n2 ->
  exists P j, pad_pow2 (S (Z.to_nat (n1 + n2))) (n1 + n2 - 1) = Some P /\ n1 + n2 - 1 <= P /\ 0 <= j /\ P = 2 ^ j.
Proof.
  intros H1 H2. set (p := n1 + n2 - 1).
  destruct (Z.eq_dec p 1) as [E1|N1].
  { destruct (pad_pow2_lemma (S (Z.to_nat (n1 + n2))) p 1 0) as (r & j & E & A & B & D); try lia.
    exists r, j. repeat split; auto; lia. }
  pose proof (Z.log2_up_spec p ltac:(lia)) as [L1 L2].
  assert (K : 0 < Z.log2_up p) by (apply Z.log2_up_pos; lia).
  assert (LP : 2 ^ Z.log2_up p <= 2 * (p - 1)).
  { replace (Z.log2_up p) with (Z.succ (Z.pred (Z.log2_up p))) by lia. rewrite Z.pow_succ_r by lia. lia. }
  destruct (pad_pow2_lemma (S (Z.to_nat (n1 + n2))) p (2 ^ Z.log2_up p) (Z.log2_up p)) as (r & j & E & A & B & D); auto; try lia.
  exists r, j. repeat split; auto; lia.
Qed.

(** *** Flat indices *)
Lemma flat_eq m i j i' j' : 0 <= j < m -> 0 <= j' < m -> i * m + j = i' * m + j' -> i = i' /\ j = j'.
Proof. intros Hj Hj' E. apply (Z.div_mod_unique m); lia. Qed.

Lemma pad_2d_lemma data padded n e pc N M : 0 <= n -> 0 <= e -> n + e <= pc ->
  n * n <= M -> (n + e - 1) * pc + (n + e) <= N ->
  shape data = [M] -> shape padded = [N] -> pc = n + 2 * e ->
  exists p, pad_2d data padded n n e e = Some p /\ shape p = [N] /\
    (forall i j, 0 <= i < n -> 0 <= j < n -> elem p [(i + e) * pc + (j + e)] = elem data [i * n + j]) /\
    (forall t, (forall i j, 0 <= i < n -> 0 <= j < n -> t <> (i + e) * pc + (j + e)) -> elem p [t] = elem padded [t]).
Proof.
  intros Hn He Hpc HM HN SD SP EP. unfold pad_2d. rewrite <- EP.
  match goal with |- context [for_ 0 n ?b padded] =>
    destruct (for_inv (fun i st => shape st = [N] /\
      (forall i' j, 0 <= i' < i -> 0 <= j < n -> elem st [(i' + e) * pc + (j + e)] = elem data [i' * n + j]) /\
      (forall t, (forall i' j, 0 <= i' < i -> 0 <= j < n -> t <> (i' + e) * pc + (j + e)) -> elem st [t] = elem padded [t]))
      0 n b padded) as (p & E & S & V & F) end; [lia| | |].
  - split; [exact SP|]. split; [lia|auto].
  - intros i st Hi (S1 & V1 & F1).
    match goal with |- context [for_ 0 n ?b st] =>
      destruct (for_inv (fun j s2 => shape s2 = [N] /\
        (forall j', 0 <= j' < j -> elem s2 [(i + e) * pc + (j' + e)] = elem data [i * n + j']) /\
        (forall t, (forall j', 0 <= j' < j -> t <> (i + e) * pc + (j' + e)) -> elem s2 [t] = elem st [t]))
        0 n b st) as (s2 & E & S2 & V2 & F2) end; [lia| | |].
    + split; [exact S1|]. split; [lia|auto].
    + intros j s2 Hj (S2 & V2 & F2). exists (upd s2 [(i + e) * pc + (j + e)] (elem data [i * n + j])).
      rewrite rd_some by (rewrite SD; apply in_shape_1; nia). cbn [bind].
      rewrite wr_some.
      2:{ rewrite S2; apply in_shape_1. assert ((i + e) * pc <= (n + e - 1) * pc) by (apply Z.mul_le_mono_nonneg_r; lia).
          assert (0 <= (i + e) * pc) by (apply Z.mul_nonneg_nonneg; lia). lia. }
      split; [reflexivity|]. split; [exact S2|]. split.
      * intros j' Hj'. destruct (Z.eq_dec j' j) as [->|NE]; [apply elem_upd_same|].
        rewrite elem_upd_other; [apply V2; lia|]. intro K. injection K. lia.
      * intros t Ht. rewrite elem_upd_other; [apply F2; intros; apply Ht; lia|]. intro K. injection K. intro K'.
        apply (Ht j); lia.
    + exists s2. split; [exact E|]. split; [exact S2|]. split.
      * intros i' j Hi' Hj. destruct (Z.eq_dec i' i) as [->|NE]; [apply V2; lia|].
        rewrite F2; [apply V1; lia|]. intros j' Hj' K. apply flat_eq in K; lia.
      * intros t Ht. rewrite F2; [apply F1; intros; apply Ht; lia|]. intros j' Hj'. apply Ht; lia.
  - exists p. split; [exact E|]. split; [exact S|]. split; [exact V|exact F].
Qed.

(** swaps *)
Lemma swap_at_lemma d i j N : shape d = [N] -> 0 <= i < N -> 0 <= j < N ->
  exists d', swap_at d i j = Some d' /\ shape d' = [N] /\
    forall k, elem d' [k] = if k =? j then elem d [i] else if k =? i then elem d [j] else elem d [k].
Proof.
  intros S Hi Hj. unfold swap_at. rewrite !rd_some by (rewrite S; apply in_shape_1; lia). cbn [bind].
  rewrite wr_some by (rewrite S; apply in_shape_1; lia). cbn [bind].
  rewrite wr_some by (cbn [upd shape]; rewrite S; apply in_shape_1; lia).
  eexists. split; [reflexivity|]. split; [exact S|]. intro k. cbn [upd elem].
  destruct (idx_eqb_spec [j] [k]) as [E|E].
  - injection E as ->. now rewrite Z.eqb_refl.
  - replace (k =? j) with false by (symmetry; apply Z.eqb_neq; congruence).
    destruct (idx_eqb_spec [i] [k]) as [E2|E2].
    + injection E2 as ->. now rewrite Z.eqb_refl.
    + replace (k =? i) with false by (symmetry; apply Z.eqb_neq; congruence). reflexivity.
Qed.

(** the two swap passes on an array of 2h x 2h *)
Lemma shift_rows d h m : 0 < h -> m = 2 * h -> shape d = [m * m] ->
  exists d', for_ 0 h (fun i => for_ 0 m (fun j d => swap_at d (i * m + j) ((i + h) * m + j))) d = Some d' /\ shape d' = [m * m] /\
    forall k l, 0 <= k < m -> 0 <= l < m -> elem d' [k * m + l] = elem d [(k + h) mod m * m + l].
Proof.
  intros Hh Hm S.
  assert (MOD : forall k, 0 <= k < m -> (k + h) mod m = if k <? h then k + h else k - h).
  { intros k Hk. destruct (Z.ltb_spec k h).
    - apply Z.mod_small. lia.
    - symmetry. apply (Z.mod_unique _ _ 1); lia. }
  match goal with |- context [for_ 0 h ?b d] =>
    destruct (for_inv (fun i st => shape st = [m * m] /\
      forall k l, 0 <= k < m -> 0 <= l < m -> elem st [k * m + l] =
        if (k <? i) || ((h <=? k) && (k <? h + i)) then elem d [(k + h) mod m * m + l] else elem d [k * m + l])
      0 h b d) as (d' & E & S' & V) end; [lia| | |].
  - split; [exact S|]. intros k l Hk Hl. replace (k <? 0) with false by lia. replace (k <? h + 0) with (k <? h) by (f_equal; lia).
    destruct (Z.leb_spec h k); destruct (Z.ltb_spec k h); try lia; reflexivity.
  - intros i st Hi (S1 & V1).
    match goal with |- context [for_ 0 m ?b st] =>
      destruct (for_inv (fun j s2 => shape s2 = [m * m] /\
        forall k l, 0 <= k < m -> 0 <= l < m -> elem s2 [k * m + l] =
          if ((k =? i) || (k =? i + h)) && (l <? j) then elem st [(k + h) mod m * m + l] else elem st [k * m + l])
        0 m b st) as (s2 & E & S2 & V2) end; [lia| | |].
    + split; [exact S1|]. intros k l Hk Hl. replace (l <? 0) with false by lia. now rewrite andb_false_r.
    + intros j s2 Hj (S2 & V2).
      destruct (swap_at_lemma s2 (i * m + j) ((i + h) * m + j) (m * m) S2) as (s3 & E3 & S3 & V3); try nia.
      exists s3. split; [exact E3|]. split; [exact S3|]. intros k l Hk Hl. rewrite V3.
      destruct (Z.eqb_spec (k * m + l) ((i + h) * m + j)) as [Q|Q].
      { apply flat_eq in Q; [|lia|lia]. destruct Q as [-> ->]. rewrite V2 by lia.
        replace (j <? j) with false by lia. rewrite andb_false_r. rewrite Z.eqb_refl, orb_true_r.
        replace (j <? j + 1) with true by lia. cbn [andb]. rewrite MOD by lia. replace (i + h <? h) with false by lia.
        do 2 f_equal. f_equal. lia. }
      destruct (Z.eqb_spec (k * m + l) (i * m + j)) as [Q2|Q2].
      { apply flat_eq in Q2; [|lia|lia]. destruct Q2 as [-> ->]. rewrite V2 by lia.
        replace (j <? j) with false by lia. rewrite andb_false_r. rewrite Z.eqb_refl.
        replace (j <? j + 1) with true by lia. cbn [andb orb]. rewrite MOD by lia. now replace (i <? h) with true by lia. }
      rewrite V2 by lia.
      replace (((k =? i) || (k =? i + h)) && (l <? j + 1)) with (((k =? i) || (k =? i + h)) && (l <? j)); [reflexivity|].
      destruct (Z.eqb_spec k i) as [->|N1]; cbn [orb andb].
      { destruct (Z.eq_dec l j) as [->|]; [lia|]. destruct (Z.ltb_spec l j), (Z.ltb_spec l (j + 1)); lia. }
      destruct (Z.eqb_spec k (i + h)) as [->|N2]; cbn [orb andb]; [|reflexivity].
      destruct (Z.eq_dec l j) as [->|]; [lia|]. destruct (Z.ltb_spec l j), (Z.ltb_spec l (j + 1)); lia.
    + exists s2. split; [exact E|]. split; [exact S2|]. intros k l Hk Hl. rewrite V2 by lia.
      replace (l <? m) with true by lia. rewrite andb_true_r.
      destruct (Z.eqb_spec k i) as [->|N1]; cbn [orb].
      { rewrite V1 by (try rewrite MOD; try lia; destruct (i <? h) eqn:?; lia). rewrite MOD by lia. replace (i <? h) with true by lia.
        replace (i + h <? i) with false by lia. replace (h <=? i + h) with true by lia. replace (i + h <? h + i) with false by lia. cbn [andb orb].
        replace (i <? i + 1) with true by lia. cbn [orb]. reflexivity. }
      destruct (Z.eqb_spec k (i + h)) as [->|N2].
      { rewrite MOD by lia. replace (i + h <? h) with false by lia. replace (i + h - h) with i by lia. rewrite V1 by lia.
        replace (i <? i) with false by lia. replace (h <=? i) with false by lia. cbn [andb orb].
        replace (i + h <? i + 1) with false by lia. replace (h <=? i + h) with true by lia. replace (i + h <? h + (i + 1)) with true by lia. reflexivity. }
      rewrite V1 by lia.
      replace ((k <? i + 1) || (h <=? k) && (k <? h + (i + 1))) with ((k <? i) || (h <=? k) && (k <? h + i)); [reflexivity|].
      destruct (Z.ltb_spec k i), (Z.ltb_spec k (i + 1)), (Z.leb_spec h k), (Z.ltb_spec k (h + i)), (Z.ltb_spec k (h + (i + 1))); try lia; reflexivity.
  - exists d'. split; [exact E|]. split; [exact S'|]. intros k l Hk Hl. rewrite V by assumption.
    replace ((k <? h) || (h <=? k) && (k <? h + h)) with true; [reflexivity|].
    destruct (Z.ltb_spec k h), (Z.leb_spec h k), (Z.ltb_spec k (h + h)); try lia; reflexivity.
Qed.

Lemma shift_cols d h m : 0 < h -> m = 2 * h -> shape d = [m * m] ->
  exists d', for_ 0 m (fun i => for_ 0 h (fun j d => swap_at d (i * m + j) (i * m + j + h))) d = Some d' /\ shape d' = [m * m] /\
    forall k l, 0 <= k < m -> 0 <= l < m -> elem d' [k * m + l] = elem d [k * m + (l + h) mod m].
Proof.
  intros Hh Hm S.
  assert (MOD : forall k, 0 <= k < m -> (k + h) mod m = if k <? h then k + h else k - h).
  { intros k Hk. destruct (Z.ltb_spec k h).
    - apply Z.mod_small. lia.
    - symmetry. apply (Z.mod_unique _ _ 1); lia. }
  match goal with |- context [for_ 0 m ?b d] =>
    destruct (for_inv (fun i st => shape st = [m * m] /\
      forall k l, 0 <= k < m -> 0 <= l < m -> elem st [k * m + l] =
        if k <? i then elem d [k * m + (l + h) mod m] else elem d [k * m + l])
      0 m b d) as (d' & E & S' & V) end; [lia| | |].
  - split; [exact S|]. intros k l Hk Hl. now replace (k <? 0) with false by lia.
  - intros i st Hi (S1 & V1).
    match goal with |- context [for_ 0 h ?b st] =>
      destruct (for_inv (fun j s2 => shape s2 = [m * m] /\
        forall k l, 0 <= k < m -> 0 <= l < m -> elem s2 [k * m + l] =
          if (k =? i) && ((l <? j) || ((h <=? l) && (l <? h + j))) then elem st [k * m + (l + h) mod m] else elem st [k * m + l])
        0 h b st) as (s2 & E & S2 & V2) end; [lia| | |].
    + split; [exact S1|]. intros k l Hk Hl. replace (l <? 0) with false by lia.
      destruct (Z.leb_spec h l); destruct (Z.ltb_spec l (h + 0)); try lia; cbn [orb andb]; now rewrite andb_false_r.
    + intros j s2 Hj (S2 & V2).
      destruct (swap_at_lemma s2 (i * m + j) (i * m + j + h) (m * m) S2) as (s3 & E3 & S3 & V3); try nia.
      exists s3. split; [exact E3|]. split; [exact S3|]. intros k l Hk Hl. rewrite V3.
      destruct (Z.eqb_spec (k * m + l) (i * m + j + h)) as [Q|Q].
      { rewrite <- Z.add_assoc in Q. apply flat_eq in Q; [|lia|lia]. destruct Q as [-> ->]. rewrite V2 by lia.
        replace (j <? j) with false by lia. replace (h <=? j) with false by lia. cbn [orb andb]. rewrite andb_false_r.
        rewrite Z.eqb_refl. replace (j + h <? j + 1) with false by lia. replace (h <=? j + h) with true by lia.
        replace (j + h <? h + (j + 1)) with true by lia. cbn [andb orb]. rewrite MOD by lia. replace (j + h <? h) with false by lia.
        do 2 f_equal. lia. }
      destruct (Z.eqb_spec (k * m + l) (i * m + j)) as [Q2|Q2].
      { apply flat_eq in Q2; [|lia|lia]. destruct Q2 as [-> ->]. rewrite <- Z.add_assoc. rewrite V2 by lia.
        replace (j + h <? j) with false by lia. replace (j + h <? h + j) with false by lia. rewrite andb_false_r. cbn [orb andb]. rewrite andb_false_r.
        rewrite Z.eqb_refl. replace (j <? j + 1) with true by lia. cbn [andb orb]. rewrite MOD by lia. now replace (j <? h) with true by lia. }
      rewrite V2 by lia.
      destruct (Z.eqb_spec k i) as [->|N1]; cbn [andb]; [|reflexivity].
      replace ((l <? j + 1) || (h <=? l) && (l <? h + (j + 1))) with ((l <? j) || (h <=? l) && (l <? h + j)); [reflexivity|].
      assert (l <> j) by lia. assert (l <> j + h) by lia.
      destruct (Z.ltb_spec l j), (Z.ltb_spec l (j + 1)), (Z.leb_spec h l), (Z.ltb_spec l (h + j)), (Z.ltb_spec l (h + (j + 1))); try lia; reflexivity.
    + exists s2. split; [exact E|]. split; [exact S2|]. intros k l Hk Hl. rewrite V2 by lia.
      replace ((l <? h) || (h <=? l) && (l <? h + h)) with true.
      2:{ destruct (Z.ltb_spec l h), (Z.leb_spec h l), (Z.ltb_spec l (h + h)); try lia; reflexivity. }
      rewrite andb_true_r.
      destruct (Z.eqb_spec k i) as [->|N1].
      { rewrite V1 by (try (apply Z.mod_pos_bound); lia). replace (i <? i) with false by lia. now replace (i <? i + 1) with true by lia. }
      rewrite V1 by lia. destruct (Z.ltb_spec k i), (Z.ltb_spec k (i + 1)); try lia; reflexivity.
  - exists d'. split; [exact E|]. split; [exact S'|]. intros k l Hk Hl. rewrite V by assumption. now replace (k <? m) with true by lia.
Qed.

Lemma fft_shift_lemma d h m : 0 < h -> m = 2 * h -> shape d = [m * m] ->
  exists d', fft_shift_2d d m m = Some d' /\ shape d' = [m * m] /\
    forall k l, 0 <= k < m -> 0 <= l < m -> elem d' [k * m + l] = elem d [(k + h) mod m * m + (l + h) mod m].
Proof.
  intros Hh Hm S. unfold fft_shift_2d.
  assert (CD : cdiv m 2 = h) by (unfold cdiv; rewrite Z.quot_div_nonneg by lia; subst m; rewrite Z.mul_comm; apply Z.div_mul; lia).
  rewrite CD. destruct (shift_rows d h m Hh Hm S) as (d1 & E1 & S1 & V1). rewrite E1. cbn [bind].
  destruct (shift_cols d1 h m Hh Hm S1) as (d2 & E2 & S2 & V2). exists d2. split; [exact E2|]. split; [exact S2|].
  intros k l Hk Hl. rewrite V2 by assumption. apply V1; [assumption|apply Z.mod_pos_bound; lia].
Qed.

(** *** The convolution theorem *)
Definition circ (P : Z) (A B : Z -> Z -> C) (k l : Z) : C :=
  csum 0 P (fun a => csum 0 P (fun b => Cmul (A a b) (B ((k - a) mod P) ((l - b) mod P)))).

Lemma csum_rot P (f : Z -> C) a : 0 < P -> csum 0 P (fun k => f ((k - a) mod P)) = csum 0 P f.
Proof.
  intro HP. apply (sum_perm _ _ (Rcm (A := Cring)) (fun k => (k - a) mod P) 0 P f).
  - intros i _. apply Z.mod_pos_bound. lia.
  - intros i j Hi Hj E.
    assert (M : (i - j) mod P = 0).
    { replace (i - j) with ((i - a) - (j - a)) by ring. rewrite Zminus_mod, E, Z.sub_diag. apply Z.mod_0_l. lia. }
    apply Z.mod_divide in M; [|lia]. destruct M as (q & M). assert (q < 1) by nia. assert (-1 < q) by nia. assert (q = 0) by lia. subst q. lia.
Qed.

Lemma W_mod inv n m : n <> 0 -> root inv n (m mod n) = root inv n m.
Proof.
  intro H. rewrite (Z.div_mod m n H) at 2. rewrite Z.add_comm. symmetry. apply W_period. exact H.
Qed.

Lemma conv_theorem inv P A B u v : 0 < P ->
  DFT2 inv P P (circ P A B) u v = Cmul (DFT2 inv P P A u v) (DFT2 inv P P B u v).
Proof.
  intro HP. unfold DFT2 at 1. unfold circ.
  (* move the sums over a, b outside *)
  transitivity (csum 0 P (fun a => csum 0 P (fun b => Cmul (Cmul (Cmul (root inv P (u * a)) (root inv P (v * b))) (A a b))
    (csum 0 P (fun k => csum 0 P (fun l => Cmul (Cmul (root inv P (u * ((k - a) mod P))) (root inv P (v * ((l - b) mod P))))
       (B ((k - a) mod P) ((l - b) mod P)))))))).
  - transitivity (csum 0 P (fun k => csum 0 P (fun l => csum 0 P (fun a => csum 0 P (fun b =>
      Cmul (Cmul (root inv P (u * k)) (root inv P (v * l))) (Cmul (A a b) (B ((k - a) mod P) ((l - b) mod P)))))))).
    { apply csum_ext. intros k Hk. apply csum_ext. intros l Hl. rewrite csum_mul_l. apply csum_ext. intros a Ha. apply csum_mul_l. }
    transitivity (csum 0 P (fun k => csum 0 P (fun a => csum 0 P (fun b => csum 0 P (fun l =>
      Cmul (Cmul (root inv P (u * k)) (root inv P (v * l))) (Cmul (A a b) (B ((k - a) mod P) ((l - b) mod P)))))))).
    { apply csum_ext. intros k Hk. rewrite csum_swap. apply csum_ext. intros a Ha. apply csum_swap. }
    rewrite csum_swap. apply csum_ext. intros a Ha. rewrite csum_swap. apply csum_ext. intros b Hb.
    rewrite csum_mul_l. apply csum_ext. intros k Hk. rewrite csum_mul_l. apply csum_ext. intros l Hl.
    assert (E : forall w k a, root inv P (w * k) = Cmul (root inv P (w * a)) (root inv P (w * ((k - a) mod P)))).
    { intros w x y. rewrite <- W_add. rewrite <- (W_mod inv P (w * y + w * ((x - y) mod P))) by lia.
      rewrite <- (W_mod inv P (w * x)) by lia. f_equal.
      rewrite <- Z.mul_add_distr_l. rewrite (Z.mul_mod w x), (Z.mul_mod w (y + _)) by lia.
      rewrite (Z.add_mod y) by lia. rewrite Z.mod_mod by lia. rewrite <- Z.add_mod by lia.
      replace (y + (x - y)) with x by ring. reflexivity. }
    rewrite (E u k a), (E v l b). csolve.
  - transitivity (csum 0 P (fun a => csum 0 P (fun b => Cmul (Cmul (Cmul (root inv P (u * a)) (root inv P (v * b))) (A a b)) (DFT2 inv P P B u v)))).
    + apply csum_ext. intros a Ha. apply csum_ext. intros b Hb. f_equal. unfold DFT2.
      rewrite (csum_rot P (fun k => csum 0 P (fun l => Cmul (Cmul (root inv P (u * k)) (root inv P (v * ((l - b) mod P)))) (B k ((l - b) mod P)))) a) by lia.
      apply csum_ext. intros k Hk.
      apply (csum_rot P (fun l => Cmul (Cmul (root inv P (u * k)) (root inv P (v * l))) (B k l)) b). lia.
    + unfold DFT2 at 2. rewrite csum_mul_r. apply csum_ext. intros a Ha. symmetry. apply csum_mul_r.
Qed.

Lemma mult_lemma a b N : shape a = [N] -> shape b = [N] -> 0 <= N ->
  exists m, for_ 0 N (fun i m => let* x := rd a [i] in let* y := rd b [i] in wr m [i] (Cmul x y)) (mk_nd [N] (fun _ => C0)) = Some m /\
    shape m = [N] /\ forall i, 0 <= i < N -> elem m [i] = Cmul (elem a [i]) (elem b [i]).
Proof.
  intros Sa Sb HN.
  destruct (for_set1 N (fun i _ => Cmul (elem a [i]) (elem b [i]))
    (fun i m => let* x := rd a [i] in let* y := rd b [i] in wr m [i] (Cmul x y)) 0 N (mk_nd [N] (fun _ => C0))) as (m & E & S & V & _); auto; try lia.
  - intros i st Hi Ss. rewrite !rd_some by (rewrite ?Sa, ?Sb; apply in_shape_1; lia). cbn [bind].
    now rewrite wr_some by (rewrite Ss; apply in_shape_1; lia).
  - exists m. auto.
Qed.

Lemma normalise_lemma a N : shape a = [N] -> 0 <= N ->
  exists m, fft_normalise a N = Some m /\ shape m = [N] /\ forall i, 0 <= i < N -> elem m [i] = Cdiv (elem a [i]) (RtoC (IZR N)).
Proof.
  intros Sa HN. unfold fft_normalise.
  destruct (for_set1 N (fun i x => Cdiv x (RtoC (IZR N)))
    (fun i a => let* x := rd a [i] in wr a [i] (Cdiv x (RtoC (IZR N)))) 0 N a) as (m & E & S & V & _); auto; try lia.
  - intros i st Hi Ss. rewrite !rd_some by (rewrite Ss; apply in_shape_1; lia). cbn [bind].
    now rewrite wr_some by (rewrite Ss; apply in_shape_1; lia).
  - exists m. auto.
Qed.

(** The transforms, the product and the shift give the circular convolution *)
Definition conv_core (a b : nd C) (P : Z) : option (nd C) :=
  let zero := mk_nd [P * P] (fun _ => C0) in
  let* (_, (a, _)) := fft_exec [P; P] [P; P] 2 1 a a zero in
  let* (_, (b, _)) := fft_exec [P; P] [P; P] 2 1 b b zero in
  let* m := for_ 0 (P * P) (fun i m => let* x := rd a [i] in let* y := rd b [i] in wr m [i] (Cmul x y)) zero in
  let* (_, (m, _)) := fft_exec [P; P] [P; P] 2 0 m m zero in
  let* m := fft_normalise m (P * P) in
  fft_shift_2d m P P.

Lemma RtoC_nz x : (x <> 0)%R -> RtoC x <> C0.
Proof. intros H K. injection K. exact H. Qed.

Lemma core_lemma a b h P : 0 < h -> P = 2 * h -> shape a = [P * P] -> shape b = [P * P] ->
  exists m, conv_core a b P = Some m /\ shape m = [P * P] /\
    forall k l, 0 <= k < P -> 0 <= l < P ->
      elem m [k * P + l] = circ P (fun i j => elem a [i * P + j]) (fun i j => elem b [i * P + j]) ((k + h) mod P) ((l + h) mod P).
Proof.
  intros Hh HP Sa Sb. unfold conv_core.
  destruct (exec_2d P P 1 a a (mk_nd [P * P] (fun _ => C0)) (P * P) (P * P) (P * P)) as (a1 & ta & Ea & Sa1 & _ & Va & _); auto; try lia.
  rewrite Ea. cbn [bind].
  destruct (exec_2d P P 1 b b (mk_nd [P * P] (fun _ => C0)) (P * P) (P * P) (P * P)) as (b1 & tb & Eb & Sb1 & _ & Vb & _); auto; try lia.
  rewrite Eb. cbn [bind].
  destruct (mult_lemma a1 b1 (P * P) Sa1 Sb1 ltac:(nia)) as (m & Em & Sm & Vm). rewrite Em. cbn [bind].
  destruct (exec_2d P P 0 m m (mk_nd [P * P] (fun _ => C0)) (P * P) (P * P) (P * P)) as (m1 & tm & Em1 & Sm1 & _ & Vm1 & _); auto; try lia.
  rewrite Em1. cbn [bind].
  destruct (normalise_lemma m1 (P * P) Sm1 ltac:(nia)) as (m2 & Em2 & Sm2 & Vm2). rewrite Em2. cbn [bind].
  destruct (fft_shift_lemma m2 h P Hh HP Sm2) as (m3 & Em3 & Sm3 & Vm3). exists m3. split; [exact Em3|]. split; [exact Sm3|].
  intros k l Hk Hl. rewrite Vm3 by assumption.
  pose proof (Z.mod_pos_bound (k + h) P ltac:(lia)) as Bk. pose proof (Z.mod_pos_bound (l + h) P ltac:(lia)) as Bl.
  set (k' := (k + h) mod P) in *. set (l' := (l + h) mod P) in *. clearbody k' l'.
  rewrite Vm2 by nia. rewrite Vm1 by assumption.
  set (A := fun i j => elem a [i * P + j]). set (B := fun i j => elem b [i * P + j]).
  rewrite (DFT2_ext _ P P _ (DFT2 (inverse_of 1) P P (circ P A B))).
  2:{ intros s t Hs Ht. rewrite Vm by nia. rewrite Va, Vb by assumption. symmetry. apply conv_theorem. lia. }
  change (inverse_of 0) with (negb (inverse_of 1)). rewrite DFT2_inverse by lia.
  assert (NZ : RtoC (IZR (P * P)) <> C0) by (apply RtoC_nz, not_0_IZR; nia).
  set (z := RtoC (IZR (P * P))) in *. clearbody z. set (c := circ P A B k' l'). clearbody c.
  unfold Cdiv. transitivity (Cmul (Cmul (Cinv z) z) c); [generalize (Cinv z); intro; csolve|]. rewrite (Cinv_l z NZ). csolve.
Qed.
