(** The public transform functions (proofs only). *)
From Verif Require Import Base BaseFacts Sum CRing Loops Cplx GridUtilsSpec GridUtilsFacts Fft FftSpec FftFacts FftFacts2.
From Coq Require Import Lra Lia.
Open Scope Z_scope.

Lemma exec_1d n is_forward input output temp N M T : 0 <= n -> n <= N -> n <= M -> n <= T ->
  shape input = [N] -> shape output = [M] -> shape temp = [T] ->
  exists o t, fft_exec [n] [n] 1 is_forward input output temp = Some (SUCCESS, (o, t)) /\ shape o = [M] /\ shape t = [T] /\
    (forall k, 0 <= k < n -> elem o [k] = DFT (inverse_of is_forward) n (fun s => elem input [s]) k) /\ same_out 0 n output o.
Proof.
  intros H H1 H2 H3 SI SO ST. unfold fft_exec. rewrite dims_match_refl. cbn [negb length]. change (Z.of_nat 1) with 1.
  change (1 =? 1) with true. change (1 =? 1 - 1) with false. cbn [negb andb]. cbv iota.
  unfold lastn. cbn [length Nat.sub nth].
  destruct (fft_1d_out (negb (is_forward =? 1)) n 1 input output temp N M T) as (o & t & E & S1 & S2 & V & F); auto; try lia.
  rewrite E. cbn [bind]. exists o, t. split; [reflexivity|]. split; [exact S1|]. split; [exact S2|]. split.
  - intros k Hk. specialize (V 0 k ltac:(lia) Hk). replace (0 * n + k) with k in V by lia. rewrite V. apply DFT_ext.
    intros s Hs. do 2 f_equal.
  - replace (n * 1) with n in F by lia. exact F.
Qed.

Lemma exec_1d_batch b n is_forward input output temp N M T : 0 <= n -> 0 <= b -> b * n <= N -> b * n <= M -> b * n <= T ->
  shape input = [N] -> shape output = [M] -> shape temp = [T] ->
  exists o t, fft_exec [b; n] [b; n] 1 is_forward input output temp = Some (SUCCESS, (o, t)) /\ shape o = [M] /\ shape t = [T] /\
    (forall f k, 0 <= f < b -> 0 <= k < n ->
       elem o [f * n + k] = DFT (inverse_of is_forward) n (fun s => elem input [f * n + s]) k) /\ same_out 0 (b * n) output o.
Proof.
  intros H Hb H1 H2 H3 SI SO ST. unfold fft_exec. rewrite dims_match_refl. cbn [negb length]. change (Z.of_nat 2) with 2.
  change (1 =? 2) with false. change (1 =? 2 - 1) with true. change (2 =? 1) with false. cbn [negb andb]. cbv iota.
  change (1 =? 1) with true. cbv iota.
  unfold lastn. cbn [length Nat.sub nth].
  destruct (fft_1d_out (negb (is_forward =? 1)) n b input output temp N M T) as (o & t & E & S1 & S2 & V & F); auto; try lia.
  rewrite E. cbn [bind]. exists o, t. split; [reflexivity|]. split; [exact S1|]. split; [exact S2|]. split; [exact V|].
  replace (b * n) with (n * b) by lia. exact F.
Qed.

Lemma exec_2d n m is_forward input output temp N M T : 0 <= n -> 0 <= m -> n * m <= N -> n * m <= M -> n * m <= T ->
  shape input = [N] -> shape output = [M] -> shape temp = [T] ->
  exists o t, fft_exec [n; m] [n; m] 2 is_forward input output temp = Some (SUCCESS, (o, t)) /\ shape o = [M] /\ shape t = [T] /\
    (forall k l, 0 <= k < n -> 0 <= l < m ->
       elem o [k * m + l] = DFT2 (inverse_of is_forward) n m (fun s t => elem input [s * m + t]) k l) /\ same_out 0 (n * m) output o.
Proof.
  intros Hn Hm H1 H2 H3 SI SO ST. unfold fft_exec. rewrite dims_match_refl. cbn [negb length]. change (Z.of_nat 2) with 2.
  change (2 =? 2) with true. change (2 =? 1) with false. cbn [negb andb]. cbv iota.
  unfold lastn. cbn [length Nat.sub nth].
  destruct (fft_2d_out (negb (is_forward =? 1)) n m 1 input output temp N M T) as (o & t & E & S1 & S2 & V & F); auto; try lia.
  rewrite E. cbn [bind]. exists o, t. split; [reflexivity|]. split; [exact S1|]. split; [exact S2|]. split.
  - intros k l Hk Hl. specialize (V 0 k l ltac:(lia) Hk Hl). replace (n * m * 0 + (k * m + l)) with (k * m + l) in V by lia.
    rewrite V. apply DFT2_ext. intros s u Hs Hu. do 2 f_equal. lia.
  - replace (n * m * 1) with (n * m) in F by lia. exact F.
Qed.

Lemma exec_2d_batch b n m is_forward input output temp N M T : 0 <= b -> 0 <= n -> 0 <= m ->
  b * (n * m) <= N -> b * (n * m) <= M -> b * (n * m) <= T ->
  shape input = [N] -> shape output = [M] -> shape temp = [T] ->
  exists o t, fft_exec [b; n; m] [b; n; m] 2 is_forward input output temp = Some (SUCCESS, (o, t)) /\ shape o = [M] /\ shape t = [T] /\
    (forall f k l, 0 <= f < b -> 0 <= k < n -> 0 <= l < m ->
       elem o [f * (n * m) + (k * m + l)] = DFT2 (inverse_of is_forward) n m (fun s t => elem input [f * (n * m) + (s * m + t)]) k l) /\
    same_out 0 (b * (n * m)) output o.
Proof.
  intros Hb Hn Hm H1 H2 H3 SI SO ST. unfold fft_exec. rewrite dims_match_refl. cbn [negb length]. change (Z.of_nat 3) with 3.
  change (2 =? 3) with false. change (2 =? 3 - 1) with true. change (3 =? 2) with false. cbn [negb andb]. cbv iota.
  change (2 =? 1) with false. change (2 =? 2) with true. cbv iota.
  unfold lastn. cbn [length Nat.sub nth].
  destruct (fft_2d_out (negb (is_forward =? 1)) n m b input output temp N M T) as (o & t & E & S1 & S2 & V & F); auto; try lia.
  rewrite E. cbn [bind]. exists o, t. split; [reflexivity|]. split; [exact S1|]. split; [exact S2|]. split.
  - intros f k l Hf Hk Hl. specialize (V f k l Hf Hk Hl). replace (f * (n * m)) with (n * m * f) by lia. exact V.
  - replace (b * (n * m)) with (n * m * b) by lia. exact F.
Qed.

Lemma exec_reject sh_in sh_out nd_fft is_forward input output temp :
  (exists i, (i < length sh_in)%nat /\ nth i sh_in 0 <> nth i sh_out 0) \/
  (nd_fft <> Z.of_nat (length sh_in) /\ nd_fft <> Z.of_nat (length sh_in) - 1) \/ nd_fft > 2 ->
  exists e, fft_exec sh_in sh_out nd_fft is_forward input output temp = Some (e, (output, temp)) /\ failed e = true.
Proof.
  intro H. unfold fft_exec. destruct (dims_match sh_in sh_out) eqn:D; [|exists ERR_RUNTIME; split; reflexivity]. cbn [negb].
  destruct H as [(i & Hi & NE)|H].
  { exfalso. unfold dims_match in D. rewrite forallb_forall in D. specialize (D i). rewrite in_seq in D. cbn in D.
    specialize (D ltac:(lia)). lia. }
  destruct (negb (nd_fft =? Z.of_nat (length sh_in)) && negb (nd_fft =? Z.of_nat (length sh_in) - 1)) eqn:B.
  { exists ERR_RUNTIME; split; reflexivity. }
  destruct H as [H|H]; [exfalso; lia|].
  replace (nd_fft =? 1) with false by lia. replace (nd_fft =? 2) with false by lia. replace (nd_fft >? 2) with true by lia.
  exists ERR_DATA_TYPE. split; reflexivity.
Qed.

(** *** The shifted transform *)
Lemma flat2_elem d n m x y : shape d = [n; m] -> 0 <= y < m -> elem (flat2 d) [x * m + y] = elem d [x; y].
Proof.
  intros S Hy. unfold flat2. cbn [elem nth]. unfold dim. rewrite S. cbn [nth].
  replace ((x * m + y) / m) with x by (apply (Z.div_unique _ _ _ y); lia).
  replace ((x * m + y) mod m) with y by (apply (Z.mod_unique _ _ x); lia). reflexivity.
Qed.
Lemma flat2_shape d n m : shape d = [n; m] -> shape (flat2 d) = [n * m].
Proof. intro S. unfold flat2, dim. rewrite S. reflexivity. Qed.

Lemma shift_2d is_forward norm d temp n m T : shape d = [2 * n; 2 * m] -> 0 < n -> 0 < m -> shape temp = [T] -> 2 * n * (2 * m) <= T -> (norm = true -> 2 * n * (2 * m) <= 2147483647) ->
  exists r, fft_exec_shift 2 is_forward norm d temp = Some (SUCCESS, r) /\ shape r = [2 * n; 2 * m] /\
    forall k l, 0 <= k < 2 * n -> 0 <= l < 2 * m -> elem r [k; l] =
      Cmul (RtoC (sign (n + m) * norm_scale norm (2 * n) (2 * m)))
        (centred2 (inverse_of is_forward) (2 * n) (2 * m) (fun s t => elem d [s; t]) k l).
Proof.
  intros S Hn Hm ST HT Pn. unfold fft_exec_shift. rewrite S.
  destruct (phase_lemma d (2 * n) (2 * m)) as (d1 & E1 & S1 & P1); auto; try lia. rewrite E1. cbn [bind].
  destruct (exec_2d (2 * n) (2 * m) is_forward (flat2 d1) (flat2 d1) temp (2 * n * (2 * m)) (2 * n * (2 * m)) T)
    as (o & t & E2 & S2 & _ & P2 & _); auto; try lia; try (now apply flat2_shape).
  rewrite E2. cbn [bind failed].
  destruct (phase_lemma (unflat2 [2 * n; 2 * m] o) (2 * n) (2 * m)) as (d3 & E3 & S3 & P3); auto; try lia.
  assert (V : forall k l, 0 <= k < 2 * n -> 0 <= l < 2 * m -> elem d3 [k; l] =
      Cmul (RtoC (sign (n + m))) (centred2 (inverse_of is_forward) (2 * n) (2 * m) (fun s t => elem d [s; t]) k l)).
  { intros k l Hk Hl. rewrite P3 by assumption. unfold unflat2. cbn [elem nth]. rewrite P2 by assumption.
    unfold DFT2, centred2. rewrite !csum_mul_l. apply csum_ext. intros s Hs. rewrite !csum_mul_l. apply csum_ext. intros u Hu.
    rewrite (flat2_elem d1 (2 * n) (2 * m)) by assumption. rewrite P1 by assumption.
    replace (2 * n / 2) with n by (symmetry; rewrite Z.mul_comm; apply Z.div_mul; lia).
    replace (2 * m / 2) with m by (symmetry; rewrite Z.mul_comm; apply Z.div_mul; lia).
    rewrite !W_centred by lia. rewrite !sign_add.
    pose proof (sign_sqr n) as Q1. pose proof (sign_sqr m) as Q2.
    generalize (root (inverse_of is_forward) (2 * n) (k * s)) (root (inverse_of is_forward) (2 * m) (l * u)) (elem d [s; u]).
    intros a b c. generalize dependent (sign n). intros p Q1. generalize dependent (sign m). intros q Q2.
    generalize (sign k) (sign l) (sign s) (sign u). intros w1 w2 w3 w4.
    transitivity (Cmul (RtoC ((p * p) * (q * q) * (w1 * w2 * w3 * w4))) (Cmul (Cmul a b) c)); [rewrite Q1, Q2|]; csolve. }
  rewrite E3. cbn [bind]. change (failed SUCCESS) with false. cbv iota. destruct norm.
  - destruct (norm_lemma d3 (2 * n) (2 * m)) as (d4 & E4 & S4 & P4); auto; try lia. rewrite E4. cbn [bind].
    exists d4. split; [reflexivity|]. split; [exact S4|]. intros k l Hk Hl. rewrite P4, V by assumption. unfold norm_scale. csolve.
  - exists d3. split; [reflexivity|]. split; [exact S3|]. intros k l Hk Hl. rewrite V by assumption. unfold norm_scale. csolve.
Qed.

Lemma shift_1d is_forward norm d temp n m T : shape d = [n; 2 * m] -> 0 < n -> 0 < m -> shape temp = [T] -> n * (2 * m) <= T -> (norm = true -> n * (2 * m) <= 2147483647) ->
  exists r, fft_exec_shift 1 is_forward norm d temp = Some (SUCCESS, r) /\ shape r = [n; 2 * m] /\
    forall k l, 0 <= k < n -> 0 <= l < 2 * m -> elem r [k; l] =
      Cmul (RtoC (sign m * norm_scale norm n (2 * m)))
        (centred (inverse_of is_forward) (2 * m) (fun t => elem d [k; t]) l).
Proof.
  intros S Hn Hm ST HT Pn. unfold fft_exec_shift. rewrite S.
  destruct (phase_lemma d n (2 * m)) as (d1 & E1 & S1 & P1); auto; try lia. rewrite E1. cbn [bind].
  destruct (exec_1d_batch n (2 * m) is_forward (flat2 d1) (flat2 d1) temp (n * (2 * m)) (n * (2 * m)) T)
    as (o & t & E2 & S2 & _ & P2 & _); auto; try lia; try (now apply flat2_shape).
  rewrite E2. cbn [bind failed].
  destruct (phase_lemma (unflat2 [n; 2 * m] o) n (2 * m)) as (d3 & E3 & S3 & P3); auto; try lia.
  assert (V : forall k l, 0 <= k < n -> 0 <= l < 2 * m -> elem d3 [k; l] =
      Cmul (RtoC (sign m)) (centred (inverse_of is_forward) (2 * m) (fun t => elem d [k; t]) l)).
  { intros k l Hk Hl. rewrite P3 by assumption. unfold unflat2. cbn [elem nth]. rewrite P2 by assumption.
    unfold DFT, centred. rewrite !csum_mul_l. apply csum_ext. intros u Hu.
    rewrite (flat2_elem d1 n (2 * m)) by assumption. rewrite P1 by assumption.
    replace (2 * m / 2) with m by (symmetry; rewrite Z.mul_comm; apply Z.div_mul; lia).
    rewrite !W_centred by lia. rewrite !sign_add.
    pose proof (sign_sqr m) as Q2. pose proof (sign_sqr k) as Q1.
    generalize (root (inverse_of is_forward) (2 * m) (l * u)) (elem d [k; u]).
    intros b c. generalize dependent (sign m). intros q Q2. generalize dependent (sign k). intros w Q1.
    generalize (sign l) (sign u). intros w2 w4.
    transitivity (Cmul (RtoC ((w * w) * (w2 * w4))) (Cmul b c)); [|rewrite Q1, <- Q2]; csolve. }
  rewrite E3. cbn [bind]. change (failed SUCCESS) with false. cbv iota. destruct norm.
  - destruct (norm_lemma d3 n (2 * m)) as (d4 & E4 & S4 & P4); auto; try lia. rewrite E4. cbn [bind].
    exists d4. split; [reflexivity|]. split; [exact S4|]. intros k l Hk Hl. rewrite P4, V by assumption. unfold norm_scale. csolve.
  - exists d3. split; [reflexivity|]. split; [exact S3|]. intros k l Hk Hl. rewrite V by assumption. unfold norm_scale. csolve.
Qed.
