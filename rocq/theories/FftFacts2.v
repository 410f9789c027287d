(** The transforms compute the DFT (proofs only). *)
From Verif Require Import Base BaseFacts Sum CRing Loops Cplx GridUtilsSpec GridUtilsFacts Fft FftSpec FftFacts.
From Coq Require Import Lra Lia.
Open Scope Z_scope.

Lemma pow2_lemma inv base bits N T input temp : 0 <= bits -> 0 <= base ->
  base + 2 ^ bits <= N -> base + 2 ^ bits <= T -> shape input = [N] -> shape temp = [T] ->
  exists i' t', fft_pow2 base (2 ^ bits) bits inv (input, temp) = Some (i', t') /\ shape i' = [N] /\ shape t' = [T] /\
    (forall k, 0 <= k < 2 ^ bits -> elem i' [base + k] = DFT inv (2 ^ bits) (fun s => elem input [base + s]) k) /\
    same_out base (base + 2 ^ bits) input i' /\ same_out base (base + 2 ^ bits) temp t'.
Proof.
  intros Hbits Hb HN HT SI ST. unfold fft_pow2. set (n := 2 ^ bits) in *.
  pose proof (Z.pow_pos_nonneg 2 bits ltac:(lia) Hbits) as Pn. fold n in Pn.
  match goal with |- context [for_ 1 (bits + 1) ?b ?st0] =>
    destruct (for_inv (fun r st => exists p q i' t', st = (p, (i', t')) /\ p = 2 ^ (r - 1) /\ n = p * q /\ 0 < p /\ 0 < q /\
      shape i' = [N] /\ shape t' = [T] /\
      (forall j k, 0 <= j < q -> 0 <= k < p ->
        elem i' [base + (j * p + k)] = csum 0 p (fun i => Cmul (root inv p (i * k)) (elem input [base + (j + i * q)]))) /\
      same_out base (base + n) input i' /\ same_out base (base + n) temp t') 1 (bits + 1) b st0) as (st & E & p & q & i' & t' & -> & Ep & En & Pp & Pq & S1 & S2 & V & F1 & F2) end.
  - lia.
  - exists 1, n, input, temp. split; [reflexivity|]. split; [reflexivity|]. split; [lia|]. split; [lia|]. split; [lia|].
    split; [exact SI|]. split; [exact ST|]. split; [|split; apply same_out_refl].
    intros j k Hj Hk. assert (k = 0) by lia. subst k.
    change (csum 0 1 (fun i => Cmul (root inv 1 (i * 0)) (elem input [base + (j + i * n)])))
      with (Cadd (Cmul (root inv 1 (0 * 0)) (elem input [base + (j + 0 * n)])) C0).
    change (0 * 0) with 0. rewrite W_0. replace (j + 0 * n) with (j * 1 + 0) by lia. csolve.
  - intros r st Hr (p & q & i' & t' & -> & Ep & En & Pp & Pq & S1 & S2 & V & F1 & F2).
    (* q is even: r <= bits *)
    assert (exists q', q = 2 * q' /\ 0 < q') as (q' & -> & Pq').
    { exists (2 ^ (bits - r)). split; [|apply Z.pow_pos_nonneg; lia].
      assert (n = p * (2 * 2 ^ (bits - r))) as E2.
      { unfold n. rewrite Ep. replace bits with ((r - 1) + (1 + (bits - r))) at 1 by lia.
        rewrite Z.pow_add_r by lia. rewrite (Z.pow_add_r 2 1) by lia. reflexivity. }
      rewrite E2 in En. apply Z.mul_reg_l in En; lia. }
    assert (EN : n = 2 * p * q') by lia.
    destruct (stage_lemma inv base r p q' N T i' t') as (i2 & t2 & E & A1 & A2 & A3 & A4 & A5); auto; try lia.
    rewrite <- EN in E, A4, A5.
    exists (2 * p, (i2, t2)). rewrite E. cbn [bind]. split; [reflexivity|].
    exists (2 * p), q', i2, t2. split; [reflexivity|].
    split; [rewrite Ep; replace (r + 1 - 1) with (Z.succ (r - 1)) by lia; rewrite Z.pow_succ_r by lia; reflexivity|].
    split; [lia|]. split; [lia|]. split; [lia|]. split; [exact A1|]. split; [exact A2|].
    split; [|split; [apply (same_out_trans _ _ _ i'); assumption|apply (same_out_trans _ _ _ t'); assumption]].
    intros j k Hj Hk.
    assert (VA : forall k, 0 <= k < p -> elem i' [base + (j * p + k)] =
      csum 0 p (fun i => Cmul (root inv p (i * k)) (elem input [base + (j + i * (2 * q'))]))).
    { intros k' Hk'. apply V; lia. }
    assert (VB : forall k, 0 <= k < p -> elem i' [base + ((j + q') * p + k)] =
      csum 0 p (fun i => Cmul (root inv p (i * k)) (elem input [base + (j + (q' + i * (2 * q')))]))).
    { intros k' Hk'. rewrite V by lia. apply csum_ext. intros i Hi. do 4 f_equal. ring. }
    destruct (Z.lt_ge_cases k p) as [L|L].
    + destruct (A3 j k) as [A _]; [lia|lia|]. rewrite A, VA, VB by lia.
      symmetry. apply (dft_split inv p q' k (fun z => elem input [base + (j + z)])). lia.
    + destruct (A3 j (k - p)) as [_ A]; [lia|lia|].
      replace (j * (2 * p) + (k - p) + p) with (j * (2 * p) + k) in A by lia. rewrite A, VA, VB by lia.
      symmetry. rewrite <- (dft_split_hi inv p q' (k - p) (fun z => elem input [base + (j + z)])) by lia.
      apply csum_ext. intros i Hi. do 2 f_equal. f_equal. lia.
  - rewrite E. cbn [bind]. exists i', t'. split; [reflexivity|]. split; [exact S1|]. split; [exact S2|]. split; [|split; assumption].
    replace (bits + 1 - 1) with bits in Ep by lia. fold n in Ep. subst p.
    assert (q = 1) by nia. subst q. intros k Hk.
    replace (base + k) with (base + (0 * n + k)) by lia. rewrite V by lia. unfold DFT.
    apply csum_ext. intros i Hi. f_equal; [f_equal; ring|do 2 f_equal; lia].
Qed.

Lemma general_lemma inv base n N T input temp : 0 <= n -> 0 <= base ->
  base + n <= N -> base + n <= T -> shape input = [N] -> shape temp = [T] ->
  exists i' t', dft_general base n inv (input, temp) = Some (i', t') /\ shape i' = [N] /\ shape t' = [T] /\
    (forall k, 0 <= k < n -> elem i' [base + k] = DFT inv n (fun s => elem input [base + s]) k) /\
    same_out base (base + n) input i' /\ same_out base (base + n) temp t'.
Proof.
  intros Hn Hb HN HT SI ST. unfold dft_general. cbn [fst snd].
  match goal with |- context [for_ 0 n ?b temp] =>
    destruct (for_own [T] (fun i idx => idx_eqb [base + i] idx)
      (fun idx _ => DFT inv n (fun s => elem input [base + s]) (nth 0 idx 0 - base)) b 0 n temp) as (t' & E & S & P & Q) end; auto.
  - intros i st Hi Ss. exists (upd st [base + i] (DFT inv n (fun s => elem input [base + s]) i)).
    rewrite (for_ext 0 n _ (fun s acc => Some (Cadd acc (Cmul (root inv n (i * s)) (elem input [base + s]))))).
    2:{ intros s acc Hs. rewrite rd_some by (rewrite SI; apply in_shape_1; lia). cbn [bind]. now rewrite twiddle_root. }
    rewrite (for_rsum (A := Cring)). cbn [bind].
    rewrite wr_some by (rewrite Ss; apply in_shape_1; lia).
    split; [f_equal; f_equal; unfold DFT, csum; apply Cadd_0_l|]. split; [exact Ss|].
    intro idx. cbn [upd elem]. destruct (idx_eqb_spec [base + i] idx) as [<-|]; [|reflexivity].
    cbn [nth]. f_equal. lia.
  - intros i j idx _ _ A1 A2. cbn beta in A1, A2.
    destruct (idx_eqb_spec [base + i] idx) as [E1|]; [|discriminate].
    destruct (idx_eqb_spec [base + j] idx) as [E2|]; [|discriminate].
    assert (base + i = base + j) by congruence. lia.
  - rewrite E. cbn [bind].
    destruct (copy_back base n t' input N T) as (i' & E2 & S2 & P2 & Q2); auto.
    rewrite E2. cbn [bind]. exists i', t'. split; [reflexivity|]. split; [exact S2|]. split; [exact S|]. split; [|split].
    + intros k Hk. rewrite P2 by lia. rewrite (P k [base + k] Hk (idx_eqb_refl _)). cbn [nth]. f_equal. lia.
    + exact Q2.
    + intros i Hi. apply Q. intros j Hj. apply idx_eqb_neq. intro K. injection K. lia.
Qed.

Lemma fft_1d_lemma inv pos n batch N T input temp : 0 <= n -> 0 <= batch -> 0 <= pos ->
  pos + n * batch <= N -> pos + n * batch <= T -> shape input = [N] -> shape temp = [T] ->
  exists i' t', fft_1d_inplace pos n batch inv (input, temp) = Some (i', t') /\ shape i' = [N] /\ shape t' = [T] /\
    (forall f k, 0 <= f < batch -> 0 <= k < n ->
      elem i' [pos + (f * n + k)] = DFT inv n (fun s => elem input [pos + (f * n + s)]) k) /\
    same_out pos (pos + n * batch) input i' /\ same_out pos (pos + n * batch) temp t'.
Proof.
  intros Hn Hba Hp HN HT SI ST. unfold fft_1d_inplace. destruct (is_power_of_two n) as [b bits] eqn:EP.
  assert (ROW : forall base i t, 0 <= base -> base + n <= N -> base + n <= T -> shape i = [N] -> shape t = [T] ->
    exists i' t', (if b then fft_pow2 base n bits inv (i, t) else dft_general base n inv (i, t)) = Some (i', t') /\
      shape i' = [N] /\ shape t' = [T] /\
      (forall k, 0 <= k < n -> elem i' [base + k] = DFT inv n (fun s => elem i [base + s]) k) /\
      same_out base (base + n) i i' /\ same_out base (base + n) t t').
  { intros base i t B1 B2 B3 Si St. destruct b.
    - destruct (is_pow2_lemma _ _ EP) as [Q1 Q2]. rewrite Q2 in *. apply (pow2_lemma inv base bits N T); auto; lia.
    - apply (general_lemma inv base n N T); auto. }
  match goal with |- context [for_ 0 batch ?b ?st0] =>
    destruct (for_inv (fun f st => exists i' t', st = (i', t') /\ shape i' = [N] /\ shape t' = [T] /\
      (forall g k, 0 <= g < f -> 0 <= k < n ->
        elem i' [pos + (g * n + k)] = DFT inv n (fun s => elem input [pos + (g * n + s)]) k) /\
      (forall i, ~ (pos <= i < pos + n * f) -> elem i' [i] = elem input [i]) /\
      same_out pos (pos + n * f) temp t') 0 batch b st0) as (st & E & i' & t' & -> & S1 & S2 & V & F1 & F2) end.
  - lia.
  - exists input, temp. repeat split; auto; lia.
  - intros f st Hf (i' & t' & -> & S1 & S2 & V & F1 & F2).
    destruct (ROW (pos + f * n) i' t') as (i2 & t2 & E & A1 & A2 & A3 & A4 & A5); auto; try nia.
    rewrite E. exists (i2, t2). split; [reflexivity|]. exists i2, t2. split; [reflexivity|]. split; [exact A1|]. split; [exact A2|].
    split; [|split].
    + intros g k Hg Hk. destruct (Z.eq_dec g f) as [->|NE].
      * replace (pos + (f * n + k)) with (pos + f * n + k) by lia. rewrite A3 by assumption. unfold DFT.
        apply csum_ext. intros s Hs. f_equal. rewrite F1 by nia. do 2 f_equal. lia.
      * rewrite A4 by nia. apply V; lia.
    + intros i Hi. rewrite A4 by nia. apply F1. nia.
    + intros i Hi. rewrite A5 by nia. apply F2. nia.
  - exists i', t'. split; [exact E|]. split; [exact S1|]. split; [exact S2|]. split; [exact V|]. split; assumption.
Qed.

Lemma copy_all_lemma n src dst N M : 0 <= n -> n <= N -> n <= M -> shape src = [N] -> shape dst = [M] ->
  exists d, copy_all n src dst = Some d /\ shape d = [M] /\ (forall i, 0 <= i < n -> elem d [i] = elem src [i]) /\ same_out 0 n dst d.
Proof.
  intros Hn HN HM S1 S2. destruct (copy_back 0 n src dst M N) as (d & E & S & P & Q); auto; try lia.
  exists d. split; [exact E|]. split; [exact S|]. split; [exact P|exact Q].
Qed.

Lemma transpose_lemma pos nx ny out inp N T : 0 <= nx -> 0 <= ny -> 0 <= pos -> pos + nx * ny <= N -> pos + nx * ny <= T ->
  shape out = [N] -> shape inp = [T] ->
  exists o, transpose pos nx ny out inp = Some o /\ shape o = [N] /\
    (forall i j, 0 <= i < ny -> 0 <= j < nx -> elem o [pos + (j * ny + i)] = elem inp [pos + (i * nx + j)]) /\
    same_out pos (pos + nx * ny) out o.
Proof.
  intros Hx Hy Hp HN HT SO SI. unfold transpose.
  match goal with |- context [for_ 0 ny ?b out] =>
    destruct (for_inv (fun i st => shape st = [N] /\
      (forall i' j, 0 <= i' < i -> 0 <= j < nx -> elem st [pos + (j * ny + i')] = elem inp [pos + (i' * nx + j)]) /\
      same_out pos (pos + nx * ny) out st) 0 ny b out) as (o & E & S & V & F) end.
  - lia.
  - split; [exact SO|]. split; [lia|apply same_out_refl].
  - intros i st Hi (S1 & V1 & F1).
    match goal with |- context [for_ 0 nx ?b st] =>
      destruct (for_inv (fun j s2 => shape s2 = [N] /\
        (forall i' j', 0 <= i' < i -> 0 <= j' < nx -> elem s2 [pos + (j' * ny + i')] = elem inp [pos + (i' * nx + j')]) /\
        (forall j', 0 <= j' < j -> elem s2 [pos + (j' * ny + i)] = elem inp [pos + (i * nx + j')]) /\
        same_out pos (pos + nx * ny) out s2) 0 nx b st) as (s2 & E & S2 & V2 & V3 & F2) end.
    + lia.
    + split; [exact S1|]. split; [exact V1|]. split; [lia|exact F1].
    + intros j s2 Hj (S2 & V2 & V3 & F2).
      exists (upd s2 [pos + (j * ny + i)] (elem inp [pos + (i * nx + j)])).
      rewrite rd_some by (rewrite SI; apply in_shape_1; nia). cbn [bind].
      rewrite wr_some by (rewrite S2; apply in_shape_1; nia). split; [reflexivity|]. split; [exact S2|].
      split; [|split].
      * intros i' j' Hi' Hj'. rewrite elem_upd_other; [now apply V2|]. intro K. injection K. intro K'.
        destruct (Z.div_mod_unique ny j j' i i') as [_ ?]; lia.
      * intros j' Hj'. destruct (Z.eq_dec j' j) as [->|NE]; [apply elem_upd_same|].
        rewrite elem_upd_other; [apply V3; lia|]. intro K. injection K. intro K'.
        destruct (Z.div_mod_unique ny j j' i i) as [? _]; lia.
      * intros z Hz. rewrite elem_upd_other; [now apply F2|]. intro K. injection K. intro K'. apply Hz. nia.
    + exists s2. split; [exact E|]. split; [exact S2|]. split; [|exact F2].
      intros i' j Hi' Hj. destruct (Z.eq_dec i' i) as [->|NE]; [apply V3; lia|apply V2; lia].
  - exists o. split; [exact E|]. split; [exact S|]. split; [exact V|exact F].
Qed.

Lemma DFT_ext inv n x y k : (forall s, 0 <= s < n -> x s = y s) -> DFT inv n x k = DFT inv n y k.
Proof. intro H. unfold DFT. apply csum_ext. intros s Hs. now rewrite H. Qed.

(** two passes of one-dimensional transforms are a two-dimensional one *)
Lemma DFT_twice inv n m x k l :
  DFT inv m (fun t => DFT inv n (fun s => x s t) k) l = DFT2 inv n m x k l.
Proof.
  unfold DFT, DFT2. rewrite csum_swap. apply csum_ext. intros t Ht. rewrite csum_mul_l. apply csum_ext. intros s Hs. csolve.
Qed.

Lemma fft_2d_lemma inv nx ny batch N T input temp : 0 <= nx -> 0 <= ny -> 0 <= batch ->
  nx * ny * batch <= N -> nx * ny * batch <= T -> shape input = [N] -> shape temp = [T] ->
  exists i' t', fft_2d_inplace nx ny batch inv (input, temp) = Some (i', t') /\ shape i' = [N] /\ shape t' = [T] /\
    (forall f k l, 0 <= f < batch -> 0 <= k < nx -> 0 <= l < ny ->
      elem i' [nx * ny * f + (k * ny + l)] = DFT2 inv nx ny (fun s t => elem input [nx * ny * f + (s * ny + t)]) k l) /\
    same_out 0 (nx * ny * batch) input i' /\ same_out 0 (nx * ny * batch) temp t'.
Proof.
  intros Hx Hy Hba HN HT SI ST. unfold fft_2d_inplace.
  match goal with |- context [for_ 0 batch ?b ?st0] =>
    destruct (for_inv (fun f st => exists i' t', st = (i', t') /\ shape i' = [N] /\ shape t' = [T] /\
      (forall g k l, 0 <= g < f -> 0 <= k < nx -> 0 <= l < ny ->
        elem i' [nx * ny * g + (k * ny + l)] = DFT2 inv nx ny (fun s t => elem input [nx * ny * g + (s * ny + t)]) k l) /\
      (forall i, ~ (0 <= i < nx * ny * f) -> elem i' [i] = elem input [i]) /\
      same_out 0 (nx * ny * f) temp t') 0 batch b st0) as (st & E & i' & t' & -> & S1 & S2 & V & F1 & F2) end.
  - lia.
  - exists input, temp. repeat split; auto; lia.
  - intros f st Hf (i' & t' & -> & S1 & S2 & V & F1 & F2). cbn [fst snd].
    set (pos := nx * ny * f).
    assert (P0 : 0 <= pos) by (unfold pos; nia).
    assert (PM : pos + nx * ny <= nx * ny * batch) by (unfold pos; nia).
    destruct (transpose_lemma pos ny nx t' i' T N) as (t1 & E1 & T1 & T2 & T3); auto; try lia.
    rewrite E1. cbn [bind].
    destruct (fft_1d_lemma inv pos nx ny T N t1 i') as (t2 & i2 & E2 & A1 & A2 & A3 & A4 & A5); auto; try lia.
    rewrite E2. cbn [bind].
    destruct (transpose_lemma pos nx ny i2 t2 N T) as (i3 & E3 & B1 & B2 & B3); auto; try lia.
    rewrite E3. cbn [bind].
    destruct (fft_1d_lemma inv pos ny nx N T i3 t2) as (i4 & t4 & E4 & G1 & G2 & G3 & G4 & G5); auto; try lia.
    exists (i4, t4). split; [exact E4|]. exists i4, t4. split; [reflexivity|]. split; [exact G1|]. split; [exact G2|].
    assert (PF : pos + nx * ny = nx * ny * (f + 1)) by (unfold pos; ring).
    split; [|split].
    + intros g k l Hg Hk Hl. destruct (Z.eq_dec g f) as [->|NE].
      * fold pos. rewrite G3 by assumption.
        rewrite <- DFT_twice. apply DFT_ext. intros t Ht. rewrite B2 by assumption.
        rewrite A3 by assumption. apply DFT_ext. intros s Hs. rewrite T2 by assumption. apply F1. fold pos. nia.
      * assert (0 <= nx * ny * g) by nia. assert (nx * ny * g + nx * ny <= pos) by (unfold pos; nia).
        assert (0 <= k * ny + l < nx * ny) by nia.
        rewrite G4 by lia. rewrite B3 by lia. rewrite A5 by lia. apply V; lia.
    + intros i Hi. rewrite <- PF in Hi. rewrite G4 by lia. rewrite B3 by lia. rewrite A5 by lia. apply F1. fold pos. nia.
    + intros i Hi. rewrite <- PF in Hi. rewrite G5 by lia. rewrite A4 by lia. rewrite T3 by lia. apply F2. fold pos. nia.
  - exists i', t'. split; [exact E|]. split; [exact S1|]. split; [exact S2|]. split; [exact V|]. split; assumption.
Qed.

(** *** The public transform *)
Lemma fft_1d_out inv n batch input output temp N M T : 0 <= n -> 0 <= batch -> n * batch <= N -> n * batch <= M -> n * batch <= T ->
  shape input = [N] -> shape output = [M] -> shape temp = [T] ->
  exists o t, fft_1d n batch inv input output temp = Some (o, t) /\ shape o = [M] /\ shape t = [T] /\
    (forall f k, 0 <= f < batch -> 0 <= k < n -> elem o [f * n + k] = DFT inv n (fun s => elem input [f * n + s]) k) /\
    same_out 0 (n * batch) output o.
Proof.
  intros Hn Hb HN HM HT SI SO ST. unfold fft_1d.
  destruct (copy_all_lemma (n * batch) input output N M) as (d & E & S & P & Q); auto; [nia|]. rewrite E. cbn [bind].
  destruct (fft_1d_lemma inv 0 n batch M T d temp) as (o & t & E2 & S1 & S2 & V & F1 & F2); auto; try lia.
  exists o, t. split; [exact E2|]. split; [exact S1|]. split; [exact S2|]. split.
  - intros f k Hf Hk. replace (f * n + k) with (0 + (f * n + k)) by lia. rewrite V by assumption. apply DFT_ext.
    intros s Hs. replace (0 + (f * n + s)) with (f * n + s) by lia. apply P. nia.
  - intros i Hi. rewrite F1 by lia. apply Q. lia.
Qed.

Lemma fft_2d_out inv n m batch input output temp N M T : 0 <= n -> 0 <= m -> 0 <= batch ->
  n * m * batch <= N -> n * m * batch <= M -> n * m * batch <= T ->
  shape input = [N] -> shape output = [M] -> shape temp = [T] ->
  exists o t, fft_2d n m batch inv input output temp = Some (o, t) /\ shape o = [M] /\ shape t = [T] /\
    (forall f k l, 0 <= f < batch -> 0 <= k < n -> 0 <= l < m ->
      elem o [n * m * f + (k * m + l)] = DFT2 inv n m (fun s t => elem input [n * m * f + (s * m + t)]) k l) /\
    same_out 0 (n * m * batch) output o.
Proof.
  intros Hn Hm Hb HN HM HT SI SO ST. unfold fft_2d.
  destruct (copy_all_lemma (n * m * batch) input output N M) as (d & E & S & P & Q); auto; [nia|]. rewrite E. cbn [bind].
  destruct (fft_2d_lemma inv n m batch M T d temp) as (o & t & E2 & S1 & S2 & V & F1 & F2); auto; try lia.
  exists o, t. split; [exact E2|]. split; [exact S1|]. split; [exact S2|]. split.
  - intros f k l Hf Hk Hl. rewrite V by assumption. unfold DFT2. apply csum_ext. intros s Hs. apply csum_ext. intros u Hu.
    f_equal. apply P. assert (0 <= n * m * f) by nia. assert (n * m * f + n * m <= n * m * batch) by nia.
    assert (0 <= s * m + u < n * m) by nia. lia.
  - intros i Hi. rewrite F1 by lia. apply Q. lia.
Qed.

Lemma dims_match_refl l : dims_match l l = true.
Proof. unfold dims_match. apply forallb_forall. intros i _. apply Z.eqb_refl. Qed.

(** *** Orthogonality *)
Lemma W_neg_inv inv n m : root (negb inv) n m = root inv n (- m).
Proof. unfold root. f_equal. rewrite opp_IZR. unfold Rdiv. destruct inv; cbn [negb]; ring. Qed.

Lemma cis_ne1 t : (0 < t < 2 * PI)%R -> cis t <> C1.
Proof.
  intros [H1 H2] H. injection H as Hc _.
  assert (K : (0 < sin (t / 2))%R) by (apply sin_gt_0; lra).
  replace t with (2 * (t / 2))%R in Hc by field. rewrite cos_2a_sin in Hc. nra.
Qed.

Lemma root_ne1 inv n d : 0 < n -> d <> 0 -> - n < d < n -> root inv n d <> C1.
Proof.
  assert (A : forall d, 0 < n -> 0 < d < n -> cis (2 * PI * (IZR d / IZR n)) <> C1).
  { intros e Hn He. apply cis_ne1.
    assert (0 < IZR n)%R by (apply IZR_lt; lia). assert (0 < IZR e)%R by (apply IZR_lt; lia).
    assert (IZR e < IZR n)%R by (apply IZR_lt; lia). pose proof PI_RGT_0.
    assert (0 < IZR e / IZR n)%R by (apply Rdiv_lt_0_compat; lra).
    assert (IZR e / IZR n < 1)%R by (apply (Rmult_lt_reg_r (IZR n)); [lra|]; unfold Rdiv; rewrite Rmult_assoc, Rinv_l; lra).
    split; nra. }
  assert (B : forall d, 0 < n -> 0 < d < n -> cis (- (2 * PI * (IZR d / IZR n))) <> C1).
  { intros e Hn He K. apply (A e Hn He). rewrite <- (Ropp_involutive (2 * PI * _)), cis_neg, K. csolve. }
  intros Hn Hd Hr. unfold root. destruct inv.
  - destruct (Z.lt_ge_cases d 0) as [L|L].
    + replace (2 * PI * (IZR d / IZR n))%R with (- (2 * PI * (IZR (- d) / IZR n)))%R by (rewrite opp_IZR; unfold Rdiv; ring).
      apply B; lia.
    + apply A; lia.
  - destruct (Z.lt_ge_cases d 0) as [L|L].
    + replace (-2 * PI * (IZR d / IZR n))%R with (2 * PI * (IZR (- d) / IZR n))%R by (rewrite opp_IZR; unfold Rdiv; ring).
      apply A; lia.
    + replace (-2 * PI * (IZR d / IZR n))%R with (- (2 * PI * (IZR d / IZR n)))%R by ring. apply B; lia.
Qed.

Lemma csum_shift1 n f : 0 <= n -> Cadd (csum 0 n (fun i => f (i + 1))) (f 0) = Cadd (csum 0 n f) (f n).
Proof.
  intro H. pattern n. apply natlike_ind; [| |exact H].
  - rewrite !csum_empty by lia. reflexivity.
  - intros x Hx IH. replace (Z.succ x) with (x + 1) by lia. rewrite !csum_snoc by lia. rewrite <- IH. csolve.
Qed.

Lemma root_sum inv n d : 0 < n -> d <> 0 -> - n < d < n -> csum 0 n (fun s => root inv n (s * d)) = C0.
Proof.
  intros Hn Hd Hr. set (S := csum 0 n (fun s => root inv n (s * d))).
  assert (E : Cmul (root inv n d) S = S).
  { unfold S. rewrite csum_mul_l.
    rewrite (csum_ext _ _ _ (fun s => root inv n ((s + 1) * d))).
    2:{ intros s Hs. rewrite <- W_add. f_equal. ring. }
    pose proof (csum_shift1 n (fun s => root inv n (s * d)) ltac:(lia)) as K. cbn beta in K.
    change (0 * d) with 0 in K. rewrite W_0, W_full in K by lia.
    transitivity (Csub (Cadd (csum 0 n (fun i => root inv n ((i + 1) * d))) C1) C1); [csolve|]. rewrite K. csolve. }
  pose proof (root_ne1 inv n d Hn Hd Hr) as NE.
  assert (Z0 : Cmul (Csub (root inv n d) C1) S = C0).
  { transitivity (Csub (Cmul (root inv n d) S) S); [csolve|]. rewrite E. csolve. }
  assert (NZ : Csub (root inv n d) C1 <> C0).
  { intro K. apply NE. transitivity (Cadd (Csub (root inv n d) C1) C1); [csolve|]. rewrite K. csolve. }
  transitivity (Cmul (Cinv (Csub (root inv n d) C1)) (Cmul (Csub (root inv n d) C1) S)).
  - set (u := Csub (root inv n d) C1) in *. clearbody u. transitivity (Cmul (Cmul (Cinv u) u) S).
    + rewrite (Cinv_l _ NZ). csolve.
    + generalize (Cinv u). intro w. csolve.
  - rewrite Z0. csolve.
Qed.

Lemma csum_const n c : 0 <= n -> csum 0 n (fun _ => c) = Cmul (RtoC (IZR n)) c.
Proof.
  intro H. pattern n. apply natlike_ind; [| |exact H].
  - rewrite csum_empty by lia. csolve.
  - intros x Hx IH. replace (Z.succ x) with (x + 1) by lia. rewrite csum_snoc by lia. rewrite IH, plus_IZR. csolve.
Qed.

Lemma DFT_inverse inv n x k : 0 < n -> 0 <= k < n -> DFT (negb inv) n (DFT inv n x) k = Cmul (RtoC (IZR n)) (x k).
Proof.
  intros Hn Hk. unfold DFT.
  rewrite (csum_ext _ _ _ (fun s => csum 0 n (fun t => Cmul (root inv n (s * (t - k))) (x t)))).
  2:{ intros s Hs. rewrite csum_mul_l. apply csum_ext. intros t Ht. rewrite W_neg_inv.
      replace (s * (t - k)) with (- (k * s) + s * t) by ring. rewrite W_add. csolve. }
  rewrite csum_swap.
  rewrite (csum_ext _ _ _ (fun t => Cmul (csum 0 n (fun s => root inv n (s * (t - k)))) (x t))).
  2:{ intros t Ht. now rewrite csum_mul_r. }
  rewrite (csum_one 0 n k) by (try lia; intros i Hi NE; rewrite root_sum by lia; csolve).
  f_equal. rewrite (csum_ext _ _ _ (fun _ => C1)).
  - rewrite csum_const by lia. csolve.
  - intros i Hi. replace (i * (k - k)) with 0 by ring. apply W_0.
Qed.

Lemma DFT2_inverse inv n m x k l : 0 < n -> 0 < m -> 0 <= k < n -> 0 <= l < m ->
  DFT2 (negb inv) n m (DFT2 inv n m x) k l = Cmul (RtoC (IZR (n * m))) (x k l).
Proof.
  intros Hn Hm Hk Hl. rewrite <- DFT_twice.
  transitivity (DFT (negb inv) m (fun t => Cmul (RtoC (IZR n)) (DFT inv m (fun b => x k b) t)) l).
  { apply DFT_ext. intros t Ht.
    rewrite (DFT_ext _ n _ (DFT inv n (fun a => DFT inv m (fun b => x a b) t))).
    - now rewrite DFT_inverse.
    - intros s Hs. unfold DFT, DFT2. apply csum_ext. intros a Ha. rewrite csum_mul_l. apply csum_ext. intros b Hb. csolve. }
  transitivity (Cmul (RtoC (IZR n)) (DFT (negb inv) m (DFT inv m (fun b => x k b)) l)).
  { unfold DFT at 1 3. rewrite csum_mul_l. apply csum_ext. intros t Ht. csolve. }
  rewrite DFT_inverse by assumption. rewrite mult_IZR. csolve.
Qed.

Lemma DFT2_ext inv n m x y k l : (forall s t, 0 <= s < n -> 0 <= t < m -> x s t = y s t) -> DFT2 inv n m x k l = DFT2 inv n m y k l.
Proof. intro H. unfold DFT2. apply csum_ext. intros s Hs. apply csum_ext. intros t Ht. now rewrite H. Qed.

(** *** Phase and normalisation *)
Lemma land1 x : Z.land x 1 = x mod 2.
Proof. change 1 with (Z.ones 1). now rewrite Z.land_ones by lia. Qed.
Lemma phase_factor x : IZR (1 - Z.shiftl (Z.land x 1) 1) = sign x.
Proof.
  rewrite land1, Z.shiftl_mul_pow2 by lia. change (2 ^ 1) with 2. unfold sign. rewrite Zmod_even.
  destruct (Z.even x); f_equal; reflexivity.
Qed.

Lemma phase_lemma d n m : shape d = [n; m] -> 0 <= n -> 0 <= m ->
  exists d', fft_phase d = Some d' /\ shape d' = [n; m] /\
    forall x y, 0 <= x < n -> 0 <= y < m -> elem d' [x; y] = Cmul (RtoC (sign (x + y))) (elem d [x; y]).
Proof.
  intros S Hn Hm. unfold fft_phase, dim. rewrite S. cbn [nth].
  destruct (for_set2 n m (fun x y v => Cmul v (RtoC (IZR (1 - Z.shiftl (Z.land (x + y) 1) 1))))
    (fun ix iy d => let* x := rd d [ix; iy] in wr d [ix; iy] (Cmul x (RtoC (IZR (1 - Z.shiftl (Z.land (ix + iy) 1) 1)))))
    0 n 0 m d) as (d' & E & S' & P & _); auto; try lia.
  - intros i j st Hi Hj Ss. rewrite rd_some by (rewrite Ss; apply in_shape_2; lia). cbn [bind].
    rewrite wr_some by (rewrite Ss; apply in_shape_2; lia). reflexivity.
  - exists d'. split; [exact E|]. split; [exact S'|]. intros x y Hx Hy. rewrite P by assumption. rewrite phase_factor. csolve.
Qed.

Lemma norm_lemma d n m : shape d = [n; m] -> 0 <= n -> 0 <= m -> n * m <= 2147483647 ->
  exists d', fft_norm d = Some d' /\ shape d' = [n; m] /\
    forall x y, 0 <= x < n -> 0 <= y < m -> elem d' [x; y] = Cmul (RtoC (/ IZR (n * m))) (elem d [x; y]).
Proof.
  intros S Hn Hm Pix. unfold fft_norm, dim, int_times. rewrite S. cbn [nth]. replace (n * m <=? 2147483647) with true by (symmetry; now apply Z.leb_le). cbn [bind].
  destruct (for_set2 n m (fun x y v => Cmul v (RtoC (1 / IZR (n * m))))
    (fun ix iy d => let* x := rd d [ix; iy] in wr d [ix; iy] (Cmul x (RtoC (1 / IZR (n * m)))))
    0 n 0 m d) as (d' & E & S' & P & _); auto; try lia.
  - intros i j st Hi Hj Ss. rewrite rd_some by (rewrite Ss; apply in_shape_2; lia). cbn [bind].
    rewrite wr_some by (rewrite Ss; apply in_shape_2; lia). reflexivity.
  - exists d'. split; [exact E|]. split; [exact S'|]. intros x y Hx Hy. rewrite P by assumption.
    unfold Rdiv. rewrite Rmult_1_l. csolve.
Qed.

Lemma sign_add a b : sign (a + b) = (sign a * sign b)%R.
Proof. unfold sign. rewrite Z.even_add. destruct (Z.even a), (Z.even b); cbn [Bool.eqb]; ring. Qed.
Lemma sign_sqr a : (sign a * sign a)%R = 1%R.
Proof. unfold sign. destruct (Z.even a); ring. Qed.
Lemma sign_neg a : sign (- a) = sign a.
Proof. unfold sign. now rewrite Z.even_opp. Qed.

Lemma W_half_pow inv h k : h <> 0 -> root inv (2 * h) (k * h) = RtoC (sign k).
Proof.
  intro H. assert (P : forall k, 0 <= k -> root inv (2 * h) (k * h) = RtoC (sign k)).
  { intros k0 H0. pattern k0. apply natlike_ind; [| |exact H0].
    - change (0 * h) with 0. rewrite W_0. reflexivity.
    - intros x Hx IH. replace (Z.succ x * h) with (x * h + h) by ring. rewrite W_add, W_half, IH by assumption.
      replace (Z.succ x) with (x + 1) by lia. rewrite sign_add. replace (sign 1) with (-1)%R by reflexivity. csolve. }
  destruct (Z.le_gt_cases 0 k) as [L|L]; [now apply P|].
  replace (k * h) with (- ((- k) * h)) by ring. rewrite W_neg, P by lia. rewrite sign_neg. csolve.
Qed.

Lemma W_centred inv h k s : h <> 0 -> root inv (2 * h) ((k - h) * (s - h)) = Cmul (RtoC (sign h * sign (k + s))) (root inv (2 * h) (k * s)).
Proof.
  intro H. replace ((k - h) * (s - h)) with (k * s + (- (k + s) + h) * h) by ring.
  rewrite W_add, W_half_pow by assumption. rewrite sign_add, sign_neg. csolve.
Qed.
