(** Convolution, continued: removing the padding and the whole function (proofs only). *)
From Verif Require Import Base BaseFacts Sum CRing Loops Cplx Fft FftSpec FftFacts FftFacts2 FftFacts3 FftConv FftConvSpec FftConvFacts.
From Coq Require Import Lra Lia.
Open Scope Z_scope.

Lemma pow2_even j P : 0 <= j -> P = 2 ^ j -> 1 < P -> exists h, 0 < h /\ P = 2 * h.
Proof.
  intros Hj E H. destruct (Z.eq_dec j 0) as [->|N]; [cbn in E; lia|].
  exists (2 ^ (j - 1)). split; [apply Z.pow_pos_nonneg; lia|]. subst P.
  rewrite <- Z.pow_succ_r by lia. f_equal. lia.
Qed.

Lemma remove_lemma m data P e M : 1 <= e -> 0 <= P - 2 * e -> shape m = [P * P] -> shape data = [M] ->
  (P - 2 * e) * (P - 2 * e) <= M ->
  exists d, remove_padding_2d m data P P e e = Some d /\ shape d = [M] /\
    (forall i j, 0 <= i < P - 2 * e -> 0 <= j < P - 2 * e ->
      elem d [i * (P - 2 * e) + j] = elem m [(i + (e - 1)) * P + (j + (e - 1))]) /\
    (forall t, t < 0 \/ (P - 2 * e) * (P - 2 * e) <= t -> elem d [t] = elem data [t]).
Proof.
  intros He Hn Sm Sd HM. unfold remove_padding_2d. set (n := P - 2 * e) in *.
  assert (HP : P = n + 2 * e) by (unfold n; lia). clearbody n.
  match goal with |- context [for_ 0 n ?b data] =>
    destruct (for_inv (fun i st => shape st = [M] /\
      (forall i' j, 0 <= i' < i -> 0 <= j < n -> elem st [i' * n + j] = elem m [(i' + (e - 1)) * P + (j + (e - 1))]) /\
      (forall t, t < 0 \/ n * n <= t -> elem st [t] = elem data [t]))
      0 n b data) as (p & E & S & V & F) end; [lia| | |].
  - split; [exact Sd|]. split; [lia|auto].
  - intros i st Hi (S1 & V1 & F1).
    match goal with |- context [for_ 0 n ?b st] =>
      destruct (for_inv (fun j s2 => shape s2 = [M] /\
        (forall j', 0 <= j' < j -> elem s2 [i * n + j'] = elem m [(i + (e - 1)) * P + (j' + (e - 1))]) /\
        (forall t, t < i * n \/ (i + 1) * n <= t -> elem s2 [t] = elem st [t]))
        0 n b st) as (s2 & E & S2 & V2 & F2) end; [lia| | |].
    + split; [exact S1|]. split; [lia|auto].
    + intros j s2 Hj (S2 & V2 & F2). exists (upd s2 [i * n + j] (elem m [(i + (e - 1)) * P + (j + (e - 1))])).
      rewrite rd_some.
      2:{ rewrite Sm; apply in_shape_1. assert ((i + (e - 1)) * P <= (P - 1) * P) by (apply Z.mul_le_mono_nonneg_r; lia).
          assert (0 <= (i + (e - 1)) * P) by (apply Z.mul_nonneg_nonneg; lia). lia. }
      cbn [bind]. assert (i * n <= (n - 1) * n) by (apply Z.mul_le_mono_nonneg_r; lia). assert (0 <= i * n) by (apply Z.mul_nonneg_nonneg; lia).
      rewrite wr_some by (rewrite S2; apply in_shape_1; lia).
      split; [reflexivity|]. split; [exact S2|]. split.
      * intros j' Hj'. destruct (Z.eq_dec j' j) as [->|NE]; [apply elem_upd_same|].
        rewrite elem_upd_other; [apply V2; lia|]. intro K. injection K. lia.
      * intros t Ht. rewrite elem_upd_other; [apply F2; lia|]. intro K. injection K. lia.
    + exists s2. split; [exact E|]. split; [exact S2|]. split.
      * intros i' j Hi' Hj. destruct (Z.eq_dec i' i) as [->|NE]; [apply V2; lia|].
        rewrite F2; [apply V1; lia|]. left. nia.
      * intros t Ht. rewrite F2; [apply F1; lia|]. nia.
  - exists p. auto.
Qed.

(** the padded array as a matrix *)
Lemma padded_at data n e P M : 0 <= n -> 0 <= e -> P = n + 2 * e -> n * n <= M -> shape data = [M] ->
  exists p, pad_2d data (mk_nd [P * P] (fun _ => C0)) n n e e = Some p /\ shape p = [P * P] /\
    forall i j, 0 <= i < P -> 0 <= j < P -> elem p [i * P + j] = at0 data n (i - e) (j - e).
Proof.
  intros Hn He HP HM Sd.
  destruct (pad_2d_lemma data (mk_nd [P * P] (fun _ => C0)) n e P (P * P) M) as (p & E & S & V & F); auto; try lia; try nia.
  exists p. split; [exact E|]. split; [exact S|]. intros i j Hi Hj. unfold at0.
  destruct (Z.leb_spec 0 (i - e)), (Z.ltb_spec (i - e) n), (Z.leb_spec 0 (j - e)), (Z.ltb_spec (j - e) n); cbn [andb].
  1:{ rewrite <- (V (i - e) (j - e)) by lia. do 2 f_equal. ring. }
  all: rewrite F; [reflexivity|]; intros i' j' Hi' Hj' K; apply flat_eq in K; lia.
Qed.

Lemma Cadd_0_r' x : Cadd x C0 = x.
Proof. csolve. Qed.
Lemma Cadd_comm x y : Cadd x y = Cadd y x.
Proof. csolve. Qed.
Lemma csum_window P e n f : 0 <= e -> 0 <= n -> e + n <= P ->
  (forall a, 0 <= a < P -> a < e \/ e + n <= a -> f a = C0) -> csum 0 P f = csum 0 n (fun i => f (i + e)).
Proof.
  intros He Hn HP Z0. unfold csum.
  rewrite (sum_split _ _ (Rcm (A := Cring)) 0 e P) by lia. rewrite (sum_split _ _ (Rcm (A := Cring)) e (e + n) P) by lia.
  rewrite (sum_none _ _ (Rcm (A := Cring)) 0 e) by (intros; apply Z0; lia).
  rewrite (sum_none _ _ (Rcm (A := Cring)) (e + n) P) by (intros; apply Z0; lia).
  replace e with (0 + e) at 1 by ring. replace (e + n) with (n + e) by ring. rewrite (sum_shift _ _ 0 n e).
  cbn [radd r0 Cring]. rewrite (Cadd_comm C0), Cadd_0_r'. apply Cadd_0_r'.
Qed.

(** circular equals linear in the window kept *)
Lemma wrap_at P e2 n2 n1 i a : 0 < n1 -> 0 <= e2 -> 0 < n2 -> P = n2 + 2 * e2 -> n1 + n2 <= P + 1 ->
  forall c, 0 <= c < n2 -> 0 <= i < n1 -> 0 <= a < n1 ->
  exists q, (i - a + c + e2) mod P = i - a + c + e2 + q * P /\ (q = 0 \/ (i - a + c + e2 + q * P < e2 \/ e2 + n2 <= i - a + c + e2 + q * P)
     /\ (i - a + c < 0 \/ n2 <= i - a + c)).
Proof.
  intros H1 He H2 HP HL c Hc Hi Ha. exists (- ((i - a + c + e2) / P)).
  pose proof (Z.div_mod (i - a + c + e2) P ltac:(lia)) as D. pose proof (Z.mod_pos_bound (i - a + c + e2) P ltac:(lia)) as B.
  set (q := (i - a + c + e2) / P) in *. set (r := (i - a + c + e2) mod P) in *. clearbody q r.
  split; [lia|].
  destruct (Z.eq_dec q 0) as [->|NQ]; [left; lia|right].
  assert (q = 1 \/ q = -1) as [->| ->]; [|lia|lia].
  assert (- 2 < q < 2) by nia. lia.
Qed.

Lemma at0_row_out y n i j : i < 0 \/ n <= i -> at0 y n i j = C0.
Proof. intro H. unfold at0. destruct (Z.leb_spec 0 i), (Z.ltb_spec i n); cbn [andb]; try reflexivity; lia. Qed.
Lemma at0_col_out y n i j : j < 0 \/ n <= j -> at0 y n i j = C0.
Proof. intro H. unfold at0. destruct (Z.leb_spec 0 j), (Z.ltb_spec j n); cbn [andb]; rewrite ?andb_false_r; try reflexivity; lia. Qed.

Lemma even_lemma n1 n2 in1 in2 out M1 M2 M : 0 < n1 -> 0 < n2 -> Z.even n1 = true -> Z.even n2 = true ->
  shape in1 = [M1] -> shape in2 = [M2] -> shape out = [M] -> n1 * n1 <= M1 -> n2 * n2 <= M2 -> n1 * n1 <= M ->
  exists out', fft_convolution in1 in2 n1 n2 out = Some out' /\ shape out' = [M] /\
    (forall i j, 0 <= i < n1 -> 0 <= j < n1 ->
       elem out' [i * n1 + j] = full_conv in1 n1 in2 n2 (i + (n2 - 1) / 2) (j + (n2 - 1) / 2)) /\
    (forall t, t < 0 \/ n1 * n1 <= t -> elem out' [t] = elem out [t]).
Proof.
  intros H1 H2 E1 E2 S1 S2 S HM1 HM2 HM.
  apply Z.even_spec in E1. destruct E1 as (k1 & E1). apply Z.even_spec in E2. destruct E2 as (k2 & E2).
  destruct (pad_dim_lemma n1 n2 H1 H2) as (P & j & EP & LP & Hj & PP).
  destruct (pow2_even j P Hj PP ltac:(lia)) as (h & Hh & HP2).
  unfold fft_convolution. rewrite EP. cbn [bind].
  assert (CD1 : cdiv (P - n1) 2 = h - k1) by (unfold cdiv; rewrite Z.quot_div_nonneg by lia; symmetry; apply (Z.div_unique _ _ _ 0); lia).
  assert (CD2 : cdiv (P - n2) 2 = h - k2) by (unfold cdiv; rewrite Z.quot_div_nonneg by lia; symmetry; apply (Z.div_unique _ _ _ 0); lia).
  rewrite CD1, CD2.
  destruct (padded_at in1 n1 (h - k1) P M1) as (a & Ea & Sa & Va); auto; try lia. rewrite Ea. cbn [bind].
  destruct (padded_at in2 n2 (h - k2) P M2) as (b & Eb & Sb & Vb); auto; try lia. rewrite Eb. cbn [bind].
  destruct (core_lemma a b h P Hh HP2 Sa Sb) as (m & Em & Sm & Vm).
  destruct (remove_lemma m out P (h - k1) M) as (d & Ed & Sd & Vd & Fd); auto; try lia.
  assert (G : forall r, (let* m0 := conv_core a b P in remove_padding_2d m0 out P P (h - k1) (h - k1)) = r ->
     (let* (_, (a0, _)) := fft_exec [P; P] [P; P] 2 1 a a (mk_nd [P * P] (fun _ => C0)) in
      let* (_, (b0, _)) := fft_exec [P; P] [P; P] 2 1 b b (mk_nd [P * P] (fun _ => C0)) in
      let* m0 := for_ 0 (P * P) (fun i m0 => let* x := rd a0 [i] in let* y := rd b0 [i] in wr m0 [i] (Cmul x y)) (mk_nd [P * P] (fun _ => C0)) in
      let* (_, (m1, _)) := fft_exec [P; P] [P; P] 2 0 m0 m0 (mk_nd [P * P] (fun _ => C0)) in
      let* m2 := fft_normalise m1 (P * P) in
      let* m3 := fft_shift_2d m2 P P in remove_padding_2d m3 out P P (h - k1) (h - k1)) = r).
  { intros r <-. unfold conv_core.
    destruct (fft_exec [P; P] [P; P] 2 1 a a _) as [(? & ? & ?)|]; [|reflexivity]. cbn [bind].
    destruct (fft_exec [P; P] [P; P] 2 1 b b _) as [(? & ? & ?)|]; [|reflexivity]. cbn [bind].
    destruct (for_ 0 (P * P) _ _) as [?|]; [|reflexivity]. cbn [bind].
    destruct (fft_exec [P; P] [P; P] 2 0 _ _ _) as [(? & ? & ?)|]; [|reflexivity]. cbn [bind].
    destruct (fft_normalise _ _) as [?|]; [|reflexivity]. reflexivity. }
  exists d. split; [apply G; rewrite Em; exact Ed|]. split; [exact Sd|].
  replace (P - 2 * (h - k1)) with n1 in Vd, Fd by lia. split; [|exact Fd].
  intros i l Hi Hl. rewrite Vd by assumption. rewrite Vm by lia.
  assert (HC : (n2 - 1) / 2 = k2 - 1) by (symmetry; apply (Z.div_unique _ _ _ 1); lia). rewrite HC.
  unfold circ, full_conv.
  rewrite (csum_window P (h - k1) n1); [|lia|lia|lia|].
  2:{ intros s Hs Ho. apply (sum_none _ _ (Rcm (A := Cring))). intros t Ht. rewrite Va by lia.
      rewrite at0_row_out by lia. cbn [r0 Cring]. csolve. }
  apply csum_ext. intros s Hs.
  rewrite (csum_window P (h - k1) n1); [|lia|lia|lia|].
  2:{ intros t Ht Ho. rewrite Va by lia. rewrite at0_col_out by lia. csolve. }
  apply csum_ext. intros t Ht. rewrite Va by lia.
  replace (s + (h - k1) - (h - k1)) with s by ring. replace (t + (h - k1) - (h - k1)) with t by ring.
  f_equal.
  { unfold at0. replace (0 <=? s) with true by lia. replace (s <? n1) with true by lia. replace (0 <=? t) with true by lia.
    replace (t <? n1) with true by lia. reflexivity. }
  rewrite !Zminus_mod_idemp_l.
  replace (i + (h - k1 - 1) + h - (s + (h - k1))) with (i - s + (k2 - 1) + (h - k2)) by ring.
  replace (l + (h - k1 - 1) + h - (t + (h - k1))) with (l - t + (k2 - 1) + (h - k2)) by ring.
  rewrite Vb by (apply Z.mod_pos_bound; lia).
  destruct (wrap_at P (h - k2) n2 n1 i s) with (c := k2 - 1) as (q & Q & D); try lia.
  destruct (wrap_at P (h - k2) n2 n1 l t) with (c := k2 - 1) as (q' & Q' & D'); try lia.
  rewrite Q, Q'. destruct D as [->|(D1 & D2)].
  - destruct D' as [->|(D1' & D2')].
    + f_equal; ring.
    + rewrite !at0_col_out by lia. reflexivity.
  - rewrite !at0_row_out by lia. reflexivity.
Qed.

(** Odd first inputs: the copy out leaves [out] *)
Lemma wr_bound {A} (d : nd A) M t x d' : shape d = [M] -> wr d [t] x = Some d' -> shape d' = [M] /\ 0 <= t < M.
Proof.
  intros S W. unfold wr in W. destruct (in_shape (shape d) [t]) eqn:I; [|discriminate]. injection W as <-.
  split; [exact S|]. rewrite S in I. cbn in I. lia.
Qed.

Lemma remove_none m data P e M : 0 < P - 2 * e -> shape data = [M] -> M < (P - 2 * e) * (P - 2 * e) ->
  remove_padding_2d m data P P e e = None.
Proof.
  intros Hn Sd HM. unfold remove_padding_2d. set (n := P - 2 * e) in *. clearbody n.
  match goal with |- ?X = None => destruct X as [d|] eqn:E; [exfalso|reflexivity] end.
  assert (K : shape d = [M] /\ (0 < n -> n * n <= M)).
  { revert E. match goal with |- for_ 0 n ?b data = _ -> _ =>
      apply (for_inv_partial (fun i st => shape st = [M] /\ (0 < i -> i * n <= M)) 0 n b data) end; [lia| |].
    - split; [exact Sd|lia].
    - intros i s s' Hi (S1 & _) E. cbn beta in E.
      assert (K : shape s' = [M] /\ (0 < n -> i * n + n <= M)).
      { revert E. match goal with |- for_ 0 n ?b s = _ -> _ =>
          apply (for_inv_partial (fun j st => shape st = [M] /\ (0 < j -> i * n + j <= M)) 0 n b s) end; [lia| |].
        - split; [exact S1|lia].
        - intros j s1 s1' Hj (S2 & _) W. destruct (rd m _) as [x|]; [|discriminate]. cbn [bind] in W.
          destruct (wr_bound _ _ _ _ _ S2 W) as (A & B). split; [exact A|lia]. }
      destruct K as (A & B). split; [exact A|]. intros _. specialize (B Hn). lia. }
  destruct K as (_ & K). specialize (K Hn). lia.
Qed.

Lemma odd_lemma n1 n2 in1 in2 out M : 0 < n1 -> 0 < n2 -> Z.odd n1 = true ->
  shape out = [M] -> M < (n1 + 1) * (n1 + 1) -> fft_convolution in1 in2 n1 n2 out = None.
Proof.
  intros H1 H2 O S HM. destruct (pad_dim_lemma n1 n2 H1 H2) as (P & j & EP & LP & Hj & PP).
  unfold fft_convolution. rewrite EP. cbn [bind].
  apply Z.odd_spec in O. destruct O as (k1 & O).
  destruct (Z.eq_dec P 1) as [->|NP].
  - assert (N1 : n1 = 1) by lia. clear O. subst n1. change (cdiv (1 - 1) 2) with 0.
    destruct (pad_2d in1 _ 1 1 0 0) as [a|]; [|reflexivity]. cbn [bind].
    destruct (pad_2d in2 _ _ _ _ _) as [b|]; [|reflexivity]. cbn [bind].
    destruct (fft_exec _ _ 2 1 a a _) as [(? & ? & ?)|]; [|reflexivity]. cbn [bind].
    destruct (fft_exec _ _ 2 1 b b _) as [(? & ? & ?)|]; [|reflexivity]. cbn [bind].
    destruct (for_ 0 (1 * 1) _ _) as [?|]; [|reflexivity]. cbn [bind].
    destruct (fft_exec _ _ 2 0 _ _ _) as [(? & m & ?)|]; [|reflexivity]. cbn [bind].
    destruct (fft_normalise _ _) as [m1|]; [|reflexivity]. cbn [bind].
    destruct (fft_shift_2d _ _ _) as [m2|]; [|reflexivity]. cbn [bind].
    unfold remove_padding_2d. 
    unfold for_. cbn. unfold rd. destruct (shape m2) as [|d [|? ?]]; reflexivity.
  - destruct (pow2_even j P Hj PP ltac:(lia)) as (h & Hh & HP2).
    assert (CD1 : cdiv (P - n1) 2 = h - k1 - 1) by (unfold cdiv; rewrite Z.quot_div_nonneg by lia; symmetry; apply (Z.div_unique _ _ _ 1); lia).
    rewrite CD1.
    destruct (pad_2d in1 _ _ _ _ _) as [a|]; [|reflexivity]. cbn [bind].
    destruct (pad_2d in2 _ _ _ _ _) as [b|]; [|reflexivity]. cbn [bind].
    destruct (fft_exec _ _ 2 1 a a _) as [(? & ? & ?)|]; [|reflexivity]. cbn [bind].
    destruct (fft_exec _ _ 2 1 b b _) as [(? & ? & ?)|]; [|reflexivity]. cbn [bind].
    destruct (for_ 0 (P * P) _ _) as [?|]; [|reflexivity]. cbn [bind].
    destruct (fft_exec _ _ 2 0 _ _ _) as [(? & m & ?)|]; [|reflexivity]. cbn [bind].
    destruct (fft_normalise _ _) as [m1|]; [|reflexivity]. cbn [bind].
    destruct (fft_shift_2d _ _ _) as [m2|]; [|reflexivity]. cbn [bind].
    apply (remove_none _ _ _ _ M); [lia|exact S|]. replace (P - 2 * (h - k1 - 1)) with (n1 + 1) by lia. exact HM.
Qed.

(** An odd second input is laid out with the wrong row length: n1 = 2, n2 = 3 *)
Definition delta (n k : Z) : nd C := mk_nd [n] (fun idx => if idx_eqb idx [k] then C1 else C0).

Lemma odd_kernel_lemma : exists out', fft_convolution (delta 4 0) (delta 9 4) 2 3 (delta 4 0) = Some out' /\ elem out' [0] = C0.
Proof.
  unfold fft_convolution. change (pad_pow2 (S (Z.to_nat (2 + 3))) (2 + 3 - 1)) with (Some 4). cbn [bind].
  change (cdiv (4 - 2) 2) with 1. change (cdiv (4 - 3) 2) with 0.
  destruct (padded_at (delta 4 0) 2 1 4 4) as (a & Ea & Sa & Va); auto; try lia. rewrite Ea. cbn [bind].
  destruct (pad_2d_lemma (delta 9 4) (mk_nd [4 * 4] (fun _ => C0)) 3 0 3 (4 * 4) 9) as (b & Eb & Sb & Vb & Fb); auto; try lia.
  rewrite Eb. cbn [bind].
  destruct (core_lemma a b 2 4 ltac:(lia) ltac:(lia) Sa Sb) as (m & Em & Sm & Vm).
  destruct (remove_lemma m (delta 4 0) 4 1 4) as (d & Ed & Sd & Vd & Fd); auto; try lia.
  exists d. split.
  - unfold conv_core in Em.
    destruct (fft_exec [4; 4] [4; 4] 2 1 a a _) as [(? & ? & ?)|]; [|discriminate]. cbn [bind] in *.
    destruct (fft_exec [4; 4] [4; 4] 2 1 b b _) as [(? & ? & ?)|]; [|discriminate]. cbn [bind] in *.
    destruct (for_ 0 (4 * 4) _ _) as [?|]; [|discriminate]. cbn [bind] in *.
    destruct (fft_exec [4; 4] [4; 4] 2 0 _ _ _) as [(? & ? & ?)|]; [|discriminate]. cbn [bind] in *.
    destruct (fft_normalise _ _) as [?|]; [|discriminate]. cbn [bind] in *. rewrite Em. exact Ed.
  - change [0] with [0 * (4 - 2 * 1) + 0]. rewrite Vd by lia. rewrite Vm by lia.
    change ((0 + (1 - 1) + 2) mod 4) with 2. unfold circ.
    rewrite (csum_one 0 4 1); [|lia|].
    2:{ intros s Hs N. apply (sum_none _ _ (Rcm (A := Cring))). intros t Ht. rewrite Va by lia. cbn [r0 Cring].
        assert (K : at0 (delta 4 0) 2 (s - 1) (t - 1) = C0); [|rewrite K; csolve].
        unfold at0. destruct (_ && _) eqn:B; [|reflexivity]. cbn [delta elem]. rewrite idx_eqb_neq; [reflexivity|]. intro K. injection K. lia. }
    rewrite (csum_one 0 4 1); [|lia|].
    2:{ intros t Ht N. rewrite Va by lia.
        assert (K : at0 (delta 4 0) 2 (1 - 1) (t - 1) = C0); [|rewrite K; csolve].
        unfold at0. destruct (_ && _) eqn:B; [|reflexivity]. cbn [delta elem]. rewrite idx_eqb_neq; [reflexivity|]. intro K. injection K. lia. }
    change ((2 - 1) mod 4) with 1. change [1 * 4 + 1] with [(1 + 0) * 3 + (2 + 0)] at 2. rewrite Vb by lia.
    change (elem (delta 9 4) [1 * 3 + 2]) with C0. csolve.
Qed.
Lemma odd_kernel_expected : full_conv (delta 4 0) 2 (delta 9 4) 3 (0 + (3 - 1) / 2) (0 + (3 - 1) / 2) = C1.
Proof. change ((3 - 1) / 2) with 1. unfold full_conv, csum, sum. change (zrange 0 2) with [0; 1]. cbn [map fold_right radd r0 Cring].
  change (elem (delta 4 0) [0 * 2 + 0]) with C1. change (elem (delta 4 0) [0 * 2 + 1]) with C0.
  change (elem (delta 4 0) [1 * 2 + 0]) with C0. change (elem (delta 4 0) [1 * 2 + 1]) with C0.
  change (at0 (delta 9 4) 3 (0 + 1 - 0) (0 + 1 - 0)) with C1. generalize (at0 (delta 9 4) 3). intro f. csolve.
Qed.
