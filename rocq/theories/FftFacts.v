(** Facts about roots of unity, sums and the transform passes (proofs only). *)
From Verif Require Import Base BaseFacts Sum CRing Loops Cplx GridUtilsSpec GridUtilsFacts Fft FftSpec.
From Coq Require Import Lra Lia.
Open Scope Z_scope.

(** *** Complex sums *)
Lemma csum_ext lo hi f g : (forall i, lo <= i < hi -> f i = g i) -> csum lo hi f = csum lo hi g.
Proof. apply sum_ext. Qed.
Lemma csum_mul_l c lo hi f : Cmul c (csum lo hi f) = csum lo hi (fun i => Cmul c (f i)).
Proof. apply (rsum_mul_l (A := Cring)). Qed.
Lemma csum_mul_r c lo hi f : Cmul (csum lo hi f) c = csum lo hi (fun i => Cmul (f i) c).
Proof. apply (rsum_mul_r (A := Cring)). Qed.
Lemma csum_add lo hi f g : csum lo hi (fun i => Cadd (f i) (g i)) = Cadd (csum lo hi f) (csum lo hi g).
Proof. apply (rsum_add (A := Cring)). Qed.
Lemma csum_swap lo hi lo' hi' f : csum lo hi (fun i => csum lo' hi' (fun j => f i j)) = csum lo' hi' (fun j => csum lo hi (fun i => f i j)).
Proof. apply (rsum_swap (A := Cring)). Qed.
Lemma csum_empty lo hi f : hi <= lo -> csum lo hi f = C0.
Proof. apply sum_empty. Qed.
Lemma csum_snoc lo hi f : lo <= hi -> csum lo (hi + 1) f = Cadd (csum lo hi f) (f hi).
Proof. apply (rsum_snoc (A := Cring)). Qed.
Lemma csum_one lo hi k f : lo <= k < hi -> (forall i, lo <= i < hi -> i <> k -> f i = C0) -> csum lo hi f = f k.
Proof. apply (rsum_one (A := Cring)). Qed.

Lemma csum_even_odd p f : 0 <= p -> csum 0 (2 * p) f = Cadd (csum 0 p (fun i => f (2 * i))) (csum 0 p (fun i => f (2 * i + 1))).
Proof.
  intro H. pattern p. apply natlike_ind; [| |exact H].
  - rewrite !csum_empty by lia. csolve.
  - intros x Hx IH. replace (2 * Z.succ x) with (2 * x + 1 + 1) by lia. replace (Z.succ x) with (x + 1) by lia.
    rewrite !csum_snoc by lia. rewrite IH. csolve.
Qed.

(** *** Roots of unity *)
Section Roots.
  Context (inv : bool).
  Notation W := (root inv).
  Lemma twiddle_root n m : twiddle n m inv = W n m.
  Proof. unfold twiddle, root. destruct inv; reflexivity. Qed.
  Lemma W_0 n : W n 0 = C1.
  Proof. unfold root. rewrite <- cis_0. f_equal. unfold Rdiv. destruct inv; ring. Qed.
  Lemma W_add n a b : W n (a + b) = Cmul (W n a) (W n b).
  Proof. unfold root. rewrite <- cis_add. f_equal. rewrite plus_IZR. unfold Rdiv. ring. Qed.
  Lemma W_scale c n m : c <> 0 -> n <> 0 -> W (c * n) (c * m) = W n m.
  Proof.
    intros Hc Hn. unfold root. f_equal. f_equal. rewrite !mult_IZR. field. split; apply not_0_IZR; lia.
  Qed.
  Lemma W_full n k : n <> 0 -> W n (n * k) = C1.
  Proof.
    intro Hn. unfold root. rewrite mult_IZR. replace (IZR n * IZR k / IZR n)%R with (IZR k) by (field; apply not_0_IZR; lia).
    destruct inv; [apply cis_2PI_Z|]. replace (-2 * PI * IZR k)%R with (- (2 * PI * IZR k))%R by ring.
    rewrite cis_neg, cis_2PI_Z. csolve.
  Qed.
  Lemma W_period n m k : n <> 0 -> W n (m + n * k) = W n m.
  Proof. intro Hn. rewrite W_add, W_full by assumption. csolve. Qed.
  Lemma W_half p : p <> 0 -> W (2 * p) p = Copp C1.
  Proof.
    intro Hp. unfold root. rewrite mult_IZR. 
    replace (IZR p / (2 * IZR p))%R with (/ 2)%R by (field; apply not_0_IZR; lia).
    replace ((if inv then 2 * PI else -2 * PI) * / 2)%R with (if inv then PI else - PI)%R by (destruct inv; field).
    unfold cis, Copp, C1; cbn [re im fst snd]. destruct inv; [|rewrite cos_neg, sin_neg]; rewrite cos_PI, sin_PI; f_equal; ring.
  Qed.
  Lemma W_neg n m : W n (- m) = Cconj (W n m).
  Proof. unfold root. rewrite <- cis_neg. f_equal. rewrite opp_IZR. unfold Rdiv. ring. Qed.

  (** the two halves of a butterfly *)
  Lemma dft_split p q k x : 0 < p ->
    csum 0 (2 * p) (fun i => Cmul (W (2 * p) (i * k)) (x (i * q))) =
    Cadd (csum 0 p (fun i => Cmul (W p (i * k)) (x (i * (2 * q)))))
         (Cmul (W (2 * p) k) (csum 0 p (fun i => Cmul (W p (i * k)) (x (q + i * (2 * q)))))).
  Proof.
    intro Hp. rewrite csum_even_odd by lia. f_equal.
    - apply csum_ext. intros i Hi. replace (2 * i * k) with (2 * (i * k)) by ring. rewrite W_scale by lia.
      do 2 f_equal. ring.
    - rewrite csum_mul_l. apply csum_ext. intros i Hi.
      replace ((2 * i + 1) * k) with (k + 2 * (i * k)) by ring. rewrite W_add, W_scale by lia.
      replace ((2 * i + 1) * q) with (q + i * (2 * q)) by ring. csolve.
  Qed.
  Lemma dft_split_hi p q k x : 0 < p ->
    csum 0 (2 * p) (fun i => Cmul (W (2 * p) (i * (k + p))) (x (i * q))) =
    Csub (csum 0 p (fun i => Cmul (W p (i * k)) (x (i * (2 * q)))))
         (Cmul (W (2 * p) k) (csum 0 p (fun i => Cmul (W p (i * k)) (x (q + i * (2 * q)))))).
  Proof.
    intro Hp. rewrite dft_split by lia.
    assert (E : forall y : Z -> C, csum 0 p (fun i => Cmul (W p (i * (k + p))) (y i)) = csum 0 p (fun i => Cmul (W p (i * k)) (y i))).
    { intro y. apply csum_ext. intros i Hi. replace (i * (k + p)) with (i * k + p * i) by ring. now rewrite W_period by lia. }
    rewrite !E. rewrite W_add, W_half by lia. csolve.
  Qed.
End Roots.

(** *** Counting bits *)
Lemma bit_loop_spec fuel : forall n cnt bits, 1 <= n -> n < Z.of_nat fuel ->
  exists pc len, bit_loop fuel n cnt bits = (cnt + pc, bits + len) /\ 1 <= pc /\ 1 <= len /\ (pc = 1 <-> n = 2 ^ (len - 1)).
Proof.
  induction fuel as [|f IH]; intros n cnt bits H1 H2; [lia|]. cbn [bit_loop].
  replace (n >? 0) with true by lia.
  assert (LA : Z.land n 1 = n mod 2) by (change 1 with (Z.ones 1); now rewrite Z.land_ones by lia).
  assert (SH : Z.shiftr n 1 = n / 2) by (now rewrite Z.shiftr_div_pow2 by lia).
  rewrite LA, SH.
  pose proof (Z.div_mod n 2 ltac:(lia)) as DM. pose proof (Z.mod_pos_bound n 2 ltac:(lia)) as MB.
  destruct (Z.eq_dec n 1) as [->|N1].
  - change (1 / 2) with 0. change (1 mod 2 =? 1) with true. cbv iota.
    exists 1, 1. (split; [destruct f; reflexivity|]); (split; [lia|]); (split; [lia|]); cbn; lia.
  - destruct (IH (n / 2) (if n mod 2 =? 1 then cnt + 1 else cnt) (bits + 1)) as (pc & len & E & P1 & P2 & P3);
      [nia|rewrite Nat2Z.inj_succ in H2; lia|].
    rewrite E. exists (pc + n mod 2), (len + 1). split; [|split; [|split]]; [|lia|lia|].
    + destruct (Z.eqb_spec (n mod 2) 1); f_equal; lia.
    + replace (len + 1 - 1) with (Z.succ (len - 1)) by lia. rewrite Z.pow_succ_r by lia. split; intro Q.
      * assert (pc = 1) as Q1 by lia. apply P3 in Q1. lia.
      * assert (n / 2 = 2 ^ (len - 1)) by lia. assert (pc = 1) by (now apply P3). lia.
Qed.

Lemma is_pow2_lemma n bits : is_power_of_two n = (true, bits) -> 0 <= bits /\ n = 2 ^ bits.
Proof.
  unfold is_power_of_two. intro H.
  destruct (Z.le_gt_cases n 0) as [L|L].
  - assert (bit_loop (S (Z.to_nat n)) n 0 (-1) = (0, -1)) as E.
    { cbn [bit_loop]. now replace (n >? 0) with false by lia. }
    rewrite E in H. discriminate.
  - destruct (bit_loop_spec (S (Z.to_nat n)) n 0 (-1)) as (pc & len & E & P1 & P2 & P3); [lia|lia|].
    rewrite E in H. injection H as Q <-. split; [lia|]. replace (-1 + len) with (len - 1) by lia. apply P3. lia.
Qed.

(** *** One pass over the array *)
Definition same_out (lo hi : Z) (a a' : nd C) : Prop := forall i, ~ (lo <= i < hi) -> elem a' [i] = elem a [i].
Lemma same_out_refl lo hi a : same_out lo hi a a. Proof. intros i _. reflexivity. Qed.
Lemma same_out_trans lo hi a b c : same_out lo hi a b -> same_out lo hi b c -> same_out lo hi a c.
Proof. intros H1 H2 i Hi. rewrite H2, H1 by assumption. reflexivity. Qed.
Lemma same_out_weak lo hi lo' hi' a b : same_out lo hi a b -> lo' <= lo -> hi <= hi' -> same_out lo' hi' a b.
Proof. intros H1 H2 H3 i Hi. apply H1. lia. Qed.

Lemma copy_back base n src dst N T : 0 <= base -> 0 <= n -> base + n <= N -> base + n <= T ->
  shape src = [T] -> shape dst = [N] ->
  exists d, for_ 0 n (fun i inp => let* x := rd src [base + i] in wr inp [base + i] x) dst = Some d /\ shape d = [N] /\
    (forall i, 0 <= i < n -> elem d [base + i] = elem src [base + i]) /\ same_out base (base + n) dst d.
Proof.
  intros H0 H1 H2 H3 S1 S2.
  destruct (for_own [N] (fun i idx => idx_eqb [base + i] idx) (fun idx _ => elem src idx)
    (fun i inp => let* x := rd src [base + i] in wr inp [base + i] x) 0 n dst) as (d & E & S & P & Q); auto.
  - intros i st Hi Ss. exists (upd st [base + i] (elem src [base + i])).
    rewrite rd_some by (rewrite S1; apply in_shape_1; lia). cbn [bind].
    rewrite wr_some by (rewrite Ss; apply in_shape_1; lia). split; [reflexivity|]. split; [exact Ss|].
    intro idx. cbn [upd elem]. destruct (idx_eqb_spec [base + i] idx) as [<-|]; reflexivity.
  - intros i j idx _ _ A1 A2. cbn beta in A1, A2.
    destruct (idx_eqb_spec [base + i] idx) as [E1|]; [|discriminate].
    destruct (idx_eqb_spec [base + j] idx) as [E2|]; [|discriminate].
    assert (base + i = base + j) by congruence. lia.
  - exists d. split; [exact E|]. split; [exact S|]. split.
    + intros i Hi. rewrite (P i [base + i] Hi (idx_eqb_refl _)). reflexivity.
    + intros i Hi. apply Q. intros j Hj. apply idx_eqb_neq. intro K. injection K. lia.
Qed.

(** the element of the input each butterfly output is built from *)
Definition bfly_own (base n p s : Z) (idx : list Z) : bool :=
  match idx with [t'] => let t := t' - base in (0 <=? t) && (t <? n) && (s =? t / (2 * p) * p + t mod p) | _ => false end.
Definition bfly_val (inv : bool) (base p q : Z) (inp : nd C) (idx : list Z) : C :=
  match idx with [t'] => let t := t' - base in
    let s := t / (2 * p) * p + t mod p in
    let a := elem inp [base + s] in let b := elem inp [base + (s + p * q)] in
    let w := root inv (2 * p) (t mod p) in
    if t mod (2 * p) <? p then Cadd a (Cmul w b) else Csub a (Cmul w b) | _ => C0 end.

Lemma divmod_lo p j k : 0 < p -> 0 <= k < p ->
  (j * (2 * p) + k) / (2 * p) = j /\ (j * (2 * p) + k) mod (2 * p) = k /\ (j * (2 * p) + k) mod p = k.
Proof.
  intros Hp Hk. repeat split.
  - symmetry. apply (Z.div_unique _ _ _ k); lia.
  - symmetry. apply (Z.mod_unique _ _ j); lia.
  - symmetry. apply (Z.mod_unique _ _ (2 * j)); lia.
Qed.
Lemma divmod_hi p j k : 0 < p -> 0 <= k < p ->
  (j * (2 * p) + k + p) / (2 * p) = j /\ (j * (2 * p) + k + p) mod (2 * p) = k + p /\ (j * (2 * p) + k + p) mod p = k.
Proof.
  intros Hp Hk. repeat split.
  - symmetry. apply (Z.div_unique _ _ _ (k + p)); lia.
  - symmetry. apply (Z.mod_unique _ _ j); lia.
  - symmetry. apply (Z.mod_unique _ _ (2 * j + 1)); lia.
Qed.

Lemma stage_lemma inv base r p q N T input temp : 0 < p -> 0 < q -> p = 2 ^ (r - 1) -> 1 <= r ->
  0 <= base -> base + 2 * p * q <= N -> base + 2 * p * q <= T -> shape input = [N] -> shape temp = [T] ->
  exists i' t', fft_stage base (2 * p * q) r (2 * p) p inv (input, temp) = Some (i', t') /\ shape i' = [N] /\ shape t' = [T] /\
    (forall j k, 0 <= j < q -> 0 <= k < p ->
      let a := elem input [base + (j * p + k)] in let b := elem input [base + ((j + q) * p + k)] in
      elem i' [base + (j * (2 * p) + k)] = Cadd a (Cmul (root inv (2 * p) k) b) /\
      elem i' [base + (j * (2 * p) + k + p)] = Csub a (Cmul (root inv (2 * p) k) b)) /\
    same_out base (base + 2 * p * q) input i' /\ same_out base (base + 2 * p * q) temp t'.
Proof.
  intros Hp Hq Ep Hr Hb HN HT SI ST. set (n := 2 * p * q) in *.
  assert (NH : Z.shiftr n 1 = p * q) by (rewrite Z.shiftr_div_pow2 by lia; change (2 ^ 1) with 2; unfold n;
    replace (2 * p * q) with (p * q * 2) by ring; apply Z.div_mul; lia).
  unfold fft_stage. rewrite NH. cbn [fst snd].
  match goal with |- context [for_ 0 (p * q) ?b temp] =>
    destruct (for_put [T] (bfly_own base n p) (bfly_val inv base p q input) b 0 (p * q) temp) as (t' & E & S & P & Q); [nia|exact ST| |] end.
  - intros s st Hs Ss _.
    assert (J : Z.shiftr s (r - 1) = s / p) by (rewrite Z.shiftr_div_pow2 by lia; now rewrite <- Ep).
    assert (K : Z.land s (p - 1) = s mod p).
    { rewrite Ep. rewrite <- Z.land_ones by lia. f_equal. rewrite Z.ones_equiv. lia. }
    rewrite J, K. pose proof (Z.div_mod s p ltac:(lia)) as DM. pose proof (Z.mod_pos_bound s p ltac:(lia)) as MB.
    set (j := s / p) in *. set (k := s mod p) in *. clearbody j k.
    assert (Hj : 0 <= j < q) by nia.
    replace (j * p + k) with s by lia.
    rewrite !rd_some by (rewrite SI; apply in_shape_1; nia). cbn [bind].
    rewrite wr_some by (rewrite Ss; apply in_shape_1; nia). cbn [bind].
    rewrite wr_some by (cbn [upd shape]; rewrite Ss; apply in_shape_1; nia).
    eexists. split; [reflexivity|]. split; [exact Ss|].
    intro idx. cbn [upd elem].
    destruct (divmod_lo p j k Hp MB) as (D1 & D2 & D3). destruct (divmod_hi p j k Hp MB) as (G1 & G2 & G3).
    destruct (idx_eqb_spec [base + (j * (2 * p) + k + p)] idx) as [<-|N1].
    { unfold bfly_own, bfly_val. replace (base + (j * (2 * p) + k + p) - base) with (j * (2 * p) + k + p) by ring.
      cbv zeta. rewrite G1, G2, G3. replace (k + p <? p) with false by lia.
      replace (0 <=? j * (2 * p) + k + p) with true by nia. replace (j * (2 * p) + k + p <? n) with true by nia.
      replace (s =? j * p + k) with true by lia. cbn [andb].
      replace (j * p + k) with s by lia. now rewrite twiddle_root. }
    destruct (idx_eqb_spec [base + (j * (2 * p) + k)] idx) as [<-|N2].
    { unfold bfly_own, bfly_val. replace (base + (j * (2 * p) + k) - base) with (j * (2 * p) + k) by ring.
      cbv zeta. rewrite D1, D2, D3. replace (k <? p) with true by lia.
      replace (0 <=? j * (2 * p) + k) with true by nia. replace (j * (2 * p) + k <? n) with true by nia.
      replace (s =? j * p + k) with true by lia. cbn [andb].
      replace (j * p + k) with s by lia. now rewrite twiddle_root. }
    destruct (bfly_own base n p s idx) eqn:O; [|reflexivity]. exfalso.
    unfold bfly_own in O. destruct idx as [|t1 [|]]; try discriminate. cbv zeta in O.
    assert (exists t, t1 = base + t) as (t & ->) by (exists (t1 - base); lia). replace (base + t - base) with t in O by ring.
    pose proof (Z.div_mod t (2 * p) ltac:(lia)) as DM2. pose proof (Z.mod_pos_bound t (2 * p) ltac:(lia)) as MB2.
    pose proof (Z.div_mod t p ltac:(lia)) as DM3. pose proof (Z.mod_pos_bound t p ltac:(lia)) as MB3.
    assert (s = t / (2 * p) * p + t mod p) by lia.
    assert (t / (2 * p) = j /\ t mod p = k) as (EJ & EK) by (apply (Z.div_mod_unique p); lia).
    assert (TP : t / p = 2 * j \/ t / p = 2 * j + 1) by (pose proof (Z.div_div t p 2 ltac:(lia) ltac:(lia)) as DD; replace (p * 2) with (2 * p) in DD by ring; lia).
    destruct TP as [TP|TP]; [apply N2|apply N1]; f_equal; nia.
  - rewrite E. cbn [bind].
    destruct (copy_back base n t' input N T) as (i' & E2 & S2 & P2 & Q2); auto; try lia.
    rewrite E2. cbn [bind]. exists i', t'. split; [reflexivity|]. split; [exact S2|]. split; [exact S|]. split; [|split].
    + intros j k Hj Hk. cbv zeta.
      destruct (divmod_lo p j k Hp Hk) as (D1 & D2 & D3). destruct (divmod_hi p j k Hp Hk) as (G1 & G2 & G3).
      replace ((j + q) * p + k) with (j * p + k + p * q) by ring.
      split.
      * rewrite P2 by (unfold n; nia). rewrite (P (j * p + k)); [|nia|].
        -- unfold bfly_val. replace (base + (j * (2 * p) + k) - base) with (j * (2 * p) + k) by ring. cbv zeta.
           rewrite D1, D2, D3. now replace (k <? p) with true by lia.
        -- unfold bfly_own. replace (base + (j * (2 * p) + k) - base) with (j * (2 * p) + k) by ring. cbv zeta.
           rewrite D1, D3. unfold n. nia.
      * rewrite P2 by (unfold n; nia). rewrite (P (j * p + k)); [|nia|].
        -- unfold bfly_val. replace (base + (j * (2 * p) + k + p) - base) with (j * (2 * p) + k + p) by ring. cbv zeta.
           rewrite G1, G2, G3. now replace (k + p <? p) with false by lia.
        -- unfold bfly_own. replace (base + (j * (2 * p) + k + p) - base) with (j * (2 * p) + k + p) by ring. cbv zeta.
           rewrite G1, G3. unfold n. nia.
    + exact Q2.
    + intros i Hi. apply Q. intros s Hs. unfold bfly_own. cbv zeta. lia.
Qed.
