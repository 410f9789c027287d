(** SwiFTly (proofs only). *)
From Verif Require Import Base BaseFacts Sum CRing Loops Cplx Fft FftSpec FftFacts FftFacts2 FftConvFacts Swiftly SwiftlySpec.
From Coq Require Import Lra Lia.
Open Scope Z_scope.

(** *** Integers *)
Lemma mod_p_mod a b : 0 < b -> mod_p a b = a mod b.
Proof.
  intro H. unfold mod_p, cmod. pose proof (Z.quot_rem' a b) as E. pose proof (Z.rem_bound_abs a b ltac:(lia)) as B.
  destruct (Z.geb_spec (Z.rem a b) 0).
  - apply (Z.mod_unique a b (Z.quot a b)); lia.
  - apply (Z.mod_unique a b (Z.quot a b - 1)); lia.
Qed.
Lemma cmod_mod a b : 0 <= a -> 0 < b -> cmod a b = a mod b.
Proof. intros. unfold cmod. apply Z.rem_mod_nonneg; lia. Qed.
Lemma cdiv_div a b : 0 <= a -> 0 < b -> cdiv a b = a / b.
Proof. intros. unfold cdiv. apply Z.quot_div_nonneg; lia. Qed.
Lemma mod_sub_range a b lo : 0 < b -> lo <= a < lo + b -> (a - lo) mod b = a - lo.
Proof. intros. apply Z.mod_small. lia. Qed.
Lemma mod_case a b : 0 < b -> 0 <= a < 2 * b -> a mod b = if a <? b then a else a - b.
Proof.
  intros Hb Ha. destruct (Z.ltb_spec a b); [apply Z.mod_small; lia|]. symmetry. apply (Z.mod_unique _ _ 1); lia.
Qed.
Lemma mod_case_neg a b : 0 < b -> - b <= a < b -> a mod b = if a <? 0 then a + b else a.
Proof.
  intros Hb Ha. destruct (Z.ltb_spec a 0); [symmetry; apply (Z.mod_unique _ _ (-1)); lia|]. apply Z.mod_small; lia.
Qed.

Section Sizes.
  Context (sw : swiftly) (V : valid sw).
  Notation image := (image_size sw). Notation yN := (yN_size sw). Notation xM := (xM_size sw). Notation m := (contrib_size sw).
  Lemma sz_pos : 0 < image /\ 0 < yN /\ 0 < xM.
  Proof. destruct V as ((A & B & C & _) & _). auto. Qed.
  Lemma sz_m : m * image = xM * yN.
  Proof.
    destruct V as ((A & B & C & _ & _ & (q & D) & _) & _). unfold contrib_size. rewrite D, Z.div_mul by lia. ring.
  Qed.
  Lemma sz_m_pos : 0 < m.
  Proof. pose proof sz_pos. pose proof sz_m. nia. Qed.
  Lemma sz_xM_yN : xM_yN sw = m.
  Proof. pose proof sz_pos. unfold xM_yN. rewrite cdiv_div by nia. reflexivity. Qed.
  Lemma sz_m_yN : m <= yN.
  Proof.
    pose proof sz_pos. pose proof sz_m. destruct V as ((A & B & C & D & _) & _).
    assert (xM <= image) by (apply Z.divide_pos_le; auto). nia.
  Qed.
  Lemma sz_m_xM : m <= xM.
  Proof.
    pose proof sz_pos. pose proof sz_m. destruct V as ((A & B & C & _ & D & _) & _).
    assert (yN <= image) by (apply Z.divide_pos_le; auto). nia.
  Qed.
  Lemma sz_step_x : 0 < image / xM.
  Proof. pose proof sz_pos. destruct V as ((A & B & C & (q & D) & _) & _). rewrite D, Z.div_mul by lia. nia. Qed.
  Lemma sz_step_y : 0 < image / yN.
  Proof. pose proof sz_pos. destruct V as ((A & B & C & _ & (q & D) & _) & _). rewrite D, Z.div_mul by lia. nia. Qed.
  Lemma sz_even_x : exists h, 0 < h /\ xM = 2 * h.
  Proof. pose proof sz_pos. destruct V as ((A & B & C & _ & _ & _ & (q & D) & _) & _). exists q. lia. Qed.
  Lemma sz_even_y : exists h, 0 < h /\ yN = 2 * h.
  Proof. pose proof sz_pos. destruct V as ((A & B & C & _ & _ & _ & _ & (q & D)) & _). exists q. lia. Qed.
  Lemma sh_Fb : shape (tab_Fb sw) = [yN].
  Proof. apply V. Qed.
  Lemma sh_Fn : shape (tab_Fn sw) = [m].
  Proof. apply V. Qed.
End Sizes.

(** *** Loops *)
Lemma for_app {S} lo mid hi (f : Z -> S -> option S) s : lo <= mid -> mid <= hi ->
  (let* s := for_ lo mid f s in for_ mid hi f s) = for_ lo hi f s.
Proof.
  intros H1 H2. unfold for_. replace (Z.to_nat (hi - lo)) with (Z.to_nat (mid - lo) + Z.to_nat (hi - mid))%nat by lia.
  assert (G : forall k lo s, (let* s := for_nat k lo f s in for_nat (Z.to_nat (hi - mid)) (lo + Z.of_nat k) f s)
     = for_nat (k + Z.to_nat (hi - mid)) lo f s).
  { induction k as [|k IH]; intros l s0; cbn [for_nat Nat.add bind].
    - replace (l + Z.of_nat 0) with l by lia. reflexivity.
    - destruct (f l s0) as [s1|]; [|reflexivity]. rewrite <- IH. replace (l + Z.of_nat (Datatypes.S k)) with (l + 1 + Z.of_nat k) by lia. reflexivity. }
  rewrite <- G. replace (lo + Z.of_nat (Z.to_nat (mid - lo))) with mid by lia. reflexivity.
Qed.

(** loop i writes element [row; pos i] as a function of its old value *)
Lemma scatter {A} n m row e (pos ip : Z -> Z) (ok : Z -> bool) (T : Z -> A -> A) body (a : nd A) :
  0 <= e -> 0 <= row < n -> shape a = [n; m] ->
  (forall i, 0 <= i < e -> 0 <= pos i < m /\ ok (pos i) = true /\ ip (pos i) = i) ->
  (forall j, 0 <= j < m -> ok j = true -> 0 <= ip j < e /\ pos (ip j) = j) ->
  (forall i st, 0 <= i < e -> shape st = [n; m] -> body i st = Some (upd st [row; pos i] (T i (elem st [row; pos i])))) ->
  exists a', for_ 0 e body a = Some a' /\ shape a' = [n; m] /\
    forall i j, 0 <= i < n -> 0 <= j < m -> elem a' [i; j] = if (i =? row) && ok j then T (ip j) (elem a [i; j]) else elem a [i; j].
Proof.
  intros He Hr S P1 P2 B.
  destruct (for_inv (fun k st => shape st = [n; m] /\
    forall i j, 0 <= i < n -> 0 <= j < m -> elem st [i; j] = if (i =? row) && ok j && (ip j <? k) then T (ip j) (elem a [i; j]) else elem a [i; j])
    0 e body a He) as (a' & E & S' & V).
  - split; [exact S|]. intros i j Hi Hj. destruct ((i =? row) && ok j) eqn:K; [|reflexivity].
    apply andb_prop in K. destruct (P2 j Hj (proj2 K)) as (Q & _). now replace (ip j <? 0) with false by lia.
  - intros k st Hk (S1 & V1). eexists. split; [apply B; assumption|]. split; [exact S1|]. intros i j Hi Hj.
    destruct (P1 k Hk) as (B1 & B2 & B3). cbn [upd elem].
    destruct (idx_eqb_spec [row; pos k] [i; j]) as [K|K].
    + injection K as <- <-. rewrite Z.eqb_refl, B2, B3. cbn [andb]. replace (k <? k + 1) with true by lia.
      rewrite V1 by lia. rewrite Z.eqb_refl, B2, B3. now replace (k <? k) with false by lia.
    + rewrite V1 by lia. destruct (Z.eqb_spec i row) as [->|]; cbn [andb]; [|reflexivity].
      destruct (ok j) eqn:OK; cbn [andb]; [|reflexivity]. destruct (P2 j Hj OK) as (Q1 & Q2).
      assert (ip j <> k) by (intro X; apply K; rewrite <- X, Q2; reflexivity).
      destruct (Z.ltb_spec (ip j) k), (Z.ltb_spec (ip j) (k + 1)); try lia; reflexivity.
  - exists a'. split; [exact E|]. split; [exact S'|]. intros i j Hi Hj. rewrite V by assumption.
    destruct ((i =? row) && ok j) eqn:K; [|reflexivity].
    apply andb_prop in K. destruct (P2 j Hj (proj2 K)) as (Q & _). now replace (ip j <? e) with true by lia.
Qed.

(** a loop whose iteration k transforms row pos k *)
Lemma rows {A} n m e (pos ip : Z -> Z) (ok : Z -> bool) (G : Z -> Z -> A -> A) body (a : nd A) :
  0 <= e -> shape a = [n; m] ->
  (forall i, 0 <= i < e -> 0 <= pos i < n /\ ok (pos i) = true /\ ip (pos i) = i) ->
  (forall j, 0 <= j < n -> ok j = true -> 0 <= ip j < e /\ pos (ip j) = j) ->
  (forall k st, 0 <= k < e -> shape st = [n; m] -> exists st', body k st = Some st' /\ shape st' = [n; m] /\
     forall i j, 0 <= i < n -> 0 <= j < m -> elem st' [i; j] = if i =? pos k then G k j (elem st [i; j]) else elem st [i; j]) ->
  exists a', for_ 0 e body a = Some a' /\ shape a' = [n; m] /\
    forall i j, 0 <= i < n -> 0 <= j < m -> elem a' [i; j] = if ok i then G (ip i) j (elem a [i; j]) else elem a [i; j].
Proof.
  intros He S P1 P2 B.
  destruct (for_inv (fun k st => shape st = [n; m] /\
    forall i j, 0 <= i < n -> 0 <= j < m -> elem st [i; j] = if ok i && (ip i <? k) then G (ip i) j (elem a [i; j]) else elem a [i; j])
    0 e body a He) as (a' & E & S' & V).
  - split; [exact S|]. intros i j Hi Hj. destruct (ok i) eqn:K; [|reflexivity].
    destruct (P2 i Hi K) as (Q & _). cbn [andb]. now replace (ip i <? 0) with false by lia.
  - intros k st Hk (S1 & V1). destruct (B k st Hk S1) as (st' & E & S2 & V2). exists st'. split; [exact E|]. split; [exact S2|].
    intros i j Hi Hj. destruct (P1 k Hk) as (B1 & B2 & B3). rewrite V2, V1 by assumption.
    destruct (Z.eqb_spec i (pos k)) as [->|N].
    + rewrite B2, B3. cbn [andb]. replace (k <? k) with false by lia. now replace (k <? k + 1) with true by lia.
    + destruct (ok i) eqn:OK; cbn [andb]; [|reflexivity]. destruct (P2 i Hi OK) as (Q1 & Q2).
      assert (ip i <> k) by (intro X; apply N; rewrite <- X; auto).
      destruct (Z.ltb_spec (ip i) k), (Z.ltb_spec (ip i) (k + 1)); try lia; reflexivity.
  - exists a'. split; [exact E|]. split; [exact S'|]. intros i j Hi Hj. rewrite V by assumption.
    destruct (ok i) eqn:K; [|reflexivity]. destruct (P2 i Hi K) as (Q & _). cbn [andb]. now replace (ip i <? e) with true by lia.
Qed.

Lemma rows_id {A} n m (G : Z -> Z -> A -> A) body (a : nd A) :
  0 <= n -> shape a = [n; m] ->
  (forall k st, 0 <= k < n -> shape st = [n; m] -> exists st', body k st = Some st' /\ shape st' = [n; m] /\
     forall i j, 0 <= i < n -> 0 <= j < m -> elem st' [i; j] = if i =? k then G k j (elem st [i; j]) else elem st [i; j]) ->
  exists a', for_ 0 n body a = Some a' /\ shape a' = [n; m] /\
    forall i j, 0 <= i < n -> 0 <= j < m -> elem a' [i; j] = G i j (elem a [i; j]).
Proof.
  intros Hn S B. destruct (rows n m n (fun i => i) (fun i => i) (fun _ => true) G body a) as (a' & E & S' & V); auto.
  exists a'. auto.
Qed.

Lemma in_2 n m i j : 0 <= i < n -> 0 <= j < m -> in_shape [n; m] [i; j] = true.
Proof. intros. apply in_shape_2; auto. Qed.

(** *** prepare_facet *)
Definition px (start yN i : Z) := (i - start) mod yN.

Lemma root_shift inv n k s t : 0 < n -> (s - t) mod n = 0 -> root inv n (k * s) = root inv n (k * t).
Proof.
  intros Hn E. apply Z.mod_divide in E; [|lia]. destruct E as (q & E). replace (k * s) with (k * t + n * (k * q)) by nia.
  apply W_period. lia.
Qed.
(** a transform of a placed window is a sum over the window *)
Lemma DFT_window inv n e o (g : Z -> C) k : 0 < n -> 0 <= e <= n ->
  DFT inv n (fun p => if (p - o) mod n <? e then g ((p - o) mod n) else C0) k = csum 0 e (fun x => Cmul (root inv n (k * (o + x))) (g x)).
Proof.
  intros Hn He. unfold DFT.
  rewrite <- (csum_rot n (fun p => Cmul (root inv n (k * p)) (if (p - o) mod n <? e then g ((p - o) mod n) else C0)) (- o) Hn).
  replace (csum 0 e _) with (csum 0 n (fun x => if x <? e then Cmul (root inv n (k * (o + x))) (g x) else C0)).
  2:{ unfold csum. rewrite (sum_split _ _ (Rcm (A := Cring)) 0 e n) by lia.
      rewrite (sum_none _ _ (Rcm (A := Cring)) e n) by (intros i Hi; now replace (i <? e) with false by lia).
      cbn [radd r0 Cring]. rewrite (sum_ext _ _ 0 e _ (fun x => Cmul (root inv n (k * (o + x))) (g x))) by (intros i Hi; now replace (i <? e) with true by lia).
      generalize (sum Cadd C0 0 e (fun x : Z => Cmul (root inv n (k * (o + x))) (g x))). csolve. }
  apply csum_ext. intros x Hx. replace (x - - o) with (x + o) by ring.
  assert (E : ((x + o) mod n - o) mod n = x).
  { rewrite Zminus_mod_idemp_l. replace (x + o - o) with x by ring. apply Z.mod_small. lia. }
  rewrite E. destruct (x <? e); [|csolve]. f_equal. apply root_shift; [lia|].
  rewrite Zminus_mod_idemp_l. replace (x + o - (o + x)) with 0 by ring. apply Z.mod_0_l. lia.
Qed.

Lemma elem_c2c bwd sc a i k n m : shape a = [n; m] ->
  elem (c2c_rows bwd sc a) [i; k] = Cmul (RtoC sc) (DFT bwd m (fun s => elem a [i; s]) k).
Proof. intro S. unfold c2c_rows, dim. cbn [elem]. rewrite S. reflexivity. Qed.

Ltac checks := repeat match goal with |- context [negb ?b] => replace b with true by (symmetry; lia); cbn [negb orb] end.

Lemma prepare_facet_lemma sw fct out off n0 size : valid sw -> 0 <= n0 -> 0 < size <= yN_size sw ->
  shape fct = [n0; size] -> shape out = [n0; yN_size sw] ->
  exists out', prepare_facet sw fct out off = Some (SUCCESS, out') /\ shape out' = [n0; yN_size sw] /\
    forall i k, 0 <= i < n0 -> 0 <= k < yN_size sw ->
      elem out' [i; k] = Cmul (RtoC (1 / IZR (yN_size sw))) (csum 0 size (fun x =>
        Cmul (root true (yN_size sw) (k * (off - size / 2 + x)))
             (Cmul (elem fct [i; x]) (Fb sw (yN_size sw / 2 - size / 2 + x))))).
Proof.
  intros V Hn Hs Sf So. pose proof (sz_pos sw V) as HP. pose proof (sh_Fb sw V) as SB.
  unfold prepare_facet, is2d, dim. rewrite Sf, So. cbn [length nth Nat.eqb negb orb].
  replace (size >? yN_size sw) with false by lia. rewrite !Z.eqb_refl. cbn [negb orb].
  set (yN := yN_size sw) in *. rewrite mod_p_mod by lia. rewrite !cdiv_div by lia.
  set (start := (off - size / 2) mod yN). assert (Hst : 0 <= start < yN) by (apply Z.mod_pos_bound; lia).
  rewrite cmod_mod by lia. rewrite (mod_case (start + size)) by lia.
  assert (HS2 : 0 <= size / 2) by (apply Z.div_pos; lia).
  assert (HY : size / 2 + size <= yN / 2 + size / 2 + size) by (assert (0 <= yN / 2) by (apply Z.div_pos; lia); lia).
  assert (HX : 0 <= yN / 2 - size / 2 /\ yN / 2 - size / 2 + size <= yN).
  { split; [assert (size / 2 <= yN / 2) by (apply Z.div_le_mono; lia); lia|].
    pose proof (Z.div_mod size 2 ltac:(lia)). pose proof (Z.mod_pos_bound size 2 ltac:(lia)).
    destruct (sz_even_y sw V) as (h & Hh & Eh). fold yN in Eh. rewrite Eh. rewrite (Z.mul_comm 2 h), Z.div_mul by lia. lia. }
  set (Fo := yN / 2 - size / 2) in *.
  set (val := fun i0 i => if px start yN i <? size then Cmul (elem fct [i0; px start yN i]) (RtoC (elem (tab_Fb sw) [px start yN i + Fo])) else C0).
  set (end_ := if start + size <? yN then start + size else start + size - yN).
  match goal with |- context [for_ 0 n0 ?b out] =>
    destruct (rows_id n0 yN (fun i j _ => val i j) b out) as (o1 & E & S1 & V1) end; auto.
  - intros i0 st Hi0 Ss.
    destruct (scatter n0 yN i0 yN (fun i => i) (fun i => i) (fun _ => true) (fun i _ => val i0 i) (fun i st => wr st [i0; i] (val i0 i)) st)
      as (st' & E & S' & V'); auto; try lia.
    { intros i st2 Hi S2. rewrite wr_some by (rewrite S2; apply in_2; lia). reflexivity. }
    exists st'. split; [|split; [exact S'|]].
    2:{ intros i j Hi Hj. rewrite V' by lia. rewrite andb_true_r. destruct (Z.eqb_spec i i0) as [->|]; reflexivity. }
    rewrite <- E. unfold end_. destruct (Z.ltb_spec (start + size) yN) as [L|L].
    + replace (start <? start + size) with true by lia.
      rewrite <- (for_app 0 start yN) by lia.
      rewrite (for_ext 0 start (fun i st => wr st [i0; i] C0) (fun i st => wr st [i0; i] (val i0 i))).
      2:{ intros i s Hi. unfold val, px. rewrite mod_case_neg by lia. replace (i - start <? 0) with true by lia.
          now replace (i - start + yN <? size) with false by lia. }
      destruct (for_ 0 start _ st) as [s1|]; [|reflexivity]. cbn [bind].
      rewrite <- (for_app start (start + size) yN) by lia.
      match goal with |- context [for_ start (start + size) ?b s1] => rewrite (for_ext start (start + size) b (fun i st => wr st [i0; i] (val i0 i))) end.
      2:{ intros i s Hi. rewrite rd_some by (rewrite Sf; apply in_2; lia). cbn [bind]. rewrite rd_some by (rewrite SB; apply in_shape_1; lia).
      cbn [bind]. unfold val, px. rewrite Z.mod_small by lia. replace (i - start <? size) with true by lia. do 4 f_equal. f_equal. lia. }
      destruct (for_ start (start + size) _ s1) as [s2|]; [|reflexivity]. cbn [bind].
      apply for_ext. intros i s Hi. unfold val, px. rewrite Z.mod_small by lia. now replace (i - start <? size) with false by lia.
    + destruct (Z.ltb_spec start (start + size - yN)); [lia|].
      rewrite <- (for_app 0 (start + size - yN) yN) by lia.
      match goal with |- context [for_ 0 (start + size - yN) ?b st] =>
        rewrite (for_ext 0 (start + size - yN) b (fun i st => wr st [i0; i] (val i0 i))) end.
      2:{ intros i s Hi. rewrite rd_some by (rewrite Sf; apply in_2; lia). cbn [bind]. rewrite rd_some by (rewrite SB; apply in_shape_1; lia).
          cbn [bind]. unfold val, px. rewrite mod_case_neg by lia. replace (i - start <? 0) with true by lia.
          replace (i - start + yN <? size) with true by lia. replace (i - start + yN) with (i + yN - start) by ring. do 4 f_equal. f_equal. lia. }
      destruct (for_ 0 (start + size - yN) _ st) as [s1|]; [|reflexivity]. cbn [bind].
      rewrite <- (for_app (start + size - yN) start yN) by lia.
      rewrite (for_ext (start + size - yN) start (fun i st => wr st [i0; i] C0) (fun i st => wr st [i0; i] (val i0 i))).
      2:{ intros i s Hi. unfold val, px. rewrite mod_case_neg by lia. replace (i - start <? 0) with true by lia.
          now replace (i - start + yN <? size) with false by lia. }
      destruct (for_ (start + size - yN) start _ s1) as [s2|]; [|reflexivity]. cbn [bind].
      match goal with |- context [for_ start yN ?b s2] => rewrite (for_ext start yN b (fun i st => wr st [i0; i] (val i0 i))) end.
      1: reflexivity.
      intros i s Hi. rewrite rd_some by (rewrite Sf; apply in_2; lia). cbn [bind]. rewrite rd_some by (rewrite SB; apply in_shape_1; lia).
      cbn [bind]. unfold val, px. rewrite Z.mod_small by lia. replace (i - start <? size) with true by lia. do 4 f_equal. f_equal. lia.
  - rewrite E. cbn [bind]. eexists. split; [reflexivity|]. split; [exact S1|].
    intros i k Hi Hk. rewrite (elem_c2c _ _ _ _ _ n0 yN S1). f_equal.
    rewrite (DFT_ext _ _ _ (val i)) by (intros; apply V1; lia). unfold val, px.
    rewrite (DFT_window true yN size start (fun x => Cmul (elem fct [i; x]) (RtoC (elem (tab_Fb sw) [x + Fo])))) by lia.
    apply csum_ext. intros x Hx. f_equal.
    + apply root_shift; [lia|]. unfold start. rewrite Zminus_mod, Zplus_mod_idemp_l, <- Zminus_mod.
      replace (off - size / 2 + x - (off - size / 2 + x)) with 0 by ring. apply Z.mod_0_l. lia.
    + unfold Fb. f_equal. do 2 f_equal. f_equal. lia.
Qed.
