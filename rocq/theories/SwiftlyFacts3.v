(** SwiFTly, continued: subgrid side and finishing (proofs only). *)
From Verif Require Import Base BaseFacts Sum CRing Loops Cplx Fft FftSpec FftFacts FftFacts2 FftConvFacts Swiftly SwiftlySpec SwiftlyFacts SwiftlyFacts2.
From Coq Require Import Lra Lia.
Open Scope Z_scope.

Lemma add_to_subgrid_lemma sw contrib out off n0 f : valid sw -> 0 <= n0 ->
  shape contrib = [n0; contrib_size sw] -> shape out = [n0; xM_size sw] ->
  f = (off mod image_size sw) / (image_size sw / xM_size sw) ->
  exists out', add_to_subgrid sw contrib out off = Some (SUCCESS, out') /\ shape out' = [n0; xM_size sw] /\
    forall i j, 0 <= i < n0 -> 0 <= j < xM_size sw ->
      elem out' [i; j] = Cadd (elem out [i; j])
        (let x := (j - (xM_size sw / 2 - contrib_size sw / 2 + f)) mod xM_size sw in
         if x <? contrib_size sw then Cmul (Fn sw x) (elem contrib [i; (x + f + contrib_size sw / 2) mod contrib_size sw]) else C0).
Proof.
  intros V Hn Sc So Ef. pose proof (sz_pos sw V) as HP. pose proof (sz_m_pos sw V) as Hm. pose proof (sz_m_xM sw V) as Hmx.
  pose proof (sh_Fn sw V) as SF. pose proof (sz_step_x sw V) as Hst.
  unfold add_to_subgrid, is2d, dim. rewrite sz_xM_yN by assumption. rewrite So, Sc. cbn [length nth Nat.eqb negb orb].
  rewrite !Z.eqb_refl. cbn [negb orb]. rewrite (mod_p_mod off) by lia. rewrite (cdiv_div (image_size sw)) by lia.
  pose proof (Z.mod_pos_bound off (image_size sw) ltac:(lia)) as Bo.
  rewrite (cdiv_div (off mod _)) by lia. rewrite <- Ef. assert (Hf : 0 <= f) by (subst f; apply Z.div_pos; lia). clear Ef.
  set (xM := xM_size sw) in *. set (m := contrib_size sw) in *. rewrite mod_p_mod by lia. rewrite neg_half by lia. rewrite (cdiv_div xM 2), (cdiv_div m 2) by lia.
  replace (- (m / 2) + xM / 2 + f) with (xM / 2 - m / 2 + f) by ring.
  set (u := xM / 2 - m / 2 + f) in *. set (offs := u mod xM). assert (Ho : 0 <= offs < xM) by (apply Z.mod_pos_bound; lia).
  assert (Hm2 : 0 <= m / 2) by (apply Z.div_pos; lia).
  assert (UO : forall j, (j - offs) mod xM = (j - u) mod xM) by (intro j; unfold offs; apply Zminus_mod_idemp_r).
  match goal with |- context [for_ 0 n0 ?b out] =>
    destruct (rows_id n0 xM (fun i j y => if (j - u) mod xM <? m then Cadd y (Cmul (Fn sw ((j - u) mod xM)) (elem contrib [i; ((j - u) mod xM + f + m / 2) mod m])) else y) b out)
      as (o1 & E & S1 & V1) end; auto.
  - intros i0 st Hi0 Ss.
    set (act := fun i p (st : nd C) => let* f0 := rd (tab_Fn sw) [i] in let* x := rd contrib [i0; cmod (i + f + m / 2) m] in
       let* y := rd st [i0; p] in wr st [i0; p] (Cadd y (Cmul (RtoC f0) x))).
    destruct (scatter n0 xM i0 m (fun i => (i + offs) mod xM) (fun j => (j - u) mod xM) (fun j => (j - u) mod xM <? m)
      (fun i y => Cadd y (Cmul (Fn sw i) (elem contrib [i0; (i + f + m / 2) mod m])))
      (fun i st => act i ((i + offs) mod xM) st) st)
      as (st' & E & S' & V'); auto; try lia.
    { intros i Hi. split; [apply Z.mod_pos_bound; lia|]. rewrite <- UO.
      assert (K : ((i + offs) mod xM - offs) mod xM = i).
      { rewrite Zminus_mod_idemp_l. replace (i + offs - offs) with i by ring. apply Z.mod_small. lia. }
      rewrite K. split; [lia|reflexivity]. }
    { intros j Hj OK. pose proof (Z.mod_pos_bound (j - u) xM ltac:(lia)). split; [lia|]. rewrite <- UO. rewrite Zplus_mod_idemp_l.
      replace (j - offs + offs) with j by ring. apply Z.mod_small. lia. }
    { intros i st2 Hi S2. unfold act. pose proof (Z.mod_pos_bound (i + offs) xM ltac:(lia)). rewrite cmod_mod by lia.
      pose proof (Z.mod_pos_bound (i + f + m / 2) m ltac:(lia)).
      rewrite rd_some by (rewrite SF; apply in_shape_1; lia). cbn [bind].
      rewrite rd_some by (rewrite Sc; apply in_2; lia). cbn [bind].
      rewrite rd_some by (rewrite S2; apply in_2; lia). cbn [bind]. rewrite wr_some by (rewrite S2; apply in_2; lia). reflexivity. }
    exists st'. split; [|split; [exact S'|]].
    2:{ intros i j Hi Hj. rewrite V' by lia. destruct (Z.eqb_spec i i0) as [->|]; cbn [andb]; reflexivity. }
    rewrite <- E. apply (two_loops act xM m offs st); lia.
  - rewrite E. cbn [bind]. exists o1. split; [reflexivity|]. split; [exact S1|]. intros i j Hi Hj. rewrite V1 by assumption. cbn zeta.
    destruct (_ <? m); [reflexivity|csolve].
Qed.

(** *** extract_from_subgrid *)
Lemma gather_subgrid sw sg contrib off n0 f : valid sw -> 0 <= n0 ->
  shape sg = [n0; xM_size sw] -> shape contrib = [n0; contrib_size sw] ->
  f = Z.quot off (image_size sw / xM_size sw) -> 0 <= f + contrib_size sw / 2 ->
  exists c1, extract_from_subgrid sw sg contrib off = Some (SUCCESS, c2c_rows true (1 / IZR (contrib_size sw)) c1) /\ shape c1 = [n0; contrib_size sw] /\
    forall i k, 0 <= i < n0 -> 0 <= k < contrib_size sw ->
      elem c1 [i; k] = (let x := (k - (f + contrib_size sw / 2)) mod contrib_size sw in
        Cmul (elem sg [i; (x + (xM_size sw / 2 - contrib_size sw / 2 + f)) mod xM_size sw]) (Fn sw x)).
Proof.
  intros V Hn Ss0 Sc Ef Hf. pose proof (sz_pos sw V) as HP. pose proof (sz_m_pos sw V) as Hm. pose proof (sz_m_xM sw V) as Hmx.
  pose proof (sh_Fn sw V) as SF. pose proof (sz_step_x sw V) as Hst.
  unfold extract_from_subgrid, is2d, dim. rewrite sz_xM_yN by assumption. rewrite Ss0, Sc. cbn [length nth Nat.eqb negb orb].
  rewrite !Z.eqb_refl. cbn [negb orb]. rewrite (cdiv_div (image_size sw)) by lia.
  change (cdiv off (image_size sw / xM_size sw)) with (Z.quot off (image_size sw / xM_size sw)). rewrite <- Ef. clear Ef.
  set (xM := xM_size sw) in *. set (m := contrib_size sw) in *. rewrite mod_p_mod by lia. rewrite neg_half by lia. rewrite (cdiv_div xM 2), (cdiv_div m 2) by lia.
  replace (- (m / 2) + xM / 2 + f) with (xM / 2 - m / 2 + f) by ring.
  set (u := xM / 2 - m / 2 + f) in *. set (offs := u mod xM). assert (Ho : 0 <= offs < xM) by (apply Z.mod_pos_bound; lia).
  set (c := f + m / 2) in *.
  assert (UO : forall x, (x + offs) mod xM = (x + u) mod xM) by (intro j; unfold offs; apply Zplus_mod_idemp_r).
  match goal with |- context [for_ 0 n0 ?b contrib] =>
    destruct (rows_id n0 m (fun i k _ => Cmul (elem sg [i; ((k - c) mod m + u) mod xM]) (Fn sw ((k - c) mod m))) b contrib)
      as (o1 & E & S1 & V1) end; auto.
  - intros i0 st Hi0 Ss.
    set (act := fun i p (st : nd C) => let* x := rd sg [i0; p] in let* f0 := rd (tab_Fn sw) [i] in
       wr st [i0; cmod (i + f + m / 2) m] (Cmul x (RtoC f0))).
    destruct (scatter n0 m i0 m (fun i => (i + c) mod m) (fun k => (k - c) mod m) (fun j => true)
      (fun i y => Cmul (elem sg [i0; (i + u) mod xM]) (Fn sw i))
      (fun i st => act i ((i + offs) mod xM) st) st)
      as (st' & E & S' & V'); auto; try lia.
    { intros i Hi. split; [apply Z.mod_pos_bound; lia|]. split; [reflexivity|].
      rewrite Zminus_mod_idemp_l. replace (i + c - c) with i by ring. apply Z.mod_small. lia. }
    { intros j Hj OK. split; [apply Z.mod_pos_bound; lia|]. rewrite Zplus_mod_idemp_l.
      replace (j - c + c) with j by ring. apply Z.mod_small. lia. }
    { intros i st2 Hi S2. unfold act. pose proof (Z.mod_pos_bound (i + offs) xM ltac:(lia)).
      replace (i + f + m / 2) with (i + c) by (unfold c; ring). rewrite cmod_mod by lia.
      pose proof (Z.mod_pos_bound (i + c) m ltac:(lia)).
      rewrite rd_some by (rewrite Ss0; apply in_2; lia). cbn [bind].
      rewrite rd_some by (rewrite SF; apply in_shape_1; lia). cbn [bind].
      rewrite wr_some by (rewrite S2; apply in_2; lia). rewrite UO. reflexivity. }
    exists st'. split; [|split; [exact S'|]].
    2:{ intros i j Hi Hj. rewrite V' by lia. rewrite andb_true_r. destruct (Z.eqb_spec i i0) as [->|]; reflexivity. }
    rewrite <- E. apply (two_loops act xM m offs st); lia.
  - rewrite E. cbn [bind]. exists o1. auto.
Qed.

Lemma DFT_rot inv m c (g : Z -> C) k : 0 < m ->
  DFT inv m (fun p => g ((p - c) mod m)) k = csum 0 m (fun x => Cmul (root inv m (k * (x + c))) (g x)).
Proof.
  intro Hm. unfold DFT. rewrite <- (csum_rot m (fun p => Cmul (root inv m (k * p)) (g ((p - c) mod m))) (- c) Hm).
  apply csum_ext. intros x Hx. replace (x - - c) with (x + c) by ring. f_equal.
  - apply root_shift; [lia|]. rewrite Zminus_mod_idemp_l, Z.sub_diag. apply Z.mod_0_l. lia.
  - f_equal. rewrite Zminus_mod_idemp_l. replace (x + c - c) with x by ring. apply Z.mod_small. lia.
Qed.

Lemma extract_from_subgrid_lemma sw sg contrib off n0 f : valid sw -> 0 <= n0 ->
  shape sg = [n0; xM_size sw] -> shape contrib = [n0; contrib_size sw] ->
  f = Z.quot off (image_size sw / xM_size sw) -> 0 <= f + contrib_size sw / 2 ->
  exists out, extract_from_subgrid sw sg contrib off = Some (SUCCESS, out) /\ shape out = [n0; contrib_size sw] /\
    forall i k, 0 <= i < n0 -> 0 <= k < contrib_size sw ->
      elem out [i; k] = Cmul (RtoC (1 / IZR (contrib_size sw))) (csum 0 (contrib_size sw) (fun x =>
        Cmul (root true (contrib_size sw) (k * (x + (f + contrib_size sw / 2))))
             (Cmul (elem sg [i; (x + (xM_size sw / 2 - contrib_size sw / 2 + f)) mod xM_size sw]) (Fn sw x)))).
Proof.
  intros V Hn Ss0 Sc Ef Hf. destruct (gather_subgrid sw sg contrib off n0 f V Hn Ss0 Sc Ef Hf) as (c1 & E & S1 & V1).
  eexists. split; [exact E|]. split; [exact S1|]. intros i k Hi Hk. rewrite (elem_c2c _ _ _ _ _ _ _ S1). f_equal.
  pose proof (sz_m_pos sw V). rewrite (DFT_ext _ _ _ _ _ (fun s Hs => V1 i s Hi Hs)).
  cbn zeta. exact (DFT_rot true (contrib_size sw) (f + contrib_size sw / 2)
    (fun x => Cmul (elem sg [i; (x + (xM_size sw / 2 - contrib_size sw / 2 + f)) mod xM_size sw]) (Fn sw x)) k ltac:(lia)).
Qed.

(** with a negative C remainder the first write (or the second) is out of bounds *)
Lemma extract_negative sw sg contrib off n0 f : valid sw -> 0 < n0 ->
  shape sg = [n0; xM_size sw] -> shape contrib = [n0; contrib_size sw] ->
  f = Z.quot off (image_size sw / xM_size sw) -> f + contrib_size sw / 2 < 0 -> 2 <= contrib_size sw ->
  extract_from_subgrid sw sg contrib off = None.
Proof.
  intros V Hn Ss0 Sc Ef Hf Hm2. pose proof (sz_pos sw V) as HP. pose proof (sz_m_pos sw V) as Hm. pose proof (sz_m_xM sw V) as Hmx.
  pose proof (sh_Fn sw V) as SF. pose proof (sz_step_x sw V) as Hst.
  unfold extract_from_subgrid, is2d, dim. rewrite sz_xM_yN by assumption. rewrite Ss0, Sc. cbn [length nth Nat.eqb negb orb].
  rewrite !Z.eqb_refl. cbn [negb orb]. rewrite (cdiv_div (image_size sw)) by lia.
  change (cdiv off (image_size sw / xM_size sw)) with (Z.quot off (image_size sw / xM_size sw)). rewrite <- Ef. clear Ef.
  set (xM := xM_size sw) in *. set (m := contrib_size sw) in *. rewrite mod_p_mod by lia. rewrite (cdiv_div m 2) by lia.
  match goal with |- context [?u mod xM] => set (offs := u mod xM) end. assert (Ho : 0 <= offs < xM) by (apply Z.mod_pos_bound; lia). clearbody offs.
  match goal with |- bind ?X _ = None => destruct X as [d|] eqn:E; [exfalso|reflexivity] end.
  revert E. match goal with |- for_ 0 n0 ?b contrib = _ -> _ => intro E; assert (K : 0 < n0 -> False) end; [|lia].
  revert E. match goal with |- for_ 0 n0 ?b contrib = _ -> _ =>
    apply (for_inv_partial (fun k st => shape st = [n0; m] /\ (0 < k -> False)) 0 n0 b contrib) end; [lia|split; [exact Sc|lia]|].
  intros i0 s s' Hi0 (Ss & F) B. exfalso. destruct (Z.eq_dec i0 0) as [->|]; [|lia]. clear F.
  set (act := fun i p (st : nd C) => let* x := rd sg [0; p] in let* f0 := rd (tab_Fn sw) [i] in
     wr st [0; cmod (i + f + m / 2) m] (Cmul x (RtoC f0))) in *.
  pose proof (two_loops act xM m offs s ltac:(lia) Ho) as T. cbn zeta in T. unfold act in T at 1 2. rewrite T in B. clear T.
  assert (K : 0 < m -> forall i, 0 <= i < m -> 0 <= cmod (i + f + m / 2) m < m).
  { intros _. revert B. 
    match goal with |- for_ 0 m ?b s = _ -> _ => intro B; assert (Q : shape s' = [n0; m] /\ forall i, 0 <= i < m -> 0 <= cmod (i + f + m / 2) m < m) end; [|apply Q].
    revert B. match goal with |- for_ 0 m ?b s = _ -> _ =>
      apply (for_inv_partial (fun k st => shape st = [n0; m] /\ forall i, 0 <= i < k -> 0 <= cmod (i + f + m / 2) m < m) 0 m b s) end; [lia|split; [exact Ss|lia]|].
    intros i st st' Hi (S1 & F1) B. unfold act in B. destruct (rd sg _) as [x|]; [|discriminate]. cbn [bind] in B.
    destruct (rd (tab_Fn sw) _) as [y|]; [|discriminate]. cbn [bind] in B.
    unfold wr in B. rewrite S1 in B. destruct (in_shape [n0; m] [0; cmod (i + f + m / 2) m]) eqn:I; [|discriminate].
    injection B as <-. split; [exact S1|]. intros i' Hi'. destruct (Z.eq_dec i' i) as [->|]; [|apply F1; lia].
    cbn [in_shape] in I. lia. }
  specialize (K Hm). set (c := f + m / 2) in *.
  assert (K0 := K 0 ltac:(lia)). assert (K1 := K 1 ltac:(lia)). unfold cmod in *. replace (0 + f + m / 2) with c in K0 by (unfold c; ring).
  replace (1 + f + m / 2) with (1 + c) in K1 by (unfold c; ring). clearbody c. clear - Hf Hm2 K0 K1.
  pose proof (Z.rem_bound_pos_neg c m ltac:(lia) ltac:(lia)) as B. assert (R0 : Z.rem c m = 0) by lia.
  destruct (Z.eq_dec c (-1)) as [->|N].
  { assert (Z.rem (-1) m = -1); [|lia]. change (-1) with (- (1)). rewrite Z.rem_opp_l by lia. rewrite Z.rem_small by lia. reflexivity. }
  pose proof (Z.rem_bound_pos_neg (1 + c) m ltac:(lia) ltac:(lia)) as B1. assert (R1 : Z.rem (1 + c) m = 0) by lia.
  pose proof (Z.quot_rem' c m). pose proof (Z.quot_rem' (1 + c) m).
  assert (m * (Z.quot (1 + c) m - Z.quot c m) = 1) by lia. assert (m * (Z.quot (1 + c) m - Z.quot c m) mod m = 0) by (rewrite Z.mul_comm; apply Z.mod_mul; lia).
  rewrite H1 in H2. rewrite Z.mod_small in H2 by lia. lia.
Qed.

(** *** finish_facet *)
Lemma finish_facet_lemma sw pfct fct off n0 size : valid sw -> 0 <= n0 -> 0 < size <= yN_size sw ->
  shape pfct = [n0; yN_size sw] -> shape fct = [n0; size] ->
  exists pf' fct', finish_facet sw pfct fct off = Some (SUCCESS, (pf', fct')) /\ shape fct' = [n0; size] /\
    forall i x, 0 <= i < n0 -> 0 <= x < size ->
      elem fct' [i; x] = Cmul (csum 0 (yN_size sw) (fun k => Cmul (root false (yN_size sw) (k * (off - size / 2 + x))) (elem pfct [i; k])))
                              (Fb sw (yN_size sw / 2 - size / 2 + x)).
Proof.
  intros V Hn Hs Sp Sf. pose proof (sz_pos sw V) as HP. pose proof (sh_Fb sw V) as SB.
  unfold finish_facet, is2d, dim. rewrite Sf, Sp. cbn [length nth Nat.eqb negb orb].
  replace (size >? yN_size sw) with false by lia. rewrite !Z.eqb_refl. cbn [negb orb].
  set (yN := yN_size sw) in *. rewrite mod_p_mod by lia. rewrite !cdiv_div by lia.
  set (start := (off - size / 2) mod yN). assert (Hst : 0 <= start < yN) by (apply Z.mod_pos_bound; lia).
  rewrite cmod_mod by lia. rewrite (mod_case (start + size)) by lia.
  assert (HX : 0 <= yN / 2 - size / 2 /\ yN / 2 - size / 2 + size <= yN).
  { split; [assert (size / 2 <= yN / 2) by (apply Z.div_le_mono; lia); lia|].
    pose proof (Z.div_mod size 2 ltac:(lia)). pose proof (Z.mod_pos_bound size 2 ltac:(lia)).
    destruct (sz_even_y sw V) as (h & Hh & Eh). fold yN in Eh. rewrite Eh. rewrite (Z.mul_comm 2 h), Z.div_mul by lia. lia. }
  set (Fo := yN / 2 - size / 2) in *.
  set (p2 := c2c_rows false 1 pfct). assert (Sp2 : shape p2 = [n0; yN]) by exact Sp.
  set (val := fun i0 x => Cmul (elem p2 [i0; (start + x) mod yN]) (RtoC (elem (tab_Fb sw) [x + Fo]))).
  set (end_ := if start + size <? yN then start + size else start + size - yN).
  assert (VAL : forall i0 x, 0 <= x < size -> val i0 x = Cmul (elem p2 [i0; if start + x <? yN then start + x else start + x - yN]) (RtoC (elem (tab_Fb sw) [x + Fo]))).
  { intros i0 x Hx. unfold val. now rewrite (mod_case (start + x)) by lia. }
  assert (Q : forall i0 i x (st : nd C), 0 <= i0 < n0 -> 0 <= x < size -> shape st = [n0; size] -> i = (if start + x <? yN then start + x else start + x - yN) ->
     (let* p := rd p2 [i0; i] in let* f := rd (tab_Fb sw) [x + Fo] in wr st [i0; x] (Cmul p (RtoC f))) = Some (upd st [i0; x] (val i0 x))).
  { intros i0 i x st Hi0 Hx Ss Ei. assert (0 <= i < yN) by (destruct (Z.ltb_spec (start + x) yN); lia).
    rewrite rd_some by (rewrite Sp2; apply in_2; lia). cbn [bind]. rewrite rd_some by (rewrite SB; apply in_shape_1; lia). cbn [bind].
    rewrite wr_some by (rewrite Ss; apply in_2; lia). rewrite VAL by lia. now rewrite <- Ei. }
  match goal with |- context [for_ 0 n0 ?b fct] =>
    destruct (rows_id n0 size (fun i j _ => val i j) b fct) as (o1 & E & S1 & V1) end; auto.
  - intros i0 st Hi0 Ss. cbn beta.
    assert (SEG : forall lo hi d (st : nd C), lo <= hi -> 0 <= lo - d -> hi - d <= size -> shape st = [n0; size] ->
       (forall x, lo - d <= x < hi - d -> x + d = if start + x <? yN then start + x else start + x - yN) ->
       exists st', for_ lo hi (fun i st => let* p := rd p2 [i0; i] in let* f := rd (tab_Fb sw) [i - d + Fo] in wr st [i0; i - d] (Cmul p (RtoC f))) st = Some st' /\ shape st' = [n0; size] /\
         forall i j, 0 <= i < n0 -> 0 <= j < size -> elem st' [i; j] = if (i =? i0) && ((lo - d <=? j) && (j <? hi - d)) then val i j else elem st [i; j]).
    { clear - Q Hi0 Hs. intros lo hi d st L1 L2 L3 Ss P.
      match goal with |- context [for_ lo hi ?b st] =>
      destruct (for_inv (fun k s => shape s = [n0; size] /\ forall i j, 0 <= i < n0 -> 0 <= j < size -> elem s [i; j] = if (i =? i0) && ((lo - d <=? j) && (j <? k - d)) then val i j else elem st [i; j])
        lo hi b st L1) as (s' & E & S' & V') end.
      - split; [exact Ss|]. intros i j Hi Hj. destruct (Z.leb_spec (lo - d) j), (Z.ltb_spec j (lo - d)); try lia; cbn [andb]; now rewrite andb_false_r.
      - intros k s Hk (S1 & V1). exists (upd s [i0; k - d] (val i0 (k - d))). split.
        { apply Q; auto; [lia|]. rewrite <- P by lia. lia. }
        split; [exact S1|]. intros i j Hi Hj. cbn [upd elem]. destruct (idx_eqb_spec [i0; k - d] [i; j]) as [K|K].
        + injection K as <- <-. rewrite Z.eqb_refl. cbn [andb]. replace (lo - d <=? k - d) with true by lia. now replace (k - d <? k + 1 - d) with true by lia.
        + rewrite V1 by assumption. destruct (Z.eqb_spec i i0) as [->|]; cbn [andb]; [|reflexivity].
          assert (j <> k - d) by congruence.
          destruct (Z.leb_spec (lo - d) j), (Z.ltb_spec j (k - d)), (Z.ltb_spec j (k + 1 - d)); cbn [andb]; try reflexivity; lia.
      - exists s'. auto. }
    unfold end_. destruct (Z.ltb_spec (start + size) yN) as [L|L].
    + replace (start <? start + size) with true by lia.
      destruct (SEG start (start + size) start st) as (s1 & E & S1 & V1); auto; try lia.
      { intros x Hx. replace (start + x <? yN) with true by lia. lia. }
      exists s1. split; [|split; [exact S1|]].
      * rewrite <- E. apply for_ext. intros i s Hi. replace (i + (Fo - start)) with (i - start + Fo) by lia. reflexivity.
      * intros i j Hi Hj. rewrite V1 by assumption. replace (start - start <=? j) with true by lia. replace (j <? start + size - start) with true by lia.
        rewrite andb_true_r. destruct (Z.eqb_spec i i0) as [->|]; reflexivity.
    + destruct (Z.ltb_spec start (start + size - yN)); [lia|].
      destruct (SEG 0 (start + size - yN) (start - yN) st) as (s1 & E & S1 & V1); auto; try lia.
      { intros x Hx. replace (start + x <? yN) with false by lia. lia. }
      destruct (SEG start yN start s1) as (s2 & E2 & S2 & V2); auto; try lia.
      { intros x Hx. replace (start + x <? yN) with true by lia. lia. }
      exists s2. split; [|split; [exact S2|]].
      * match goal with |- context [for_ 0 (start + size - yN) ?b st] => rewrite (for_ext 0 (start + size - yN) b
          (fun i st => let* p := rd p2 [i0; i] in let* f := rd (tab_Fb sw) [i - (start - yN) + Fo] in wr st [i0; i - (start - yN)] (Cmul p (RtoC f)))) end.
        2:{ intros i s Hi. replace (i + yN + (Fo - start)) with (i - (start - yN) + Fo) by lia. replace (i + yN - start) with (i - (start - yN)) by lia. reflexivity. }
        rewrite E. cbn [bind]. rewrite <- E2. apply for_ext. intros i s Hi. replace (i + (Fo - start)) with (i - start + Fo) by lia. reflexivity.
      * intros i j Hi Hj. rewrite V2, V1 by assumption. destruct (Z.eqb_spec i i0) as [->|]; cbn [andb]; [|reflexivity].
        destruct (Z.leb_spec (start - start) j), (Z.ltb_spec j (yN - start)), (Z.leb_spec (0 - (start - yN)) j), (Z.ltb_spec j (start + size - yN - (start - yN))); cbn [andb]; try reflexivity; lia.
  - rewrite E. cbn [bind]. eexists. exists o1. split; [reflexivity|]. split; [exact S1|]. intros i x Hi Hx. rewrite V1 by assumption.
    unfold val, p2. rewrite (elem_c2c _ _ _ _ _ _ _ Sp). rewrite Cmul_1_l. unfold Fb. replace (Fo + x) with (x + Fo) by ring. f_equal.
    unfold DFT. apply csum_ext. intros k Hk. f_equal. rewrite Z.mul_comm. apply root_shift; [lia|].
    rewrite Zminus_mod_idemp_l. unfold start. rewrite Zminus_mod, Zplus_mod_idemp_l, <- Zminus_mod.
    rewrite Z.sub_diag. apply Z.mod_0_l. lia.
Qed.
