(** SwiFTly, continued: the window copies (proofs only). *)
From Verif Require Import Base BaseFacts Sum CRing Loops Cplx Fft FftSpec FftFacts FftFacts2 FftConvFacts Swiftly SwiftlySpec SwiftlyFacts.
From Coq Require Import Lra Lia.
Open Scope Z_scope.

(** the facet position of element i of a contribution, for the window from o *)
Definition wpos (yN m o i : Z) : Z := (o + (i - o) mod m) mod yN.

Lemma facet_offsets_eq sw off : valid sw ->
  let o := window_start sw off in let m := contrib_size sw in
  facet_offsets sw off = (o mod m, (o - o mod m + m) mod yN_size sw, (o - o mod m) mod yN_size sw).
Proof.
  intro V. cbn zeta. unfold facet_offsets, window_start. rewrite sz_xM_yN by assumption.
  pose proof (sz_pos sw V). pose proof (sz_m_pos sw V). pose proof (sz_step_y sw V).
  rewrite !mod_p_mod by lia. rewrite (cdiv_div (image_size sw)) by lia. rewrite (cdiv_div (contrib_size sw) 2) by lia.
  unfold cdiv. f_equal; [f_equal|]; f_equal; ring.
Qed.

(** the four loops over a row, for any per-element action *)
Lemma four_loops {S} (act : Z -> Z -> S -> option S) yN m o (s : S) : 0 < m <= yN ->
  let aliased := o mod m in let offs1 := (o - o mod m + m) mod yN in let offs2 := (o - o mod m) mod yN in
  let stop1 := Z.min (yN - offs1) aliased in
  let i := Z.max (Z.max 0 stop1) aliased in
  let stop2 := Z.min (yN - offs2) m in
  (let* st := for_ 0 stop1 (fun i st => act i (i + offs1) st) s in
   let* st := for_ (Z.max 0 stop1) aliased (fun i st => act i (i + offs1 - yN) st) st in
   let* st := for_ i stop2 (fun i st => act i (i + offs2) st) st in
   for_ (Z.max i stop2) m (fun i st => act i (i + offs2 - yN) st) st)
  = for_ 0 m (fun i st => act i (wpos yN m o i) st) s.
Proof.
  intro H. cbn zeta. set (a := o mod m). assert (Ha : 0 <= a < m) by (apply Z.mod_pos_bound; lia).
  set (offs1 := (o - a + m) mod yN). assert (H1 : 0 <= offs1 < yN) by (apply Z.mod_pos_bound; lia).
  set (offs2 := (o - a) mod yN). assert (H2 : 0 <= offs2 < yN) by (apply Z.mod_pos_bound; lia).
  set (stop1 := Z.min (yN - offs1) a). assert (Hs1 : 0 <= stop1 <= a) by lia.
  replace (Z.max 0 stop1) with stop1 by lia. replace (Z.max stop1 a) with a by lia.
  set (stop2 := Z.min (yN - offs2) m). assert (Hs2 : 0 <= stop2 <= m) by lia.
  assert (IM : forall i, (i - o) mod m = (i - a) mod m) by (intro i; unfold a; now rewrite Zminus_mod_idemp_r).
  assert (P1 : forall i, 0 <= i < a -> wpos yN m o i = if i <? stop1 then i + offs1 else i + offs1 - yN).
  { intros i Hi. unfold wpos. rewrite IM, (mod_case_neg (i - a) m) by lia. replace (i - a <? 0) with true by lia.
    replace (o + (i - a + m)) with (o - a + m + i) by ring. rewrite <- Zplus_mod_idemp_l. fold offs1. clear IM. clearbody offs1 offs2 a. rewrite (mod_case (offs1 + i) yN) by lia.
    destruct (Z.ltb_spec (offs1 + i) yN), (Z.ltb_spec i stop1); lia. }
  assert (P2 : forall i, a <= i < m -> wpos yN m o i = if i <? stop2 then i + offs2 else i + offs2 - yN).
  { intros i Hi. unfold wpos. rewrite IM, (mod_case_neg (i - a) m) by lia. replace (i - a <? 0) with false by lia.
    replace (o + (i - a)) with (o - a + i) by ring. rewrite <- Zplus_mod_idemp_l. fold offs2. clear IM P1. clearbody offs1 offs2 a. rewrite (mod_case (offs2 + i) yN) by lia.
    destruct (Z.ltb_spec (offs2 + i) yN), (Z.ltb_spec i stop2); lia. }
  clear IM. clearbody offs1 offs2 a.
  rewrite <- (for_app 0 stop1 m) by lia.
  rewrite (for_ext 0 stop1 (fun i st => act i (i + offs1) st) (fun i st => act i (wpos yN m o i) st)).
  2:{ intros i st Hi. rewrite P1 by lia. now replace (i <? stop1) with true by lia. }
  destruct (for_ 0 stop1 _ s) as [s1|]; [|reflexivity]. cbn [bind].
  rewrite <- (for_app stop1 a m) by lia.
  rewrite (for_ext stop1 a (fun i st => act i (i + offs1 - yN) st) (fun i st => act i (wpos yN m o i) st)).
  2:{ intros i st Hi. rewrite P1 by lia. now replace (i <? stop1) with false by lia. }
  destruct (for_ stop1 a _ s1) as [s2|]; [|reflexivity]. cbn [bind].
  destruct (Z.le_gt_cases stop2 a) as [L|L].
  - replace (Z.max a stop2) with a by lia. rewrite for_empty by lia. cbn [bind].
    apply for_ext. intros i st Hi. rewrite P2 by lia. now replace (i <? stop2) with false by lia.
  - replace (Z.max a stop2) with stop2 by lia. rewrite <- (for_app a stop2 m) by lia.
    rewrite (for_ext a stop2 (fun i st => act i (i + offs2) st) (fun i st => act i (wpos yN m o i) st)).
    2:{ intros i st Hi. rewrite P2 by lia. now replace (i <? stop2) with true by lia. }
    destruct (for_ a stop2 _ s2) as [s3|]; [|reflexivity]. cbn [bind].
    apply for_ext. intros i st Hi. rewrite P2 by lia. now replace (i <? stop2) with false by lia.
Qed.

Lemma wpos_range yN m o i : 0 < yN -> 0 <= wpos yN m o i < yN.
Proof. intro. apply Z.mod_pos_bound. lia. Qed.

(** *** extract_from_facet *)
Lemma gather_facet sw fct out off n0 : valid sw -> 0 <= n0 ->
  shape fct = [n0; yN_size sw] -> shape out = [n0; contrib_size sw] ->
  exists o1, extract_from_facet sw fct out off = Some (SUCCESS, c2c_rows false 1 o1) /\ shape o1 = [n0; contrib_size sw] /\
    forall i k, 0 <= i < n0 -> 0 <= k < contrib_size sw ->
      elem o1 [i; k] = elem fct [i; wpos (yN_size sw) (contrib_size sw) (window_start sw off) k].
Proof.
  intros V Hn Sf So. pose proof (sz_pos sw V) as HP. pose proof (sz_m_pos sw V) as Hm. pose proof (sz_m_yN sw V) as Hmy.
  unfold extract_from_facet, is2d, dim. rewrite sz_xM_yN by assumption. rewrite Sf, So. cbn [length nth Nat.eqb negb orb].
  rewrite !Z.eqb_refl. cbn [negb orb]. rewrite (facet_offsets_eq sw off V).
  set (yN := yN_size sw) in *. set (m := contrib_size sw) in *. set (o := window_start sw off). clearbody o.
  match goal with |- context [for_ 0 n0 ?b out] =>
    destruct (rows_id n0 m (fun i j _ => elem fct [i; wpos yN m o j]) b out) as (o1 & E & S1 & V1) end; auto.
  - intros i0 st Hi0 Ss.
    destruct (scatter n0 m i0 m (fun i => i) (fun i => i) (fun _ => true) (fun j _ => elem fct [i0; wpos yN m o j])
      (fun i st => let* x := rd fct [i0; wpos yN m o i] in wr st [i0; i] x) st) as (st' & E & S' & V'); auto; try lia.
    { intros i st2 Hi S2. rewrite rd_some by (rewrite Sf; apply in_2; [lia|apply wpos_range; lia]). cbn [bind].
      rewrite wr_some by (rewrite S2; apply in_2; lia). reflexivity. }
    exists st'. split; [|split; [exact S'|]].
    2:{ intros i j Hi Hj. rewrite V' by lia. rewrite andb_true_r. destruct (Z.eqb_spec i i0) as [->|]; reflexivity. }
    rewrite <- E. apply (four_loops (fun i p st => let* x := rd fct [i0; p] in wr st [i0; i] x) yN m o st). lia.
  - rewrite E. cbn [bind]. exists o1. auto.
Qed.

Lemma DFT_wpos inv yN m o (f : Z -> C) k : 0 < m -> DFT inv m (fun i => f (wpos yN m o i)) k =
  csum 0 m (fun x => Cmul (root inv m (k * (o + x))) (f ((o + x) mod yN))).
Proof.
  intro Hm. unfold DFT.
  rewrite <- (csum_rot m (fun i => Cmul (root inv m (k * i)) (f (wpos yN m o i))) (- o) Hm).
  apply csum_ext. intros x Hx. replace (x - - o) with (o + x) by ring. f_equal.
  - apply root_shift; [lia|]. rewrite Zminus_mod_idemp_l, Z.sub_diag. apply Z.mod_0_l. lia.
  - unfold wpos. rewrite Zminus_mod_idemp_l. replace (o + x - o) with x by ring. rewrite (Z.mod_small x m) by lia. reflexivity.
Qed.

Lemma Cmul_1_l z : Cmul (RtoC 1) z = z.
Proof. csolve. Qed.

Lemma extract_from_facet_lemma sw fct out off n0 : valid sw -> 0 <= n0 ->
  shape fct = [n0; yN_size sw] -> shape out = [n0; contrib_size sw] ->
  exists out', extract_from_facet sw fct out off = Some (SUCCESS, out') /\ shape out' = [n0; contrib_size sw] /\
    forall i k, 0 <= i < n0 -> 0 <= k < contrib_size sw ->
      elem out' [i; k] = csum 0 (contrib_size sw) (fun x =>
        Cmul (root false (contrib_size sw) (k * (window_start sw off + x))) (elem fct [i; (window_start sw off + x) mod yN_size sw])).
Proof.
  intros V Hn Sf So. destruct (gather_facet sw fct out off n0 V Hn Sf So) as (o1 & E & S1 & V1).
  exists (c2c_rows false 1 o1). split; [exact E|]. split; [exact S1|]. intros i k Hi Hk.
  rewrite (elem_c2c _ _ _ _ _ _ _ S1). rewrite Cmul_1_l.
  rewrite (DFT_ext _ _ _ (fun j => elem fct [i; wpos (yN_size sw) (contrib_size sw) (window_start sw off) j])) by (intros; apply V1; lia).
  apply (DFT_wpos false _ _ _ (fun p => elem fct [i; p])). now apply sz_m_pos.
Qed.

(** *** add_to_facet *)
Lemma wpos_inv yN m o j : 0 < m <= yN -> 0 <= j < yN -> (j - o) mod yN < m ->
  wpos yN m o ((o + (j - o) mod yN) mod m) = j.
Proof.
  intros H Hj L. unfold wpos. rewrite Zminus_mod_idemp_l. set (d := (j - o) mod yN) in *.
  assert (0 <= d) by (apply Z.mod_pos_bound; lia). replace (o + d - o) with d by ring. rewrite (Z.mod_small d m) by lia.
  unfold d. rewrite Zplus_mod_idemp_r. replace (o + (j - o)) with j by ring. apply Z.mod_small. lia.
Qed.
Lemma wpos_ok yN m o i : 0 < m <= yN -> 0 <= i < m ->
  (wpos yN m o i - o) mod yN = (i - o) mod m /\ (o + (wpos yN m o i - o) mod yN) mod m = i.
Proof.
  intros H Hi. unfold wpos. set (d := (i - o) mod m). assert (B : 0 <= d < m) by (apply Z.mod_pos_bound; lia).
  assert (E : ((o + d) mod yN - o) mod yN = d).
  { rewrite Zminus_mod_idemp_l. replace (o + d - o) with d by ring. apply Z.mod_small. lia. }
  split; [exact E|]. rewrite E. unfold d. rewrite Zplus_mod_idemp_r. replace (o + (i - o)) with i by ring. apply Z.mod_small. lia.
Qed.

Lemma add_to_facet_lemma sw contrib fct off n0 : valid sw -> 0 <= n0 ->
  shape contrib = [n0; contrib_size sw] -> shape fct = [n0; yN_size sw] ->
  exists fct', add_to_facet sw contrib fct off = Some (SUCCESS, fct') /\ shape fct' = [n0; yN_size sw] /\
    forall i j, 0 <= i < n0 -> 0 <= j < yN_size sw ->
      elem fct' [i; j] = Cadd (elem fct [i; j])
        (let x := (j - window_start sw off) mod yN_size sw in
         if x <? contrib_size sw then elem contrib [i; (window_start sw off + x) mod contrib_size sw] else C0).
Proof.
  intros V Hn Sc Sf. pose proof (sz_pos sw V) as HP. pose proof (sz_m_pos sw V) as Hm. pose proof (sz_m_yN sw V) as Hmy.
  unfold add_to_facet, is2d, dim. rewrite sz_xM_yN by assumption. rewrite Sf, Sc. cbn [length nth Nat.eqb negb orb].
  rewrite !Z.eqb_refl. cbn [negb orb]. rewrite (facet_offsets_eq sw off V). cbn zeta.
  set (yN := yN_size sw) in *. set (m := contrib_size sw) in *. set (o := window_start sw off). clearbody o.
  match goal with |- context [for_ 0 n0 ?b fct] =>
    destruct (rows_id n0 yN (fun i j y => if (j - o) mod yN <? m then Cadd y (elem contrib [i; (o + (j - o) mod yN) mod m]) else y) b fct)
      as (o1 & E & S1 & V1) end; auto.
  - intros i0 st Hi0 Ss.
    destruct (scatter n0 yN i0 m (wpos yN m o) (fun j => (o + (j - o) mod yN) mod m) (fun j => (j - o) mod yN <? m)
      (fun i y => Cadd y (elem contrib [i0; i]))
      (fun i st => let* x := rd contrib [i0; i] in let* y := rd st [i0; wpos yN m o i] in wr st [i0; wpos yN m o i] (Cadd y x)) st)
      as (st' & E & S' & V'); auto; try lia.
    { intros i Hi. destruct (wpos_ok yN m o i) as (Q1 & Q2); [lia|lia|]. split; [apply wpos_range; lia|]. split; [|exact Q2].
      rewrite Q1. pose proof (Z.mod_pos_bound (i - o) m ltac:(lia)). lia. }
    { intros j Hj OK. split; [apply Z.mod_pos_bound; lia|]. apply wpos_inv; lia. }
    { intros i st2 Hi S2. assert (0 <= wpos yN m o i < yN) by (apply wpos_range; lia). rewrite rd_some by (rewrite Sc; apply in_2; lia). cbn [bind].
      rewrite rd_some by (rewrite S2; apply in_2; lia). cbn [bind]. rewrite wr_some by (rewrite S2; apply in_2; lia). reflexivity. }
    exists st'. split; [|split; [exact S'|]].
    2:{ intros i j Hi Hj. rewrite V' by lia. destruct (Z.eqb_spec i i0) as [->|]; cbn [andb]; reflexivity. }
    rewrite <- E. apply (four_loops (fun i p st => let* x := rd contrib [i0; i] in let* y := rd st [i0; p] in wr st [i0; p] (Cadd y x)) yN m o st). lia.
  - rewrite E. cbn [bind]. exists o1. split; [reflexivity|]. split; [exact S1|]. intros i j Hi Hj. rewrite V1 by assumption.
    destruct (_ <? m); [reflexivity|csolve].
Qed.

(** *** Subgrid side *)
(** the two loops over a row *)
Lemma two_loops {S} (act : Z -> Z -> S -> option S) xM m offs (s : S) : 0 < m <= xM -> 0 <= offs < xM ->
  let stop1 := Z.min (xM - offs) m in
  (let* st := for_ 0 stop1 (fun i st => act i (i + offs) st) s in
   for_ (Z.max 0 stop1) m (fun i st => act i (i + offs - xM) st) st)
  = for_ 0 m (fun i st => act i ((i + offs) mod xM) st) s.
Proof.
  intros H Ho. cbn zeta. set (stop1 := Z.min (xM - offs) m). replace (Z.max 0 stop1) with stop1 by lia.
  rewrite <- (for_app 0 stop1 m) by lia.
  rewrite (for_ext 0 stop1 (fun i st => act i (i + offs) st) (fun i st => act i ((i + offs) mod xM) st)).
  2:{ intros i st Hi. now rewrite Z.mod_small by lia. }
  destruct (for_ 0 stop1 _ s) as [s1|]; [|reflexivity]. cbn [bind]. apply for_ext. intros i st Hi.
  rewrite mod_case by lia. now replace (i + offs <? xM) with false by lia.
Qed.

Lemma neg_half m : 0 <= m -> cdiv (- m) 2 = - (m / 2).
Proof. intro H. unfold cdiv. rewrite Z.quot_opp_l by lia. f_equal. apply Z.quot_div_nonneg; lia. Qed.
