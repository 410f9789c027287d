(** SwiFTly, continued: preparing a subgrid undoes finishing it up to a sign; creation (proofs only). *)
From Verif Require Import Base BaseFacts Sum CRing Loops Cplx Fft FftSpec FftFacts FftFacts2 FftConvFacts Swiftly SwiftlySpec SwiftlyFacts SwiftlyFacts2 SwiftlyFacts3 SwiftlyFacts4 SwiftlyFacts5.
From Coq Require Import Lra Lia.
Open Scope Z_scope.

Lemma step_root xM t : xM <> 0 -> cis (-2 * PI * IZR t / IZR xM) = root false xM t.
Proof. intro. unfold root. f_equal. unfold Rdiv. ring. Qed.
Lemma step2_root h t : h <> 0 -> cis (- PI * IZR t) = root false (2 * h) (h * t).
Proof. intro. unfold root. f_equal. rewrite !mult_IZR. field. apply not_0_IZR. lia. Qed.

(** one column pair, all rows *)
Lemma swap_col n h i (p1 p2 : C) (a : nd C) : 0 < h -> 0 <= n -> 0 <= i < h -> shape a = [n; 2 * h] ->
  exists a', for_ 0 n (fun i0 sg =>
      let* tmp := rd sg [i0; i] in
      let* y := rd sg [i0; i + h] in
      let* sg := wr sg [i0; i] (Cmul p1 y) in
      wr sg [i0; i + h] (Cmul p2 tmp)) a = Some a' /\ shape a' = [n; 2 * h] /\
    forall r j, 0 <= r < n -> 0 <= j < 2 * h ->
      elem a' [r; j] = if j =? i then Cmul p1 (elem a [r; i + h]) else if j =? i + h then Cmul p2 (elem a [r; i]) else elem a [r; j].
Proof.
  intros Hh Hn Hi S.
  match goal with |- context [for_ 0 n ?b a] =>
  destruct (for_inv (fun k st => shape st = [n; 2 * h] /\
    forall r j, 0 <= r < n -> 0 <= j < 2 * h -> elem st [r; j] =
      if (r <? k) then (if j =? i then Cmul p1 (elem a [r; i + h]) else if j =? i + h then Cmul p2 (elem a [r; i]) else elem a [r; j]) else elem a [r; j])
    0 n b a) as (a' & E & S' & V) end; [lia| | |].
  - split; [exact S|]. intros r j Hr Hj. now replace (r <? 0) with false by lia.
  - intros k st Hk (S1 & V1). rewrite !rd_some by (rewrite S1; apply in_2; lia). cbn [bind].
    rewrite wr_some by (rewrite S1; apply in_2; lia). cbn [bind]. rewrite wr_some by (cbn [upd shape]; rewrite S1; apply in_2; lia).
    eexists. split; [reflexivity|]. split; [exact S1|]. intros r j Hr Hj. cbn [upd elem].
    destruct (idx_eqb_spec [k; i + h] [r; j]) as [K|K].
    { injection K as <- <-. replace (k <? k + 1) with true by lia. replace (i + h =? i) with false by lia. rewrite Z.eqb_refl.
      rewrite V1 by lia. now replace (k <? k) with false by lia. }
    destruct (idx_eqb_spec [k; i] [r; j]) as [K2|K2].
    { injection K2 as <- <-. replace (k <? k + 1) with true by lia. rewrite Z.eqb_refl.
      rewrite V1 by lia. now replace (k <? k) with false by lia. }
    rewrite V1 by lia. destruct (Z.ltb_spec r k), (Z.ltb_spec r (k + 1)); try lia; try reflexivity.
    assert (r = k) by lia. subst r. destruct (Z.eqb_spec j i); [congruence|]. destruct (Z.eqb_spec j (i + h)); [congruence|]. reflexivity.
  - exists a'. split; [exact E|]. split; [exact S'|]. intros r j Hr Hj. rewrite V by assumption. now replace (r <? n) with true by lia.
Qed.

Lemma prepare_inplace_lemma sw sg off n0 : valid sw -> 0 <= n0 -> shape sg = [n0; xM_size sw] ->
  exists sg', prepare_subgrid_inplace sw sg off = Some (SUCCESS, sg') /\ shape sg' = [n0; xM_size sw] /\
    forall i q, 0 <= i < n0 -> 0 <= q < xM_size sw ->
      elem sg' [i; q] = Cmul (RtoC (sign (off + xM_size sw / 2))) (csum 0 (xM_size sw) (fun k =>
        Cmul (root false (xM_size sw) ((k - xM_size sw / 2 + off) * (q - xM_size sw / 2))) (elem sg [i; k]))).
Proof.
  intros V Hn S. destruct (sz_even_x sw V) as (h & Hh & EX). unfold prepare_subgrid_inplace, is2d, dim. rewrite S. cbn [length nth Nat.eqb negb orb].
  rewrite Z.eqb_refl. cbn [negb]. rewrite EX in *.
  assert (H2 : 2 * h / 2 = h) by (rewrite Z.mul_comm; apply Z.div_mul; lia).
  assert (C2 : cdiv (2 * h) 2 = h) by (rewrite cdiv_div by lia; exact H2). rewrite C2, H2.
  rewrite step_root by lia. rewrite (step2_root h) by lia. set (t := off + h).
  set (F := c2c_rows false 1 sg). assert (SF : shape F = [n0; 2 * h]) by exact S.
  match goal with |- context [for_ 0 h ?b (C1, F)] =>
  destruct (for_inv (fun k s => fst s = root false (2 * h) (k * t) /\ shape (snd s) = [n0; 2 * h] /\
    forall i j, 0 <= i < n0 -> 0 <= j < 2 * h -> elem (snd s) [i; j] =
      if ((j <? k) || ((h <=? j) && (j <? h + k))) then Cmul (root false (2 * h) (j * t)) (elem F [i; (j + h) mod (2 * h)]) else elem F [i; j])
    0 h b (C1, F)) as ((ph & s2) & E & P & S' & V') end; [lia| | |].
  - cbn [fst snd]. split; [symmetry; apply W_0|]. split; [exact SF|]. intros i j Hi Hj. replace (j <? 0) with false by lia.
    destruct (Z.leb_spec h j), (Z.ltb_spec j (h + 0)); try lia; reflexivity.
  - intros k (ph & st) Hk (P1 & S1 & V1). cbn [fst snd] in *.
    destruct (swap_col n0 h k ph (Cmul ph (root false (2 * h) (h * t))) st Hh Hn Hk S1) as (a' & E & S2 & V2).
    rewrite E. cbn [bind]. eexists. split; [reflexivity|]. cbn [fst snd]. split; [|split; [exact S2|]].
    + rewrite P1, <- W_add. f_equal. ring.
    + intros i j Hi Hj. rewrite V2 by lia. destruct (Z.eqb_spec j k) as [->|N1].
      { replace (k <? k + 1) with true by lia. cbn [orb]. rewrite swap_mod by lia. replace (k <? h) with true by lia. rewrite P1. f_equal.
        rewrite V1 by lia. replace (k + h <? k) with false by lia. replace (k + h <? h + k) with false by lia. now rewrite andb_false_r. }
      destruct (Z.eqb_spec j (k + h)) as [->|N2].
      { replace (h <=? k + h) with true by lia. replace (k + h <? h + (k + 1)) with true by lia. rewrite orb_true_r. rewrite swap_mod by lia.
        replace (k + h <? h) with false by lia. rewrite P1, <- W_add. f_equal; [f_equal; ring|].
        rewrite V1 by lia. replace (k <? k) with false by lia. replace (h <=? k) with false by lia. cbn [orb andb]. f_equal. f_equal. f_equal. lia. }
      rewrite V1 by lia. destruct (Z.ltb_spec j k), (Z.ltb_spec j (k + 1)), (Z.leb_spec h j), (Z.ltb_spec j (h + k)), (Z.ltb_spec j (h + (k + 1))); cbn [orb andb]; try reflexivity; lia.
  - rewrite E. cbn [bind]. cbn [fst snd] in *. exists s2. split; [reflexivity|]. split; [exact S'|]. intros i q Hi Hq. rewrite V' by assumption.
    replace ((q <? h) || (h <=? q) && (q <? h + h)) with true.
    2:{ destruct (Z.ltb_spec q h), (Z.leb_spec h q), (Z.ltb_spec q (h + h)); try lia; reflexivity. }
    unfold F. rewrite (elem_c2c _ _ _ _ _ _ _ S). rewrite Cmul_1_l. unfold DFT. rewrite !csum_mul_l. apply csum_ext. intros k Hk.
    replace (root false (2 * h) ((q + h) mod (2 * h) * k)) with (root false (2 * h) (k * (q - h))).
    2:{ rewrite (Z.mul_comm _ k). apply root_shift; [lia|]. rewrite Zminus_mod_idemp_r. replace (q - h - (q + h)) with ((-1) * (2 * h)) by ring. apply Z.mod_mul. lia. }
    rewrite <- (W_half_pow false h t) by lia.
    assert (G : Cmul (root false (2 * h) (q * t)) (root false (2 * h) (k * (q - h))) = Cmul (root false (2 * h) (t * h)) (root false (2 * h) ((k - h + off) * (q - h)))).
    { rewrite <- !W_add. replace (q * t + k * (q - h)) with (t * h + (k - h + off) * (q - h) + (2 * h) * (q - h)) by (unfold t; ring).
      apply W_period. lia. }
    revert G. generalize (root false (2 * h) (q * t)), (root false (2 * h) (k * (q - h))), (root false (2 * h) (t * h)), (root false (2 * h) ((k - h + off) * (q - h))), (elem sg [i; k]).
    intros a b c d x G. change (Cmul a (Cmul b x) = Cmul c (Cmul d x)). transitivity (Cmul (Cmul a b) x); [csolve|]. rewrite G. csolve.
Qed.

(** finishing and then preparing: the sign *)
Lemma round_trip_sum X c h (s : Z -> C) q : 0 < X -> 0 <= q < X ->
  csum 0 X (fun k => Cmul (root false X ((k - h + c) * (q - h))) (Cmul (RtoC (1 / IZR X)) (csum 0 X (fun p => Cmul (root true X ((k - h + c) * (p - h))) (s p)))))
  = s q.
Proof.
  intros HX Hq.
  transitivity (Cmul (RtoC (1 / IZR X)) (csum 0 X (fun k => csum 0 X (fun p => Cmul (root true X ((k - h + c) * (p - q))) (s p))))).
  { rewrite csum_mul_l. apply csum_ext. intros k Hk. rewrite !csum_mul_l. apply csum_ext. intros p Hp.
    change false with (negb true). rewrite W_neg_inv.
    replace ((k - h + c) * (p - q)) with (- ((k - h + c) * (q - h)) + (k - h + c) * (p - h)) by ring. rewrite W_add.
    generalize (root true X (- ((k - h + c) * (q - h)))), (root true X ((k - h + c) * (p - h))), (s p). csolve. }
  rewrite csum_swap.
  rewrite (csum_ext _ _ _ (fun p => if p =? q then Cmul (RtoC (IZR X)) (s q) else C0)).
  2:{ intros p Hp. rewrite <- csum_mul_r. destruct (Z.eqb_spec p q) as [->|N].
      - rewrite (csum_ext _ _ _ (fun _ => C1)) by (intros k Hk; rewrite Z.sub_diag, Z.mul_0_r; apply W_0). rewrite csum_const by lia. generalize (s q). csolve.
      - rewrite (csum_ext _ _ _ (fun k => Cmul (root true X ((c - h) * (p - q))) (root true X (k * (p - q))))).
        2:{ intros k Hk. rewrite <- W_add. f_equal. ring. }
        rewrite <- csum_mul_l, root_sum by lia. generalize (root true X ((c - h) * (p - q))). csolve. }
  rewrite (csum_one 0 X q) by (try lia; intros p Hp N; now replace (p =? q) with false by lia). rewrite Z.eqb_refl.
  assert (IZR X <> 0)%R by (apply not_0_IZR; lia). generalize (s q). csolve; field; assumption.
Qed.

Lemma inplace_round_trip sw sg off n0 : valid sw -> 0 <= n0 -> shape sg = [n0; xM_size sw] ->
  exists f p, finish_subgrid_inplace sw sg off = Some (SUCCESS, f) /\ prepare_subgrid_inplace sw f off = Some (SUCCESS, p) /\
    shape p = [n0; xM_size sw] /\
    forall i q, 0 <= i < n0 -> 0 <= q < xM_size sw -> elem p [i; q] = Cmul (RtoC (sign (off + xM_size sw / 2))) (elem sg [i; q]).
Proof.
  intros V Hn S. destruct (finish_inplace_lemma sw sg off n0 V Hn S) as (f & Ef & Sf & Vf).
  destruct (prepare_inplace_lemma sw f off n0 V Hn Sf) as (p & Ep & Sp & Vp). exists f, p. repeat (split; [assumption|]).
  intros i q Hi Hq. rewrite Vp by assumption. f_equal.
  rewrite (csum_ext _ _ _ (fun k => Cmul (root false (xM_size sw) ((k - xM_size sw / 2 + off) * (q - xM_size sw / 2)))
    (Cmul (RtoC (1 / IZR (xM_size sw))) (csum 0 (xM_size sw) (fun q0 => Cmul (root true (xM_size sw) ((k - xM_size sw / 2 + off) * (q0 - xM_size sw / 2))) (elem sg [i; q0])))))).
  - apply (round_trip_sum (xM_size sw) off (xM_size sw / 2) (fun q => elem sg [i; q])); [|exact Hq]. pose proof (sz_pos sw V). lia.
  - intros k Hk. now rewrite Vf by lia.
Qed.

(** finish_subgrid is the central part of finish_subgrid_inplace *)
Lemma finish_crop sw img sg off n0 xA : valid sw -> 0 <= n0 -> 0 <= xA <= xM_size sw ->
  shape img = [n0; xM_size sw] -> shape sg = [n0; xA] ->
  exists r s, finish_subgrid_inplace sw img off = Some (SUCCESS, r) /\ finish_subgrid sw img sg off = Some (SUCCESS, s) /\
    forall i k, 0 <= i < n0 -> 0 <= k < xA -> elem s [i; k] = elem r [i; k - xA / 2 + xM_size sw / 2].
Proof.
  intros V Hn HA Si S. destruct (finish_inplace_lemma sw img off n0 V Hn Si) as (r & Er & Sr & Vr).
  destruct (finish_subgrid_lemma sw img sg off n0 xA V Hn HA Si S) as (s & Es & Ss & Vs). exists r, s. repeat (split; [assumption|]).
  intros i k Hi Hk. destruct (sz_even_x sw V) as (h & Hh & EX). rewrite Vs, Vr by (try assumption; rewrite EX in *; lia).
  f_equal. apply csum_ext. intros q Hq. do 3 f_equal. ring.
Qed.

(** *** Creation *)
Lemma create_ok image yN xM pswf : good_sizes image yN xM -> shape pswf = [yN] ->
  exists sw, create image yN xM pswf = Some (SUCCESS, Some sw) /\
    image_size sw = image /\ yN_size sw = yN /\ xM_size sw = xM /\ valid sw /\
    (forall i, 0 <= i < contrib_size sw -> elem (tab_Fn sw) [i] = elem pswf [(yN / 2) mod (image / xM) + i * (image / xM)]) /\
    (forall i, 0 < i < yN -> elem (tab_Fb sw) [i] = (/ elem pswf [i])%R) /\ elem (tab_Fb sw) [0] = elem pswf [0].
Proof.
  intros G S. pose proof G as (Hi & Hy & Hx & (a & Da) & (b & Db) & (c & Dc) & (d & Dd) & (e & De)). unfold create.
  replace (image <=? 0) with false by lia. replace (xM <=? 0) with false by lia. replace (yN <=? 0) with false by lia. cbn [orb].
  rewrite (cmod_mod image xM), (cmod_mod image yN), (cmod_mod (xM * yN) image), (cmod_mod xM 2), (cmod_mod yN 2) by nia.
  replace (image mod xM) with 0 by (rewrite Da, Z.mod_mul by lia; reflexivity).
  replace (image mod yN) with 0 by (rewrite Db, Z.mod_mul by lia; reflexivity).
  replace (xM * yN mod image) with 0 by (rewrite Dc, Z.mod_mul by lia; reflexivity).
  replace (xM mod 2) with 0 by (rewrite Dd, Z.mod_mul by lia; reflexivity).
  replace (yN mod 2) with 0 by (rewrite De, Z.mod_mul by lia; reflexivity).
  cbn [Z.eqb negb]. rewrite (cdiv_div (xM * yN) image), (cdiv_div image xM), (cdiv_div yN 2) by nia.
  replace (xM * yN / image) with c by (rewrite Dc, Z.div_mul by lia; reflexivity).
  replace (image / xM) with a by (rewrite Da, Z.div_mul by lia; reflexivity).
  assert (Ha : 0 < a) by nia. assert (Hc : 0 < c) by nia. assert (Ec : c * a = yN) by nia.
  rewrite (cmod_mod (yN / 2) a) by (try lia; apply Z.div_pos; lia).
  pose proof (Z.mod_pos_bound (yN / 2) a Ha) as Bf. set (f := (yN / 2) mod a) in *. clearbody f.
  match goal with |- context [for_ 0 c ?bd ?s0] =>
    destruct (for_inv (fun k st => shape st = [c] /\ forall i, 0 <= i < k -> elem st [i] = elem pswf [f + i * a]) 0 c bd s0) as (Fn1 & E1 & S1 & V1) end.
  - lia.
  - split; [reflexivity|]. intros. lia.
  - intros k st Hk (Sk & Vk). rewrite rd_some by (rewrite S; apply in_shape_1; nia). cbn [bind]. rewrite wr_some by (rewrite Sk; apply in_shape_1; lia).
    eexists. split; [reflexivity|]. split; [exact Sk|]. intros i Hik. cbn [upd elem]. destruct (idx_eqb_spec [k] [i]) as [K|K].
    + injection K as <-. reflexivity.
    + apply Vk. assert (i <> k) by congruence. lia.
  - rewrite E1. cbn [bind].
    match goal with |- context [for_ 1 yN ?bd ?s0] =>
      destruct (for_inv (fun k st => shape st = [yN] /\ forall i, 0 <= i < yN -> elem st [i] = if (1 <=? i) && (i <? k) then (/ elem pswf [i])%R else elem pswf [i]) 1 yN bd s0) as (Fb1 & E2 & S2 & V2) end.
    + lia.
    + split; [exact S|]. intros i Hi'. destruct (Z.leb_spec 1 i), (Z.ltb_spec i 1); try lia; reflexivity.
    + intros k st Hk (Sk & Vk). rewrite rd_some by (rewrite Sk; apply in_shape_1; lia). cbn [bind]. rewrite wr_some by (rewrite Sk; apply in_shape_1; lia).
      eexists. split; [reflexivity|]. split; [exact Sk|]. intros i Hi'. cbn [upd elem]. destruct (idx_eqb_spec [k] [i]) as [K|K].
      * injection K as <-. replace (1 <=? k) with true by lia. replace (k <? k + 1) with true by lia. cbn [andb]. rewrite Vk by lia.
        replace (k <? k) with false by lia. rewrite andb_false_r. unfold Rdiv. apply Rmult_1_l.
      * assert (i <> k) by congruence. rewrite Vk by lia. destruct (Z.leb_spec 1 i), (Z.ltb_spec i k), (Z.ltb_spec i (k + 1)); try lia; reflexivity.
    + rewrite E2. cbn [bind]. eexists. split; [reflexivity|]. cbn [image_size yN_size xM_size tab_Fn tab_Fb].
      assert (M : xM * yN / image = c) by (rewrite Dc, Z.div_mul by lia; reflexivity).
      repeat split; try reflexivity; try apply G; cbn [image_size yN_size xM_size tab_Fn tab_Fb]; try assumption; try lia.
      * now rewrite M.
      * unfold contrib_size. cbn [image_size yN_size xM_size]. intros i Hi'. rewrite M in Hi'. apply V1. lia.
      * intros i Hi'. rewrite V2 by lia. replace (1 <=? i) with true by lia. now replace (i <? yN) with true by lia.
      * rewrite V2 by lia. reflexivity.
Qed.

Lemma cmod0_divide a b : 0 < b -> (cmod a b =? 0) = true -> (b | a).
Proof. intros Hb E. apply Z.eqb_eq in E. unfold cmod in E. apply Z.rem_divide in E; [exact E|lia]. Qed.

Lemma create_bad image yN xM pswf : ~ good_sizes image yN xM -> create image yN xM pswf = Some (ERR_INVALID_ARGUMENT, None).
Proof.
  intro B. unfold create. destruct (Z.leb_spec image 0); [reflexivity|]. destruct (Z.leb_spec xM 0); [reflexivity|]. destruct (Z.leb_spec yN 0); [reflexivity|].
  cbn [orb].
  destruct (cmod image xM =? 0) eqn:E1; [|reflexivity]. destruct (cmod image yN =? 0) eqn:E2; [|reflexivity].
  destruct (cmod (xM * yN) image =? 0) eqn:E3; [|reflexivity]. destruct (cmod xM 2 =? 0) eqn:E4; [|reflexivity].
  destruct (cmod yN 2 =? 0) eqn:E5; [|reflexivity].
  exfalso. apply B. apply cmod0_divide in E1, E2, E3, E4, E5; try lia. repeat split; assumption.
Qed.

(** a facet of width zero: the whole-row branch of prepare_facet reads past the facet *)
Lemma prepare_facet_width0 : forall sw fct out off n0, valid sw -> 0 < n0 ->
  shape fct = [n0; 0] -> shape out = [n0; yN_size sw] -> prepare_facet sw fct out off = None.
Proof.
  intros sw fct out off n0 V Hn Sf So. pose proof (sz_pos sw V) as HP. unfold prepare_facet, is2d, dim. rewrite Sf, So. cbn [length nth Nat.eqb negb orb].
  replace (0 >? yN_size sw) with false by lia. rewrite !Z.eqb_refl. cbn [negb orb].
  rewrite mod_p_mod by lia. change (cdiv 0 2) with 0. rewrite !Z.sub_0_r, Z.add_0_r. set (yN := yN_size sw) in *.
  pose proof (Z.mod_pos_bound off yN ltac:(lia)) as B. set (st := off mod yN) in *. clearbody st.
  rewrite cmod_mod by lia. rewrite (Z.mod_small st yN) by lia. replace (st <? st) with false by lia.
  assert (K : forall k, 0 < k -> forall bd : Z -> nd C -> option (nd C), bd 0 out = None -> for_ 0 k bd out = None).
  { intros k Hk bd E. unfold for_. replace (Z.to_nat (k - 0)) with (Datatypes.S (Z.to_nat (k - 1))) by lia. cbn [for_nat]. rewrite E. reflexivity. }
  rewrite K; [reflexivity|lia|].
  destruct (Z.eq_dec st 0) as [->|N].
  - rewrite for_empty by lia. cbn [bind]. rewrite for_empty by lia. cbn [bind]. apply K; [lia|].
    unfold rd. rewrite Sf. cbn [in_shape]. replace (0 - 0 <? 0) with false by lia. now rewrite ?andb_false_r.
  - rewrite K; [reflexivity|lia|]. unfold rd. rewrite Sf. cbn [in_shape]. replace (0 + yN - st <? 0) with false by lia. now rewrite ?andb_false_r.
Qed.
