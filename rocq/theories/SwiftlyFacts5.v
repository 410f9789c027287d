(** SwiFTly, continued: finishing and preparing subgrids, creation (proofs only). *)
From Verif Require Import Base BaseFacts Sum CRing Loops Cplx Fft FftSpec FftFacts FftFacts2 FftConvFacts Swiftly SwiftlySpec SwiftlyFacts SwiftlyFacts2 SwiftlyFacts3 SwiftlyFacts4.
From Coq Require Import Lra Lia.
Open Scope Z_scope.

(** a loop that transforms each row as a whole *)
Lemma rows_fun {A} n m (H : Z -> (Z -> A) -> Z -> A) body (a : nd A) :
  0 <= n -> shape a = [n; m] ->
  (forall k f g j, 0 <= j < m -> (forall l, 0 <= l < m -> f l = g l) -> H k f j = H k g j) ->
  (forall k st, 0 <= k < n -> shape st = [n; m] -> exists st', body k st = Some st' /\ shape st' = [n; m] /\
     forall i j, 0 <= i < n -> 0 <= j < m -> elem st' [i; j] = if i =? k then H k (fun l => elem st [k; l]) j else elem st [i; j]) ->
  exists a', for_ 0 n body a = Some a' /\ shape a' = [n; m] /\
    forall i j, 0 <= i < n -> 0 <= j < m -> elem a' [i; j] = H i (fun l => elem a [i; l]) j.
Proof.
  intros Hn S EX B.
  destruct (for_inv (fun k st => shape st = [n; m] /\
    forall i j, 0 <= i < n -> 0 <= j < m -> elem st [i; j] = if i <? k then H i (fun l => elem a [i; l]) j else elem a [i; j])
    0 n body a Hn) as (a' & E & S' & V).
  - split; [exact S|]. intros i j Hi Hj. now replace (i <? 0) with false by lia.
  - intros k st Hk (S1 & V1). destruct (B k st Hk S1) as (st' & E & S2 & V2). exists st'. split; [exact E|]. split; [exact S2|].
    intros i j Hi Hj. rewrite V2 by assumption. destruct (Z.eqb_spec i k) as [->|N].
    + replace (k <? k + 1) with true by lia. apply EX; [assumption|]. intros l Hl. rewrite V1 by assumption. now replace (k <? k) with false by lia.
    + rewrite V1 by assumption. destruct (Z.ltb_spec i k), (Z.ltb_spec i (k + 1)); try lia; reflexivity.
  - exists a'. split; [exact E|]. split; [exact S'|]. intros i j Hi Hj. rewrite V by assumption. now replace (i <? n) with true by lia.
Qed.

Lemma swap_mod h j : 0 < h -> 0 <= j < 2 * h -> (j + h) mod (2 * h) = if j <? h then j + h else j - h.
Proof. intros Hh Hj. destruct (Z.ltb_spec j h); [apply Z.mod_small; lia|]. symmetry. apply (Z.mod_unique _ _ 1); lia. Qed.

(** the half-swap of a row *)
Lemma swap_row n h row (a : nd C) : 0 < h -> 0 <= row < n -> shape a = [n; 2 * h] ->
  exists a', for_ 0 h (fun i sg =>
    let* tmp := rd sg [row; i] in let* y := rd sg [row; i + h] in
    let* sg := wr sg [row; i] y in wr sg [row; i + h] tmp) a = Some a' /\ shape a' = [n; 2 * h] /\
    forall i j, 0 <= i < n -> 0 <= j < 2 * h -> elem a' [i; j] = if i =? row then elem a [row; (j + h) mod (2 * h)] else elem a [i; j].
Proof.
  intros Hh Hr S.
  match goal with |- context [for_ 0 h ?b a] =>
  destruct (for_inv (fun k st => shape st = [n; 2 * h] /\
    forall i j, 0 <= i < n -> 0 <= j < 2 * h -> elem st [i; j] = if (i =? row) && ((j <? k) || ((h <=? j) && (j <? h + k))) then elem a [row; (j + h) mod (2 * h)] else elem a [i; j])
    0 h b a) as (a' & E & S' & V) end; [lia| | |].
  - split; [exact S|]. intros i j Hi Hj. replace (j <? 0) with false by lia. destruct (Z.leb_spec h j), (Z.ltb_spec j (h + 0)); try lia; cbn [orb andb]; now rewrite andb_false_r.
  - intros k st Hk (S1 & V1). rewrite !rd_some by (rewrite S1; apply in_2; lia). cbn [bind].
    rewrite wr_some by (rewrite S1; apply in_2; lia). cbn [bind]. rewrite wr_some by (cbn [upd shape]; rewrite S1; apply in_2; lia).
    eexists. split; [reflexivity|]. split; [exact S1|]. intros i j Hi Hj. cbn [upd elem].
    destruct (idx_eqb_spec [row; k + h] [i; j]) as [K|K].
    { injection K as <- <-. rewrite Z.eqb_refl. cbn [andb]. rewrite swap_mod by lia. replace (k + h <? h) with false by lia.
      replace (h <=? k + h) with true by lia. replace (k + h <? h + (k + 1)) with true by lia. rewrite orb_true_r.
      rewrite V1 by lia. rewrite Z.eqb_refl. replace (k <? k) with false by lia. replace (h <=? k) with false by lia. cbn [andb orb]. do 2 f_equal. f_equal. lia. }
    destruct (idx_eqb_spec [row; k] [i; j]) as [K2|K2].
    { injection K2 as <- <-. rewrite Z.eqb_refl. replace (k <? k + 1) with true by lia. cbn [andb orb]. rewrite swap_mod by lia. replace (k <? h) with true by lia.
      rewrite V1 by lia. rewrite Z.eqb_refl. replace (k + h <? k) with false by lia. replace (k + h <? h + k) with false by lia. rewrite andb_false_r. reflexivity. }
    rewrite V1 by lia. destruct (Z.eqb_spec i row) as [->|]; cbn [andb]; [|reflexivity].
    assert (j <> k) by congruence. assert (j <> k + h) by congruence.
    destruct (Z.ltb_spec j k), (Z.ltb_spec j (k + 1)), (Z.leb_spec h j), (Z.ltb_spec j (h + k)), (Z.ltb_spec j (h + (k + 1))); cbn [orb andb]; try reflexivity; lia.
  - exists a'. split; [exact E|]. split; [exact S'|]. intros i j Hi Hj. rewrite V by assumption.
    replace ((j <? h) || (h <=? j) && (j <? h + h)) with true; [now rewrite andb_true_r; destruct (i =? row)|].
    destruct (Z.ltb_spec j h), (Z.leb_spec h j), (Z.ltb_spec j (h + h)); try lia; reflexivity.
Qed.

(** copying elements of a row selected by [sel] *)
Lemma copy_row n w m row (sel : Z -> Z) (src a : nd C) : 0 <= w -> 0 <= row < n -> shape a = [n; w] -> shape src = [n; m] ->
  (forall i, 0 <= i < w -> 0 <= sel i < m) ->
  exists a', for_ 0 w (fun i sg => let* x := rd src [row; sel i] in wr sg [row; i] x) a = Some a' /\ shape a' = [n; w] /\
    forall i j, 0 <= i < n -> 0 <= j < w -> elem a' [i; j] = if i =? row then elem src [row; sel j] else elem a [i; j].
Proof.
  intros Hw Hr S Ss B.
  destruct (scatter n w row w (fun i => i) (fun i => i) (fun _ => true) (fun j _ => elem src [row; sel j])
    (fun i st => let* x := rd src [row; sel i] in wr st [row; i] x) a) as (st' & E & S' & V'); auto; try lia.
  { intros i st2 Hi S2. rewrite rd_some by (rewrite Ss; apply in_2; [lia|apply B; lia]). cbn [bind].
    rewrite wr_some by (rewrite S2; apply in_2; lia). reflexivity. }
  exists st'. split; [exact E|]. split; [exact S'|]. intros i j Hi Hj. rewrite V' by assumption. rewrite andb_true_r. reflexivity.
Qed.

Lemma centred_sum h j t (s : Z -> C) : 0 < h -> (j - t) mod (2 * h) = 0 ->
  DFT true (2 * h) (fun p => s ((p + h) mod (2 * h))) j = csum 0 (2 * h) (fun q => Cmul (root true (2 * h) (t * (q - h))) (s q)).
Proof.
  intros Hh E. rewrite (DFT_ext _ _ _ (fun p => s ((p - - h) mod (2 * h)))) by (intros p Hp; do 2 f_equal; ring).
  rewrite (DFT_rot true (2 * h) (- h) s j) by lia. apply csum_ext. intros x Hx. f_equal.
  replace (x + - h) with (x - h) by ring. rewrite (Z.mul_comm j), (Z.mul_comm t). apply root_shift; [lia|exact E].
Qed.

Lemma finish_inplace_lemma sw sg off n0 : valid sw -> 0 <= n0 -> shape sg = [n0; xM_size sw] ->
  exists sg', finish_subgrid_inplace sw sg off = Some (SUCCESS, sg') /\ shape sg' = [n0; xM_size sw] /\
    forall i k, 0 <= i < n0 -> 0 <= k < xM_size sw ->
      elem sg' [i; k] = Cmul (RtoC (1 / IZR (xM_size sw))) (csum 0 (xM_size sw) (fun q =>
        Cmul (root true (xM_size sw) ((k - xM_size sw / 2 + off) * (q - xM_size sw / 2))) (elem sg [i; q]))).
Proof.
  intros V Hn S. destruct (sz_even_x sw V) as (h & Hh & EX). unfold finish_subgrid_inplace, is2d, dim. rewrite S. cbn [length nth Nat.eqb negb orb].
  rewrite Z.eqb_refl. cbn [negb]. rewrite EX in *.
  assert (H2 : 2 * h / 2 = h) by (rewrite Z.mul_comm; apply Z.div_mul; lia).
  assert (C2 : cdiv (2 * h) 2 = h) by (rewrite cdiv_div by lia; exact H2). rewrite C2, H2.
  destruct (Z.eqb_spec (n0 * (2 * h)) 0) as [Z0|NZ].
  { exists sg. split; [reflexivity|]. split; [exact S|]. intros. nia. }
  match goal with |- context [for_ 0 n0 ?b sg] =>
    destruct (rows_fun n0 (2 * h) (fun _ f j => f ((j + h) mod (2 * h))) b sg) as (s1 & E1 & S1 & V1) end; [lia|exact S| | |].
  { intros k f g j Hj E. apply E. apply Z.mod_pos_bound. lia. }
  { intros k st Hk Sk. apply swap_row; auto. }
  rewrite E1. cbn [bind]. set (tmp := c2c_rows true (1 / IZR (2 * h)) s1).
  assert (St : shape tmp = [n0; 2 * h]) by exact S1.
  match goal with |- context [for_ 0 n0 ?b s1] =>
    destruct (rows_id n0 (2 * h) (fun i j _ => elem tmp [i; (j + off + h) mod (2 * h)]) b s1) as (s2 & E2 & S2 & V2) end; auto.
  { intros k st Hk Sk. destruct (copy_row n0 (2 * h) (2 * h) k (fun i => (i + off + h) mod (2 * h)) tmp st) as (st' & E & S' & V'); auto; try lia.
    exists st'. split; [|split; [exact S'|]].
    - rewrite <- E. apply for_ext. intros i s Hi. now rewrite mod_p_mod by lia.
    - intros i j Hi Hj. rewrite V' by assumption. destruct (Z.eqb_spec i k) as [->|]; reflexivity. }
  rewrite E2. cbn [bind]. exists s2. split; [reflexivity|]. split; [exact S2|]. intros i k Hi Hk. rewrite V2 by assumption.
  unfold tmp. rewrite (elem_c2c _ _ _ _ _ _ _ S1). f_equal.
  rewrite (DFT_ext _ _ _ (fun s => elem sg [i; (s + h) mod (2 * h)])) by (intros; apply V1; lia).
  apply (centred_sum h _ (k - h + off) (fun q => elem sg [i; q]) Hh).
  rewrite Zminus_mod_idemp_l. replace (k + off + h - (k - h + off)) with (1 * (2 * h)) by ring. apply Z.mod_mul. lia.
Qed.

Lemma finish_subgrid_lemma sw img sg off n0 xA : valid sw -> 0 <= n0 -> 0 <= xA <= xM_size sw ->
  shape img = [n0; xM_size sw] -> shape sg = [n0; xA] ->
  exists sg', finish_subgrid sw img sg off = Some (SUCCESS, sg') /\ shape sg' = [n0; xA] /\
    forall i k, 0 <= i < n0 -> 0 <= k < xA ->
      elem sg' [i; k] = Cmul (RtoC (1 / IZR (xM_size sw))) (csum 0 (xM_size sw) (fun q =>
        Cmul (root true (xM_size sw) ((k - xA / 2 + off) * (q - xM_size sw / 2))) (elem img [i; q]))).
Proof.
  intros V Hn HA Si S. destruct (sz_even_x sw V) as (h & Hh & EX). unfold finish_subgrid, is2d, dim. rewrite S, Si. cbn [length nth Nat.eqb negb orb].
  rewrite !Z.eqb_refl. cbn [negb]. rewrite EX in *. replace (xA >? 2 * h) with false by lia. cbn [orb].
  assert (H2 : 2 * h / 2 = h) by (rewrite Z.mul_comm; apply Z.div_mul; lia).
  assert (C2 : cdiv (2 * h) 2 = h) by (rewrite cdiv_div by lia; exact H2). rewrite C2, H2. rewrite (cdiv_div xA 2) by lia.
  match goal with |- context [for_ 0 n0 ?b (mk_nd [n0; 2 * h] (fun _ => C0))] =>
    destruct (rows_id n0 (2 * h) (fun i j _ => elem img [i; (j + h) mod (2 * h)]) b (mk_nd [n0; 2 * h] (fun _ => C0))) as (s1 & E1 & S1 & V1) end; auto.
  { intros row st Hk Sk.
    match goal with |- context [for_ 0 h ?b st] =>
    destruct (for_inv (fun k s => shape s = [n0; 2 * h] /\
      forall i j, 0 <= i < n0 -> 0 <= j < 2 * h -> elem s [i; j] = if (i =? row) && ((j <? k) || ((h <=? j) && (j <? h + k))) then elem img [row; (j + h) mod (2 * h)] else elem st [i; j])
      0 h b st) as (a' & E & S' & V') end; [lia| | |].
    - split; [exact Sk|]. intros i j Hi Hj. replace (j <? 0) with false by lia. destruct (Z.leb_spec h j), (Z.ltb_spec j (h + 0)); try lia; cbn [orb andb]; now rewrite andb_false_r.
    - intros k s Hk2 (S1 & V1). rewrite !rd_some by (rewrite Si; apply in_2; lia). cbn [bind].
      rewrite wr_some by (rewrite S1; apply in_2; lia). cbn [bind]. rewrite wr_some by (cbn [upd shape]; rewrite S1; apply in_2; lia).
      eexists. split; [reflexivity|]. split; [exact S1|]. intros i j Hi Hj. cbn [upd elem].
      destruct (idx_eqb_spec [row; k + h] [i; j]) as [K|K].
      { injection K as <- <-. rewrite Z.eqb_refl. cbn [andb]. rewrite swap_mod by lia. replace (k + h <? h) with false by lia.
        replace (h <=? k + h) with true by lia. replace (k + h <? h + (k + 1)) with true by lia. rewrite orb_true_r. do 2 f_equal. f_equal. lia. }
      destruct (idx_eqb_spec [row; k] [i; j]) as [K2|K2].
      { injection K2 as <- <-. rewrite Z.eqb_refl. replace (k <? k + 1) with true by lia. cbn [andb orb]. rewrite swap_mod by lia. now replace (k <? h) with true by lia. }
      rewrite V1 by lia. destruct (Z.eqb_spec i row) as [->|]; cbn [andb]; [|reflexivity].
      assert (j <> k) by congruence. assert (j <> k + h) by congruence.
      destruct (Z.ltb_spec j k), (Z.ltb_spec j (k + 1)), (Z.leb_spec h j), (Z.ltb_spec j (h + k)), (Z.ltb_spec j (h + (k + 1))); cbn [orb andb]; try reflexivity; lia.
    - exists a'. split; [exact E|]. split; [exact S'|]. intros i j Hi Hj. rewrite V' by assumption.
      replace ((j <? h) || (h <=? j) && (j <? h + h)) with true; [rewrite andb_true_r; destruct (Z.eqb_spec i row) as [->|]; reflexivity|].
      destruct (Z.ltb_spec j h), (Z.leb_spec h j), (Z.ltb_spec j (h + h)); try lia; reflexivity. }
  rewrite E1. cbn [bind]. set (tmp := c2c_rows true (1 / IZR (2 * h)) s1).
  assert (St : shape tmp = [n0; 2 * h]) by exact S1.
  match goal with |- context [for_ 0 n0 ?b sg] =>
    destruct (rows_id n0 xA (fun i j _ => elem tmp [i; (j - xA / 2 + off + 2 * h) mod (2 * h)]) b sg) as (s2 & E2 & S2 & V2) end; auto.
  { intros k st Hk Sk. destruct (copy_row n0 xA (2 * h) k (fun i => (i - xA / 2 + off + 2 * h) mod (2 * h)) tmp st) as (st' & E & S' & V'); auto; try lia.
    exists st'. split; [|split; [exact S'|]].
    - rewrite <- E. apply for_ext. intros i s Hi. now rewrite mod_p_mod by lia.
    - intros i j Hi Hj. rewrite V' by assumption. destruct (Z.eqb_spec i k) as [->|]; reflexivity. }
  rewrite E2. cbn [bind]. exists s2. split; [reflexivity|]. split; [exact S2|]. intros i k Hi Hk. rewrite V2 by assumption.
  unfold tmp. rewrite (elem_c2c _ _ _ _ _ _ _ S1). f_equal.
  rewrite (DFT_ext _ _ _ (fun s => elem img [i; (s + h) mod (2 * h)])) by (intros; apply V1; lia).
  apply (centred_sum h _ (k - xA / 2 + off) (fun q => elem img [i; q]) Hh).
  rewrite Zminus_mod_idemp_l. replace (k - xA / 2 + off + 2 * h - (k - xA / 2 + off)) with (1 * (2 * h)) by ring. apply Z.mod_mul. lia.
Qed.
