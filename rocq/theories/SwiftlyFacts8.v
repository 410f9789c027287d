(** SwiFTly, continued: the two-dimensional in-place subgrid transforms (proofs only). *)
From Verif Require Import Base BaseFacts Sum CRing Loops Cplx Fft FftSpec FftFacts FftFacts2 FftConvFacts Swiftly SwiftlySpec SwiftlyFacts SwiftlyFacts2 SwiftlyFacts3 SwiftlyFacts5 SwiftlyFacts6 SwiftlyFacts7.
From Coq Require Import Lra Lia.
Open Scope Z_scope.

Definition quad (T : Z -> Z -> C -> C) h i0 i1 (sg : nd C) : option (nd C) :=
  let* tmp := rd sg [i0; i1] in
  let* y := rd sg [i0 + h; i1 + h] in
  let* sg := wr sg [i0; i1] (T i0 i1 y) in
  let* sg := wr sg [i0 + h; i1 + h] (T (i0 + h) (i1 + h) tmp) in
  let* tmp2 := rd sg [i0 + h; i1] in
  let* y := rd sg [i0; i1 + h] in
  let* sg := wr sg [i0 + h; i1] (T (i0 + h) i1 y) in
  wr sg [i0; i1 + h] (T i0 (i1 + h) tmp2).

Lemma quad_lemma T h i0 i1 (a : nd C) : 0 < h -> 0 <= i0 < h -> 0 <= i1 < h -> shape a = [2 * h; 2 * h] ->
  exists a', quad T h i0 i1 a = Some a' /\ shape a' = [2 * h; 2 * h] /\
    forall i j, 0 <= i < 2 * h -> 0 <= j < 2 * h ->
      elem a' [i; j] = if (i mod h =? i0) && (j mod h =? i1) then T i j (elem a [(i + h) mod (2 * h); (j + h) mod (2 * h)]) else elem a [i; j].
Proof.
  intros Hh H0 H1 S. unfold quad.
  assert (I : forall i j, 0 <= i < 2 * h -> 0 <= j < 2 * h -> in_shape [2 * h; 2 * h] [i; j] = true) by (intros; apply in_2; lia).
  rewrite !rd_some by (rewrite S; apply I; lia). cbn [bind].
  rewrite wr_some by (rewrite S; apply I; lia). cbn [bind]. rewrite wr_some by (cbn [upd shape]; rewrite S; apply I; lia). cbn [bind].
  rewrite !rd_some by (cbn [upd shape]; rewrite S; apply I; lia). cbn [bind].
  rewrite wr_some by (cbn [upd shape]; rewrite S; apply I; lia). cbn [bind]. rewrite wr_some by (cbn [upd shape]; rewrite S; apply I; lia).
  eexists. split; [reflexivity|]. split; [exact S|]. intros i j Hi Hj. cbn [upd elem].
  assert (M : forall x, 0 <= x < 2 * h -> x mod h = if x <? h then x else x - h).
  { intros x Hx. destruct (Z.ltb_spec x h); [apply Z.mod_small; lia|]. symmetry. apply (Z.mod_unique _ _ 1); lia. }
  rewrite (idx_eqb_neq [i0; i1] [i0 + h; i1]) by (intro K; injection K; lia).
  rewrite (idx_eqb_neq [i0 + h; i1 + h] [i0 + h; i1]) by (intro K; injection K; lia).
  rewrite (idx_eqb_neq [i0; i1] [i0; i1 + h]) by (intro K; injection K; lia).
  rewrite (idx_eqb_neq [i0 + h; i1 + h] [i0; i1 + h]) by (intro K; injection K; lia).
  rewrite !M, !swap_mod by lia.
  destruct (idx_eqb_spec [i0; i1 + h] [i; j]) as [K|K1].
  { injection K as <- <-. replace (i0 <? h) with true by lia. replace (i1 + h <? h) with false by lia. replace (i1 + h - h) with i1 by ring. rewrite !Z.eqb_refl. reflexivity. }
  destruct (idx_eqb_spec [i0 + h; i1] [i; j]) as [K|K2].
  { injection K as <- <-. replace (i0 + h <? h) with false by lia. replace (i1 <? h) with true by lia. replace (i0 + h - h) with i0 by ring. rewrite !Z.eqb_refl. reflexivity. }
  destruct (idx_eqb_spec [i0 + h; i1 + h] [i; j]) as [K|K3].
  { injection K as <- <-. replace (i0 + h <? h) with false by lia. replace (i1 + h <? h) with false by lia. replace (i0 + h - h) with i0 by ring. replace (i1 + h - h) with i1 by ring. rewrite !Z.eqb_refl. reflexivity. }
  destruct (idx_eqb_spec [i0; i1] [i; j]) as [K|K4].
  { injection K as <- <-. replace (i0 <? h) with true by lia. replace (i1 <? h) with true by lia. rewrite !Z.eqb_refl. reflexivity. }
  match goal with |- _ = if ?b then _ else _ => replace b with false; [reflexivity|] end.
  symmetry. apply andb_false_iff. destruct (Z.eqb_spec (if i <? h then i else i - h) i0) as [E0|]; [|left; reflexivity]. right.
  apply Z.eqb_neq. intro E1.
  destruct (Z.ltb_spec i h), (Z.ltb_spec j h).
  - apply K4. congruence.
  - apply K1. f_equal; [congruence|]. f_equal. lia.
  - apply K2. f_equal; [lia|]. congruence.
  - apply K3. f_equal; [lia|]. f_equal. lia.
Qed.

Lemma quad_loops T h (a : nd C) : 0 < h -> shape a = [2 * h; 2 * h] ->
  exists a', for_ 0 h (fun i0 sg => for_ 0 h (fun i1 sg => quad T h i0 i1 sg) sg) a = Some a' /\ shape a' = [2 * h; 2 * h] /\
    forall i j, 0 <= i < 2 * h -> 0 <= j < 2 * h -> elem a' [i; j] = T i j (elem a [(i + h) mod (2 * h); (j + h) mod (2 * h)]).
Proof.
  intros Hh S.
  assert (MM : forall x, ((x + h) mod (2 * h)) mod h = x mod h).
  { intro x. pose proof (Z.div_mod (x + h) (2 * h) ltac:(lia)) as E. 
    replace ((x + h) mod (2 * h)) with (x + (1 - 2 * ((x + h) / (2 * h))) * h) by lia. apply Z.mod_add. lia. }
  assert (MB : forall x, 0 <= (x + h) mod (2 * h) < 2 * h) by (intro; apply Z.mod_pos_bound; lia).
  match goal with |- context [for_ 0 h ?b a] =>
    destruct (for_inv (fun k st => shape st = [2 * h; 2 * h] /\ forall i j, 0 <= i < 2 * h -> 0 <= j < 2 * h ->
      elem st [i; j] = if i mod h <? k then T i j (elem a [(i + h) mod (2 * h); (j + h) mod (2 * h)]) else elem a [i; j]) 0 h b a) as (a' & E & S' & V) end; [lia| | |].
  - split; [exact S|]. intros i j Hi Hj. pose proof (Z.mod_pos_bound i h Hh). now replace (i mod h <? 0) with false by lia.
  - intros k st Hk (S1 & V1).
    match goal with |- context [for_ 0 h ?b st] =>
      destruct (for_inv (fun l st' => shape st' = [2 * h; 2 * h] /\ forall i j, 0 <= i < 2 * h -> 0 <= j < 2 * h ->
        elem st' [i; j] = if (i mod h =? k) && (j mod h <? l) then T i j (elem a [(i + h) mod (2 * h); (j + h) mod (2 * h)]) else elem st [i; j]) 0 h b st) as (st' & E & S' & V) end; [lia| | |].
    + split; [exact S1|]. intros i j Hi Hj. pose proof (Z.mod_pos_bound j h Hh). replace (j mod h <? 0) with false by lia. now rewrite andb_false_r.
    + intros l s Hl (S2 & V2). destruct (quad_lemma T h k l s Hh Hk Hl S2) as (s' & E & S3 & V3). exists s'. split; [exact E|]. split; [exact S3|].
      intros i j Hi Hj. rewrite V3 by assumption. destruct (Z.eqb_spec (i mod h) k) as [Ek|Nk]; cbn [andb].
      * destruct (Z.eqb_spec (j mod h) l) as [El|Nl].
        { replace (j mod h <? l + 1) with true by lia. f_equal. rewrite V2 by apply MB. rewrite !MM, Ek, El. rewrite Z.eqb_refl. replace (l <? l) with false by lia. cbn [andb].
          rewrite V1 by apply MB. rewrite MM, Ek. now replace (k <? k) with false by lia. }
        rewrite V2 by assumption. rewrite Ek, Z.eqb_refl. cbn [andb]. destruct (Z.ltb_spec (j mod h) l), (Z.ltb_spec (j mod h) (l + 1)); try lia; reflexivity.
      * rewrite V2 by assumption. apply Z.eqb_neq in Nk. now rewrite Nk.
    + exists st'. split; [exact E|]. split; [exact S'|]. intros i j Hi Hj. rewrite V by assumption. pose proof (Z.mod_pos_bound j h Hh). replace (j mod h <? h) with true by lia. rewrite andb_true_r.
      destruct (Z.eqb_spec (i mod h) k) as [Ek|Nk].
      * now replace (i mod h <? k + 1) with true by lia.
      * rewrite V1 by assumption. destruct (Z.ltb_spec (i mod h) k), (Z.ltb_spec (i mod h) (k + 1)); try lia; reflexivity.
  - exists a'. split; [exact E|]. split; [exact S'|]. intros i j Hi Hj. rewrite V by assumption. pose proof (Z.mod_pos_bound i h Hh). now replace (i mod h <? h) with true by lia.
Qed.

(** a loop that carries a phasor *)
Lemma phasor_loop {S} n (step : C) (ph : Z -> C) (body : Z -> C -> S -> option S) (s : S) :
  0 <= n -> (forall i, ph (i + 1) = Cmul (ph i) step) ->
  for_ 0 n (fun i st => let '(p, s) := st in let* s := body i p s in Some (Cmul p step, s)) (ph 0, s) =
  let* s := for_ 0 n (fun i s => body i (ph i) s) s in Some (ph n, s).
Proof.
  intros Hn Hp. pattern n. apply natlike_ind; [| |exact Hn].
  - rewrite !for_empty by lia. reflexivity.
  - intros x Hx IH. unfold Z.succ. rewrite !for_snoc by lia. rewrite IH.
    destruct (for_ 0 x (fun i s0 => body i (ph i) s0) s) as [s1|]; [|reflexivity]. cbn [bind].
    destruct (body x (ph x) s1) as [s2|]; [|reflexivity]. cbn [bind]. now rewrite Hp.
Qed.

Lemma centred2_sum h j0 j1 t0 t1 (s : Z -> Z -> C) : 0 < h -> (j0 - t0) mod (2 * h) = 0 -> (j1 - t1) mod (2 * h) = 0 ->
  DFT2 true (2 * h) (2 * h) (fun p q => s ((p + h) mod (2 * h)) ((q + h) mod (2 * h))) j0 j1 =
  csum 0 (2 * h) (fun p => csum 0 (2 * h) (fun q => Cmul (Cmul (root true (2 * h) (t0 * (p - h))) (root true (2 * h) (t1 * (q - h)))) (s p q))).
Proof.
  intros Hh E0 E1. rewrite <- DFT_twice.
  rewrite (DFT_ext _ _ _ (fun q => (fun q' => csum 0 (2 * h) (fun p => Cmul (root true (2 * h) (t0 * (p - h))) (s p q'))) ((q + h) mod (2 * h)))).
  2:{ intros q Hq. apply (centred_sum h j0 t0 (fun p => s p ((q + h) mod (2 * h))) Hh E0). }
  rewrite (centred_sum h j1 t1 (fun q' => csum 0 (2 * h) (fun p => Cmul (root true (2 * h) (t0 * (p - h))) (s p q'))) Hh E1).
  rewrite csum_swap. apply csum_ext. intros q Hq. rewrite csum_mul_l. apply csum_ext. intros p Hp.
  generalize (root true (2 * h) (t0 * (p - h))), (root true (2 * h) (t1 * (q - h))), (s p q). csolve.
Qed.

Definition fin2 (X off0 off1 : Z) (s : Z -> Z -> C) (k0 k1 : Z) : C :=
  Cmul (RtoC (1 / IZR X / IZR X)) (csum 0 X (fun p => csum 0 X (fun q =>
    Cmul (Cmul (root true X ((k0 - X / 2 + off0) * (p - X / 2))) (root true X ((k1 - X / 2 + off1) * (q - X / 2)))) (s p q)))).

Lemma finish_2d_gen sw sg s0 s1 off0 off1 tr : valid sw -> shape sg = [xM_size sw; xM_size sw] ->
  ((s0, s1) = if (tr : bool) then (1, xM_size sw) else (xM_size sw, 1)) -> 
  exists sg', finish_subgrid_inplace_2d sw sg s0 s1 off0 off1 = Some (SUCCESS, sg') /\ shape sg' = [xM_size sw; xM_size sw] /\
    forall k0 k1, 0 <= k0 < xM_size sw -> 0 <= k1 < xM_size sw ->
      elem sg' [k0; k1] = if tr then fin2 (xM_size sw) off1 off0 (fun p q => elem sg [p; q]) k1 k0 else fin2 (xM_size sw) off0 off1 (fun p q => elem sg [p; q]) k0 k1.
Proof.
  intros V S Hs. destruct (sz_even_x sw V) as (h & Hh & EX). unfold finish_subgrid_inplace_2d, is2d, dim. rewrite S. cbn [length nth Nat.eqb negb orb].
  rewrite !Z.eqb_refl. cbn [negb orb]. rewrite EX in *.
  assert (H2 : 2 * h / 2 = h) by (rewrite Z.mul_comm; apply Z.div_mul; lia).
  assert (C2 : cdiv (2 * h) 2 = h) by (rewrite cdiv_div by lia; exact H2). rewrite C2. unfold fin2. rewrite H2.
  destruct (quad_loops (fun _ _ x => x) h sg Hh S) as (g1 & E1 & S1 & V1). unfold quad in E1. rewrite E1. cbn [bind].
  set (out := c2c_both true (1 / IZR (2 * h) / IZR (2 * h)) g1). assert (So : shape out = [2 * h; 2 * h]) by exact S1.
  match goal with |- context [bind ?t _] => assert (ET : exists tmp, t = Some tmp /\ shape tmp = [2 * h; 2 * h] /\ forall i j, elem tmp [i; j] = if tr then elem out [j; i] else elem out [i; j]) end.
  { destruct tr; injection Hs as -> ->.
    - destruct ((1 =? 2 * h) && (2 * h =? 1)) eqn:K; [exfalso; lia|]. rewrite !Z.eqb_refl. cbn [andb]. eexists. split; [reflexivity|]. split; reflexivity.
    - rewrite !Z.eqb_refl. cbn [andb]. eexists. split; [reflexivity|]. split; [exact So|reflexivity]. }
  destruct ET as (tmp & ET & St & Vt). rewrite ET. cbn [bind]. rewrite mod_p_mod by lia.
  pose proof (Z.mod_pos_bound (off1 + h) (2 * h) ltac:(lia)) as Bo. set (o1 := (off1 + h) mod (2 * h)) in *.
  match goal with |- context [for_ 0 (2 * h) ?b g1] =>
    destruct (rows_id (2 * h) (2 * h) (fun i j _ => elem tmp [(i + off0 + h) mod (2 * h); (j + o1) mod (2 * h)]) b g1) as (s2 & E2 & S2 & V2) end; [lia|exact S1| |].
  { intros k st Hk Sk. rewrite mod_p_mod by lia.
    destruct (copy_row (2 * h) (2 * h) (2 * h) k (fun i => (i + o1) mod (2 * h)) (mk_nd [2 * h; 2 * h] (fun idx => match idx with [_; j] => elem tmp [(k + off0 + h) mod (2 * h); j] | _ => C0 end)) st) as (st' & E & S' & V'); [lia|exact Hk|exact Sk|reflexivity|intros; apply Z.mod_pos_bound; lia|].
    exists st'. split; [|split; [exact S'|]].
    - pose proof (Z.mod_pos_bound (k + off0 + h) (2 * h) ltac:(lia)) as Bk.
      set (act := fun i p (s : nd C) => let* x := rd tmp [(k + off0 + h) mod (2 * h); p] in wr s [k; i] x).
      pose proof (two_loops act (2 * h) (2 * h) o1 st ltac:(lia) Bo) as T. cbn zeta in T.
      replace (Z.min (2 * h - o1) (2 * h)) with (2 * h - o1) in T by lia. unfold act in T at 1 2. rewrite T, <- E. apply for_ext. intros i s Hi.
      unfold act. pose proof (Z.mod_pos_bound (i + o1) (2 * h) ltac:(lia)). rewrite !rd_some; [reflexivity|cbn [shape]; apply in_2; lia|rewrite St; apply in_2; lia].
    - intros i j Hi Hj. rewrite V' by assumption. destruct (Z.eqb_spec i k) as [->|]; reflexivity. }
  rewrite E2. cbn [bind]. exists s2. split; [reflexivity|]. split; [exact S2|]. intros k0 k1 Hk0 Hk1. rewrite V2, Vt by assumption.
  assert (D : forall j0 j1 t0 t1, (j0 - t0) mod (2 * h) = 0 -> (j1 - t1) mod (2 * h) = 0 -> elem out [j0; j1] =
     Cmul (RtoC (1 / IZR (2 * h) / IZR (2 * h))) (csum 0 (2 * h) (fun p => csum 0 (2 * h) (fun q => Cmul (Cmul (root true (2 * h) (t0 * (p - h))) (root true (2 * h) (t1 * (q - h)))) (elem sg [p; q]))))).
  { intros j0 j1 t0 t1 D0 D1. unfold out. rewrite (elem_c2c_both _ _ _ _ _ _ _ S1). f_equal.
    rewrite (DFT2_ext _ _ _ _ (fun p q => elem sg [(p + h) mod (2 * h); (q + h) mod (2 * h)])) by (intros; apply V1; lia).
    apply (centred2_sum h j0 j1 t0 t1 (fun p q => elem sg [p; q]) Hh D0 D1). }
  assert (M0 : ((k0 + off0 + h) mod (2 * h) - (k0 - h + off0)) mod (2 * h) = 0).
  { rewrite Zminus_mod_idemp_l. replace (k0 + off0 + h - (k0 - h + off0)) with (1 * (2 * h)) by ring. apply Z.mod_mul. lia. }
  assert (M1 : ((k1 + o1) mod (2 * h) - (k1 - h + off1)) mod (2 * h) = 0).
  { unfold o1. rewrite Zplus_mod_idemp_r, Zminus_mod_idemp_l. replace (k1 + (off1 + h) - (k1 - h + off1)) with (1 * (2 * h)) by lia. apply Z.mod_mul. clear - Hh. lia. }
  destruct tr; apply D; assumption.
Qed.

Lemma prepare_2d_lemma sw sg off0 off1 : valid sw -> shape sg = [xM_size sw; xM_size sw] ->
  exists sg', prepare_subgrid_inplace_2d sw sg off0 off1 = Some (SUCCESS, sg') /\ shape sg' = [xM_size sw; xM_size sw] /\
    forall q0 q1, 0 <= q0 < xM_size sw -> 0 <= q1 < xM_size sw ->
      elem sg' [q0; q1] = Cmul (RtoC (sign (off0 + off1))) (csum 0 (xM_size sw) (fun k => csum 0 (xM_size sw) (fun l =>
        Cmul (Cmul (root false (xM_size sw) ((k - xM_size sw / 2 + off0) * (q0 - xM_size sw / 2))) (root false (xM_size sw) ((l - xM_size sw / 2 + off1) * (q1 - xM_size sw / 2)))) (elem sg [k; l])))).
Proof.
  intros V S. destruct (sz_even_x sw V) as (h & Hh & EX). unfold prepare_subgrid_inplace_2d, is2d, dim. rewrite S. cbn [length nth Nat.eqb negb orb].
  rewrite !Z.eqb_refl. cbn [negb orb]. rewrite EX in *.
  assert (H2 : 2 * h / 2 = h) by (rewrite Z.mul_comm; apply Z.div_mul; lia).
  assert (C2 : cdiv (2 * h) 2 = h) by (rewrite cdiv_div by lia; exact H2). rewrite C2, H2.
  rewrite !step_root by lia. rewrite !(step2_root h) by lia. set (t0 := off0 + h). set (t1 := off1 + h).
  set (F := c2c_both false 1 sg). assert (SF : shape F = [2 * h; 2 * h]) by exact S.
  set (W := root false (2 * h)). set (T := fun i j x => Cmul (Cmul (W (i * t0)) (W (j * t1))) x).
  set (inner := fun i0 i1 phasor1 (sg : nd C) => let* tmp := rd sg [i0; i1] in
        let* y := rd sg [i0 + h; i1 + h] in
        let* sg := wr sg [i0; i1] (Cmul phasor1 y) in
        let* sg := wr sg [i0 + h; i1 + h] (Cmul (Cmul (Cmul phasor1 (W (h * t0))) (W (h * t1))) tmp) in
        let* tmp2 := rd sg [i0 + h; i1] in
        let* y := rd sg [i0; i1 + h] in
        let* sg := wr sg [i0 + h; i1] (Cmul (Cmul phasor1 (W (h * t0))) y) in
        wr sg [i0; i1 + h] (Cmul (Cmul phasor1 (W (h * t1))) tmp2)).
  assert (WA : forall a b, Cmul (W a) (W b) = W (a + b)) by (intros; unfold W; symmetry; apply W_add).
  assert (IN : forall i0 s, for_ 0 h (fun i1 s => let '(p, g) := s in let* g := inner i0 i1 p g in Some (Cmul p (W t1), g)) (W (i0 * t0), s) =
     let* s := for_ 0 h (fun i1 g => quad T h i0 i1 g) s in Some (Cmul (W (i0 * t0)) (W (h * t1)), s)).
  { intros i0 s. replace (W (i0 * t0)) with (Cmul (W (i0 * t0)) (W (0 * t1))) at 1.
    2:{ rewrite WA. f_equal. ring. }
    rewrite (phasor_loop h (W t1) (fun i => Cmul (W (i0 * t0)) (W (i * t1))) (inner i0) s); [|lia|].
    2:{ intro i. rewrite !WA. f_equal. ring. }
    rewrite (for_ext 0 h (fun i s => inner i0 i (Cmul (W (i0 * t0)) (W (i * t1))) s) (fun i1 g => quad T h i0 i1 g)); [reflexivity|].
    intros i g Hi. unfold inner, quad, T. 
    replace (Cmul (Cmul (Cmul (W (i0 * t0)) (W (i * t1))) (W (h * t0))) (W (h * t1))) with (Cmul (W ((i0 + h) * t0)) (W ((i + h) * t1))) by (rewrite !WA; f_equal; ring).
    replace (Cmul (Cmul (W (i0 * t0)) (W (i * t1))) (W (h * t0))) with (Cmul (W ((i0 + h) * t0)) (W (i * t1))) by (rewrite !WA; f_equal; ring).
    replace (Cmul (Cmul (W (i0 * t0)) (W (i * t1))) (W (h * t1))) with (Cmul (W (i0 * t0)) (W ((i + h) * t1))) by (rewrite !WA; f_equal; ring).
    reflexivity. }
  destruct (quad_loops T h F Hh SF) as (s2 & E2 & S2 & V2).
  match goal with |- context [for_ 0 h ?b (C1, F)] => assert (EO : for_ 0 h b (C1, F) = Some (W (h * t0), s2)) end.
  { pose proof (phasor_loop h (W t0) (fun i => W (i * t0)) (fun i0 p0 g =>
      let* r := for_ 0 h (fun i1 s => let '(p, g) := s in let* g := inner i0 i1 p g in Some (Cmul p (W t1), g)) (p0, g) in let '(_, g) := r in Some g) F) as P.
    cbn beta in P. replace (W (0 * t0)) with C1 in P by (symmetry; apply W_0).
    transitivity (for_ 0 h (fun i0 st => let '(p0, g) := st in let* g := (let* r := for_ 0 h (fun i1 s => let '(p, g) := s in let* g := inner i0 i1 p g in Some (Cmul p (W t1), g)) (p0, g) in let '(_, g) := r in Some g) in Some (Cmul p0 (W t0), g)) (C1, F)).
    - apply for_ext. intros i0 (p0 & g) Hi. match goal with |- context [for_ 0 h ?b (p0, g)] => destruct (for_ 0 h b (p0, g)) as [(q & g')|] eqn:EE end.
      + fold W in EE. change (for_ 0 h (fun (i1 : Z) (s : C * nd C) => let '(p, g0) := s in let* g1 := inner i0 i1 p g0 in Some (Cmul p (W t1), g1)) (p0, g) = Some (q, g')) in EE. rewrite EE. reflexivity.
      + fold W in EE. change (for_ 0 h (fun (i1 : Z) (s : C * nd C) => let '(p, g0) := s in let* g1 := inner i0 i1 p g0 in Some (Cmul p (W t1), g1)) (p0, g) = None) in EE. rewrite EE. reflexivity.
    - rewrite P; [|lia|intro i; rewrite WA; f_equal; ring]. clear P.
      rewrite (for_ext 0 h _ (fun i0 sg => for_ 0 h (fun i1 sg => quad T h i0 i1 sg) sg)).
      + rewrite E2. reflexivity.
      + intros i s Hi. rewrite IN. destruct (for_ 0 h (fun i1 g => quad T h i i1 g) s); reflexivity. }
  rewrite EO. cbn [bind]. exists s2. split; [reflexivity|]. split; [exact S2|]. intros q0 q1 Hq0 Hq1. rewrite V2 by assumption.
  unfold T, F. rewrite (elem_c2c_both _ _ _ _ _ _ _ S). rewrite Cmul_1_l. unfold DFT2. rewrite !csum_mul_l. apply csum_ext. intros k Hk. rewrite !csum_mul_l. apply csum_ext. intros l Hl.
  fold W.
  assert (R : forall q k t off, t = off + h -> Cmul (W (q * t)) (W ((q + h) mod (2 * h) * k)) = Cmul (RtoC (sign t)) (W ((k - h + off) * (q - h)))).
  { intros q k' t off Et. replace (W ((q + h) mod (2 * h) * k')) with (W (k' * (q - h))).
    2:{ unfold W. rewrite (Z.mul_comm _ k'). apply root_shift; [lia|]. rewrite Zminus_mod_idemp_r. replace (q - h - (q + h)) with ((-1) * (2 * h)) by ring. apply Z.mod_mul. lia. }
    rewrite <- (W_half_pow false h t) by lia. fold W. rewrite !WA. subst t.
    replace (q * (off + h) + k' * (q - h)) with ((off + h) * h + (k' - h + off) * (q - h) + (2 * h) * (q - h)) by ring. unfold W. apply W_period. lia. }
  pose proof (R q0 k t0 off0 eq_refl) as R0. pose proof (R q1 l t1 off1 eq_refl) as R1.
  assert (SS : sign (off0 + off1) = (sign t0 * sign t1)%R).
  { unfold t0, t1. rewrite !sign_add. transitivity (sign off0 * sign off1 * (sign h * sign h))%R; [rewrite sign_sqr; ring|ring]. }
  rewrite SS. revert R0 R1. generalize (W (q0 * t0)), (W (q1 * t1)), (W ((q0 + h) mod (2 * h) * k)), (W ((q1 + h) mod (2 * h) * l)), (W ((k - h + off0) * (q0 - h))), (W ((l - h + off1) * (q1 - h))), (elem sg [k; l]).
  intros a b c d e f x R0 R1. transitivity (Cmul (Cmul (Cmul a c) (Cmul b d)) x); [csolve|]. rewrite R0, R1. generalize (sign t0), (sign t1). csolve.
Qed.

Lemma inplace_2d_round_trip sw sg off0 off1 : valid sw -> shape sg = [xM_size sw; xM_size sw] ->
  exists f p, finish_subgrid_inplace_2d sw sg (xM_size sw) 1 off0 off1 = Some (SUCCESS, f) /\ prepare_subgrid_inplace_2d sw f off0 off1 = Some (SUCCESS, p) /\
    shape p = [xM_size sw; xM_size sw] /\
    forall i q, 0 <= i < xM_size sw -> 0 <= q < xM_size sw -> elem p [i; q] = Cmul (RtoC (sign (off0 + off1))) (elem sg [i; q]).
Proof.
  intros V S. destruct (finish_2d_gen sw sg (xM_size sw) 1 off0 off1 false V S eq_refl) as (f & Ef & Sf & Vf).
  destruct (prepare_2d_lemma sw f off0 off1 V Sf) as (p & Ep & Sp & Vp). exists f, p. repeat (split; [assumption|]).
  intros i q Hi Hq. rewrite Vp by assumption. f_equal. pose proof (sz_pos sw V) as HP. set (X := xM_size sw) in *. set (h := X / 2) in *.
  transitivity (csum 0 X (fun k => Cmul (root false X ((k - h + off0) * (i - h))) (Cmul (RtoC (1 / IZR X)) (csum 0 X (fun p0 => Cmul (root true X ((k - h + off0) * (p0 - h)))
     (csum 0 X (fun l => Cmul (root false X ((l - h + off1) * (q - h))) (Cmul (RtoC (1 / IZR X)) (csum 0 X (fun q0 => Cmul (root true X ((l - h + off1) * (q0 - h))) (elem sg [p0; q0]))))))))))).
  - apply csum_ext. intros k Hk.
    transitivity (Cmul (root false X ((k - h + off0) * (i - h))) (csum 0 X (fun l => Cmul (root false X ((l - h + off1) * (q - h))) (fin2 X off0 off1 (fun p q => elem sg [p; q]) k l)))).
    + rewrite csum_mul_l. apply csum_ext. intros l Hl. rewrite Vf by lia. generalize (fin2 X off0 off1 (fun p q => elem sg [p; q]) k l), (root false X ((k - h + off0) * (i - h))), (root false X ((l - h + off1) * (q - h))). csolve.
    + f_equal. unfold fin2. fold h.
      transitivity (csum 0 X (fun l => csum 0 X (fun p0 => Cmul (RtoC (1 / IZR X)) (Cmul (root true X ((k - h + off0) * (p0 - h))) (Cmul (root false X ((l - h + off1) * (q - h))) (Cmul (RtoC (1 / IZR X)) (csum 0 X (fun q0 => Cmul (root true X ((l - h + off1) * (q0 - h))) (elem sg [p0; q0]))))))))).
      * apply csum_ext. intros l Hl. rewrite csum_mul_l, csum_mul_l. apply csum_ext. intros p0 Hp0. rewrite !csum_mul_l. apply csum_ext. intros q0 Hq0.
        replace (1 / IZR X / IZR X)%R with (1 / IZR X * (1 / IZR X))%R by (field; apply not_0_IZR; lia).
        generalize (1 / IZR X)%R, (root true X ((k - h + off0) * (p0 - h))), (root true X ((l - h + off1) * (q0 - h))), (root false X ((l - h + off1) * (q - h))), (elem sg [p0; q0]). csolve.
      * rewrite csum_swap, csum_mul_l. apply csum_ext. intros p0 Hp0. rewrite !csum_mul_l. apply csum_ext. intros l Hl. reflexivity.
  - rewrite (round_trip_sum X off0 h (fun p0 => csum 0 X (fun l => Cmul (root false X ((l - h + off1) * (q - h))) (Cmul (RtoC (1 / IZR X)) (csum 0 X (fun q0 => Cmul (root true X ((l - h + off1) * (q0 - h))) (elem sg [p0; q0])))))) i) by lia.
    apply (round_trip_sum X off1 h (fun q0 => elem sg [i; q0]) q); lia.
Qed.
