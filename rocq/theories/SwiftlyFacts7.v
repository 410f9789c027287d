(** SwiFTly, continued: the two-dimensional variants (proofs only). *)
From Verif Require Import Base BaseFacts Sum CRing Loops Cplx Fft FftSpec FftFacts FftFacts2 FftConvFacts Swiftly SwiftlySpec SwiftlyFacts SwiftlyFacts2 SwiftlyFacts3.
From Coq Require Import Lra Lia.
Open Scope Z_scope.

Lemma rem_neg_contra c m : c < 0 -> 2 <= m -> (forall i, 0 <= i < m -> 0 <= Z.rem (i + c) m) -> False.
Proof.
  intros Hf Hm2 K. pose proof (K 0 ltac:(lia)) as K0. pose proof (K 1 ltac:(lia)) as K1. rewrite Z.add_0_l in K0. clear K.
  pose proof (Z.rem_bound_pos_neg c m ltac:(lia) ltac:(lia)) as B. assert (R0 : Z.rem c m = 0) by lia.
  destruct (Z.eq_dec c (-1)) as [->|N].
  { assert (Z.rem (-1) m = -1); [|lia]. change (-1) with (- (1)). rewrite Z.rem_opp_l by lia. rewrite Z.rem_small by lia. reflexivity. }
  pose proof (Z.rem_bound_pos_neg (1 + c) m ltac:(lia) ltac:(lia)) as B1. assert (R1 : Z.rem (1 + c) m = 0) by lia.
  pose proof (Z.quot_rem' c m). pose proof (Z.quot_rem' (1 + c) m).
  assert (m * (Z.quot (1 + c) m - Z.quot c m) = 1) by lia. assert (m * (Z.quot (1 + c) m - Z.quot c m) mod m = 0) by (rewrite Z.mul_comm; apply Z.mod_mul; lia).
  rewrite H1 in H2. rewrite Z.mod_small in H2 by lia. lia.
Qed.

Definition line {S} (rdF : Z -> option R) (act : Z -> Z -> Z -> Z -> R -> S -> option S) xM m offs1 i0 p0 (st : S) : option S :=
  let* fn0 := rdF i0 in
  let* st := for_ 0 (Z.min (xM - offs1) m) (fun i1 st => act i0 i1 p0 (i1 + offs1) fn0 st) st in
  for_ (Z.max 0 (Z.min (xM - offs1) m)) m (fun i1 st => act i0 i1 p0 (i1 + offs1 - xM) fn0 st) st.

Lemma line_eq {S} rdF (act : Z -> Z -> Z -> Z -> R -> S -> option S) xM m offs1 i0 p0 st : 0 < m <= xM -> 0 <= offs1 < xM ->
  line rdF act xM m offs1 i0 p0 st = let* fn0 := rdF i0 in for_ 0 m (fun i1 st => act i0 i1 p0 ((i1 + offs1) mod xM) fn0 st) st.
Proof.
  intros H H1. unfold line. destruct (rdF i0) as [fn|]; [|reflexivity]. cbn [bind].
  apply (two_loops (fun i1 p1 st => act i0 i1 p0 p1 fn st) xM m offs1 st H H1).
Qed.

Lemma two_loops_2d {S} rdF (act : Z -> Z -> Z -> Z -> R -> S -> option S) xM m offs0 offs1 (s : S) : 0 < m <= xM -> 0 <= offs0 < xM -> 0 <= offs1 < xM ->
  (let* st := for_ 0 (Z.min (xM - offs0) m) (fun i0 st => line rdF act xM m offs1 i0 (i0 + offs0) st) s in
   for_ (Z.max 0 (Z.min (xM - offs0) m)) m (fun i0 st => line rdF act xM m offs1 i0 (i0 + offs0 - xM) st) st) =
  for_ 0 m (fun i0 st => let* fn0 := rdF i0 in
     for_ 0 m (fun i1 st => act i0 i1 ((i0 + offs0) mod xM) ((i1 + offs1) mod xM) fn0 st) st) s.
Proof.
  intros H H0 H1. rewrite (two_loops (fun i0 p0 st => line rdF act xM m offs1 i0 p0 st) xM m offs0 s H H0).
  apply for_ext. intros i0 st Hi. now apply line_eq.
Qed.

Lemma add_2d_lemma sw contrib out off0 off1 f0 f1 : valid sw ->
  shape contrib = [contrib_size sw; contrib_size sw] -> shape out = [xM_size sw; xM_size sw] ->
  f0 = Z.quot off0 (image_size sw / xM_size sw) -> f1 = Z.quot off1 (image_size sw / xM_size sw) ->
  0 <= f0 + contrib_size sw / 2 -> 0 <= f1 + contrib_size sw / 2 ->
  exists out', add_to_subgrid_2d sw contrib out off0 off1 = Some (SUCCESS, out') /\ shape out' = [xM_size sw; xM_size sw] /\
    forall i j, 0 <= i < xM_size sw -> 0 <= j < xM_size sw ->
      elem out' [i; j] = Cadd (elem out [i; j])
        (let x := (i - (xM_size sw / 2 - contrib_size sw / 2 + f0)) mod xM_size sw in
         let y := (j - (xM_size sw / 2 - contrib_size sw / 2 + f1)) mod xM_size sw in
         if (x <? contrib_size sw) && (y <? contrib_size sw)
         then Cmul (Cmul (Fn sw x) (Fn sw y)) (elem contrib [(x + f0 + contrib_size sw / 2) mod contrib_size sw; (y + f1 + contrib_size sw / 2) mod contrib_size sw])
         else C0).
Proof.
  intros V Sc So Ef0 Ef1 Hf0 Hf1. pose proof (sz_pos sw V) as HP. pose proof (sz_m_pos sw V) as Hm. pose proof (sz_m_xM sw V) as Hmx.
  pose proof (sh_Fn sw V) as SF. pose proof (sz_step_x sw V) as Hst.
  unfold add_to_subgrid_2d, is2d, dim. rewrite sz_xM_yN by assumption. rewrite So, Sc. cbn [length nth Nat.eqb negb orb].
  rewrite !Z.eqb_refl. cbn [negb orb]. rewrite (cdiv_div (image_size sw)) by lia.
  change (cdiv off0 (image_size sw / xM_size sw)) with (Z.quot off0 (image_size sw / xM_size sw)). rewrite <- Ef0. clear Ef0.
  change (cdiv off1 (image_size sw / xM_size sw)) with (Z.quot off1 (image_size sw / xM_size sw)). rewrite <- Ef1. clear Ef1.
  set (xM := xM_size sw) in *. set (m := contrib_size sw) in *. rewrite !mod_p_mod by lia. rewrite neg_half by lia. rewrite (cdiv_div xM 2), (cdiv_div m 2) by lia.
  replace (- (m / 2) + xM / 2 + f0) with (xM / 2 - m / 2 + f0) by ring. replace (- (m / 2) + xM / 2 + f1) with (xM / 2 - m / 2 + f1) by ring.
  set (u0 := xM / 2 - m / 2 + f0) in *. set (u1 := xM / 2 - m / 2 + f1) in *.
  set (offs0 := u0 mod xM). assert (Ho0 : 0 <= offs0 < xM) by (apply Z.mod_pos_bound; lia).
  set (offs1 := u1 mod xM). assert (Ho1 : 0 <= offs1 < xM) by (apply Z.mod_pos_bound; lia).
  assert (Hm2 : 0 <= m / 2) by (apply Z.div_pos; lia).
  assert (UO0 : forall j, (j - offs0) mod xM = (j - u0) mod xM) by (intro j; unfold offs0; apply Zminus_mod_idemp_r).
  assert (UO1 : forall j, (j - offs1) mod xM = (j - u1) mod xM) by (intro j; unfold offs1; apply Zminus_mod_idemp_r).
  set (act := fun i0 i1 p0 p1 (fn0 : R) (st : nd C) =>
    let* fn1 := rd (tab_Fn sw) [i1] in
    let* x := rd contrib [cmod (i0 + f0 + m / 2) m; cmod (i1 + f1 + m / 2) m] in
    let* y := rd st [p0; p1] in wr st [p0; p1] (Cadd y (Cmul (RtoC (fn0 * fn1)%R) x))).
  match goal with |- context [bind (for_ 0 (Z.min (xM - offs0) m) ?b1 out) ?k] => set (L := for_ 0 (Z.min (xM - offs0) m) b1 out) end.
  enough (K : exists out', (let* st := L in for_ (Z.max 0 (Z.min (xM - offs0) m)) m (fun i0 st => line (fun i => rd (tab_Fn sw) [i]) act xM m offs1 i0 (i0 + offs0 - xM) st) st) = Some out' /\
     shape out' = [xM; xM] /\ forall i j, 0 <= i < xM -> 0 <= j < xM -> elem out' [i; j] = Cadd (elem out [i; j])
       (if ((i - u0) mod xM <? m) && ((j - u1) mod xM <? m) then Cmul (Cmul (Fn sw ((i - u0) mod xM)) (Fn sw ((j - u1) mod xM)))
          (elem contrib [((i - u0) mod xM + f0 + m / 2) mod m; ((j - u1) mod xM + f1 + m / 2) mod m]) else C0)).
  { destruct K as (out' & E & S' & V'). exists out'. split; [|split; [exact S'|exact V']]. destruct L as [s|]; [|discriminate]. cbn [bind] in *.
    change (for_ (Z.max 0 (Z.min (xM - offs0) m)) m _ s) with (for_ (Z.max 0 (Z.min (xM - offs0) m)) m (fun i0 st => line (fun i => rd (tab_Fn sw) [i]) act xM m offs1 i0 (i0 + offs0 - xM) st) s). rewrite E. reflexivity. }
  pose proof (two_loops_2d (fun i => rd (tab_Fn sw) [i]) act xM m offs0 offs1 out ltac:(lia) Ho0 Ho1) as T. 
  change (for_ 0 (Z.min (xM - offs0) m) (fun i0 st => line (fun i => rd (tab_Fn sw) [i]) act xM m offs1 i0 (i0 + offs0) st) out) with L in T. rewrite T. clear T. clearbody L.
  match goal with |- context [for_ 0 m ?b out] =>
    destruct (rows xM xM m (fun i => (i + offs0) mod xM) (fun j => (j - u0) mod xM) (fun j => (j - u0) mod xM <? m)
      (fun i j y => if (j - u1) mod xM <? m then Cadd y (Cmul (Cmul (Fn sw i) (Fn sw ((j - u1) mod xM))) (elem contrib [(i + f0 + m / 2) mod m; ((j - u1) mod xM + f1 + m / 2) mod m])) else y) b out)
      as (o1 & E & S1 & V1) end; auto; try lia.
  { intros i Hi. split; [apply Z.mod_pos_bound; lia|]. rewrite <- UO0.
    assert (K : ((i + offs0) mod xM - offs0) mod xM = i).
    { rewrite Zminus_mod_idemp_l. replace (i + offs0 - offs0) with i by ring. apply Z.mod_small. lia. }
    rewrite K. split; [lia|reflexivity]. }
  { intros j Hj OK. pose proof (Z.mod_pos_bound (j - u0) xM ltac:(lia)). split; [lia|]. rewrite <- UO0. rewrite Zplus_mod_idemp_l.
    replace (j - offs0 + offs0) with j by ring. apply Z.mod_small. lia. }
  { intros i0 st Hi0 Ss. rewrite rd_some by (rewrite SF; apply in_shape_1; lia). cbn [bind].
    pose proof (Z.mod_pos_bound (i0 + offs0) xM ltac:(lia)) as B0. set (p0 := (i0 + offs0) mod xM) in *.
    destruct (scatter xM xM p0 m (fun i => (i + offs1) mod xM) (fun j => (j - u1) mod xM) (fun j => (j - u1) mod xM <? m)
      (fun i y => Cadd y (Cmul (Cmul (Fn sw i0) (Fn sw i)) (elem contrib [(i0 + f0 + m / 2) mod m; (i + f1 + m / 2) mod m])))
      (fun i st => act i0 i p0 ((i + offs1) mod xM) (elem (tab_Fn sw) [i0]) st) st)
      as (st' & E & S' & V'); auto; try lia.
    { intros i Hi. split; [apply Z.mod_pos_bound; lia|]. rewrite <- UO1.
      assert (K : ((i + offs1) mod xM - offs1) mod xM = i).
      { rewrite Zminus_mod_idemp_l. replace (i + offs1 - offs1) with i by ring. apply Z.mod_small. lia. }
      rewrite K. split; [lia|reflexivity]. }
    { intros j Hj OK. pose proof (Z.mod_pos_bound (j - u1) xM ltac:(lia)). split; [lia|]. rewrite <- UO1. rewrite Zplus_mod_idemp_l.
      replace (j - offs1 + offs1) with j by ring. apply Z.mod_small. lia. }
    { intros i st2 Hi S2. unfold act. pose proof (Z.mod_pos_bound (i + offs1) xM ltac:(lia)). rewrite !cmod_mod by lia.
      pose proof (Z.mod_pos_bound (i + f1 + m / 2) m ltac:(lia)). pose proof (Z.mod_pos_bound (i0 + f0 + m / 2) m ltac:(lia)).
      rewrite rd_some by (rewrite SF; apply in_shape_1; lia). cbn [bind].
      rewrite rd_some by (rewrite Sc; apply in_2; lia). cbn [bind].
      rewrite rd_some by (rewrite S2; apply in_2; lia). cbn [bind]. rewrite wr_some by (rewrite S2; apply in_2; lia).
      do 3 f_equal. unfold Fn. generalize (elem contrib [(i0 + f0 + m / 2) mod m; (i + f1 + m / 2) mod m]). csolve. }
    exists st'. split; [exact E|split; [exact S'|]].
    intros i j Hi Hj. rewrite V' by lia. destruct (Z.eqb_spec i p0) as [->|]; cbn [andb]; reflexivity. }
  rewrite E. exists o1. split; [reflexivity|]. split; [exact S1|]. intros i j Hi Hj. rewrite V1 by assumption.
  destruct (_ <? m); cbn [andb]; [destruct (_ <? m)|]; try reflexivity; csolve.
Qed.

Lemma elem_c2c_both bwd sc a n m k l : shape a = [n; m] ->
  elem (c2c_both bwd sc a) [k; l] = Cmul (RtoC sc) (DFT2 bwd n m (fun s t => elem a [s; t]) k l).
Proof. intro S. unfold c2c_both, dim. cbn [elem]. rewrite S. reflexivity. Qed.

Lemma extract_2d_lemma sw sg contrib off0 off1 f0 f1 : valid sw ->
  shape sg = [xM_size sw; xM_size sw] -> shape contrib = [contrib_size sw; contrib_size sw] ->
  f0 = Z.quot off0 (image_size sw / xM_size sw) -> f1 = Z.quot off1 (image_size sw / xM_size sw) ->
  0 <= f0 + contrib_size sw / 2 -> 0 <= f1 + contrib_size sw / 2 ->
  exists out, extract_from_subgrid_2d sw sg contrib off0 off1 = Some (SUCCESS, out) /\ shape out = [contrib_size sw; contrib_size sw] /\
    forall k l, 0 <= k < contrib_size sw -> 0 <= l < contrib_size sw ->
      elem out [k; l] = Cmul (RtoC (1 / IZR (contrib_size sw) / IZR (contrib_size sw)))
        (csum 0 (contrib_size sw) (fun x => csum 0 (contrib_size sw) (fun y =>
          Cmul (Cmul (root true (contrib_size sw) (k * (x + (f0 + contrib_size sw / 2)))) (root true (contrib_size sw) (l * (y + (f1 + contrib_size sw / 2)))))
            (Cmul (Cmul (Fn sw x) (Fn sw y))
               (elem sg [(x + (xM_size sw / 2 - contrib_size sw / 2 + f0)) mod xM_size sw; (y + (xM_size sw / 2 - contrib_size sw / 2 + f1)) mod xM_size sw]))))).
Proof.
  intros V Ss0 Sc Ef0 Ef1 Hf0 Hf1. pose proof (sz_pos sw V) as HP. pose proof (sz_m_pos sw V) as Hm. pose proof (sz_m_xM sw V) as Hmx.
  pose proof (sh_Fn sw V) as SF. pose proof (sz_step_x sw V) as Hst.
  unfold extract_from_subgrid_2d, is2d, dim. rewrite sz_xM_yN by assumption. rewrite Ss0, Sc. cbn [length nth Nat.eqb negb orb].
  rewrite !Z.eqb_refl. cbn [negb orb]. rewrite (cdiv_div (image_size sw)) by lia.
  change (cdiv off0 (image_size sw / xM_size sw)) with (Z.quot off0 (image_size sw / xM_size sw)). rewrite <- Ef0. clear Ef0.
  change (cdiv off1 (image_size sw / xM_size sw)) with (Z.quot off1 (image_size sw / xM_size sw)). rewrite <- Ef1. clear Ef1.
  set (xM := xM_size sw) in *. set (m := contrib_size sw) in *. rewrite !mod_p_mod by lia. rewrite neg_half by lia. rewrite (cdiv_div xM 2), (cdiv_div m 2) by lia.
  replace (- (m / 2) + xM / 2 + f0) with (xM / 2 - m / 2 + f0) by ring. replace (- (m / 2) + xM / 2 + f1) with (xM / 2 - m / 2 + f1) by ring.
  set (u0 := xM / 2 - m / 2 + f0) in *. set (u1 := xM / 2 - m / 2 + f1) in *.
  set (offs0 := u0 mod xM). assert (Ho0 : 0 <= offs0 < xM) by (apply Z.mod_pos_bound; lia).
  set (offs1 := u1 mod xM). assert (Ho1 : 0 <= offs1 < xM) by (apply Z.mod_pos_bound; lia).
  assert (Hm2 : 0 <= m / 2) by (apply Z.div_pos; lia).
  assert (UO0 : forall x, (x + offs0) mod xM = (x + u0) mod xM) by (intro j; unfold offs0; apply Zplus_mod_idemp_r).
  assert (UO1 : forall x, (x + offs1) mod xM = (x + u1) mod xM) by (intro j; unfold offs1; apply Zplus_mod_idemp_r).
  set (c0 := f0 + m / 2) in *. set (c1 := f1 + m / 2) in *.
  set (act := fun i0 i1 p0 p1 (fn0 : R) (st : nd C) =>
    let* fn1 := rd (tab_Fn sw) [i1] in
    let* x := rd sg [p0; p1] in
    wr st [cmod (i0 + f0 + m / 2) m; cmod (i1 + f1 + m / 2) m] (Cmul (RtoC (fn0 * fn1)%R) x)).
  match goal with |- context [bind (for_ 0 (Z.min (xM - offs0) m) ?b1 contrib) ?k] => set (L := for_ 0 (Z.min (xM - offs0) m) b1 contrib) end.
  enough (K : exists o1, (let* st := L in for_ (Z.max 0 (Z.min (xM - offs0) m)) m (fun i0 st => line (fun i => rd (tab_Fn sw) [i]) act xM m offs1 i0 (i0 + offs0 - xM) st) st) = Some o1 /\
     shape o1 = [m; m] /\ forall i j, 0 <= i < m -> 0 <= j < m -> elem o1 [i; j] = 
       Cmul (Cmul (Fn sw ((i - c0) mod m)) (Fn sw ((j - c1) mod m))) (elem sg [((i - c0) mod m + u0) mod xM; ((j - c1) mod m + u1) mod xM])).
  { destruct K as (o1 & E & S' & V'). exists (c2c_both true (1 / IZR m / IZR m) o1). split; [|split; [exact S'|]].
    - destruct L as [s|]; [|discriminate]. cbn [bind] in *.
      change (for_ (Z.max 0 (Z.min (xM - offs0) m)) m _ s) with (for_ (Z.max 0 (Z.min (xM - offs0) m)) m (fun i0 st => line (fun i => rd (tab_Fn sw) [i]) act xM m offs1 i0 (i0 + offs0 - xM) st) s). rewrite E. reflexivity.
    - intros k l Hk Hl. rewrite (elem_c2c_both _ _ _ _ _ _ _ S'). f_equal. rewrite <- DFT_twice.
      rewrite (DFT_ext _ _ _ (fun t => (fun t' => csum 0 m (fun x => Cmul (root true m (k * (x + c0))) (Cmul (Cmul (Fn sw x) (Fn sw t')) (elem sg [(x + u0) mod xM; (t' + u1) mod xM])))) ((t - c1) mod m))).
      + rewrite (DFT_rot true m c1 (fun t' => csum 0 m (fun x => Cmul (root true m (k * (x + c0))) (Cmul (Cmul (Fn sw x) (Fn sw t')) (elem sg [(x + u0) mod xM; (t' + u1) mod xM])))) l) by lia.
        rewrite csum_swap. apply csum_ext. intros y Hy. rewrite csum_mul_l. apply csum_ext. intros x Hx.
        generalize (root true m (l * (y + c1))), (root true m (k * (x + c0))), (elem sg [(x + u0) mod xM; (y + u1) mod xM]). csolve.
      + intros t Ht. rewrite (DFT_ext _ _ _ (fun s => (fun x => Cmul (Cmul (Fn sw x) (Fn sw ((t - c1) mod m))) (elem sg [(x + u0) mod xM; ((t - c1) mod m + u1) mod xM])) ((s - c0) mod m))).
        * apply (DFT_rot true m c0 (fun x => Cmul (Cmul (Fn sw x) (Fn sw ((t - c1) mod m))) (elem sg [(x + u0) mod xM; ((t - c1) mod m + u1) mod xM])) k). lia.
        * intros s Hs. apply V'; lia. }
  pose proof (two_loops_2d (fun i => rd (tab_Fn sw) [i]) act xM m offs0 offs1 contrib ltac:(lia) Ho0 Ho1) as T. 
  change (for_ 0 (Z.min (xM - offs0) m) (fun i0 st => line (fun i => rd (tab_Fn sw) [i]) act xM m offs1 i0 (i0 + offs0) st) contrib) with L in T. rewrite T. clear T. clearbody L.
  match goal with |- context [for_ 0 m ?b contrib] =>
    destruct (rows m m m (fun i => (i + c0) mod m) (fun j => (j - c0) mod m) (fun _ => true)
      (fun i j _ => Cmul (Cmul (Fn sw i) (Fn sw ((j - c1) mod m))) (elem sg [(i + u0) mod xM; ((j - c1) mod m + u1) mod xM])) b contrib)
      as (o1 & E & S1 & V1) end; auto; try lia.
  { intros i Hi. split; [apply Z.mod_pos_bound; lia|]. split; [reflexivity|].
    rewrite Zminus_mod_idemp_l. replace (i + c0 - c0) with i by ring. apply Z.mod_small. lia. }
  { intros j Hj OK. split; [apply Z.mod_pos_bound; lia|]. rewrite Zplus_mod_idemp_l.
    replace (j - c0 + c0) with j by ring. apply Z.mod_small. lia. }
  { intros i0 st Hi0 Ss. rewrite rd_some by (rewrite SF; apply in_shape_1; lia). cbn [bind].
    pose proof (Z.mod_pos_bound (i0 + c0) m ltac:(lia)) as B0.
    destruct (scatter m m ((i0 + c0) mod m) m (fun i => (i + c1) mod m) (fun j => (j - c1) mod m) (fun _ => true)
      (fun i y => Cmul (Cmul (Fn sw i0) (Fn sw i)) (elem sg [(i0 + u0) mod xM; (i + u1) mod xM]))
      (fun i st => act i0 i ((i0 + offs0) mod xM) ((i + offs1) mod xM) (elem (tab_Fn sw) [i0]) st) st)
      as (st' & E & S' & V'); auto; try lia.
    { intros i Hi. split; [apply Z.mod_pos_bound; lia|]. split; [reflexivity|].
      rewrite Zminus_mod_idemp_l. replace (i + c1 - c1) with i by ring. apply Z.mod_small. lia. }
    { intros j Hj OK. split; [apply Z.mod_pos_bound; lia|]. rewrite Zplus_mod_idemp_l.
      replace (j - c1 + c1) with j by ring. apply Z.mod_small. lia. }
    { intros i st2 Hi S2. unfold act. pose proof (Z.mod_pos_bound (i + offs1) xM ltac:(lia)). pose proof (Z.mod_pos_bound (i0 + offs0) xM ltac:(lia)).
      replace (i0 + f0 + m / 2) with (i0 + c0) by (unfold c0; ring). replace (i + f1 + m / 2) with (i + c1) by (unfold c1; ring). rewrite !cmod_mod by lia.
      pose proof (Z.mod_pos_bound (i + c1) m ltac:(lia)).
      rewrite rd_some by (rewrite SF; apply in_shape_1; lia). cbn [bind].
      rewrite rd_some by (rewrite Ss0; apply in_2; lia). cbn [bind].
      rewrite wr_some by (rewrite S2; apply in_2; lia). rewrite UO0, UO1.
      do 2 f_equal. unfold Fn. generalize (elem sg [(i0 + u0) mod xM; (i + u1) mod xM]). csolve. }
    exists st'. split; [exact E|split; [exact S'|]].
    intros i j Hi Hj. rewrite V' by lia. rewrite andb_true_r. destruct (Z.eqb_spec i ((i0 + c0) mod m)) as [->|]; reflexivity. }
  rewrite E. exists o1. split; [reflexivity|]. split; [exact S1|]. intros i j Hi Hj. now rewrite V1 by assumption.
Qed.

(** Offsets that are too negative: a negative remainder is used as an index *)
Lemma partial_2d {A B} (F : nd R) (X : nd A) (P : nd B -> Prop) (x0 x1 : Z -> Z) m (act : Z -> Z -> R -> nd B -> option (nd B)) (s s' : nd B) :
  P s ->
  (forall i0 i1 fn st st', P st -> act i0 i1 fn st = Some st' -> P st' /\ 0 <= x0 i0 /\ 0 <= x1 i1) ->
  0 < m ->
  for_ 0 m (fun i0 st => let* fn0 := rd F [i0] in for_ 0 m (fun i1 st => act i0 i1 fn0 st) st) s = Some s' ->
  forall i, 0 <= i < m -> 0 <= x0 i /\ 0 <= x1 i.
Proof.
  intros Ps H Hm E.
  assert (Q : P s' /\ forall i0 i1, 0 <= i0 < m -> 0 <= i1 < m -> 0 <= x0 i0 /\ 0 <= x1 i1).
  { revert E. match goal with |- for_ 0 m ?b s = _ -> _ =>
      apply (for_inv_partial (fun k st => P st /\ forall i0 i1, 0 <= i0 < k -> 0 <= i1 < m -> 0 <= x0 i0 /\ 0 <= x1 i1) 0 m b s) end; [lia|split; [exact Ps|lia]|].
    intros i0 st st' Hi (P1 & F1) E. destruct (rd F [i0]) as [fn|]; [|discriminate]. cbn [bind] in E.
    assert (Q : P st' /\ forall i1, 0 <= i1 < m -> 0 <= x0 i0 /\ 0 <= x1 i1).
    { revert E. match goal with |- for_ 0 m ?b st = _ -> _ =>
        apply (for_inv_partial (fun k st => P st /\ forall i1, 0 <= i1 < k -> 0 <= x0 i0 /\ 0 <= x1 i1) 0 m b st) end; [lia|split; [exact P1|lia]|].
      intros i1 t t' Hi1 (P2 & F2) E. destruct (H i0 i1 fn t t' P2 E) as (P3 & Q1 & Q2). split; [exact P3|]. intros j Hj.
      destruct (Z.eq_dec j i1) as [->|]; [split; assumption|apply F2; lia]. }
    destruct Q as (P3 & Q). split; [exact P3|]. intros a b Ha Hb. destruct (Z.eq_dec a i0) as [->|]; [apply Q; lia|apply F1; lia]. }
  intros i Hi. apply Q; assumption.
Qed.

Lemma add_2d_negative sw contrib out off0 off1 f0 f1 : valid sw ->
  shape contrib = [contrib_size sw; contrib_size sw] -> shape out = [xM_size sw; xM_size sw] ->
  f0 = Z.quot off0 (image_size sw / xM_size sw) -> f1 = Z.quot off1 (image_size sw / xM_size sw) ->
  f0 + contrib_size sw / 2 < 0 \/ f1 + contrib_size sw / 2 < 0 -> 2 <= contrib_size sw ->
  add_to_subgrid_2d sw contrib out off0 off1 = None.
Proof.
  intros V Sc So Ef0 Ef1 Hf Hm2. pose proof (sz_pos sw V) as HP. pose proof (sz_m_pos sw V) as Hm. pose proof (sz_m_xM sw V) as Hmx.
  pose proof (sz_step_x sw V) as Hst.
  unfold add_to_subgrid_2d, is2d, dim. rewrite sz_xM_yN by assumption. rewrite So, Sc. cbn [length nth Nat.eqb negb orb].
  rewrite !Z.eqb_refl. cbn [negb orb]. rewrite (cdiv_div (image_size sw)) by lia.
  change (cdiv off0 (image_size sw / xM_size sw)) with (Z.quot off0 (image_size sw / xM_size sw)). rewrite <- Ef0. clear Ef0.
  change (cdiv off1 (image_size sw / xM_size sw)) with (Z.quot off1 (image_size sw / xM_size sw)). rewrite <- Ef1. clear Ef1.
  set (xM := xM_size sw) in *. set (m := contrib_size sw) in *. rewrite !mod_p_mod by lia. rewrite (cdiv_div m 2) by lia.
  match goal with |- context [Z.min (xM - (?u + f0) mod xM)] => set (offs0 := (u + f0) mod xM); set (offs1 := (u + f1) mod xM) end.
  assert (Ho0 : 0 <= offs0 < xM) by (apply Z.mod_pos_bound; lia). assert (Ho1 : 0 <= offs1 < xM) by (apply Z.mod_pos_bound; lia). clearbody offs0 offs1.
  set (act := fun i0 i1 p0 p1 (fn0 : R) (st : nd C) =>
    let* fn1 := rd (tab_Fn sw) [i1] in
    let* x := rd contrib [cmod (i0 + f0 + m / 2) m; cmod (i1 + f1 + m / 2) m] in
    let* y := rd st [p0; p1] in wr st [p0; p1] (Cadd y (Cmul (RtoC (fn0 * fn1)%R) x))).
  pose proof (two_loops_2d (fun i => rd (tab_Fn sw) [i]) act xM m offs0 offs1 out ltac:(lia) Ho0 Ho1) as T.
  match goal with |- context [bind (for_ 0 (Z.min (xM - offs0) m) ?b1 out) ?k] => set (L := for_ 0 (Z.min (xM - offs0) m) b1 out) end.
  change (for_ 0 (Z.min (xM - offs0) m) (fun i0 st => line (fun i => rd (tab_Fn sw) [i]) act xM m offs1 i0 (i0 + offs0) st) out) with L in T. clearbody L.
  destruct L as [s|]; [|reflexivity]. cbn [bind] in *.
  change (for_ (Z.max 0 (Z.min (xM - offs0) m)) m _ s) with (for_ (Z.max 0 (Z.min (xM - offs0) m)) m (fun i0 st => line (fun i => rd (tab_Fn sw) [i]) act xM m offs1 i0 (i0 + offs0 - xM) st) s).
  rewrite T. clear T. match goal with |- bind ?X _ = None => destruct X as [d|] eqn:E; [exfalso|reflexivity] end.
  pose proof (partial_2d (tab_Fn sw) contrib (fun _ => True) (fun i => cmod (i + f0 + m / 2) m) (fun i => cmod (i + f1 + m / 2) m) m
    (fun i0 i1 fn st => act i0 i1 ((i0 + offs0) mod xM) ((i1 + offs1) mod xM) fn st) out d I) as Q.
  assert (K : forall i, 0 <= i < m -> 0 <= cmod (i + f0 + m / 2) m /\ 0 <= cmod (i + f1 + m / 2) m).
  { apply Q; [|lia|exact E]. intros i0 i1 fn st st' _ Ea. split; [exact Logic.I|]. unfold act in Ea.
    destruct (rd (tab_Fn sw) _) as [y|]; [|discriminate]. cbn [bind] in Ea. unfold rd in Ea. rewrite Sc in Ea.
    destruct (in_shape [m; m] [cmod (i0 + f0 + m / 2) m; cmod (i1 + f1 + m / 2) m]) eqn:In; [|discriminate]. cbn [in_shape] in In. lia. }
  destruct Hf as [Hf|Hf].
  - apply (rem_neg_contra (f0 + m / 2) m Hf Hm2). intros i Hi. destruct (K i Hi) as (K0 & _). unfold cmod in K0. now rewrite <- Z.add_assoc in K0.
  - apply (rem_neg_contra (f1 + m / 2) m Hf Hm2). intros i Hi. destruct (K i Hi) as (_ & K0). unfold cmod in K0. now rewrite <- Z.add_assoc in K0.
Qed.

Lemma extract_2d_negative sw sg contrib off0 off1 f0 f1 : valid sw ->
  shape sg = [xM_size sw; xM_size sw] -> shape contrib = [contrib_size sw; contrib_size sw] ->
  f0 = Z.quot off0 (image_size sw / xM_size sw) -> f1 = Z.quot off1 (image_size sw / xM_size sw) ->
  f0 + contrib_size sw / 2 < 0 \/ f1 + contrib_size sw / 2 < 0 -> 2 <= contrib_size sw ->
  extract_from_subgrid_2d sw sg contrib off0 off1 = None.
Proof.
  intros V Ss0 Sc Ef0 Ef1 Hf Hm2. pose proof (sz_pos sw V) as HP. pose proof (sz_m_pos sw V) as Hm. pose proof (sz_m_xM sw V) as Hmx.
  pose proof (sz_step_x sw V) as Hst.
  unfold extract_from_subgrid_2d, is2d, dim. rewrite sz_xM_yN by assumption. rewrite Ss0, Sc. cbn [length nth Nat.eqb negb orb].
  rewrite !Z.eqb_refl. cbn [negb orb]. rewrite (cdiv_div (image_size sw)) by lia.
  change (cdiv off0 (image_size sw / xM_size sw)) with (Z.quot off0 (image_size sw / xM_size sw)). rewrite <- Ef0. clear Ef0.
  change (cdiv off1 (image_size sw / xM_size sw)) with (Z.quot off1 (image_size sw / xM_size sw)). rewrite <- Ef1. clear Ef1.
  set (xM := xM_size sw) in *. set (m := contrib_size sw) in *. rewrite !mod_p_mod by lia. rewrite (cdiv_div m 2) by lia.
  match goal with |- context [Z.min (xM - (?u + f0) mod xM)] => set (offs0 := (u + f0) mod xM); set (offs1 := (u + f1) mod xM) end.
  assert (Ho0 : 0 <= offs0 < xM) by (apply Z.mod_pos_bound; lia). assert (Ho1 : 0 <= offs1 < xM) by (apply Z.mod_pos_bound; lia). clearbody offs0 offs1.
  set (act := fun i0 i1 p0 p1 (fn0 : R) (st : nd C) =>
    let* fn1 := rd (tab_Fn sw) [i1] in
    let* x := rd sg [p0; p1] in
    wr st [cmod (i0 + f0 + m / 2) m; cmod (i1 + f1 + m / 2) m] (Cmul (RtoC (fn0 * fn1)%R) x)).
  pose proof (two_loops_2d (fun i => rd (tab_Fn sw) [i]) act xM m offs0 offs1 contrib ltac:(lia) Ho0 Ho1) as T.
  match goal with |- context [bind (for_ 0 (Z.min (xM - offs0) m) ?b1 contrib) ?k] => set (L := for_ 0 (Z.min (xM - offs0) m) b1 contrib) end.
  change (for_ 0 (Z.min (xM - offs0) m) (fun i0 st => line (fun i => rd (tab_Fn sw) [i]) act xM m offs1 i0 (i0 + offs0) st) contrib) with L in T. clearbody L.
  destruct L as [s|]; [|reflexivity]. cbn [bind] in *.
  change (for_ (Z.max 0 (Z.min (xM - offs0) m)) m _ s) with (for_ (Z.max 0 (Z.min (xM - offs0) m)) m (fun i0 st => line (fun i => rd (tab_Fn sw) [i]) act xM m offs1 i0 (i0 + offs0 - xM) st) s).
  rewrite T. clear T. match goal with |- bind ?X _ = None => destruct X as [d|] eqn:E; [exfalso|reflexivity] end.
  pose proof (partial_2d (tab_Fn sw) contrib (fun st => shape st = [m; m]) (fun i => cmod (i + f0 + m / 2) m) (fun i => cmod (i + f1 + m / 2) m) m
    (fun i0 i1 fn st => act i0 i1 ((i0 + offs0) mod xM) ((i1 + offs1) mod xM) fn st) contrib d Sc) as Q.
  assert (K : forall i, 0 <= i < m -> 0 <= cmod (i + f0 + m / 2) m /\ 0 <= cmod (i + f1 + m / 2) m).
  { apply Q; [|lia|exact E]. intros i0 i1 fn st st' Sst Ea. unfold act in Ea.
    destruct (rd (tab_Fn sw) _) as [y|]; [|discriminate]. cbn [bind] in Ea. destruct (rd sg _) as [z|]; [|discriminate]. cbn [bind] in Ea.
    unfold wr in Ea. rewrite Sst in Ea.
    destruct (in_shape [m; m] [cmod (i0 + f0 + m / 2) m; cmod (i1 + f1 + m / 2) m]) eqn:In; [|discriminate]. injection Ea as <-. split; [exact Sst|].
    cbn [in_shape] in In. lia. }
  destruct Hf as [Hf|Hf].
  - apply (rem_neg_contra (f0 + m / 2) m Hf Hm2). intros i Hi. destruct (K i Hi) as (K0 & _). unfold cmod in K0. now rewrite <- Z.add_assoc in K0.
  - apply (rem_neg_contra (f1 + m / 2) m Hf Hm2). intros i Hi. destruct (K i Hi) as (_ & K0). unfold cmod in K0. now rewrite <- Z.add_assoc in K0.
Qed.
