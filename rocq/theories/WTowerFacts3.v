From Verif Require Import Base BaseFacts Sum CRing Loops Clamp ClampSpec ClampFacts ClampFacts2 QNum WTower WTowerSpec WTowerFacts WTowerFacts2.
From Coq Require Import Lqa Lia.
Open Scope Z_scope.

Section Acts.
  Context {A : cring} (plan : wplan A) (POK : plan_ok plan).
  Add Ring Ar3 : (rth A).

  Context (iu0 iv0 ru rv rw : Z)
    (HU : 0 <= iu0) (HU' : iu0 + support plan <= subgrid_size plan)
    (HV : 0 <= iv0) (HV' : iv0 + support plan <= subgrid_size plan)
    (HRU : 0 <= ru <= oversampling plan) (HRV : 0 <= rv <= oversampling plan) (HRW : 0 <= rw <= w_oversampling plan).

  Lemma rd_uv r b : 0 <= r <= oversampling plan -> 0 <= b < support plan ->
    rd (uv_kernel plan) [r * support plan + b] = Some (elem (uv_kernel plan) [r * support plan + b]).
  Proof.
    intros. destruct POK as (P1 & P2 & P3 & P3' & P4 & P5 & P6 & P7 & P8 & P9 & P10 & P11).
    apply rd_some. rewrite P10. apply in_shape_1. nia.
  Qed.
  Lemma rd_wk r b : 0 <= r <= w_oversampling plan -> 0 <= b < w_support plan ->
    rd (w_kernel plan) [r * w_support plan + b] = Some (elem (w_kernel plan) [r * w_support plan + b]).
  Proof.
    intros. destruct POK as (P1 & P2 & P3 & P3' & P4 & P5 & P6 & P7 & P8 & P9 & P10 & P11).
    apply rd_some. rewrite P11. apply in_shape_1. nia.
  Qed.

  Lemma degrid_act_ok sg i c (vis : nd A) :
    shape sg = [w_support plan; subgrid_size plan; subgrid_size plan] -> in_shape (shape vis) [i; c] = true ->
    degrid_act plan sg i c iu0 iv0 (ru * support plan) (rv * support plan) (rw * w_support plan) vis =
    Some (upd vis [i; c] (elem vis [i; c] + interp plan iu0 ru iv0 rv rw (fun a b d => elem sg [a; b; d]))%cr).
  Proof.
    intros Ss Iv. unfold degrid_act. cbv zeta.
    rewrite (for_ext _ _ _ (fun a acc => Some (acc + elem (w_kernel plan) [(rw * w_support plan + a)%Z] *
      rsum 0 (support plan) (fun b => elem (uv_kernel plan) [(ru * support plan + b)%Z] *
      rsum 0 (support plan) (fun d => elem (uv_kernel plan) [(rv * support plan + d)%Z] * elem sg [a; (iu0 + b)%Z; (iv0 + d)%Z])))%cr)).
    - rewrite for_rsum. cbn [bind]. rewrite (rd_some vis [i; c] Iv). cbn [bind]. rewrite wr_some by exact Iv.
      unfold interp. do 2 f_equal. ring.
    - intros a acc Ha.
      rewrite (for_ext _ _ _ (fun b acc => Some (acc + elem (uv_kernel plan) [(ru * support plan + b)%Z] *
        rsum 0 (support plan) (fun d => elem (uv_kernel plan) [(rv * support plan + d)%Z] * elem sg [a; (iu0 + b)%Z; (iv0 + d)%Z]))%cr)).
      + rewrite for_rsum. cbn [bind]. rewrite rd_wk by lia. cbn [bind]. do 2 f_equal. ring.
      + intros b acc' Hb.
        rewrite (for_ext _ _ _ (fun d acc => Some (acc + elem (uv_kernel plan) [(rv * support plan + d)%Z] * elem sg [a; (iu0 + b)%Z; (iv0 + d)%Z])%cr)).
        * rewrite for_rsum. cbn [bind]. rewrite rd_uv by lia. cbn [bind]. do 2 f_equal. ring.
        * intros d acc'' Hd. rewrite rd_uv by lia. cbn [bind].
          rewrite rd_some by (rewrite Ss; apply in_shape_3; lia). reflexivity.
  Qed.

  Lemma grid_act_ok i c (vis sg : nd A) :
    shape sg = [w_support plan; subgrid_size plan; subgrid_size plan] -> in_shape (shape vis) [i; c] = true ->
    exists sg', grid_act plan vis i c iu0 iv0 (ru * support plan) (rv * support plan) (rw * w_support plan) sg = Some sg' /\
      shape sg' = [w_support plan; subgrid_size plan; subgrid_size plan].
  Proof.
    intros Ss Iv. unfold grid_act. cbv zeta. rewrite (rd_some vis [i; c] Iv). cbn [bind].
    destruct POK as (P1 & P2 & P3 & P3' & P4 & P5 & P6 & P7 & P8 & P9 & P10 & P11).
    set (sh := [w_support plan; subgrid_size plan; subgrid_size plan]) in *.
    apply (for_inv (fun _ g => shape g = sh)); [lia|exact Ss|]. intros a g Ha Sg.
    rewrite rd_wk by lia. cbn [bind].
    apply (for_inv (fun _ g => shape g = sh)); [lia|exact Sg|]. intros b g' Hb Sg'.
    rewrite rd_uv by lia. cbn [bind].
    apply (for_inv (fun _ g => shape g = sh)); [lia|exact Sg'|]. intros d g'' Hd Sg''.
    rewrite rd_uv by lia. cbn [bind].
    assert (I3 : in_shape (shape g'') [a; iu0 + b; iv0 + d] = true) by (rewrite Sg''; apply in_shape_3; lia).
    rewrite rd_some by exact I3. cbn [bind]. rewrite wr_some by exact I3.
    eexists. split; [reflexivity|]. rewrite shape_upd. exact Sg''.
  Qed.
End Acts.

Section Runs.
  Context {A : cring} (plan : wplan A) (w_plane off_u off_v off_w : Z) (f0 df : Q)
    (start_row end_row : Z) (uvws : nd Q) (scs ecs : nd Z) (n m : Z).
  Add Ring Ar4 : (rth A).
  Context (POK : plan_ok plan) (ROK : rows_ok uvws scs ecs n m start_row end_row)
    (SAFE : forall i, start_row <= i < end_row -> row_safe plan w_plane off_u off_v off_w f0 df uvws scs ecs i).
  Notation pu := (pu plan off_u f0 df uvws). Notation pv := (pv plan off_v f0 df uvws).
  Notation pw := (pw plan w_plane off_w f0 df uvws).
  Notation rng := (rng plan w_plane off_w f0 df uvws scs ecs).
  Notation keptb := (keptb plan w_plane off_u off_v off_w f0 df uvws scs ecs).
  Notation procb := (procb plan w_plane off_u off_v off_w f0 df uvws scs ecs).

  Lemma wrow_range x : 0 <= wrow plan x <= w_oversampling plan.
  Proof.
    destruct POK as (P1 & P2 & P3 & P3' & P4 & P5 & P6 & P7 & P8 & P9 & P10 & P11).
    unfold wrow. pose proof (Z.mod_pos_bound (qround (x * inject_Z (w_oversampling plan))) (w_oversampling plan)). lia.
  Qed.

  Lemma proc_facts i c : start_row <= i < end_row -> keptb i = true -> fst (rng i) <= c < snd (rng i) ->
    0 <= i < n /\ 0 <= c < m /\ fits plan (pu i c) /\ fits plan (pv i c).
  Proof.
    intros Hi K Hc. destruct ROK as (R1 & R2 & R3 & R4 & R5 & R6 & R7).
    assert (PC : procb i c = true) by (unfold WTowerFacts2.procb; rewrite K, !Bool.andb_true_iff, Z.ltb_lt, Z.leb_le; repeat split; lia).
    apply procb_spec in PC. destruct PC as (Hse & _ & PS).
    destruct (wpos_range _ _ _ _ _ _ _ _ _ uvws scs ecs POK SAFE i c Hi Hse Hc) as (Hc' & _).
    destruct (R7 i Hi Hse). destruct (SAFE i Hi) as [_ F]. cbv zeta in F.
    split; [lia|]. split; [lia|]. apply F; [exact PS|exact Hc].
  Qed.

  Lemma degrid_lemma sg vis :
    shape sg = [w_support plan; subgrid_size plan; subgrid_size plan] -> shape vis = [n; m] ->
    exists vis', degrid plan w_plane off_u off_v off_w f0 df start_row end_row uvws scs ecs sg vis = Some vis' /\
      shape vis' = [n; m] /\
      forall i c, 
        (start_row <= i < end_row /\ procb i c = true ->
           elem vis' [i; c] = (elem vis [i; c] +
             interp plan (corner plan (pu i c)) (krow plan (pu i c)) (corner plan (pv i c)) (krow plan (pv i c))
               (wrow plan (pw i c)) (fun a b d => elem sg [a; b; d]))%cr) /\
        (~ (start_row <= i < end_row /\ procb i c = true) -> elem vis' [i; c] = elem vis [i; c]).
  Proof.
    intros Ss Sv. rewrite degrid_skel, (skel_simpl _ _ _ _ _ _ _ _ _ _ _ _ n m POK ROK SAFE). unfold skel2.
    destruct ROK as (R1 & R2 & R3 & R4 & R5 & R6 & R7).
    set (F := fun i c => interp plan (corner plan (pu i c)) (krow plan (pu i c)) (corner plan (pv i c)) (krow plan (pv i c))
               (wrow plan (pw i c)) (fun a b d => elem sg [a; b; d])).
    match goal with |- context [for_ _ _ ?b _] => destruct (for_own [n; m]
      (fun i idx => match idx with [i'; c] => (i' =? i) && procb i c | _ => false end)
      (fun idx x => match idx with [i; c] => (x + F i c)%cr | _ => x end) b start_row end_row vis R5 Sv) as (v' & E & S' & V1 & V2) end.
    - intros i st Hi St. destruct (keptb i) eqn:K.
      + match goal with |- context [for_ _ _ ?b _] => rewrite (for_ext _ _ b (fun c st => if in_shape (shape st) [i; c] then Some (upd st [i; c] (elem st [i; c] + F i c)%cr) else None)) end.
        2:{ intros c st' Hc. destruct (proc_facts i c Hi K Hc) as (_ & _ & FU & FV).
            destruct (fits_corner plan POK _ FU) as (_ & _ & _ & U1 & U2 & U3).
            destruct (fits_corner plan POK _ FV) as (_ & _ & _ & V1 & V2 & V3).
            destruct (in_shape (shape st') [i; c]) eqn:IS.
            - apply (degrid_act_ok plan POK (corner plan (pu i c)) (corner plan (pv i c)) (krow plan (pu i c)) (krow plan (pv i c)) (wrow plan (pw i c)) U1 U2 V1 V2 ltac:(lia) ltac:(lia) (wrow_range _)); assumption.
            - unfold degrid_act. cbv zeta. destruct (for_ _ _ _ _); [|reflexivity]. cbn [bind]. unfold rd. rewrite IS. reflexivity. }
        assert (Hb : fst (rng i) < snd (rng i)) by (unfold WTowerFacts2.keptb in K; lia).
        destruct (proc_facts i _ Hi K (conj (Z.le_refl _) Hb)) as (_ & B0 & _).
        destruct (proc_facts i (snd (rng i) - 1) Hi K ltac:(lia)) as (_ & B1 & _).
        match goal with |- context [for_ _ _ ?b _] =>
          destruct (for_row n m i (fun c x => (x + F i c)%cr) b (fst (rng i)) (snd (rng i)) st) as (st' & E & S' & V) end;
          [lia|lia|lia|lia|exact St| |].
        * intros c st' Hc St'. rewrite St'. replace (in_shape [n; m] [i; c]) with true; [reflexivity|].
          symmetry. apply in_shape_2. lia.
        * exists st'. split; [exact E|]. split; [exact S'|]. intro idx. rewrite V. unfold in_row.
          destruct idx as [|i' [|c [|]]]; try reflexivity. cbn [nth].
          unfold WTowerFacts2.procb. rewrite K. cbn [andb].
          destruct (i' =? i) eqn:EI; [|reflexivity]. replace i' with i by lia.
          reflexivity.
      + exists st. split; [reflexivity|]. split; [exact St|]. intro idx.
        destruct idx as [|i' [|c [|]]]; try reflexivity. unfold WTowerFacts2.procb. rewrite K, Bool.andb_false_r. reflexivity.
    - intros i j idx Hi Hj. destruct idx as [|i' [|c [|]]]; try discriminate. lia.
    - exists v'. split; [exact E|]. split; [exact S'|]. intros i c. split.
      + intros [Hi P]. apply (V1 i); [exact Hi|]. rewrite P. lia.
      + intro N. apply V2. intros j Hj. destruct (i =? j) eqn:EJ; [|reflexivity]. cbn [andb]. replace j with i in * by lia.
        destruct (procb i c); [exfalso; tauto|reflexivity].
  Qed.

  Lemma grid_lemma vis sg :
    shape sg = [w_support plan; subgrid_size plan; subgrid_size plan] -> shape vis = [n; m] ->
    exists sg', grid plan w_plane off_u off_v off_w f0 df start_row end_row uvws scs ecs vis sg = Some sg' /\
      shape sg' = [w_support plan; subgrid_size plan; subgrid_size plan] /\
      forall S, total3 (w_support plan) (subgrid_size plan) (subgrid_size plan) (fun a x y => elem sg' [a; x; y] * S a x y)%cr =
        (total3 (w_support plan) (subgrid_size plan) (subgrid_size plan) (fun a x y => elem sg [a; x; y] * S a x y) +
         rsum start_row end_row (fun i => rsum 0 m (fun c => if procb i c then elem vis [i; c] *
           interp plan (corner plan (pu i c)) (krow plan (pu i c)) (corner plan (pv i c)) (krow plan (pv i c))
               (wrow plan (pw i c)) S else r0)))%cr.
  Proof.
    intros Ss Sv. rewrite grid_skel, (skel_simpl _ _ _ _ _ _ _ _ _ _ _ _ n m POK ROK SAFE). unfold skel2.
    destruct ROK as (R1 & R2 & R3 & R4 & R5 & R6 & R7).
    set (F := fun S i c => interp plan (corner plan (pu i c)) (krow plan (pu i c)) (corner plan (pv i c)) (krow plan (pv i c))
               (wrow plan (pw i c)) S).
    set (sh := [w_support plan; subgrid_size plan; subgrid_size plan]) in *.
    set (phi := fun (S : Z -> Z -> Z -> A) (g : nd A) => total3 (w_support plan) (subgrid_size plan) (subgrid_size plan) (fun a x y => elem g [a; x; y] * S a x y)%cr).
    match goal with |- context [for_ _ _ ?b _] => destruct (for_inv (fun k g => shape g = sh /\ forall S, phi S g = (phi S sg +
         rsum start_row k (fun i => rsum 0 m (fun c => if procb i c then elem vis [i; c] * F S i c else r0)))%cr)
       start_row end_row b sg R5) as (g' & E & S' & V) end.
    - split; [exact Ss|]. intro S. rewrite (sum_empty radd r0 start_row start_row) by lia. ring.
    - intros i g Hi [Sg V]. destruct (keptb i) eqn:K.
      + assert (Hb : fst (rng i) < snd (rng i)) by (unfold WTowerFacts2.keptb in K; lia).
        destruct (proc_facts i _ Hi K (conj (Z.le_refl _) Hb)) as (_ & B0 & _).
        destruct (proc_facts i (snd (rng i) - 1) Hi K ltac:(lia)) as (_ & B1 & _).
        match goal with |- context [for_ _ _ ?b _] => destruct (for_inv (fun k g' => shape g' = sh /\ forall S, phi S g' = (phi S g +
           rsum (fst (rng i)) k (fun c => elem vis [i; c] * F S i c))%cr) (fst (rng i)) (snd (rng i)) b g) as (g' & E & S' & V') end.
        * lia.
        * split; [exact Sg|]. intro S. rewrite (sum_empty radd r0 (fst (rng i)) (fst (rng i))) by lia. ring.
        * intros c g1 Hc [Sg1 V1]. destruct (proc_facts i c Hi K Hc) as (Hi' & Hc' & FU & FV).
          destruct (fits_corner plan POK _ FU) as (_ & _ & _ & U1 & U2 & U3).
          destruct (fits_corner plan POK _ FV) as (_ & _ & _ & W1 & W2 & W3).
          destruct (grid_act_ok plan POK (corner plan (pu i c)) (corner plan (pv i c)) (krow plan (pu i c)) (krow plan (pv i c)) (wrow plan (pw i c))
            U1 U2 W1 W2 ltac:(lia) ltac:(lia) (wrow_range _) i c vis g1 Sg1 ltac:(rewrite Sv; apply in_shape_2; lia)) as (g2 & E2 & S2).
          exists g2. split; [exact E2|]. split; [exact S2|]. intro S.
          destruct (grid_act_partial plan vis i c _ _ _ _ _ _ _ _ S g1 g2 Sg1 E2) as [_ P].
          unfold phi at 1. rewrite P. fold (phi S g1). rewrite V1, rsum_snoc by lia. unfold F, interp, interp_off. ring.
        * exists g'. split; [exact E|]. split; [exact S'|]. intro S. rewrite V', V, rsum_snoc by lia.
          transitivity (phi S sg + (rsum start_row i (fun i => rsum 0 m (fun c => if procb i c then elem vis [i; c] * F S i c else r0)) +
            rsum (fst (rng i)) (snd (rng i)) (fun c => elem vis [i; c] * F S i c)))%cr; [ring|].
          do 2 f_equal.
          rewrite (sum_split _ _ (Rcm (A := A)) 0 (fst (rng i)) m), (sum_split _ _ (Rcm (A := A)) (fst (rng i)) (snd (rng i)) m) by lia.
          rewrite (rsum_none 0 (fst (rng i))).
          2:{ intros c Hc. unfold WTowerFacts2.procb. replace (fst (rng i) <=? c) with false by lia. rewrite Bool.andb_false_r. reflexivity. }
          rewrite (rsum_none (snd (rng i)) m).
          2:{ intros c Hc. unfold WTowerFacts2.procb. replace (c <? snd (rng i)) with false by lia. rewrite Bool.andb_false_r. reflexivity. }
          rewrite (rsum_ext (fst (rng i)) (snd (rng i)) (fun c => if procb i c then (elem vis [i; c] * F S i c)%cr else r0) (fun c => elem vis [i; c] * F S i c)%cr); [ring|].
          intros c Hc. unfold WTowerFacts2.procb. rewrite K. replace (fst (rng i) <=? c) with true by lia. replace (c <? snd (rng i)) with true by lia. reflexivity.
      + exists g. split; [reflexivity|]. split; [exact Sg|]. intro S. rewrite V, rsum_snoc by lia.
        rewrite (rsum_none 0 m); [ring|]. intros c Hc. unfold WTowerFacts2.procb. rewrite K. reflexivity.
    - exists g'. split; [exact E|]. split; [exact S'|]. exact V.
  Qed.
End Runs.
