From Verif Require Import Base BaseFacts Clamp QNum WHeight HogbomFacts.
From Coq Require Import Lqa Lia.
Open Scope Z_scope.

Lemma to_int_ok z : -2147483648 <= z <= 2147483647 -> to_int z = Some z.
Proof. intro. unfold to_int. replace (_ && _) with true by lia. reflexivity. Qed.
Lemma to_int_inv z y : to_int z = Some y -> y = z.
Proof. unfold to_int. destruct (_ && _); congruence. Qed.
Lemma Qltb_iff a b : Qltb a b = true <-> (a < b)%Q.
Proof.
  unfold Qltb. rewrite Bool.negb_true_iff. split; intro H.
  - apply Qnot_le_lt. intro L. apply Qle_bool_iff in L. congruence.
  - destruct (Qle_bool b a) eqn:E; [|reflexivity]. apply Qle_bool_iff in E. lra.
Qed.
Lemma Qltb_false a b : Qltb a b = false <-> ~ (a < b)%Q.
Proof. rewrite <- Qltb_iff. destruct (Qltb a b); intuition congruence. Qed.

Lemma pow2_ge1 n : 0 <= n -> 1 <= 2 ^ n.
Proof. intro. pose proof (Z.pow_pos_nonneg 2 n). lia. Qed.

Section Search.
  Context (accuracy : Q -> error * Q) (w_step target : Q).
  Notation runs := (search_runs accuracy w_step target).
  Notation err k := (snd (accuracy (inject_Z k * w_step)%Q)).
  Notation below k := (err k < target)%Q.

  (** The execution is deterministic. *)
  Lemma runs_det s r1 r2 : runs s r1 -> runs s r2 -> r1 = r2.
  Proof.
    intros H. revert r2. induction H as [s r E|s s' r E _ IH]; intros r2 H2; inversion H2; subst; rewrite E in *; try congruence.
    apply IH. congruence.
  Qed.

  (** A result is a boundary, whatever the error function. *)
  Lemma runs_boundary s e r : runs s (e, r) -> failed e = false -> s_status s = SUCCESS -> 
    (exists n, s_diw s = 2 ^ n /\ 0 <= n) ->
    (s_iw s - s_diw s = 0 \/ below (s_iw s - s_diw s)) ->
    (s_acc s = true -> s_iw s = 2 * s_diw s - 1) ->
    (s_acc s = false -> ~ below (s_iw s + s_diw s)) ->
    exists K, r = 2 * K /\ (K = 0 \/ below K) /\ ~ below (K + 1).
  Proof.
    intro H. remember (e, r) as res eqn:R. revert R. induction H as [s r' E|s s' r' E H IH]; intros R F St (n & D & Hn) L A U; subst r'.
    - unfold search_step in E. rewrite St in E. cbn [failed] in E. destruct (accuracy (inject_Z (s_iw s) * w_step)%Q) as [st q] eqn:EA.
      destruct (Qltb q target) eqn:EQ.
      + destruct (s_acc s) eqn:AC; [repeat match type of E with context [to_int ?z] => destruct (to_int z); cbn [bind] in E end; discriminate|].
        destruct (s_diw s >? 1) eqn:D1; [repeat match type of E with context [to_int ?z] => destruct (to_int z); cbn [bind] in E end; discriminate|].
        destruct (to_int (2 * s_iw s)) eqn:T; [|discriminate]. cbn [bind] in E. apply to_int_inv in T. injection E as -> ->.
        exists (s_iw s). split; [lia|]. split; [right; rewrite EA; now apply Qltb_iff|].
        assert (1 <= s_diw s) by (rewrite D; now apply pow2_ge1).
        replace (s_iw s + 1) with (s_iw s + s_diw s) by lia. now apply U.
      + destruct (s_diw s >? 1) eqn:D1; [repeat match type of E with context [to_int ?z] => destruct (to_int z); cbn [bind] in E end; discriminate|].
        destruct (to_int (2 * (s_iw s - 1))) eqn:T; [|discriminate]. cbn [bind] in E. apply to_int_inv in T. injection E as -> ->.
        assert (1 <= s_diw s) by (rewrite D; now apply pow2_ge1). replace (s_diw s) with 1 in L by lia.
        exists (s_iw s - 1). split; [lia|]. split; [exact L|]. replace (s_iw s - 1 + 1) with (s_iw s) by lia. rewrite EA. cbn [snd]. now apply Qltb_false.
    - assert (P : 1 <= s_diw s) by (rewrite D; now apply pow2_ge1).
      assert (HV : s_diw s > 1 -> exists n', cdiv (s_diw s) 2 = 2 ^ n' /\ 0 <= n' /\ s_diw s = 2 * cdiv (s_diw s) 2).
      { intro G. assert (n <> 0) by (intros ->; cbn in D; lia). exists (n - 1).
        assert (Q : s_diw s = 2 * 2 ^ (n - 1)) by (rewrite D, <- Z.pow_succ_r by lia; f_equal; lia).
        assert (Q2 : cdiv (s_diw s) 2 = 2 ^ (n - 1)) by (unfold cdiv; rewrite Q, Z.mul_comm, Z.quot_mul by lia; reflexivity).
        rewrite Q2. split; [reflexivity|]. split; [lia|exact Q]. }
      unfold search_step in E. rewrite St in E. cbn [failed] in E. destruct (accuracy (inject_Z (s_iw s) * w_step)%Q) as [st q] eqn:EA.
      assert (SS : s_status s' = SUCCESS).
      { assert (s_status s' = st).
        { repeat match type of E with context [if ?b then _ else _] => destruct b end; cbn [bind] in E;
          repeat match type of E with context [to_int ?z] => destruct (to_int z); cbn [bind] in E end; try discriminate; now injection E as <-. }
        destruct (failed (s_status s')) eqn:FS.
        - exfalso. inversion H; subst; unfold search_step in H1; rewrite FS in H1; [|discriminate]. injection H1 as E1 _. rewrite <- E1 in F. congruence.
        - destruct (s_status s'); try discriminate; reflexivity. }
      destruct (Qltb q target) eqn:EQ.
      + assert (BL : below (s_iw s)) by (rewrite EA; now apply Qltb_iff).
        destruct (s_acc s) eqn:AC.
        * destruct (to_int (s_diw s * 2)) as [d'|] eqn:T1; [|discriminate]. cbn [bind] in E.
          destruct (to_int (s_iw s + d')) as [i'|] eqn:T2; [|discriminate]. cbn [bind] in E. injection E as <-. cbn [s_status s_iw s_diw s_acc] in *.
          apply to_int_inv in T1, T2. subst d' i'. specialize (A eq_refl).
          apply IH; auto; try discriminate.
          -- exists (n + 1). split; [rewrite D, Z.pow_add_r by lia; reflexivity|lia].
          -- right. replace (s_iw s + s_diw s * 2 - s_diw s * 2) with (s_iw s) by lia. exact BL.
          -- intros _. lia.
        * destruct (s_diw s >? 1) eqn:D1.
          -- destruct (HV ltac:(lia)) as (n' & V1 & V2 & V3). set (d := cdiv (s_diw s) 2) in *.
             destruct (to_int (s_iw s + d)) as [i'|] eqn:T2; [|discriminate]. cbn [bind] in E. injection E as <-. cbn [s_status s_iw s_diw s_acc] in *.
             apply to_int_inv in T2. subst i'. apply IH; auto; try discriminate.
             ++ exists n'. auto.
             ++ right. replace (s_iw s + d - d) with (s_iw s) by lia. exact BL.
             ++ intros _. replace (s_iw s + d + d) with (s_iw s + s_diw s) by lia. now apply U.
          -- destruct (to_int (2 * s_iw s)); discriminate.
      + assert (NB : ~ below (s_iw s)) by (rewrite EA; now apply Qltb_false).
        destruct (s_diw s >? 1) eqn:D1.
        * destruct (HV ltac:(lia)) as (n' & V1 & V2 & V3). set (d := cdiv (s_diw s) 2) in *.
          destruct (to_int (s_iw s - d)) as [i'|] eqn:T2; [|discriminate]. cbn [bind] in E. injection E as <-. cbn [s_status s_iw s_diw s_acc] in *.
          apply to_int_inv in T2. subst i'. apply IH; auto; try discriminate.
          -- exists n'. auto.
          -- replace (s_iw s - d - d) with (s_iw s - s_diw s) by lia. exact L.
          -- intros _. replace (s_iw s - d + d) with (s_iw s) by lia. exact NB.
        * destruct (to_int (2 * (s_iw s - 1))); discriminate.
  Qed.

  (** ** Termination for an error function that crosses the target *)
  Context (K : Z) (HK : 0 <= K < 2 ^ 30)
    (OK : forall k, 0 <= k -> fst (accuracy (inject_Z k * w_step)%Q) = SUCCESS)
    (LO : forall k, 1 <= k <= K -> below k) (HI : forall k, K < k -> ~ below k).

  Lemma step_eq s : s_status s = SUCCESS -> 1 <= s_iw s -> search_step accuracy w_step target s =
    if s_iw s <=? K then
      if s_acc s then
        let* diw := to_int (s_diw s * 2) in
        let* iw := to_int (s_iw s + diw) in
        Some (inl (mk_search SUCCESS iw diw (s_acc s)))
      else if s_diw s >? 1 then
        let diw := cdiv (s_diw s) 2 in
        let* iw := to_int (s_iw s + diw) in
        Some (inl (mk_search SUCCESS iw diw (s_acc s)))
      else let* r := to_int (2 * s_iw s) in Some (inr (SUCCESS, r))
    else if s_diw s >? 1 then
      let diw := cdiv (s_diw s) 2 in
      let* iw := to_int (s_iw s - diw) in
      Some (inl (mk_search SUCCESS iw diw false))
    else let* r := to_int (2 * (s_iw s - 1)) in Some (inr (SUCCESS, r)).
  Proof.
    intros St H. unfold search_step. rewrite St. cbn [failed]. specialize (OK (s_iw s) ltac:(lia)).
    destruct (s_iw s <=? K) eqn:C.
    - specialize (LO (s_iw s) ltac:(lia)). destruct (accuracy _) as [st e]. cbn [fst snd] in *. subst st. apply Qltb_iff in LO. rewrite LO. reflexivity.
    - specialize (HI (s_iw s) ltac:(lia)). destruct (accuracy _) as [st e]. cbn [fst snd] in *. subst st. apply Qltb_false in HI. rewrite HI. reflexivity.
  Qed.

  Lemma decel n : 0 <= n -> forall iw, 0 <= iw - 2 ^ n <= K -> K < iw + 2 ^ n -> iw <= 2 ^ 31 - 1 ->
    runs (mk_search SUCCESS iw (2 ^ n) false) (SUCCESS, 2 * K).
  Proof.
    intro Hn. pattern n. apply natlike_ind; [| |exact Hn].
    - intros iw A B C. change (2 ^ 0) with 1 in *. apply runs_end. rewrite step_eq by (cbn; lia || reflexivity). cbn [s_iw s_diw s_acc].
      replace (1 >? 1) with false by reflexivity. destruct (iw <=? K) eqn:E; rewrite to_int_ok by lia; cbn [bind]; do 3 f_equal; lia.
    - intros x Hx IH iw A B C. rewrite Z.pow_succ_r in * by lia. set (p := 2 ^ x) in *.
      assert (Pp : 1 <= p) by (unfold p; now apply pow2_ge1).
      assert (CD : cdiv (2 * p) 2 = p) by (unfold cdiv; rewrite Z.mul_comm; apply Z.quot_mul; lia).
      destruct (iw <=? K) eqn:E.
      + eapply runs_step.
        * rewrite step_eq by (cbn; lia || reflexivity). cbn [s_iw s_diw s_acc]. rewrite E. replace (2 * p >? 1) with true by lia. cbv zeta. rewrite CD.
          rewrite to_int_ok by lia. reflexivity.
        * apply IH; lia.
      + eapply runs_step.
        * rewrite step_eq by (cbn; lia || reflexivity). cbn [s_iw s_diw s_acc]. rewrite E. replace (2 * p >? 1) with true by lia. cbv zeta. rewrite CD.
          rewrite to_int_ok by lia. reflexivity.
        * apply IH; lia.
  Qed.

  Lemma accel m : forall n, 0 <= n -> (Z.to_nat (K + 1 - (2 ^ n - 1)) <= m)%nat -> 2 ^ n - 1 <= K ->
    runs (mk_search SUCCESS (2 * 2 ^ n - 1) (2 ^ n) true) (SUCCESS, 2 * K).
  Proof.
    induction m as [|m IH]; intros n Hn M A; [lia|].
    set (p := 2 ^ n) in *. assert (Pp : 1 <= p) by (unfold p; now apply pow2_ge1).
    destruct (2 * p - 1 <=? K) eqn:E.
    - eapply runs_step.
      + rewrite step_eq by (cbn; lia || reflexivity). cbn [s_iw s_diw s_acc]. rewrite E. rewrite (to_int_ok (p * 2)) by lia. cbn [bind].
        rewrite to_int_ok by lia. cbn [bind]. reflexivity.
      + assert (P2 : 2 ^ (n + 1) = p * 2) by (unfold p; rewrite Z.pow_add_r by lia; reflexivity).
        specialize (IH (n + 1) ltac:(lia)). rewrite P2 in IH.
        replace (2 * p - 1 + p * 2) with (2 * (p * 2) - 1) by lia. apply IH; lia.
    - destruct (Z.eq_dec n 0) as [->|N].
      + change p with 1 in *. apply runs_end. rewrite step_eq by (cbn; lia || reflexivity). cbn [s_iw s_diw s_acc]. rewrite E.
        replace (1 >? 1) with false by reflexivity. change (2 * 1 - 1) with 1. rewrite to_int_ok by lia. cbn [bind]. do 3 f_equal. lia.
      + set (q := 2 ^ (n - 1)). assert (PQ : p = 2 * q) by (unfold p, q; rewrite <- Z.pow_succ_r by lia; f_equal; lia).
        assert (CD : cdiv p 2 = q) by (unfold cdiv; rewrite PQ, Z.mul_comm; apply Z.quot_mul; lia).
        eapply runs_step.
        * rewrite step_eq by (cbn; lia || reflexivity). cbn [s_iw s_diw s_acc]. rewrite E. replace (p >? 1) with true by lia. cbv zeta. rewrite CD.
          rewrite to_int_ok by lia. reflexivity.
        * apply decel; fold q; lia.
  Qed.

  Lemma search_ok : runs (mk_search SUCCESS 1 1 true) (SUCCESS, 2 * K).
  Proof. apply (accel (Z.to_nat (K + 1)) 0); change (2 ^ 0) with 1; lia. Qed.
End Search.

(** Without a crossing there is no result. *)
Lemma no_result accuracy w_step target :
  (forall k, 0 <= k -> fst (accuracy (inject_Z k * w_step)%Q) = SUCCESS) ->
  (forall k, 1 <= k -> (snd (accuracy (inject_Z k * w_step)%Q) < target)%Q) ->
  forall r, ~ search_runs accuracy w_step target (mk_search SUCCESS 1 1 true) r.
Proof.
  intros OK LO r H. remember (mk_search SUCCESS 1 1 true) as s eqn:E.
  assert (I : s_status s = SUCCESS /\ s_acc s = true /\ 1 <= s_iw s /\ 1 <= s_diw s) by (subst s; cbn; repeat split; lia). clear E.
  induction H as [s r E|s s' r E _ IH]; destruct I as (I1 & I2 & I3 & I4).
  - unfold search_step in E. rewrite I1 in E. cbn [failed] in E. specialize (LO (s_iw s) I3). destruct (accuracy _) as [st e]. cbn [snd] in LO.
    apply Qltb_iff in LO. rewrite LO, I2 in E. destruct (to_int (s_diw s * 2)) as [d|]; [|discriminate]. cbn [bind] in E.
    destruct (to_int (s_iw s + d)); discriminate.
  - apply IH. unfold search_step in E. rewrite I1 in E. cbn [failed] in E. specialize (LO (s_iw s) I3). specialize (OK (s_iw s) ltac:(lia)).
    destruct (accuracy _) as [st e]. cbn [fst snd] in *.
    apply Qltb_iff in LO. rewrite LO, I2 in E. destruct (to_int (s_diw s * 2)) as [d|] eqn:T; [|discriminate]. cbn [bind] in E. apply to_int_inv in T.
    destruct (to_int (s_iw s + d)) as [i|] eqn:T2; [|discriminate]. cbn [bind] in E. apply to_int_inv in T2. injection E as <-. cbn. repeat split; auto; lia.
Qed.

(** ** Worst-case image *)
Lemma find_edge_spec size e0 fuel : 0 < e0 -> (Z.to_nat e0 < fuel)%nat ->
  (forall e, find_edge fuel size e0 = Some e <->
     1 <= e <= e0 /\ ~ (e | size) /\ forall d, e < d <= e0 -> (d | size)) /\
  (find_edge fuel size e0 = None <-> forall d, 1 <= d <= e0 -> (d | size)).
Proof.
  revert e0. induction fuel as [|k IH]; intros e0 H F; [lia|]. cbn [find_edge].
  replace (e0 =? 0) with false by lia.
  assert (DV : cmod size e0 =? 0 = true <-> (e0 | size)).
  { rewrite Z.eqb_eq. unfold cmod. rewrite <- Z.rem_divide by lia. tauto. }
  destruct (cmod size e0 =? 0) eqn:C.
  - assert (D : (e0 | size)) by now apply DV.
    destruct (Z.eq_dec e0 1) as [->|N].
    + assert (G : find_edge k size (1 - 1) = None) by (destruct k; reflexivity). rewrite G. split.
      * intro e. split; [discriminate|]. intros (A & B & _). exfalso. apply B. replace e with 1 by lia. exact D.
      * split; [|reflexivity]. intros _ d Hd. replace d with 1 by lia. exact D.
    + destruct (IH (e0 - 1) ltac:(lia) ltac:(lia)) as [I1 I2]. split.
      * intro e. rewrite I1. split; intros (A & B & G); (split; [|split]); auto; try lia.
        -- intros d Hd. destruct (Z.eq_dec d e0) as [->|]; [exact D|apply G; lia].
        -- assert (e <> e0) by congruence. lia.
        -- intros d Hd. apply G. lia.
      * rewrite I2. split; intros G d Hd; [|apply G; lia]. destruct (Z.eq_dec d e0) as [->|]; [exact D|apply G; lia].
  - assert (D : ~ (e0 | size)) by (intro Q; apply DV in Q; congruence). split.
    + intro e. split.
      * intros [= ->]. split; [lia|]. split; [exact D|]. intros; lia.
      * intros (A & B & G). f_equal. destruct (Z.eq_dec e e0); [auto|]. exfalso. apply D. apply G. lia.
    + split; [discriminate|]. intro G. exfalso. apply D. apply G. lia.
Qed.

Lemma trunc_pos q : (0 <= q)%Q -> trunc q = Qfloor q.
Proof. intro H. unfold trunc. apply Qle_bool_iff in H. now rewrite H. Qed.

Section Image.
  Context (theta fov : Q) (image : nd Q) (size e0 : Z).
  Context (HS : 0 < size <= 2147483647) (SI : shape image = [size; size]) (E0 : e0 = Qfloor (inject_Z size / theta * fov / 2))
    (HT : (0 < theta)%Q) (HF : (0 <= fov <= theta)%Q).

  Lemma edge_range : 0 <= e0 <= size / 2.
  Proof.
    assert (A : (0 <= inject_Z size / theta * fov / 2)%Q).
    { apply Qle_shift_div_l; [lra|]. rewrite Qmult_0_l. apply Qmult_le_0_compat; [|lra].
      apply Qle_shift_div_l; [exact HT|]. rewrite Qmult_0_l. change 0%Q with (inject_Z 0). rewrite <- Zle_Qle. lia. }
    assert (B : (inject_Z size / theta * fov / 2 <= inject_Z size / 2)%Q).
    { apply Qmult_le_compat_r; [|discriminate]. unfold Qdiv. setoid_replace (inject_Z size * / theta * fov)%Q with (inject_Z size * (fov / theta))%Q by (field; lra).
      rewrite <- (Qmult_1_r (inject_Z size)) at 2. apply Qmult_le_l; [change 0%Q with (inject_Z 0); rewrite <- Zlt_Qlt; lia|].
      apply Qle_shift_div_r; [exact HT|]. lra. }
    rewrite E0. split.
    - rewrite <- (Qfloor_Z 0). now apply Qfloor_resp_le.
    - replace (size / 2) with (Qfloor (inject_Z size / 2)); [now apply Qfloor_resp_le|].
      pose proof (Z.div_mod size 2 ltac:(lia)). pose proof (Z.mod_pos_bound size 2 ltac:(lia)).
      apply Qfloor_unique.
      + apply Qle_shift_div_l; [lra|]. change 2%Q with (inject_Z 2). rewrite <- inject_Z_mult, <- Zle_Qle. lia.
      + apply Qlt_shift_div_r; [lra|]. change 2%Q with (inject_Z 2). rewrite <- inject_Z_mult, <- Zlt_Qlt. lia.
  Qed.

  Lemma wci_step : worst_case_image SUCCESS true theta fov image =
    let* e := find_edge (Z.to_nat (Z.abs e0 + Z.abs size + 2)) size e0 in
    let z := mk_nd [size; size] (fun _ => 0%Q) in
    let h := size / 2 in
    let* image := wr z [h + e; h + e] (3 # 10) in
    let* image := wr image [h - e; h - e] (2 # 10) in
    let* image := wr image [h + e; h - e - 1] (3 # 10) in
    let* image := wr image [h - e - 1; h + e] (2 # 10) in
    Some (SUCCESS, image).
  Proof.
    unfold worst_case_image, dim. cbn [failed]. rewrite SI. cbn [length nth Nat.eqb negb orb]. rewrite Z.eqb_refl. cbn [negb].
    pose proof edge_range as R.
    rewrite trunc_pos.
    2:{ apply Qle_shift_div_l; [lra|]. rewrite Qmult_0_l. apply Qmult_le_0_compat; [|lra].
      apply Qle_shift_div_l; [exact HT|]. rewrite Qmult_0_l. change 0%Q with (inject_Z 0). rewrite <- Zle_Qle. lia. }
    rewrite <- E0. rewrite to_int_ok by (pose proof (Z.div_mod size 2 ltac:(lia)); pose proof (Z.mod_pos_bound size 2 ltac:(lia)); lia).
    cbn [bind]. replace (cdiv size 2) with (size / 2) by (symmetry; apply Z.quot_div_nonneg; lia). reflexivity.
  Qed.

  Lemma wci_divides : (forall d, 1 <= d <= e0 -> (d | size)) -> worst_case_image SUCCESS true theta fov image = None.
  Proof.
    intro D. rewrite wci_step. pose proof edge_range. destruct (Z.eq_dec e0 0) as [Z0|N].
    - rewrite Z0. destruct (Z.to_nat (Z.abs 0 + Z.abs size + 2)); reflexivity.
    - destruct (find_edge_spec size e0 (Z.to_nat (Z.abs e0 + Z.abs size + 2)) ltac:(lia) ltac:(lia)) as [_ F].
      apply F in D. rewrite D. reflexivity.
  Qed.

  Lemma wci_ok d : 1 <= d <= e0 -> ~ (d | size) -> (size mod 2 = 0 \/ e0 < size / 2) ->
    exists e im, worst_case_image SUCCESS true theta fov image = Some (SUCCESS, im) /\ shape im = [size; size] /\
      d <= e <= e0 /\ ~ (e | size) /\ (forall d', e < d' <= e0 -> (d' | size)) /\
      forall i j, elem im [i; j] =
        let h := size / 2 in
        if (i =? h + e) && (j =? h + e) then 3 # 10 else
        if (i =? h - e) && (j =? h - e) then 2 # 10 else
        if (i =? h + e) && (j =? h - e - 1) then 3 # 10 else
        if (i =? h - e - 1) && (j =? h + e) then 2 # 10 else 0%Q.
  Proof.
    intros Hd Nd EV. rewrite wci_step. pose proof edge_range as R.
    destruct (find_edge_spec size e0 (Z.to_nat (Z.abs e0 + Z.abs size + 2)) ltac:(lia) ltac:(lia)) as [F1 F2].
    destruct (find_edge _ size e0) as [e|]; [|exfalso; apply Nd; apply F2; auto].
    destruct (proj1 (F1 e) eq_refl) as (G1 & G2 & G3). cbn [bind]. cbv zeta.
    pose proof (Z.div_mod size 2 ltac:(lia)) as DM. pose proof (Z.mod_pos_bound size 2 ltac:(lia)).
    assert (e < size / 2).
    { destruct EV as [EV|]; [|lia]. destruct (Z.eq_dec e (size / 2)) as [Q|]; [|lia]. exfalso. apply G2. exists 2. lia. }
    assert (DE : d <= e) by (destruct (Z.le_gt_cases d e); [auto|]; exfalso; apply Nd; apply G3; lia).
    set (h := size / 2) in *. clearbody h.
    rewrite wr_some by (apply in_shape_2; cbn; lia). cbn [bind].
    rewrite wr_some by (apply in_shape_2; cbn; lia). cbn [bind].
    rewrite wr_some by (apply in_shape_2; cbn; lia). cbn [bind].
    rewrite wr_some by (apply in_shape_2; cbn; lia). cbn [bind].
    exists e. eexists. split; [reflexivity|]. split; [reflexivity|]. split; [lia|]. split; [exact G2|]. split; [exact G3|].
    intros i j. unfold upd. cbn [elem shape idx_eqb].
    repeat match goal with |- context [(?a =? ?b)] => destruct (a =? b) eqn:?; cbn [andb] end; try reflexivity; lia.
  Qed.
End Image.
