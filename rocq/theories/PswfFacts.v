(** Facts about the PSWF model. *)
From Verif Require Import Base BaseFacts Clamp QNum WHeight WHeightFacts Pswf.
From Coq Require Import QArith.Qpower Lqa Lia.
Open Scope Z_scope.

(** A loop with an invariant that does not depend on the counter. *)
Lemma for_tot {S} (P : S -> Prop) lo hi (f : Z -> S -> option S) s :
  P s -> (forall i s, lo <= i < hi -> P s -> exists s', f i s = Some s' /\ P s') ->
  exists s', for_ lo hi f s = Some s' /\ P s'.
Proof.
  intros H0 Hs. destruct (Z.le_gt_cases lo hi) as [H|H].
  - destruct (for_inv (fun _ => P) lo hi f s) as (s' & E & HP); eauto.
  - exists s. split; [apply for_empty; lia|exact H0].
Qed.

Section Arith.
Context {A : arith}.

(** Array of 200 elements of which those in P are initialised *)
Definition I (P : Z -> Prop) (a : nd (option A)) : Prop :=
  shape a = [200] /\ forall i, P i -> elem a [i] <> None.

Lemma I_sub (P P' : Z -> Prop) a : I P a -> (forall i, P' i -> P i) -> I P' a.
Proof. intros [S H] L. split; auto. Qed.

Lemma ird_ok P a i : I P a -> P i -> 0 <= i < 200 -> exists v, ird a [i] = Some v.
Proof.
  intros [S H] Hi R. unfold ird. rewrite rd_some by (rewrite S; apply in_shape_1; lia). cbn [bind].
  specialize (H i Hi). destruct (elem a [i]) as [v|]; [eauto|congruence].
Qed.

Lemma iwr_ok P a i v : I P a -> 0 <= i < 200 -> exists a', iwr a [i] v = Some a' /\ I (fun j => P j \/ j = i) a'.
Proof.
  intros [S H] R. unfold iwr. rewrite wr_some by (rewrite S; apply in_shape_1; lia). eexists. split; [reflexivity|].
  split; [exact S|]. intros j Hj. destruct (Z.eq_dec j i) as [->|N]; [rewrite elem_upd_same; discriminate|].
  rewrite elem_upd_other by congruence. apply H. tauto.
Qed.

Lemma iwr_keep P a i v : I P a -> 0 <= i < 200 -> exists a', iwr a [i] v = Some a' /\ I P a'.
Proof. intros H R. destruct (iwr_ok P a i v H R) as (a' & E & H'). exists a'. split; [exact E|]. eapply I_sub; [exact H'|cbn beta; auto]. Qed.

Lemma rescale_ok P a lo hi s : I P a -> (forall i, lo <= i <= hi -> P (i - 1) /\ 0 <= i - 1 < 200) ->
  exists a', rescale a lo hi s = Some a' /\ I P a'.
Proof.
  intros H R. unfold rescale. apply for_tot; [exact H|]. intros i b Hi Hb. destruct (R i ltac:(lia)) as [Pi Ri].
  destruct (ird_ok P b (i - 1) Hb Pi Ri) as (v & ->). cbn [bind]. now apply iwr_keep.
Qed.

Lemma tables_ok m n nm cs a d g : 0 <= nm <= 198 ->
  I (fun _ => False) a -> I (fun _ => False) d -> I (fun _ => False) g ->
  exists a' d' g', sdmn_tables m n nm cs (a, d, g) = Some (a', d', g') /\
    I (fun i => 0 <= i < nm + 2) a' /\ I (fun i => 0 <= i < nm + 2) d' /\ I (fun i => 0 <= i < nm + 2) g'.
Proof.
  intros R Ha Hd Hg. unfold sdmn_tables. cbv zeta.
  match goal with |- context [for_ 1 (nm + 2 + 1) ?b (a, d, g)] =>
    destruct (for_inv (fun i st => let '(a, d, g) := st in let P := fun j => 0 <= j < i - 1 in I P a /\ I P d /\ I P g)
      1 (nm + 2 + 1) b (a, d, g)) as ([[a' d'] g'] & E & B1 & B2 & B3) end.
  - lia.
  - cbv zeta. repeat split; try apply Ha; try apply Hd; try apply Hg; lia.
  - intros i [[a1 d1] g1] Hi (B1 & B2 & B3). set (k := if (if n - m =? cdiv (n - m) 2 * 2 then 0 else 1) =? 0 then (i - 1) * 2 else i * 2 - 1).
    clearbody k. cbv beta iota.
    match goal with |- context [iwr a1 _ ?v] => destruct (iwr_ok _ a1 (i - 1) v B1 ltac:(lia)) as (a2 & -> & B1') end. cbn [bind].
    match goal with |- context [iwr d1 _ ?v] => destruct (iwr_ok _ d1 (i - 1) v B2 ltac:(lia)) as (d2 & -> & B2') end. cbn [bind].
    match goal with |- context [iwr g1 _ ?v] => destruct (iwr_ok _ g1 (i - 1) v B3 ltac:(lia)) as (g2 & -> & B3') end. cbn [bind].
    eexists. split; [reflexivity|]. cbv zeta. split; [|split]; (eapply I_sub; [eassumption|cbn beta; lia]).
  - exists a', d', g'. rewrite E. split; [reflexivity|]. cbv zeta in *. split; [|split]; (eapply I_sub; [eassumption|cbn beta; lia]).
Qed.

(** Before step k: elements k..nm are initialised; after the end: all, and kb is in range. *)
Definition B (nm k : Z) (st : sdmn_state) : Prop :=
  if sd_done st then I (fun i => 0 <= i <= nm) (sd_df st) /\ 0 <= sd_kb st <= nm
  else I (fun i => k <= i <= nm) (sd_df st) /\ sd_kb st = 0.

Lemma back_ok nm cv a d g k st : 0 <= nm <= 198 -> 1 <= k <= nm ->
  I (fun i => 0 <= i < nm + 2) a -> I (fun i => 0 <= i < nm + 2) d -> I (fun i => 0 <= i < nm + 2) g ->
  B nm k st -> exists st', sdmn_back nm cv a d g k st = Some st' /\ B nm (k - 1) st'.
Proof.
  intros R K Ha Hd Hg HB. unfold sdmn_back, B in *. destruct (sd_done st) eqn:D; [exists st; rewrite D; auto|].
  destruct HB as [HB KB].
  destruct (ird_ok _ d k Hd ltac:(cbn beta; lia) ltac:(lia)) as (dk & ->).
  destruct (ird_ok _ a k Ha ltac:(cbn beta; lia) ltac:(lia)) as (ak & ->).
  destruct (ird_ok _ g k Hg ltac:(cbn beta; lia) ltac:(lia)) as (gk & ->).
  destruct (ird_ok _ _ k HB ltac:(cbn beta; lia) ltac:(lia)) as (dfk & ->). cbn [bind].
  set (f := (- ((dk - cv) * sd_f0 st + ak * sd_f1 st) / gk)%fp). clearbody f.
  destruct (flt (fabs dfk) (fabs f)).
  - destruct (iwr_ok _ _ (k - 1) f HB ltac:(lia)) as (df & -> & H1). cbn [bind].
    assert (H2 : I (fun i => k - 1 <= i <= nm) df) by (eapply I_sub; [exact H1|cbn beta; lia]).
    destruct (flt e100 (fabs f)).
    + destruct (rescale_ok _ df k nm em100 H2) as (df' & -> & H3); [cbn beta; intros; lia|]. cbn [bind].
      eexists. split; [reflexivity|]. cbn. auto.
    + eexists. split; [reflexivity|]. cbn. auto.
  - destruct (ird_ok _ d 0 Hd ltac:(cbn beta; lia) ltac:(lia)) as (d0 & ->).
    destruct (ird_ok _ a 0 Ha ltac:(cbn beta; lia) ltac:(lia)) as (a0 & ->). cbn [bind].
    destruct (iwr_ok _ _ 0 em100 HB ltac:(lia)) as (df & -> & H1). cbn [bind].
    destruct (Z.eqb_spec k 1) as [->|K1].
    { eexists. split; [reflexivity|]. cbn. split; [eapply I_sub; [exact H1|cbn beta; lia]|lia]. }
    match goal with |- context [iwr df [1] ?v] => destruct (iwr_ok _ df 1 v H1 ltac:(lia)) as (df1 & -> & H2) end. cbn [bind].
    destruct (Z.eqb_spec k 2) as [->|K2].
    { destruct (ird_ok _ d 1 Hd ltac:(cbn beta; lia) ltac:(lia)) as (x1 & ->).
      destruct (ird_ok _ g 1 Hg ltac:(cbn beta; lia) ltac:(lia)) as (x2 & ->).
      destruct (ird_ok _ a 1 Ha ltac:(cbn beta; lia) ltac:(lia)) as (x3 & ->). cbn [bind].
      eexists. split; [reflexivity|]. cbn. split; [eapply I_sub; [exact H2|cbn beta; lia]|lia]. }
    match goal with |- context [for_ 3 (k + 1 + 1) ?b ?s] =>
      destruct (for_inv (fun j (q : nd (option A) * A * A * A) => I (fun i => 0 <= i < j - 1 \/ k <= i <= nm) (fst (fst (fst q)))) 3 (k + 1 + 1) b s) as ([[[df2 f2] f3] f4] & E & H3) end.
    + lia.
    + cbn. eapply I_sub; [exact H2|cbn beta; lia].
    + intros j [[[df2 y1] y2] y3] Hj H3. cbn [fst] in H3.
      destruct (ird_ok _ d (j - 2) Hd ltac:(cbn beta; lia) ltac:(lia)) as (x1 & ->).
      destruct (ird_ok _ g (j - 2) Hg ltac:(cbn beta; lia) ltac:(lia)) as (x2 & ->).
      destruct (ird_ok _ a (j - 2) Ha ltac:(cbn beta; lia) ltac:(lia)) as (x3 & ->). cbn [bind].
      set (fj := (- ((x1 - cv) * y3 + x2 * y2) / x3)%fp). clearbody fj.
      assert (W : exists df3, (if j <=? k then iwr df2 [j - 1] fj else Some df2) = Some df3 /\ I (fun i => 0 <= i < j + 1 - 1 \/ k <= i <= nm) df3).
      { destruct (Z.leb_spec j k).
        - destruct (iwr_ok _ df2 (j - 1) fj H3 ltac:(lia)) as (df3 & -> & H4). exists df3. split; [reflexivity|].
          eapply I_sub; [exact H4|cbn beta; lia].
        - exists df2. split; [reflexivity|]. eapply I_sub; [exact H3|cbn beta; lia]. }
      destruct W as (df3 & -> & H4). cbn [bind]. destruct (flt e100 (fabs fj)).
      * destruct (rescale_ok _ df3 1 j em100 H4) as (df4 & -> & H5); [cbn beta; intros; lia|]. cbn [bind].
        eexists. split; [reflexivity|]. exact H5.
      * cbn [bind]. eexists. split; [reflexivity|]. exact H4.
    + rewrite E. cbn [bind]. eexists. split; [reflexivity|]. cbn. cbn [fst] in H3. split; [eapply I_sub; [exact H3|cbn beta; lia]|lia].
Qed.

Lemma for_scalar {T} lo hi (f : Z -> T -> T) s : exists s', for_ lo hi (fun i s => Some (f i s)) s = Some s'.
Proof. destruct (for_tot (fun _ => True) lo hi (fun i s => Some (f i s)) s) as (s' & E & _); eauto. Qed.

Lemma sdmn_ok m c (cv : A) kd df a d g : (em10 <= c)%Q -> (c < 174)%Q ->
  I (fun _ => False) df -> I (fun _ => False) a -> I (fun _ => False) d -> I (fun _ => False) g ->
  let nm := trunc (inject_Z (m - m) * (1 # 2) + c) + 25 in
  0 <= nm <= 198 /\ exists df', sdmn m m c cv kd df a d g = Some df' /\ I (fun i => 0 <= i <= nm) df'.
Proof.
  intros C1 C2 Hdf Ha Hd Hg nm.
  assert (R : 0 <= nm <= 198).
  { unfold nm. assert (E : (inject_Z (m - m) * (1 # 2) + c == c)%Q) by (rewrite Z.sub_diag; change (inject_Z 0) with 0%Q; ring).
    assert (0 <= c)%Q by (apply Qle_trans with em10; [discriminate|exact C1]).
    rewrite trunc_pos by (rewrite E; auto). rewrite E.
    assert (0 <= Qfloor c) by (rewrite <- (Qfloor_Z 0); apply Qfloor_resp_le; auto).
    assert (Qfloor c < 174) by (rewrite Zlt_Qlt; apply Qle_lt_trans with c; [apply Qfloor_le|auto]). lia. }
  split; [exact R|]. unfold sdmn. fold nm.
  replace (Qltb c em10) with false by (symmetry; apply Qltb_false; apply Qle_not_lt; exact C1). cbv zeta.
  destruct (tables_ok m m nm (fq c * fq c * fz kd)%fp a d g R Ha Hd Hg) as (a' & d' & g' & -> & Ha' & Hd' & Hg'). cbn [bind].
  destruct (iwr_ok _ df nm (fz 0) Hdf ltac:(lia)) as (df1 & -> & H1). cbn [bind].
  match goal with |- context [for_ 0 nm ?b ?s] => destruct (for_inv (fun t => B nm (nm - t)) 0 nm b s) as (st & -> & HB) end.
  - lia.
  - unfold B. cbn. split; [eapply I_sub; [exact H1|cbn beta; lia]|reflexivity].
  - intros t s Ht HB. destruct (back_ok nm cv a' d' g' (nm - t) s R ltac:(lia) Ha' Hd' Hg' HB) as (s' & -> & HB').
    exists s'. split; [reflexivity|]. now replace (nm - (t + 1)) with (nm - t - 1) by lia.
  - cbn [bind].
    assert (HI : I (fun i => 0 <= i <= nm) (sd_df st) /\ 0 <= sd_kb st <= nm).
    { unfold B in HB. destruct (sd_done st); [exact HB|]. destruct HB as [HB K]. rewrite K. split; [eapply I_sub; [exact HB|cbn beta; lia]|lia]. }
    destruct HI as [HI HK]. revert HI HK. generalize (sd_df st) as D, (sd_kb st) as kb, (sd_fl st) as fl, (sd_fs st) as fs. intros D kb fl fs HI HK.
    generalize (if m - m =? cdiv (m - m) 2 * 2 then 0 else 1). intro ip.
    destruct (for_scalar (m + ip + 1) ((m + ip) * 2 + 1) (fun j (r1 : A) => (r1 * fz j)%fp) (fz 1)) as (r1 & ->). cbn [bind].
    destruct (ird_ok _ D 0 HI ltac:(cbn beta; lia) ltac:(lia)) as (df0 & ->). cbn [bind].
    match goal with |- context [for_ 2 (kb + 1) ?b ?s] => destruct (for_tot (fun _ => True) 2 (kb + 1) b s) as ([r1' su1] & -> & _) end; [exact Logic.I| |].
    { intros i s Hi _. destruct (ird_ok _ D (i - 1) HI ltac:(cbn beta; lia) ltac:(lia)) as (x & ->). cbn [bind]. eauto. }
    cbn [bind].
    match goal with |- context [for_ (kb + 1) (nm + 1) ?b (?p, false)] => destruct (for_tot (fun _ => True) (kb + 1) (nm + 1) b (p, false)) as ([[[r2 su2] sw] stop] & -> & _) end; [exact Logic.I| |].
    { intros i [[[r2 su2] sw] stop] Hi _. destruct stop; [eauto|]. destruct (ird_ok _ D (i - 1) HI ltac:(cbn beta; lia) ltac:(lia)) as (x & ->). cbn [bind].
      match goal with |- context [if flt ?x ?y then _ else _] => destruct (flt x y) end; eauto. }
    cbn [bind].
    destruct (for_scalar 1 (cdiv (m + m + ip) 2 + 1) (fun j (r3 : A) => (r3 * (fz j + fz (m + m + ip) * fq (1 # 2)))%fp) (fz 1)) as (r3 & ->). cbn [bind].
    destruct (for_scalar 1 (cdiv (m - m - ip) 2 + 1) (fun j (r4 : A) => (r4 * fz (-4) * fz j)%fp) (fz 1)) as (r4 & ->). cbn [bind].
    match goal with |- context [for_ 1 (kb + 1) ?b D] => destruct (for_tot (I (fun i => 0 <= i <= nm)) 1 (kb + 1) b D HI) as (D1 & -> & HI1) end.
    { intros i s Hi HI1. destruct (ird_ok _ s (i - 1) HI1 ltac:(cbn beta; lia) ltac:(lia)) as (x & ->). cbn [bind]. apply iwr_keep; [auto|lia]. }
    cbn [bind]. apply for_tot; [exact HI1|].
    intros i s Hi HI2. destruct (ird_ok _ s (i - 1) HI2 ltac:(cbn beta; lia) ltac:(lia)) as (x & ->). cbn [bind]. apply iwr_keep; [auto|lia].
Qed.

Lemma sckb_ok m c (df : nd (option A)) (ck : nd A) nm : (em10 <= c)%Q -> nm = trunc (inject_Z (m - m) * (1 # 2) + c) + 25 -> 0 <= nm <= 198 ->
  I (fun i => 0 <= i <= nm) df -> shape ck = [200] -> exists ck', sckb m m c df ck = Some ck' /\ shape ck' = [200].
Proof.
  intros C1 E R H S. unfold sckb.
  replace (trunc (inject_Z (m - m) * (1 # 2) + (if Qle_bool c em10 then em10 else c)) + 25) with nm.
  2:{ rewrite E. do 1 f_equal. destruct (Qle_bool c em10) eqn:L; [|reflexivity]. apply Qle_bool_iff in L.
      rewrite Z.sub_diag. assert (C3 : (c == em10)%Q) by (apply Qle_antisym; auto).
      assert (EE : forall x y, (x == y)%Q -> (0 <= y)%Q -> trunc x = trunc y).
      { intros x y X Y. rewrite !trunc_pos by (rewrite ?X; exact Y). now rewrite X. }
      apply EE; [rewrite C3; reflexivity|]. discriminate. }
  cbv zeta. generalize (if m - m =? cdiv (m - m) 2 * 2 then 0 else 1). intro ip.
  generalize (if m + nm >? 80 then fq (1 # (10 ^ 200)%positive) else @fz A 1). intro reg.
  match goal with |- context [for_ 0 nm ?b (?p, ck)] => destruct (for_tot (fun st => shape (snd st) = [200]) 0 nm b (p, ck)) as ([[fac sw] ck'] & -> & S') end.
  - exact S.
  - intros k [[fac sw] ck1] Hk S1. cbn [snd] in S1.
    match goal with |- context [for_ (k * 2 + ip + 1) ?h (fun i r => Some (?f i r)) reg] => idtac end || idtac.
    destruct (for_scalar (k * 2 + ip + 1) (k * 2 + ip + 1 + m * 2 - 1 + 1) (fun i (r : A) => (r * fz i)%fp) reg) as (r & ->). cbn [bind].
    destruct (for_scalar (k + m + ip) (k + m + ip + k - 1 + 1) (fun i (r : A) => (r * (fz i + fq (1 # 2)))%fp) r) as (r' & ->). cbn [bind].
    destruct (ird_ok _ df k H ltac:(cbn beta; lia) ltac:(lia)) as (x & ->). cbn [bind].
    match goal with |- context [for_ (k + 1) (nm + 1) ?b (?p, false)] => destruct (for_tot (fun _ => True) (k + 1) (nm + 1) b (p, false)) as ([[[r2 sum] sw2] stop] & -> & _) end; [exact Logic.I| |].
    { intros i [[[r2 su2] sw2] stop] Hi _. destruct stop; [eauto|]. destruct (ird_ok _ df i H ltac:(cbn beta; lia) ltac:(lia)) as (y & ->). cbn [bind].
      match goal with |- context [if flt ?x ?y then _ else _] => destruct (flt x y) end; eauto. }
    cbn [bind].
    destruct (for_scalar 2 (m + k + 1) (fun i (r1 : A) => (r1 * fz i)%fp) reg) as (r1 & ->). cbn [bind].
    rewrite wr_some by (rewrite S1; apply in_shape_1; lia). cbn [bind]. eexists. split; [reflexivity|]. exact S1.
  - cbn [bind]. exists ck'. auto.
Qed.

Lemma aswfa_ok m c (ck : nd A) x : (0 <= c)%Q -> (c < 364)%Q -> shape ck = [200] -> exists v, aswfa m m c ck x = Some v.
Proof.
  intros C1 C2 S. unfold aswfa.
  assert (E : 0 <= cdiv (trunc (inject_Z (cdiv (m - m) 2) + c) + 40) 2 - 2 < 200).
  { rewrite Z.sub_diag. change (cdiv 0 2) with 0. assert (E : (inject_Z 0 + c == c)%Q) by (change (inject_Z 0) with 0%Q; ring).
    rewrite trunc_pos by (rewrite E; exact C1). rewrite E.
    assert (0 <= Qfloor c) by (rewrite <- (Qfloor_Z 0); apply Qfloor_resp_le; auto).
    assert (Qfloor c < 364) by (rewrite Zlt_Qlt; apply Qle_lt_trans with c; [apply Qfloor_le|auto]).
    unfold cdiv. Z.to_euclidean_division_equations. lia. }
  revert E. generalize (cdiv (trunc (inject_Z (cdiv (m - m) 2) + c) + 40) 2 - 2). intros nm2 E. cbv zeta.
  rewrite rd_some by (rewrite S; apply in_shape_1; lia). cbn [bind].
  match goal with |- context [for_ 1 (nm2 + 1) ?b (?p, false)] => destruct (for_tot (fun _ => True) 1 (nm2 + 1) b (p, false)) as ([[su x1p] stop] & -> & _) end; [exact Logic.I| |].
  { intros i [[su x1p] stop] Hi _. destruct stop; [eauto|]. rewrite rd_some by (rewrite S; apply in_shape_1; lia). cbn [bind].
    match goal with |- context [if ?b then _ else _] => destruct b end; eauto. }
  cbn [bind]. eauto.
Qed.

Lemma create_ok m c (cv : A) df a d g ck : (em10 <= c)%Q -> (c < 174)%Q ->
  shape df = [200] -> shape a = [200] -> shape d = [200] -> shape g = [200] -> shape ck = [200] ->
  exists ck', pswf_create m c cv df a d g ck = Some ck' /\ shape ck' = [200].
Proof.
  intros C1 C2 S1 S2 S3 S4 S5. unfold pswf_create.
  assert (F0 : forall x : nd (option A), shape x = [200] -> I (fun _ => False) x) by (intros; split; [auto|tauto]).
  destruct (sdmn_ok m c cv 1 df a d g C1 C2) as (R & df' & -> & H); auto. cbn [bind].
  eapply sckb_ok; eauto.
Qed.
End Arith.

(** Tabulation *)
Lemma generate_ok {A} (zero small : A) ev ec (t : nd A) size : shape t = [size] -> size mod 2 = 0 -> 2 <= size ->
  (forall i, 0 <= i < size / 2 -> exists v, ev (2 * inject_Z i / inject_Z size)%Q = Some v) -> (exists v, ev 0%Q = Some v) ->
  exists t', generate zero small ev ec t = Some t' /\ shape t' = [size] /\
    elem t' [0] = (if ec then small else zero) /\ ev 0%Q = Some (elem t' [size / 2]) /\
    forall i, 1 <= i < size / 2 -> ev (2 * inject_Z i / inject_Z size)%Q = Some (elem t' [size / 2 + i]) /\
      ev (2 * inject_Z i / inject_Z size)%Q = Some (elem t' [size / 2 - i]).
Proof.
  intros S Ev Hs V (v0 & V0). unfold generate, dim. rewrite S. cbn [nth].
  assert (D : cdiv size 2 = size / 2) by (unfold cdiv; apply Z.quot_div_nonneg; lia). rewrite D.
  assert (M : cmod size 2 = 0) by (unfold cmod; rewrite Z.rem_mod_nonneg by lia; exact Ev). rewrite M, V0.
  assert (H2 : 2 * (size / 2) = size) by (rewrite (Z.div_mod size 2) at 2 by lia; lia).
  set (h := size / 2) in *. clearbody h.
  assert (Hi : forall (x : nd A) i, shape x = [size] -> 0 <= i < size -> in_shape (shape x) [i] = true) by (intros x i -> R; apply in_shape_1; lia).
  change (Z.to_nat 0) with 0%nat. cbn [nth].
  rewrite wr_some by (apply Hi; [auto|lia]). cbn [bind]. rewrite wr_some by (apply Hi; [auto|lia]). cbn [bind].
  match goal with |- context [for_ 1 h ?b ?s] => destruct (for_inv (fun j (x : nd A) => shape x = [size] /\ elem x [0] = zero /\ elem x [h] = v0 /\
    forall i, 1 <= i < j -> ev (2 * inject_Z i / inject_Z size)%Q = Some (elem x [h + i]) /\
      ev (2 * inject_Z i / inject_Z size)%Q = Some (elem x [h - i])) 1 h b s) as (t' & -> & S' & Z0 & Zh & VV) end.
  - lia.
  - split; [exact S|]. split; [rewrite elem_upd_other by (intro X; injection X; lia); apply elem_upd_same|]. split; [apply elem_upd_same|lia].
  - intros i x R (S' & Z0 & Zh & VV). destruct (V i ltac:(lia)) as (v & Vi). rewrite Vi. cbn [bind].
    rewrite wr_some by (apply Hi; [auto|lia]). cbn [bind]. rewrite wr_some by (apply Hi; [auto|lia]).
    eexists. split; [reflexivity|]. split; [exact S'|].
    split; [rewrite !elem_upd_other by (intro X; injection X; lia); exact Z0|].
    split; [rewrite !elem_upd_other by (intro X; injection X; lia); exact Zh|].
    intros i' R'. destruct (Z.eq_dec i' i) as [->|N].
    + rewrite elem_upd_other by (intro X; injection X; lia). rewrite !elem_upd_same. auto.
    + rewrite !elem_upd_other by (intro X; injection X; lia). apply VV. lia.
  - cbn [bind]. rewrite Z.eqb_refl, Bool.andb_true_r. destruct ec.
    + rewrite wr_some by (apply Hi; [auto|lia]). eexists. split; [reflexivity|]. split; [exact S'|]. split; [apply elem_upd_same|].
      rewrite elem_upd_other by (intro X; injection X; lia). split; [now rewrite Zh|].
      intros i R. rewrite !elem_upd_other by (intro X; injection X; lia). now apply VV.
    + eexists. split; [reflexivity|]. rewrite Zh. auto.
Qed.

(** cipow *)
Lemma cipow_loop_ok {pw} fuel : forall (r b : Q) e, 0 <= e -> e < 2 ^ Z.of_nat fuel ->
  (@cipow_loop (exact pw) fuel r b e == r * b ^ e)%Q.
Proof.
  induction fuel as [|k IH]; intros r b e E0 E1.
  - change (2 ^ Z.of_nat 0) with 1 in E1. assert (e = 0) by lia. subst e. cbn [cipow_loop]. change (b ^ 0)%Q with 1%Q. symmetry. apply Qmult_1_r.
  - cbn [cipow_loop]. destruct (Z.eqb_spec e 0) as [->|N]; [change (b ^ 0)%Q with 1%Q; symmetry; apply Qmult_1_r|].
    rewrite Nat2Z.inj_succ, Z.pow_succ_r in E1 by lia.
    assert (SR : Z.shiftr e 1 = e / 2) by (rewrite Z.shiftr_div_pow2 by lia; reflexivity).
    rewrite IH; [|rewrite SR; apply Z.div_pos; lia|rewrite SR; apply Z.div_lt_upper_bound; lia].
    rewrite SR. cbn [fmul exact].
    set (r' := if Z.odd e then _ else _).
    assert (R' : (r' == r * (if Z.odd e then b else 1))%Q) by (unfold r'; destruct (Z.odd e); [apply Qred_correct|symmetry; apply Qmult_1_r]).
    clearbody r'. change (F (exact pw)) with Q in r'.
    assert (P : forall x : Q, (x ^ e == (if Z.odd e then x else 1) * (x * x) ^ (e / 2))%Q).
    { intro x. rewrite (Z.div_mod e 2) at 1 by lia. rewrite Zmod_odd.
      assert (0 <= e / 2) by (apply Z.div_pos; lia). revert H. generalize (e / 2). intros q Hq.
      assert (PP : ((x ^ (2 * q)) == (x * x) ^ q)%Q).
      { rewrite Qpower_mult. change (x ^ 2)%Q with (x * x)%Q. reflexivity. }
      destruct (Z.odd e); [|rewrite Z.add_0_r, PP; ring].
      destruct (Qeq_dec x 0) as [X|X].
      - rewrite X. rewrite Qpower_0 by lia. ring.
      - rewrite Qpower_plus by exact X. rewrite PP. change (x ^ 1)%Q with x. ring. }
    rewrite (P b), R', (Qred_correct (b * b)). ring.
Qed.

Lemma cipow_ok pw b e : 0 <= e -> (@cipow (exact pw) b e == b ^ e)%Q.
Proof.
  intro E. unfold cipow. destruct (Z.eqb_spec e 1) as [->|N]; [change (b ^ 1)%Q with b; reflexivity|].
  rewrite cipow_loop_ok; [change (@fz (exact pw) 1) with 1%Q; apply Qmult_1_l|exact E|].
  rewrite Z2Nat.id by (pose proof (Z.log2_nonneg e); lia). destruct (Z.eq_dec e 0) as [->|]; [reflexivity|].
  rewrite Z.add_1_r. apply Z.log2_spec. lia.
Qed.

Lemma generate_odd {A} (zero small : A) ev ec (t t' : nd A) size : shape t = [size] -> size mod 2 = 1 -> 3 <= size ->
  generate zero small ev ec t = Some t' -> elem t' [size - 1] = elem t [size - 1] /\ elem t' [0] = zero.
Proof.
  intros S Od Hs. unfold generate, dim. rewrite S. change (Z.to_nat 0) with 0%nat. cbn [nth].
  assert (D : cdiv size 2 = size / 2) by (unfold cdiv; apply Z.quot_div_nonneg; lia). rewrite D.
  assert (M : cmod size 2 = 1) by (unfold cmod; rewrite Z.rem_mod_nonneg by lia; exact Od). rewrite M.
  assert (H2 : 2 * (size / 2) + 1 = size) by (rewrite (Z.div_mod size 2) at 2 by lia; lia).
  set (h := size / 2) in *. clearbody h. change (1 =? 0) with false. rewrite Bool.andb_false_r.
  destruct (wr t [0] zero) as [t1|] eqn:W1; [|discriminate]. cbn [bind]. apply wr_inv in W1. destruct W1 as [_ ->].
  destruct (ev 0%Q) as [v0|]; [|discriminate]. cbn [bind].
  destruct (wr (upd t [0] zero) [h] v0) as [t2|] eqn:W2; [|discriminate]. cbn [bind]. apply wr_inv in W2. destruct W2 as [_ ->].
  match goal with |- context [for_ 1 h ?b ?s] => destruct (for_ 1 h b s) as [t3|] eqn:E; [|discriminate] end.
  cbn [bind]. intro X. injection X as <-.
  refine (for_inv_partial (fun i x => elem x [size - 1] = elem t [size - 1] /\ elem x [0] = zero) 1 h _ _ _ _ _ _ E).
  - lia.
  - split; [rewrite !elem_upd_other by (intro X; injection X; lia); reflexivity|].
    rewrite elem_upd_other by (intro X; injection X; lia). apply elem_upd_same.
  - intros i x x' R (E1 & E2) F. cbn beta in F. destruct (ev _) as [v|]; [|discriminate]. cbn [bind] in F.
    destruct (wr x [h + i] v) as [y|] eqn:W1; [|discriminate]. cbn [bind] in F. apply wr_inv in W1. destruct W1 as [_ ->].
    apply wr_inv in F. destruct F as [_ ->]. rewrite !elem_upd_other by (intro X; injection X; lia). auto.
Qed.

Lemma create_overflow {A : arith} m c (cv : A) df a d g ck : (174 <= c)%Q -> shape a = [200] ->
  pswf_create m c cv df a d g ck = None.
Proof.
  intros C S. unfold pswf_create, sdmn.
  assert (C0 : (0 <= c)%Q) by lra.
  assert (E : (inject_Z (m - m) * (1 # 2) + c == c)%Q) by (rewrite Z.sub_diag; change (inject_Z 0) with 0%Q; ring).
  replace (Qltb c em10) with false.
  2:{ symmetry. apply Qltb_false. apply Qle_not_lt. apply Qle_trans with 174%Q; [discriminate|exact C]. }
  assert (R : 199 <= trunc (inject_Z (m - m) * (1 # 2) + c) + 25).
  { rewrite trunc_pos by (rewrite E; auto). rewrite E.
    assert (174 <= Qfloor c) by (rewrite <- (Qfloor_Z 174); apply Qfloor_resp_le; exact C). lia. }
  revert R. generalize (trunc (inject_Z (m - m) * (1 # 2) + c) + 25). intros nm R. cbv zeta.
  unfold sdmn_tables. cbv zeta.
  match goal with |- context [for_ 1 ?h ?b ?s] => destruct (for_ 1 h b s) as [r|] eqn:X; [|reflexivity] end.
  exfalso.
  assert (P : shape (fst (fst r)) = [200] /\ nm + 2 + 1 <= 201).
  { refine (for_inv_partial (fun i st => shape (fst (fst st)) = [200] /\ i <= 201) 1 (nm + 2 + 1) _ _ _ _ _ _ X).
    - lia.
    - cbn. split; [exact S|lia].
    - intros i [[a1 d1] g1] [[a2 d2] g2] Hi (S1 & _) F. cbn [fst] in *. cbn beta iota in F. unfold iwr in F.
      match type of F with context [wr a1 [i - 1] ?v] => destruct (wr a1 [i - 1] v) as [a3|] eqn:W; [|discriminate] end. cbn [bind] in F.
      apply wr_inv in W. destruct W as [W ->]. rewrite S1 in W. apply in_shape_1 in W.
      match type of F with context [wr d1 ?j ?v] => destruct (wr d1 j v) as [d3|]; [|discriminate] end. cbn [bind] in F.
      match type of F with context [wr g1 ?j ?v] => destruct (wr g1 j v) as [g3|]; [|discriminate] end. cbn [bind] in F.
      injection F as <- _ _. split; [exact S1|lia]. }
  lia.
Qed.
