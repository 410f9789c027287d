From Coq Require Import QArith Qround Lia Lqa.
From Verif Require Import Base BaseFacts Clamp GoodSize GoodSizeSpec GoodSizeFacts EsParams EsParamsSpec.
Open Scope Z_scope.

(** Facts about the table *)
Definition row_fine (r : row) : bool := (4 <=? k_support r) && (k_support r <=? 16) && Qle_bool (115 # 100) (k_os r) && Qle_bool (k_os r) (25 # 10) &&
  (Qle_bool (12 # 10) (k_os r) || negb (Qle_bool (k_corr r) 10)).
Lemma table_fine : forallb row_fine KernelDB = true.
Proof. vm_compute. reflexivity. Qed.
Lemma table_length : length KernelDB = 244%nat.
Proof. reflexivity. Qed.
Lemma row_in i r : row_at i = Some r -> 0 <= i < 244 /\ In r KernelDB.
Proof. unfold row_at, num_kernels. destruct (_ && _) eqn:E; [|discriminate]. intro H. split; [lia|]. now apply nth_error_In in H. Qed.
Lemma in_row r : In r KernelDB -> exists i, 0 <= i < 244 /\ row_at i = Some r.
Proof.
  intro H. apply In_nth_error in H. destruct H as (k & E). pose proof (nth_error_Some KernelDB k) as [L _]. rewrite table_length in L.
  assert (k < 244)%nat by (apply L; congruence). exists (Z.of_nat k). unfold row_at, num_kernels. split; [lia|]. replace (_ && _) with true by lia. now rewrite Nat2Z.id.
Qed.
Lemma row_some i : 0 <= i < 244 -> exists r, row_at i = Some r.
Proof.
  intro H. unfold row_at, num_kernels. replace (_ && _) with true by lia. destruct (nth_error KernelDB (Z.to_nat i)) eqn:E; [eauto|].
  apply nth_error_None in E. rewrite table_length in E. lia.
Qed.
Lemma fine r : In r KernelDB -> 4 <= k_support r <= 16 /\ (115 # 100 <= k_os r)%Q /\ (k_os r <= 25 # 10)%Q /\ ((k_corr r <= 10)%Q -> (12 # 10 <= k_os r)%Q).
Proof.
  intro H. pose proof table_fine as T. rewrite forallb_forall in T. specialize (T r H). unfold row_fine in T.
  apply andb_prop in T. destruct T as [T T5]. apply andb_prop in T. destruct T as [T T4]. apply andb_prop in T. destruct T as [T T3]. apply andb_prop in T. destruct T as [T1 T2].
  apply Qle_bool_iff in T3. apply Qle_bool_iff in T4. split; [lia|]. split; [exact T3|]. split; [exact T4|]. intro C. apply Qle_bool_iff in C.
  rewrite C in T5. rewrite Bool.orb_false_r in T5. now apply Qle_bool_iff.
Qed.
Lemma row_last : row_at 243 = Some last_row.
Proof. reflexivity. Qed.

Section Facts.
Context (epsilon : Q) (double : bool).
Definition okb (r : row) : bool := (k_support r <=? max_support double) && Qle_bool (k_epsilon r) epsilon && Qle_bool (k_corr r) 10.
Lemma okb_iff r : In r KernelDB -> okb r = true <-> acceptable epsilon double r.
Proof.
  intro I. unfold okb, acceptable. rewrite !Bool.andb_true_iff, !Qle_bool_iff, Z.leb_le. tauto.
Qed.

Definition slot (k s i : Z) (o : Q) : Prop :=
  (i = 243 /\ o = (26 # 10)%Q /\ forall j r, 0 <= j < k -> row_at j = Some r -> k_support r = s -> okb r = false) \/
  (exists r, row_at i = Some r /\ okb r = true /\ k_support r = s /\ o = k_os r /\
    forall j r', 0 <= j < k -> row_at j = Some r' -> k_support r' = s -> okb r' = true -> (k_os r <= k_os r')%Q).

Lemma select_ok : exists idx osf, select epsilon double = Some (idx, osf) /\ shape idx = [20] /\ forall s, 0 <= s < 20 -> slot 244 s (elem idx [s]) (elem osf [s]).
Proof.
  unfold select. cbv zeta. change (if double then 16 else 8) with (max_support double).
  match goal with |- context [for_ 0 num_kernels ?body ?init] =>
    destruct (for_inv (fun k (st : nd Z * nd Q) => shape (fst st) = [20] /\ shape (snd st) = [20] /\ forall s, 0 <= s < 20 -> slot k s (elem (fst st) [s]) (elem (snd st) [s]))
      0 num_kernels body init) as ([idx osf] & E & S1 & S2 & P) end.
  - unfold num_kernels. lia.
  - cbn [fst snd]. split; [reflexivity|]. split; [reflexivity|]. intros s Hs. left. cbn [elem]. split; [reflexivity|]. split; [reflexivity|]. intros j r Hj. lia.
  - intros i [idx osf] Hi (S1 & S2 & P). cbn [fst snd] in *. destruct (row_some i Hi) as [r Er]. rewrite Er. cbn [bind]. destruct (row_in i r Er) as [_ Ir].
    destruct (fine r Ir) as (Fs & _ & F25 & _). fold (okb r). destruct (okb r) eqn:Ok.
    + rewrite rd_some by (rewrite S2; apply in_shape_1; lia). cbn [bind]. pose proof (P (k_support r) ltac:(lia)) as Ps.
      destruct (Qle_bool (k_os r) (elem osf [k_support r])) eqn:L.
      * rewrite wr_some by (rewrite S1; apply in_shape_1; lia). cbn [bind]. rewrite wr_some by (rewrite S2; apply in_shape_1; lia). cbn [bind].
        eexists. split; [reflexivity|]. cbn [fst snd]. split; [exact S1|]. split; [exact S2|]. intros s Hs. destruct (Z.eq_dec s (k_support r)) as [->|N].
        -- rewrite !elem_upd_same. right. exists r. split; [exact Er|]. split; [exact Ok|]. split; [reflexivity|]. split; [reflexivity|].
           intros j r' Hj Ej Es O. destruct (Z.eq_dec j i) as [->|Nj]; [rewrite Er in Ej; injection Ej as <-; apply Qle_refl|].
           apply Qle_bool_iff in L. destruct Ps as [(_ & _ & None)|(r0 & _ & _ & _ & Eo & Min)].
           ++ rewrite (None j r') in O by (auto; lia). discriminate.
           ++ rewrite Eo in L. apply (Qle_trans _ _ _ L). apply (Min j r'); auto. lia.
        -- rewrite !elem_upd_other by congruence. specialize (P s Hs). destruct P as [(-> & -> & None)|(r0 & E0 & O0 & S0 & -> & Min)].
           ++ left. split; [reflexivity|]. split; [reflexivity|]. intros j r' Hj Ej Es. destruct (Z.eq_dec j i) as [->|Nj]; [rewrite Er in Ej; injection Ej as <-; congruence|].
              apply (None j r'); auto. lia.
           ++ right. exists r0. split; [exact E0|]. split; [exact O0|]. split; [exact S0|]. split; [reflexivity|]. intros j r' Hj Ej Es O.
              destruct (Z.eq_dec j i) as [->|Nj]; [rewrite Er in Ej; injection Ej as <-; congruence|]. apply (Min j r'); auto. lia.
      * eexists. split; [reflexivity|]. cbn [fst snd]. split; [exact S1|]. split; [exact S2|]. intros s Hs.
        assert (L' : (elem osf [k_support r] < k_os r)%Q). { apply Qnot_le_lt. intro X. apply Qle_bool_iff in X. congruence. }
        specialize (P s Hs). destruct P as [(Ei & Eo & None)|(r0 & E0 & O0 & S0 & Eo & Min)].
        -- left. split; [exact Ei|]. split; [exact Eo|]. intros j r' Hj Ej Es. destruct (Z.eq_dec j i) as [->|Nj]; [|apply (None j r'); auto; lia].
           rewrite Er in Ej. injection Ej as <-. subst s. rewrite Eo in L'. exfalso. lra.
        -- right. exists r0. split; [exact E0|]. split; [exact O0|]. split; [exact S0|]. split; [exact Eo|]. intros j r' Hj Ej Es O.
           destruct (Z.eq_dec j i) as [->|Nj]; [|apply (Min j r'); auto; lia]. rewrite Er in Ej. injection Ej as <-. subst s. rewrite Es, Eo in L'. lra.
    + eexists. split; [reflexivity|]. cbn [fst snd]. split; [exact S1|]. split; [exact S2|]. intros s Hs.
      specialize (P s Hs). destruct P as [(Ei & Eo & None)|(r0 & E0 & O0 & S0 & Eo & Min)].
      * left. split; [exact Ei|]. split; [exact Eo|]. intros j r' Hj Ej Es. destruct (Z.eq_dec j i) as [->|Nj]; [|apply (None j r'); auto; lia].
        rewrite Er in Ej. now injection Ej as <-.
      * right. exists r0. split; [exact E0|]. split; [exact O0|]. split; [exact S0|]. split; [exact Eo|]. intros j r' Hj Ej Es O.
        destruct (Z.eq_dec j i) as [->|Nj]; [|apply (Min j r'); auto; lia]. rewrite Er in Ej. injection Ej as <-. congruence.
  - rewrite E. exists idx, osf. auto.
Qed.

Context (img : Z) (Himg : 0 <= img <= 78000000).

Lemma least_bound n h : 1 <= n -> least_smooth n h -> h < 2 * n.
Proof.
  intros Hn (_ & _ & M). destruct (Z.eq_dec n 1) as [->|N].
  - assert (h <= 1); [|lia]. apply M; [|lia]. now exists 0%nat, 0%nat, 0%nat, 0%nat, 0%nat.
  - pose proof (Z.log2_up_spec n ltac:(lia)) as [L1 L2]. pose proof (Z.log2_up_pos n ltac:(lia)). assert (h <= 2 ^ Z.log2_up n).
    + apply M; [|lia]. exists (Z.to_nat (Z.log2_up n)), 0%nat, 0%nat, 0%nat, 0%nat. rewrite Z2Nat.id by lia.
      change (pw 3 0) with 1. change (pw 5 0) with 1. change (pw 7 0) with 1. change (pw 11 0) with 1. ring.
    + assert (2 ^ Z.log2_up n = 2 * 2 ^ Z.pred (Z.log2_up n)) by (rewrite <- Z.pow_succ_r by lia; f_equal; lia). lia.
Qed.
Lemma least_unique n a b : least_smooth n a -> least_smooth n b -> a = b.
Proof. intros (Sa & La & Ma) (Sb & Lb & Mb). specialize (Ma b Sb Lb). specialize (Mb a Sa La). lia. Qed.
Lemma least_mono n m a b : n <= m -> least_smooth n a -> least_smooth m b -> a <= b.
Proof. intros L (Sa & La & Ma) (Sb & Lb & Mb). apply Ma; [exact Sb|lia]. Qed.

Definition half (r : row) : Z := Qfloor (inject_Z img * k_os r * (1 # 2)).
Lemma half_range r : In r KernelDB -> 0 <= half r <= 97500000.
Proof.
  intro I. destruct (fine r I) as (_ & L & U & _). unfold half.
  assert (0 <= inject_Z img)%Q as H0 by (rewrite <- (Zle_Qle 0); lia). assert (inject_Z img <= 78000000)%Q as H1 by (change 78000000%Q with (inject_Z 78000000); rewrite <- Zle_Qle; lia).
  assert (0 <= inject_Z img * k_os r * (1 # 2) <= 97500000)%Q by nra.
  split; [change 0 with (Qfloor 0)|change 97500000 with (Qfloor 97500000)]; apply Qfloor_resp_le; lra.
Qed.
Lemma grid_for_ok r : In r KernelDB -> exists g, grid_for img (k_os r) = Some g /\ grid_size_for img r g.
Proof.
  intro I. pose proof (half_range r I) as R. unfold grid_for. replace (qtrunc _) with (half r).
  2:{ unfold qtrunc, half. destruct (Qle_bool 0 _) eqn:E; [reflexivity|]. exfalso. rewrite <- Bool.not_true_iff_false, Qle_bool_iff in E. apply E.
      destruct (fine r I) as (_ & L & _). assert (0 <= inject_Z img)%Q by (rewrite <- (Zle_Qle 0); lia).
      apply Qmult_le_0_compat; [apply Qmult_le_0_compat; lra|lra]. }
  rewrite to_int_ok by lia. cbn [bind]. rewrite to_int_ok by lia. cbn [bind].
  destruct (good_size_least (half r + 1) ltac:(lia) ltac:(lia)) as (h & -> & Lh). cbn [bind]. pose proof (least_bound (half r + 1) h ltac:(lia) Lh). destruct (Lh) as (_ & Nh & _).
  rewrite to_int_ok by lia. exists (2 * h). split; [reflexivity|]. exists h. split; [exact Lh|reflexivity].
Qed.
Lemma size_unique r g g' : grid_size_for img r g -> grid_size_for img r g' -> g = g'.
Proof. intros (h & L & ->) (h' & L' & ->). now rewrite (least_unique _ _ _ L L'). Qed.
Lemma size_mono r r' g g' : (k_os r <= k_os r')%Q -> grid_size_for img r g -> grid_size_for img r' g' -> g <= g'.
Proof.
  intros O (h & L & ->) (h' & L' & ->). assert (h <= h'); [|lia]. refine (least_mono _ _ _ _ _ L L'). assert (0 <= inject_Z img)%Q by (rewrite <- (Zle_Qle 0); lia).
  apply Z.add_le_mono_r. apply Qfloor_resp_le. nra.
Qed.

Lemma smallest_ok idx : shape idx = [20] -> (forall s, 0 <= s < 20 -> 0 <= elem idx [s] < 244) ->
  exists mn mi, smallest img idx = Some (mn, mi) /\
    ((mi = 244 /\ forall s r g, 0 <= s < 20 -> row_at (elem idx [s]) = Some r -> grid_size_for img r g -> 80000 < g) \/
     (exists s0 r0, 0 <= s0 < 20 /\ mi = elem idx [s0] /\ row_at mi = Some r0 /\ grid_size_for img r0 mn /\ mn <= 80000 /\
        forall s r g, 0 <= s < 20 -> row_at (elem idx [s]) = Some r -> grid_size_for img r g -> mn <= g)).
Proof.
  intros S I. unfold smallest.
  match goal with |- context [for_ 0 20 ?body ?init] =>
    destruct (for_inv (fun k (st : Z * Z) =>
     (st = (80000, 244) /\ forall s r g, 0 <= s < k -> row_at (elem idx [s]) = Some r -> grid_size_for img r g -> 80000 < g) \/
     (exists s0 r0, 0 <= s0 < k /\ snd st = elem idx [s0] /\ row_at (snd st) = Some r0 /\ grid_size_for img r0 (fst st) /\ fst st <= 80000 /\
        forall s r g, 0 <= s < k -> row_at (elem idx [s]) = Some r -> grid_size_for img r g -> fst st <= g)) 0 20 body init) as ([mn mi] & E & P) end.
  - lia.
  - left. split; [reflexivity|]. intros; lia.
  - intros i [mn mi] Hi P. rewrite rd_some by (rewrite S; apply in_shape_1; lia). cbn [bind]. destruct (row_some _ (I i Hi)) as [r Er]. rewrite Er. cbn [bind].
    destruct (row_in _ _ Er) as [_ Ir]. destruct (grid_for_ok r Ir) as (g & -> & Gg). cbn [bind]. eexists. split; [reflexivity|].
    destruct P as [[Est None]|(s0 & r0 & Hs0 & Em & Er0 & G0 & L0 & Min)].
    + injection Est as -> ->. destruct (g <=? 80000) eqn:L.
      * right. exists i, r. cbn [fst snd]. split; [lia|]. split; [reflexivity|]. split; [exact Er|]. split; [exact Gg|]. split; [lia|].
        intros s r' g' Hs Er' Gg'. destruct (Z.eq_dec s i) as [->|N].
        -- rewrite Er in Er'. injection Er' as <-. rewrite (size_unique _ _ _ Gg Gg'). lia.
        -- specialize (None s r' g' ltac:(lia) Er' Gg'). lia.
      * left. split; [reflexivity|]. intros s r' g' Hs Er' Gg'. destruct (Z.eq_dec s i) as [->|N].
        -- rewrite Er in Er'. injection Er' as <-. rewrite <- (size_unique _ _ _ Gg Gg'). lia.
        -- apply (None s r' g'); auto. lia.
    + cbn [fst snd] in *. right. destruct (g <=? mn) eqn:L.
      * exists i, r. cbn [fst snd]. split; [lia|]. split; [reflexivity|]. split; [exact Er|]. split; [exact Gg|]. split; [lia|].
        intros s r' g' Hs Er' Gg'. destruct (Z.eq_dec s i) as [->|N].
        -- rewrite Er in Er'. injection Er' as <-. rewrite (size_unique _ _ _ Gg Gg'). lia.
        -- specialize (Min s r' g' ltac:(lia) Er' Gg'). lia.
      * exists s0, r0. cbn [fst snd]. split; [lia|]. split; [exact Em|]. split; [exact Er0|]. split; [exact G0|]. split; [exact L0|].
        intros s r' g' Hs Er' Gg'. destruct (Z.eq_dec s i) as [->|N].
        -- rewrite Er in Er'. injection Er' as <-. rewrite <- (size_unique _ _ _ Gg Gg'). lia.
        -- apply (Min s r' g'); auto. lia.
  - exists mn, mi. split; [exact E|]. destruct P as [[Est None]|(s0 & r0 & Hs0 & Em & Er0 & G0 & L0 & Min)].
    + injection Est as -> ->. left. auto.
    + right. exists s0, r0. cbn [fst snd] in *. auto 10.
Qed.

Lemma params_ok : 
  (calculate_params epsilon img double SUCCESS = None /\ forall r g, candidate epsilon double r -> grid_size_for img r g -> 80000 < g) \/
  (exists r g, candidate epsilon double r /\ grid_size_for img r g /\ g <= 80000 /\
    calculate_params epsilon img double SUCCESS = Some (SUCCESS, Some (g, k_support r, k_beta r)) /\
    forall r' g', candidate epsilon double r' -> grid_size_for img r' g' -> g <= g').
Proof.
  unfold calculate_params. cbn [failed]. destruct select_ok as (idx & osf & -> & S & P). cbn [bind fst].
  assert (I : forall s, 0 <= s < 20 -> 0 <= elem idx [s] < 244).
  { intros s Hs. destruct (P s Hs) as [(-> & _)|(r & E & _)]; [lia|]. now apply row_in in E. }
  (* every candidate is represented by a slot with no larger oversampling *)
  assert (R : forall r, candidate epsilon double r -> exists s r', 0 <= s < 20 /\ row_at (elem idx [s]) = Some r' /\ (k_os r' <= k_os r)%Q).
  { intros r [A| ->].
    - pose proof A as (Ir & _). destruct (fine r Ir) as (Fs & _). destruct (in_row r Ir) as (j & Hj & Ej). apply (okb_iff r Ir) in A. exists (k_support r).
      destruct (P (k_support r) ltac:(lia)) as [(_ & _ & None)|(r0 & E0 & _ & _ & _ & Min)].
      + rewrite (None j r Hj Ej eq_refl) in A. discriminate.
      + exists r0. split; [lia|]. split; [exact E0|]. now apply (Min j r Hj Ej).
    - exists 0, last_row. destruct (P 0 ltac:(lia)) as [(-> & _)|(r0 & E0 & _ & S0 & _)].
      + split; [lia|]. split; [exact row_last|apply Qle_refl].
      + apply row_in in E0. destruct E0 as [_ E0]. apply fine in E0. lia. }
  (* every slot is a candidate *)
  assert (C : forall s r, 0 <= s < 20 -> row_at (elem idx [s]) = Some r -> candidate epsilon double r).
  { intros s r Hs Er. destruct (P s Hs) as [(Ei & _)|(r0 & E0 & O0 & _)].
    - rewrite Ei, row_last in Er. injection Er as <-. now right.
    - rewrite Er in E0. injection E0 as <-. left. apply okb_iff; [now apply row_in in Er|exact O0]. }
  assert (Below : forall b : Z -> Prop, (forall g g', b g -> g <= g' -> b g') ->
    (forall s r g, 0 <= s < 20 -> row_at (elem idx [s]) = Some r -> grid_size_for img r g -> b g) -> forall r g, candidate epsilon double r -> grid_size_for img r g -> b g).
  { intros b Up H r g Cr Gr. destruct (R r Cr) as (s & r' & Hs & E & L). destruct (row_in _ _ E) as [_ Ir]. destruct (grid_for_ok r' Ir) as (g' & _ & G').
    apply (Up g' g); [now apply (H s r' g')|now apply (size_mono r' r)]. }
  destruct (smallest_ok idx S I) as (mn & mi & -> & [[-> None]|(s0 & r0 & Hs0 & Em & Er0 & G0 & L0 & Min)]); cbn [bind snd].
  - left. split; [reflexivity|]. apply (Below (fun g => 80000 < g)); [intros; lia|exact None].
  - right. rewrite Er0. cbn [bind]. destruct (row_in _ _ Er0) as [_ Ir]. destruct (grid_for_ok r0 Ir) as (g & -> & Gg). cbn [bind].
    rewrite (size_unique _ _ _ Gg G0). exists r0, mn. split; [apply (C s0); auto; now rewrite <- Em|]. split; [exact G0|]. split; [exact L0|]. split; [reflexivity|].
    apply (Below (fun g => mn <= g)); [intros; lia|exact Min].
Qed.
End Facts.
