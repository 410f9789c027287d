(** Facts about the CLEAN loop on the GPU *)
From Coq Require Import QArith Lia.
From Verif Require Import Base BaseFacts Hogbom HogbomSpec HogbomFacts GpuBlock GpuBlockFacts HogbomGpu HogbomGpuSpec HogbomGpuFacts HogbomGpuFacts2.
Open Scope Z_scope.

Lemma ended T s s' : bexec T s s' -> (forall t, 0 <= t < T -> snd s t = Done) -> forall l, fst s' l = fst s l.
Proof.
  intros E D. inversion E as [|s0 s1 s2 St E2]; subst; [reflexivity|]. exfalso. inversion St as [m0 c0 t l k Ht Et|m0 c0 t l v k Ht Et|m0 c0 Wa [t [Ht Ba]]]; subst; cbn [snd] in D; rewrite D in *; discriminate || assumption.
Qed.
Lemma no_sync (p : code) m : syncs 0 p -> snd (solo m p) = Done.
Proof. intro S. apply (solo_syncs loc_eqb 0 p m) in S. pose proof (solo_waiting loc_eqb m p) as W. destruct (snd (solo m p)); cbn in *; (reflexivity || discriminate || easy). Qed.
(** A launch without barriers in which every thread has its own locations *)
Lemma owner_run B T W R kernel m m' : (forall b t, 0 <= b < B -> 0 <= t < T -> foot (W b t) (R b t) (kernel b t) /\ syncs 0 (kernel b t)) ->
  (forall b t b' t' l, 0 <= b < B -> 0 <= t < T -> 0 <= b' < B -> 0 <= t' < T -> (b <> b' \/ t <> t') -> W b t l -> ~ R b' t' l /\ ~ W b' t' l) ->
  launch B T kernel m m' ->
  (forall b t l, 0 <= b < B -> 0 <= t < T -> W b t l -> m' l = fst (solo m (kernel b t)) l) /\ (forall l, (forall b t, 0 <= b < B -> 0 <= t < T -> ~ W b t l) -> m' l = m l).
Proof.
  intros F D (g & E & Fi).
  destruct (project loc_eqb loc_eqb_ok B T (fun b l => exists t, 0 <= t < T /\ W b t l) (fun b l => exists t, 0 <= t < T /\ R b t l) m kernel (m', g)) as [P N]; [| |exact E|].
  - intros b t Hb Ht. destruct (F b t Hb Ht) as [Ft _]. revert Ft. generalize (kernel b t). induction p as [|l k IH|l v k IH|k IH]; cbn; intros H; intuition eauto.
  - intros b b' l Hb Hb' Ne (t & Ht & Wl). split; intros (t' & Ht' & X); destruct (D b t b' t' l Hb Ht Hb' Ht' ltac:(auto) Wl); auto.
  - cbn [fst snd] in *. split.
    + intros b t l Hb Ht Wl. destruct (P b Hb) as (m1 & Eb & A1). rewrite <- A1 by eauto.
      destruct (phase loc_eqb loc_eqb_ok T m (kernel b) (W b) (R b) (m1, g b)) as (m2 & c2 & E2 & C2 & V2 & _).
      * intros t' Ht'. apply foot_foot1. now apply F.
      * intros t1 t2 l' H1 H2 Ne W1. apply (D b t1 b t2); auto.
      * exact Eb.
      * intros t' Ht'. now apply Fi.
      * rewrite <- (V2 t) by assumption. apply (ended _ _ _ E2). intros t' Ht'. cbn [snd]. rewrite C2 by assumption. rewrite no_sync by (now apply F). reflexivity.
    + intros l H. apply N. intros b Hb (t & Ht & Wl). exact (H b t Hb Ht Wl).
Qed.
Lemma foot_all (p : code) : foot (fun _ => True) (fun _ => True) p.
Proof. induction p; cbn; auto. Qed.

(** The two kernels of a cycle *)
Lemma add_result gain threshold m m' : run 1 1 (add_clean_comp gain threshold) m m' ->
  let i := int (m (MaxI 0)) in let v := num (m (MaxV 0)) in
  (forall l, shared l = false -> l <> Reached -> l <> Model i -> m' l = m l) /\
  (if Qcltb threshold v && (int (m Reached) =? 0) then num (m' (Model i)) = (num (m (Model i)) + gain * v)%Qc /\ m' Reached = m Reached else m' (Model i) = m (Model i) /\ int (m' Reached) = 1).
Proof.
  intros (m0 & Sh & La) i v. apply (owner_run 1 1 (fun _ _ _ => True) (fun _ _ _ => True)) in La.
  2:{ intros b t _ _. split; [apply foot_all|]. unfold add_clean_comp. cbn. intro h. destruct (Qcltb _ _); cbn; [|exact I]. intro r. destruct (int r =? 0); cbn; auto. }
  2:{ intros. lia. }
  destruct La as [La _]. assert (E : forall l, m' l = fst (solo m0 (add_clean_comp gain threshold 0 0)) l) by (intro l; apply (La 0 0 l); (lia || exact I)). clear La.
  assert (R : forall l, shared l = false -> m0 l = m l) by exact Sh. revert E. unfold add_clean_comp. cbn [GpuBlockFacts.solo]. rewrite !(R (MaxV 0)) by reflexivity. fold v.
  destruct (Qcltb threshold v); cbn [GpuBlockFacts.solo andb].
  - rewrite !(R Reached) by reflexivity. destruct (int (m Reached) =? 0); cbn [GpuBlockFacts.solo fst].
    + rewrite !(R (MaxI 0)) by reflexivity. fold i. rewrite !(R (MaxV 0)), !(R (Model i)) by reflexivity. fold v. intro E. split.
      * intros l Sl N1 N2. rewrite E, pother by congruence. now apply R.
      * rewrite !E, psame, pother by congruence. split; [reflexivity|now apply R].
    + intro E. split; [intros l Sl N1 N2; rewrite E, pother by congruence; now apply R|]. rewrite !E, psame, pother by congruence. split; [now apply R|reflexivity].
  - cbn [fst]. intro E. split; [intros l Sl N1 N2; rewrite E, pother by congruence; now apply R|]. rewrite !E, psame, pother by congruence. split; [now apply R|reflexivity].
Qed.

Lemma psf_index n i j x y : 2 * n * (n - x + i) + (n - y + j) = (i + (n - x)) * (2 * n) + (j + (n - y)).
Proof. ring. Qed.
Lemma subtract_result n gain threshold x y m m' : 0 < n -> 0 <= x < n -> 0 <= y < n -> run (blocks_for (n * n)) 256 (subtract_psf n (2 * n) gain threshold) m m' -> int (m (MaxI 0)) = n * x + y ->
  let v := num (m (MaxV 0)) in
  (forall l, shared l = false -> (forall i, 0 <= i < n * n -> l <> Res i) -> m' l = m l) /\
  (forall i j, 0 <= i < n -> 0 <= j < n -> m' (Res (n * i + j)) = if Qcltb threshold v then Num (num (m (Res (n * i + j)%Z)) - gain * v * num (m (Psf (2 * n * (n - x + i) + (n - y + j))%Z)))%Qc else m (Res (n * i + j))).
Proof.
  intros Hn Hx Hy (m0 & Sh & La) Hk v. set (B := blocks_for (n * n)) in *.
  assert (HB : 0 <= B /\ n * n <= B * 256). { unfold B. rewrite blocks_for_ok by nia. pose proof (Z.div_mod (n * n + 255) 256 ltac:(lia)). pose proof (Z.mod_pos_bound (n * n + 255) 256 ltac:(lia)). pose proof (Z.div_pos (n * n + 255) 256 ltac:(nia) ltac:(lia)). lia. }
  apply (owner_run B 256 (fun b t l => b * 256 + t < n * n /\ l = Res (b * 256 + t)) (fun b t l => (forall i, l <> Res i) \/ l = Res (b * 256 + t))) in La.
  2:{ intros b t Hb Ht. unfold subtract_psf. change (Z.to_nat pixels_per_thread) with 1%nat. unfold pixels_per_thread. cbn [subtract_pixels]. replace (b * 1 * 256 + 0 * 256 + t) with (b * 256 + t) by ring.
      split; cbn [GpuBlockFacts.foot GpuBlockFacts.syncs].
      - split; [left; intros; discriminate|]. intro h. destruct (Qcltb _ _); [|exact I]. cbn [GpuBlockFacts.foot]. split; [left; intros; discriminate|]. intro i1. split; [left; intros; discriminate|]. intro i2. destruct (Z.ltb_spec (b * 256 + t) (n * n)); [|exact I]. cbn [GpuBlockFacts.foot].
        split; [left; intros; discriminate|]. intro h2. split; [left; intros; discriminate|]. intro p. split; [now right|]. intro r. auto.
      - intro h. destruct (Qcltb _ _); [|exact I]. cbn [GpuBlockFacts.syncs]. intros i1 i2. destruct (_ <? _); [|exact I]. cbn. auto. }
  2:{ intros b t b' t' l Hb Ht Hb' Ht' Ne [L ->]. split; [intros [X|X]|intros [_ X]]; [now apply (X (b * 256 + t))|inversion X; lia|inversion X; lia]. }
  destruct La as [La Lo]. split.
  - intros l Sl Nl. rewrite Lo; [now apply Sh|]. intros b t Hb Ht [L ->]. apply (Nl (b * 256 + t)); [lia|reflexivity].
  - intros i j Hi Hj. pose proof (flat_range n i j Hi Hj) as Fr. set (c := n * i + j) in *. pose proof (Z.div_mod c 256 ltac:(lia)) as Dc. pose proof (Z.mod_pos_bound c 256 ltac:(lia)) as Mc. pose proof (Z.div_pos c 256 ltac:(lia) ltac:(lia)) as Pc.
    assert (Hb : c / 256 < B) by (apply Z.div_lt_upper_bound; lia). specialize (La (c / 256) (c mod 256) (Res c) ltac:(lia) ltac:(lia)). replace (c / 256 * 256 + c mod 256) with c in La by lia. rewrite La by (split; [lia|reflexivity]). clear La Lo.
    unfold subtract_psf. change (Z.to_nat pixels_per_thread) with 1%nat. unfold pixels_per_thread. cbn [subtract_pixels GpuBlockFacts.solo]. rewrite !(Sh (MaxV 0)) by reflexivity. fold v. destruct (Qcltb threshold v); cbn [GpuBlockFacts.solo fst]; [|now rewrite Sh].
    rewrite !(Sh (MaxI 0)), Hk by reflexivity. replace (c / 256 * 1 * 256 + 0 * 256 + c mod 256) with c by lia. rewrite (proj2 (Z.ltb_lt c (n * n))) by lia. cbn [GpuBlockFacts.solo fst].
    assert (Q : forall a d, 0 <= a < n -> 0 <= d < n -> cdiv (n * a + d) n = a /\ cmod (n * a + d) n = d). { intros a d Ha Hd. destruct (unflat n (n * a + d) Hn (flat_range n a d Ha Hd)) as (a' & d' & Ha' & Hd' & E & -> & ->). apply flat_inj in E; lia. }
    destruct (Q x y Hx Hy) as [-> ->]. unfold c. destruct (Q i j Hi Hj) as [-> ->]. fold c. rewrite psame. rewrite !(Sh (MaxV 0)), (Sh (Psf _)), (Sh (Res c)) by reflexivity. fold v. rewrite psf_index. reflexivity.
Qed.

(** A cycle *)
Definition reached (n : Z) (threshold : Qc) (m : mem) : Prop := forall i, 0 <= i < n * n -> (num (m (Res i)) <= threshold)%Qc.
Definition flag_ok (n : Z) (threshold : Qc) (m : mem) : Prop := int (m Reached) = 0 \/ (int (m Reached) = 1 /\ reached n threshold m).
Definition same (m m' : mem) : Prop := forall l, (forall i, l <> MaxV i /\ l <> MaxI i) -> shared l = false -> l <> Reached -> m' l = m l.

Lemma cycle_result n gain threshold m m1 m2 m3 : n = 16 \/ n = 256 -> flag_ok n threshold m -> find_peak true n m m1 -> run 1 1 (add_clean_comp gain threshold) m1 m2 -> run (blocks_for (n * n)) 256 (subtract_psf n (2 * n) gain threshold) m2 m3 ->
  (gpu_cycle n gain threshold m m3 /\ int (m3 Reached) = 0) \/ (reached n threshold m /\ same m m3 /\ int (m3 Reached) = 1).
Proof.
  intros Hn Fl Fp Ad Su. destruct (peak_found n m m1 Hn Fp) as (k & [Hk Pk] & [Ni Nv] & On). assert (Pn : 0 < n) by lia. destruct (unflat n k Pn Hk) as (x & y & Hx & Hy & -> & _ & _).
  destruct (add_result gain threshold m1 m2 Ad) as [A1 A2]. rewrite Ni, Nv in *. set (v := num (m (Res (n * x + y)))) in *. rewrite (On Reached) in A2 by (intros; split; discriminate || reflexivity).
  assert (I2 : int (m2 (MaxI 0)) = n * x + y) by (rewrite A1 by (reflexivity || discriminate); exact Ni). assert (V2 : num (m2 (MaxV 0)) = v) by (rewrite A1 by (reflexivity || discriminate); exact Nv).
  destruct (subtract_result n gain threshold x y m2 m3 Pn Hx Hy Su I2) as [S1 S2]. rewrite V2 in S2.
  assert (Q : forall l, shared l = false -> (forall i, l <> MaxV i /\ l <> MaxI i) -> l <> Reached -> l <> Model (n * x + y) -> m2 l = m l). { intros l H1 H2 H3 H4. rewrite A1 by assumption. now apply On. }
  destruct (Qcltb_spec threshold v) as [Lt|Ge]; cbn [andb] in A2.
  - assert (R0 : int (m Reached) = 0). { destruct Fl as [Z0|[_ Re]]; [exact Z0|]. exfalso. specialize (Re (n * x + y) Hk). fold v in Re. apply Qcle_not_lt in Re. contradiction. }
    rewrite R0, Z.eqb_refl in A2. destruct A2 as [A2 A3]. left. split.
    + exists x, y. split; [exact Hx|]. split; [exact Hy|]. split; [split; assumption|]. cbv zeta. fold v. split; [exact Lt|]. split; [|split].
      * intros k Hk2. rewrite S1 by (reflexivity || discriminate). destruct (Z.eqb_spec k (n * x + y)) as [->|Ne].
        -- rewrite A2. rewrite (On (Model _)) by (intros; split; discriminate || reflexivity). reflexivity.
        -- rewrite Q by (try (intro; split); (discriminate || reflexivity || congruence)). ring.
      * intros i j Hi Hj. rewrite S2 by assumption. rewrite !Q by (try (intro; split); (discriminate || reflexivity || congruence)). reflexivity.
      * intros k' Hk'. rewrite S1 by (reflexivity || discriminate). apply Q; try (intro; split); (discriminate || reflexivity).
    + rewrite S1 by (reflexivity || discriminate). rewrite A3. exact R0.
  - destruct A2 as [A2 A3]. right. split; [|split].
    + intros i Hi. eapply Qcle_trans; [apply Pk; exact Hi|]. fold v. now apply Qcnot_lt_le.
    + intros l H1 H2 H3. assert (L2 : forall l, (forall i, l <> MaxV i /\ l <> MaxI i) -> shared l = false -> l <> Reached -> m2 l = m l).
      { intros l' X1 X2 X3. destruct l' as [i|i|i|b t|b t|i|i|]; try (apply Q; try (intro; split); (discriminate || reflexivity || assumption)); try (destruct (X1 i); congruence); try discriminate.
        destruct (Z.eq_dec i (n * x + y)) as [->|Ne]; [rewrite A2; apply On; assumption|apply Q; try (intro; split); (discriminate || reflexivity || congruence)]. }
      assert (Or : (exists i, 0 <= i < n * n /\ l = Res i) \/ forall i, 0 <= i < n * n -> l <> Res i).
      { destruct l as [i|i|i|b t|b t|i|i|]; try (right; intros; discriminate). destruct (Z_le_gt_dec 0 i), (Z_lt_ge_dec i (n * n)); [left; exists i; split; [lia|reflexivity]| | |]; right; intros i' Hi' X; inversion X; lia. }
      destruct Or as [(i & Hi & ->)|No]; [|rewrite S1 by assumption; now apply L2]. destruct (unflat n i Pn Hi) as (a & d & Ha & Hd & -> & _ & _). rewrite S2 by assumption. apply L2; assumption.
    + rewrite S1 by (reflexivity || discriminate). exact A3.
Qed.

(** The loop *)
Lemma same_trans a b c : same a b -> same b c -> same a c.
Proof. intros H1 H2 l X1 X2 X3. rewrite H2 by assumption. now apply H1. Qed.
Lemma same_reached n threshold m m' : same m m' -> reached n threshold m -> reached n threshold m'.
Proof. intros S R i Hi. rewrite S by (try (intro; split); (discriminate || reflexivity)). now apply R. Qed.
Lemma only_same m m' : only_max m m' -> same m m'.
Proof. intros H l X1 X2 _. now apply H. Qed.

Lemma loop_idle n gain threshold limit cur m m' : n = 16 \/ n = 256 -> gpu_loop true n (2 * n) gain threshold limit cur m m' -> reached n threshold m -> flag_ok n threshold m -> same m m'.
Proof.
  intros Hn L. induction L as [cur m Hc|cur m m1 Hc Fp Fs|cur m m1 m2 m3 m' Hc Fp Fs Ad Su L IH]; intros Re Fl.
  - intros l _ _ _. reflexivity.
  - destruct (peak_found n m m1 Hn Fp) as (k & _ & _ & On). now apply only_same.
  - destruct (cycle_result n gain threshold m m1 m2 m3 Hn Fl Fp Ad Su) as [[(x & y & Hx & Hy & [Hk _] & Lt & _) _]|(_ & Sa & R1)].
    + exfalso. specialize (Re _ Hk). apply Qcle_not_lt in Re. contradiction.
    + eapply same_trans; [exact Sa|]. apply IH; [now apply (same_reached n threshold m)|]. right. split; [exact R1|]. now apply (same_reached n threshold m).
Qed.
Lemma loop_result n gain threshold limit cur m m' : n = 16 \/ n = 256 -> gpu_loop true n (2 * n) gain threshold limit cur m m' -> int (m Reached) = 0 ->
  exists k, gpu_cycles n gain threshold k m m' /\ (Z.of_nat k <= Z.max 0 (limit - cur)) /\ (Z.of_nat k < limit - cur -> reached n threshold m').
Proof.
  intros Hn L. induction L as [cur m Hc|cur m m1 Hc Fp Fs|cur m m1 m2 m3 m' Hc Fp Fs Ad Su L IH]; intros Fl.
  - exists 0%nat. split; [constructor; intros; reflexivity|]. lia.
  - exfalso. destruct (peak_found n m m1 Hn Fp) as (k & _ & _ & On). unfold flag_seen in Fs. rewrite (On Reached), Fl in Fs by (try (intro; split); (discriminate || reflexivity)). rewrite andb_false_r in Fs. discriminate.
  - destruct (cycle_result n gain threshold m m1 m2 m3 Hn (or_introl Fl) Fp Ad Su) as [[Cy R0]|(Re & Sa & R1)].
    + destruct (IH R0) as (k & Cs & Le & St). exists (S k). split; [econstructor; eauto|]. split; [lia|]. intro. apply St. lia.
    + assert (Re3 : reached n threshold m3) by (now apply (same_reached n threshold m)). assert (Sm : same m3 m') by (apply (loop_idle n gain threshold limit (cur + 1)); auto; right; auto).
      exists 0%nat. split; [constructor; now apply (same_trans m m3 m')|]. split; [lia|]. intros _. now apply (same_reached n threshold m3).
Qed.
Lemma loop_ends ls n psf_dim gain threshold limit : 1 <= n -> forall m cur, exists m', gpu_loop ls n psf_dim gain threshold limit cur m m'.
Proof.
  intros Hn m cur. remember (Z.to_nat (limit - cur)) as d eqn:E. revert m cur E. induction d as [|d IH]; intros m cur E.
  - exists m. apply loop_end. lia.
  - assert (B1 : 1 <= blocks_for (n * n)). { rewrite blocks_for_ok by nia. pose proof (Z.div_mod (n * n + 255) 256 ltac:(lia)). pose proof (Z.mod_pos_bound (n * n + 255) 256 ltac:(lia)). nia. }
    destruct (reduce_ends ls _ B1 true (clear_max n m)) as (m1 & Fp). destruct (flag_seen cur m1) eqn:Fs; [exists m1; apply loop_break; [lia|exact Fp|exact Fs]|].
    destruct (launch_ends loc_eqb 1 1 0 (add_clean_comp gain threshold) m1 ltac:(lia)) as (m2 & Ad).
    { intros b t _ _. unfold add_clean_comp. cbn. intro h. destruct (Qcltb _ _); cbn; [|exact I]. intro r. destruct (int r =? 0); cbn; auto. }
    destruct (launch_ends loc_eqb (blocks_for (n * n)) 256 0 (subtract_psf n psf_dim gain threshold) m2 ltac:(lia)) as (m3 & Su).
    { intros b t _ _. unfold subtract_psf. change (Z.to_nat pixels_per_thread) with 1%nat. unfold pixels_per_thread. cbn [subtract_pixels GpuBlockFacts.syncs]. intro h. destruct (Qcltb _ _); [|exact I]. cbn [GpuBlockFacts.syncs]. intros i1 i2. destruct (_ <? _); [|exact I]. cbn. auto. }
    destruct (IH m3 (cur + 1) ltac:(lia)) as (m' & L). exists m'. eapply loop_cycle; [lia|exact Fp|exact Fs|exists m1; split; [auto|exact Ad]|exists m2; split; [auto|exact Su]|exact L].
Qed.

(** Consistency of components and residual *)
Definition kept (n : Z) (psf : nd Qc) (m : mem) : Prop := forall k, 0 <= k < (2 * n) * (2 * n) -> num (m (Psf k)) = elem psf [k].
Lemma cycles_keep n gain threshold k m m' psf dirty base : 0 < n -> gpu_cycles n gain threshold k m m' -> kept n psf m -> consistent n psf dirty (added base m, image m) -> consistent n psf dirty (added base m', image m') /\ kept n psf m'.
Proof.
  intros Hn C. induction C as [m m' Sa|k m m1 m2 Cy C IH]; intros Kp H.
  - split.
    + intros i j Hi Hj. specialize (H i j Hi Hj). cbn [fst snd] in *. unfold image in *. cbn [elem] in *. rewrite Sa by (try (intro; split); (discriminate || reflexivity)). rewrite H. assert (Ec : convolved n (added base m) psf i j = convolved n (added base m') psf i j); [|now rewrite Ec]. unfold convolved. apply Sum.sum_ext. intros x Hx. apply Sum.sum_ext. intros y Hy. cbn [added elem]. rewrite Sa by (try (intro; split); (discriminate || reflexivity)). reflexivity.
    + intros i Hi. rewrite Sa by (try (intro; split); (discriminate || reflexivity)). now apply Kp.
  - destruct Cy as (x & y & Hx & Hy & _ & _ & Cm & Cr & Cp). cbv zeta in *. apply IH.
    + intros i Hi. rewrite Cp by assumption. now apply Kp.
    + apply (shift_consistent n psf dirty (gain * num (m (Res (n * x + y)%Z)))%Qc x y (added base m, image m)); auto; cbn [fst snd added image elem].
      * intros i Hi. unfold nth0. cbn [nth]. rewrite Cm by assumption. ring.
      * intros i j Hi Hj. unfold nth0. cbn [nth]. rewrite Cr by assumption. rewrite Kp; [reflexivity|]. nia.
Qed.

(** Bounds of the two kernels of a cycle *)
Definition fine (n : Z) (l : loc) (v : val) : Prop := match l with MaxI i => i = 0 -> 0 <= int v < n * n | _ => True end.
Lemma quotient n k : 0 < n -> 0 <= k < n * n -> 0 <= cdiv k n < n /\ 0 <= cmod k n < n.
Proof. intros Hn Hk. destruct (unflat n k Hn Hk) as (x & y & Hx & Hy & _ & -> & ->). auto. Qed.
Lemma blocks_pos n : 0 < n -> 0 < (n * n + 255) / 256.
Proof. intro H. pose proof (Z.div_mod (n * n + 255) 256 ltac:(lia)). pose proof (Z.mod_pos_bound (n * n + 255) 256 ltac:(lia)). nia. Qed.
Lemma fine_start n (m m0 : mem) : 0 <= int (m (MaxI 0)) < n * n -> (forall l, shared l = false -> m0 l = m l) -> forall l, valid n l -> fine n l (m0 l).
Proof. intros H Sh l _. destruct l; cbn; auto. intros ->. now rewrite Sh. Qed.
Lemma add_safe n gain threshold m : 0 < n -> 0 <= int (m (MaxI 0)) < n * n -> ~ run_oob (valid n) 1 1 (add_clean_comp gain threshold) m.
Proof.
  intros Hn H (m0 & Sh & O). revert O. pose proof (blocks_pos n Hn). apply (safe_never loc_eqb loc_eqb_ok 1 1 (valid n) (fine n)); [|now apply (fine_start n m)].
  intros b t _ _. unfold add_clean_comp. cbn. split; [lia|]. intros h _. destruct (Qcltb _ _); cbn; [|auto]. split; [exact I|]. intros r _. destruct (int r =? 0); cbn; [|auto].
  split; [lia|]. intros h' _. split; [lia|]. intros i Hi. split; [lia|]. intros j Hj. split; [now apply Hj|]. intros c _. split; [now apply Hi|]. auto.
Qed.
Lemma subtract_safe n gain threshold m : 0 < n -> 0 <= int (m (MaxI 0)) < n * n -> ~ run_oob (valid n) (blocks_for (n * n)) 256 (subtract_psf n (2 * n) gain threshold) m.
Proof.
  intros Hn H (m0 & Sh & O). revert O. pose proof (blocks_pos n Hn). apply (safe_never loc_eqb loc_eqb_ok _ 256 (valid n) (fine n)); [|now apply (fine_start n m)].
  intros b t Hb Ht. unfold subtract_psf. change (Z.to_nat pixels_per_thread) with 1%nat. unfold pixels_per_thread. cbn [subtract_pixels]. replace (b * 1 * 256 + 0 * 256 + t) with (b * 256 + t) by ring. cbn [GpuBlockFacts.safe valid fine]. split; [lia|]. intros h _. destruct (Qcltb _ _); [|exact I]. cbn [GpuBlockFacts.safe valid fine].
  split; [lia|]. intros i1 H1. split; [lia|]. intros i2 H2. destruct (Z.ltb_spec (b * 256 + t) (n * n)) as [Lt|]; [|exact I]. cbn [GpuBlockFacts.safe valid fine].
  destruct (quotient n (int i1) Hn (H1 eq_refl)) as [Q1 _]. destruct (quotient n (int i2) Hn (H2 eq_refl)) as [_ Q2]. destruct (quotient n (b * 256 + t) Hn ltac:(lia)) as [Q3 Q4].
  set (x := cdiv (int i1) n) in *. set (y := cmod (int i2) n) in *. set (i := cdiv (b * 256 + t) n) in *. set (j := cmod (b * 256 + t) n) in *. clearbody x y i j.
  split; [lia|]. intros h' _. split; [split; nia|]. intros p _. split; [lia|]. intros r _. repeat split; lia.
Qed.
