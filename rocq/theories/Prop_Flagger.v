(** C52, C53, C73, C74: the flagger.  Except in C74 the arithmetic is arbitrary. *)
From Coq Require Import Reals QArith Lia Permutation.
From Verif Require Import Base BaseFacts Sum Mem Checks Cplx DftSpec DftFacts2 Flagger FlaggerSpec FlaggerFacts3 FlaggerReal.
Open Scope Z_scope.

Lemma check_cases vis flags st : check_params_dynamic vis flags st <> SUCCESS \/
  (st = SUCCESS /\ check_params_dynamic vis flags st = SUCCESS /\ num_dims vis = 4 /\ num_dims flags = 4 /\ mtype flags = MEM_INT).
Proof.
  unfold check_params_dynamic. destruct (failed st) eqn:F. { left. intros ->. discriminate. } apply failed_false in F. subst st.
  destruct (is_read_only flags); [left; discriminate|]. destruct (_ || _); [left; discriminate|].
  destruct (negb (num_dims vis =? 4) || negb (num_dims flags =? 4)) eqn:D; [left; discriminate|]. apply orb_false_iff in D. destruct D as [D1 D2].
  destruct (is_complex vis); [|left; discriminate]. cbn [negb]. destruct (mtype flags =? MEM_INT) eqn:T; [|left; discriminate]. cbn [negb].
  destruct (location vis =? location flags); [|left; discriminate]. right. repeat split; lia.
Qed.
Lemma dim4 m n0 n1 n2 n3 : m_num_dims m = 4 -> m_shape m = [n0; n1; n2; n3] ->
  shape_dim (Some m) 0 = n0 /\ shape_dim (Some m) 1 = n1 /\ shape_dim (Some m) 2 = n2 /\ shape_dim (Some m) 3 = n3.
Proof. intros D S. unfold shape_dim. rewrite D, S. repeat split. Qed.

(** The flags that are set are those of the samples described by [flagged]; every other flag is left as it was, and all are when an
    error is reported.  This is so for every schedule and whatever the read beyond the end of the history gives. *)
Theorem C52_flags {A : num} {V} (mag : V -> A) junk vis flags vis_d flags_d alpha thr_mag thr_var thr_broad step window wmh sched nt nb nc np st :
  sort_keeps A -> setting vis flags vis_d flags_d step wmh nt nb nc np -> each_once sched nb ->
  exists st' r, flagger_dynamic_threshold mag (Some junk) (Some vis) (Some flags) vis_d flags_d alpha thr_mag thr_var thr_broad step window wmh sched st = Some (st', r) /\
    shape r = shape flags_d /\ (st' <> SUCCESS -> r = flags_d) /\
    (st' = SUCCESS -> forall t b c p, 0 <= t < nt -> 0 <= b < nb -> 0 <= c < nc -> 0 <= p < np ->
      let hit := flagged alpha thr_mag thr_var thr_broad step window wmh nt nc (magnitude mag vis_d nb nc np b p) t c in
      (hit -> elem r [at_ nb nc np b p t c] = 1) /\ (~ hit -> elem r [at_ nb nc np b p t c] = elem flags_d [at_ nb nc np b p t c])).
Proof.
  intros SL [V1 V2 V3 V4 V5 V6 V7 V8 V9] Hs. unfold flagger_dynamic_threshold. cbv zeta.
  destruct (check_cases (Some vis) (Some flags) st) as [K|(-> & K & D1 & D2 & T)].
  { destruct (failed (check_params_dynamic _ _ _)) eqn:F; [|apply failed_false in F; congruence]. eexists _, _. split; [reflexivity|]. split; [reflexivity|]. split; [auto|]. congruence. }
  rewrite K. cbn [failed]. destruct (location (Some vis) =? MEM_CPU). 2:{ eexists _, _. split; [reflexivity|]. split; [reflexivity|]. split; [auto|]. discriminate. }
  cbn [negb]. destruct (_ && _). 2:{ eexists _, _. split; [reflexivity|]. split; [reflexivity|]. split; [auto|]. discriminate. }
  destruct (dim4 vis nt nb nc np D1 V1) as (-> & -> & -> & ->).
  destruct (flagger_ok SL mag junk vis_d alpha thr_mag thr_var thr_broad step window wmh nt nb nc np V7 V8 V9 V5 V6 V3 sched flags_d Hs V4) as (r & E & S' & _ & P).
  change (failed SUCCESS) with false. cbv iota. rewrite E. cbn [bind]. eexists _, _. split; [reflexivity|]. split; [congruence|]. split; [congruence|]. intros _ t b c p Ht Hb Hc Hp. exact (P b p t c Hb Hp Ht Hc).
Qed.
Print Assumptions C52_flags.

(** A flag that was set stays set: every flag is 1 afterwards or has its old value. *)
Theorem C52_never_cleared {A : num} {V} (mag : V -> A) junk vis flags vis_d flags_d alpha thr_mag thr_var thr_broad step window wmh sched nt nb nc np st :
  sort_keeps A -> setting vis flags vis_d flags_d step wmh nt nb nc np -> each_once sched nb ->
  exists st' r, flagger_dynamic_threshold mag (Some junk) (Some vis) (Some flags) vis_d flags_d alpha thr_mag thr_var thr_broad step window wmh sched st = Some (st', r) /\
    forall idx, elem r idx = 1 \/ elem r idx = elem flags_d idx.
Proof.
  intros SL [V1 V2 V3 V4 V5 V6 V7 V8 V9] Hs. unfold flagger_dynamic_threshold. cbv zeta.
  destruct (check_cases (Some vis) (Some flags) st) as [K|(-> & K & D1 & D2 & T)].
  { destruct (failed (check_params_dynamic _ _ _)) eqn:F; [|apply failed_false in F; congruence]. eexists _, _. split; [reflexivity|]. auto. }
  rewrite K. cbn [failed]. destruct (location (Some vis) =? MEM_CPU). 2:{ eexists _, _. split; [reflexivity|]. auto. }
  cbn [negb]. destruct (_ && _). 2:{ eexists _, _. split; [reflexivity|]. auto. }
  destruct (dim4 vis nt nb nc np D1 V1) as (-> & -> & -> & ->).
  destruct (flagger_ok SL mag junk vis_d alpha thr_mag thr_var thr_broad step window wmh nt nb nc np V7 V8 V9 V5 V6 V3 sched flags_d Hs V4) as (r & E & S' & P & _).
  change (failed SUCCESS) with false. cbv iota. rewrite E. cbn [bind]. eexists _, _. split; [reflexivity|]. exact P.
Qed.
Print Assumptions C52_never_cleared.

(** The flags of a baseline and polarisation depend on nothing but the visibilities and the old flags of that baseline and polarisation:
    two calls that agree there give the same flags there, whatever the other data and the schedules. *)
Lemma flagged_ext {A : num} (al tm tv tb : A) step window wmh nt nc m m' t c : 0 <= t < nt -> 1 <= step -> (forall t c, 0 <= t < nt -> 0 <= c < nc -> m t c = m' t c) ->
  flagged al tm tv tb step window wmh nt nc m t c -> flagged al tm tv tb step window wmh nt nc m' t c.
Proof.
  intros Ht Hstep E. assert (SR : forall s, 0 <= s < nsamp step nc -> 0 <= s * step < nc).
  { unfold nsamp. intros s Hs. pose proof (Z.mul_div_le nc step ltac:(lia)). nia. }
  assert (ES : forall t, 0 <= t < nt -> samples_at step nc m t = samples_at step nc m' t).
  { intros u Hu. unfold samples_at. apply map_ext_in. intros s Hs. apply in_zrange in Hs. apply E; [lia|]. now apply SR. }
  assert (EM : forall t, 0 <= t < nt -> med step nc m t = med step nc m' t) by (intros u Hu; unfold med; now rewrite ES).
  assert (EH : forall t, 0 <= t < nt -> history step wmh nc m t = history step wmh nc m' t).
  { intros u Hu. unfold history. apply map_ext_in. intros k Hk. apply in_zrange in Hk. apply EM. lia. }
  assert (ED : forall t c, 0 <= t < nt -> 0 <= c < nc -> detect_mag tm tb step wmh nc m t c = detect_mag tm tb step wmh nc m' t c).
  { intros u d Hu Hd. unfold detect_mag, broadband, dev. now rewrite EH, EM, ES, E by auto. }
  assert (EN : forall d, 0 <= d < nc -> forall k, (Z.of_nat k < nt) -> score_nat al m k d = score_nat al m' k d).
  { intros d Hd. induction k as [|k IH]; intro Hk; [reflexivity|]. destruct k as [|k]; [cbn [score_nat]; rewrite !E by lia; reflexivity|].
    set (u := S k) in *. change (score_nat al m (S u) d) with (nadd (nmul al (nabs (nsub (m (Z.of_nat (S u) - 1) d) (m (Z.of_nat (S u)) d)))) (nmul (nsub (nq 1) al) (score_nat al m u d))).
    change (score_nat al m' (S u) d) with (nadd (nmul al (nabs (nsub (m' (Z.of_nat (S u) - 1) d) (m' (Z.of_nat (S u)) d)))) (nmul (nsub (nq 1) al) (score_nat al m' u d))).
    rewrite IH by lia. now rewrite !E by lia. }
  assert (EC : forall u d, 0 <= u < nt -> 0 <= d < nc -> detect_change al tv step nc m u d = detect_change al tv step nc m' u d).
  { intros u d Hu Hd. assert (X : forall d, 0 <= d < nc -> score al m u d = score al m' u d) by (intros e He; unfold score; apply EN; lia).
    unfold detect_change. rewrite X, EM by auto. assert (scores_at al step nc m u = scores_at al step nc m' u) as ->; [|reflexivity].
    unfold scores_at. apply map_ext_in. intros s Hs. apply in_zrange in Hs. rewrite X by (now apply SR). reflexivity. }
  intros (d & Hd & D & N). exists d. split; [exact Hd|]. split; [|exact N]. destruct D as [D|[[T D]|[T D]]].
  - left. now rewrite <- ED.
  - right. left. split; [exact T|]. now rewrite <- EC by lia.
  - right. right. split; [exact T|]. now rewrite <- EC by lia.
Qed.

Theorem C52_independent {A : num} {V} (mag : V -> A) vis flags alpha thr_mag thr_var thr_broad step window wmh nt nb nc np st
    junk1 vis_d1 flags_d1 sched1 junk2 vis_d2 flags_d2 sched2 b p st1 r1 st2 r2 :
  sort_keeps A -> setting vis flags vis_d1 flags_d1 step wmh nt nb nc np -> setting vis flags vis_d2 flags_d2 step wmh nt nb nc np ->
  each_once sched1 nb -> each_once sched2 nb -> 0 <= b < nb -> 0 <= p < np ->
  (forall t c, 0 <= t < nt -> 0 <= c < nc -> elem vis_d1 [at_ nb nc np b p t c] = elem vis_d2 [at_ nb nc np b p t c]) ->
  (forall t c, 0 <= t < nt -> 0 <= c < nc -> elem flags_d1 [at_ nb nc np b p t c] = elem flags_d2 [at_ nb nc np b p t c]) ->
  flagger_dynamic_threshold mag (Some junk1) (Some vis) (Some flags) vis_d1 flags_d1 alpha thr_mag thr_var thr_broad step window wmh sched1 st = Some (st1, r1) ->
  flagger_dynamic_threshold mag (Some junk2) (Some vis) (Some flags) vis_d2 flags_d2 alpha thr_mag thr_var thr_broad step window wmh sched2 st = Some (st2, r2) ->
  st1 = st2 /\ forall t c, 0 <= t < nt -> 0 <= c < nc -> elem r1 [at_ nb nc np b p t c] = elem r2 [at_ nb nc np b p t c].
Proof.
  intros SL W1 W2 H1 H2 Hb Hp EV EF E1 E2.
  assert (S12 : st1 = st2).
  { unfold flagger_dynamic_threshold in E1, E2. cbv zeta in E1, E2. destruct (failed _); [congruence|]. destruct (negb _); [congruence|]. destruct (_ && _); [|congruence].
    destruct (flagger _ (Some junk1) _ _ _ _ _ _ _ _ _ _ _ _ _ _); [|discriminate]. destruct (flagger _ (Some junk2) _ _ _ _ _ _ _ _ _ _ _ _ _ _); [|discriminate].
    cbn [bind] in E1, E2. congruence. }
  split; [exact S12|]. intros t c Ht Hc.
  destruct (C52_flags mag junk1 vis flags vis_d1 flags_d1 alpha thr_mag thr_var thr_broad step window wmh sched1 nt nb nc np st SL W1 H1) as (st1' & r1' & E1' & _ & N1 & P1).
  destruct (C52_flags mag junk2 vis flags vis_d2 flags_d2 alpha thr_mag thr_var thr_broad step window wmh sched2 nt nb nc np st SL W2 H2) as (st2' & r2' & E2' & _ & N2 & P2).
  rewrite E1 in E1'. injection E1' as <- <-. rewrite E2 in E2'. injection E2' as <- <-. subst st2.
  assert (st1 = SUCCESS \/ st1 <> SUCCESS) as [ -> |NS] by (destruct st1; (left; reflexivity) || (right; discriminate)); [|rewrite N1, N2 by auto; auto].
  specialize (P1 eq_refl t b c p Ht Hb Hc Hp). specialize (P2 eq_refl t b c p Ht Hb Hc Hp). cbv zeta in P1, P2.
  assert (Hstep := s_step _ _ _ _ _ _ _ _ _ _ W1).
  assert (F : flagged alpha thr_mag thr_var thr_broad step window wmh nt nc (magnitude mag vis_d1 nb nc np b p) t c <->
              flagged alpha thr_mag thr_var thr_broad step window wmh nt nc (magnitude mag vis_d2 nb nc np b p) t c).
  { split; apply flagged_ext; auto; intros u d Hu Hd; unfold magnitude; now rewrite EV. }
  assert (X : (flagged alpha thr_mag thr_var thr_broad step window wmh nt nc (magnitude mag vis_d1 nb nc np b p) t c) \/
    ~ (flagged alpha thr_mag thr_var thr_broad step window wmh nt nc (magnitude mag vis_d1 nb nc np b p) t c)).
  { apply flagged_dec. }
  destruct X as [X|X].
  - rewrite (proj1 P1 X), (proj1 P2 (proj1 F X)). reflexivity.
  - rewrite (proj2 P1 X), (proj2 P2 (fun Y => X (proj2 F Y))). now apply EF.
Qed.
Print Assumptions C52_independent.

(** Every call that passes the checks on arrays with at least one time sample reads outside an array. *)
Theorem C53_refuted {A : num} {V} (mag : V -> A) vis flags vis_d flags_d alpha thr_mag thr_var thr_broad step window wmh sched nt nb nc np :
  m_shape vis = [nt; nb; nc; np] -> 1 <= nt -> 1 <= nb -> 1 <= np -> each_once sched nb ->
  check_params_dynamic (Some vis) (Some flags) SUCCESS = SUCCESS -> m_loc vis = MEM_CPU -> m_type vis = MEM_COMPLEX_FLOAT \/ m_type vis = MEM_COMPLEX_DOUBLE ->
  flagger_dynamic_threshold mag None (Some vis) (Some flags) vis_d flags_d alpha thr_mag thr_var thr_broad step window wmh sched SUCCESS = None.
Proof.
  intros Sh Ht Hb Hp Hs K L T. unfold flagger_dynamic_threshold. cbv zeta.
  destruct (check_cases (Some vis) (Some flags) SUCCESS) as [K'|(_ & _ & D1 & D2 & T2)]; [congruence|]. rewrite K. change (failed SUCCESS) with false. cbv iota.
  unfold location. rewrite L. change (negb (MEM_CPU =? MEM_CPU)) with false. cbv iota. rewrite T2. cbn [mtype].
  assert (((m_type vis =? MEM_COMPLEX_FLOAT) || (m_type vis =? MEM_COMPLEX_DOUBLE)) && (MEM_INT =? MEM_INT) = true) as -> by (destruct T as [-> | ->]; reflexivity).
  destruct (dim4 vis nt nb nc np D1 Sh) as (-> & -> & -> & ->). rewrite flagger_out; auto.
  intros ->. unfold each_once in Hs. apply Permutation_length in Hs. rewrite zrange_length in Hs. cbn in Hs. lia.
Qed.
Print Assumptions C53_refuted.

(** That read of the history at the first time sample, which is not used, is the only access out of range when the two arrays have
    the same shape, at least two samples of the spectrum are taken and the history has at least two elements. *)
Theorem C53_in_bounds_partial {A : num} {V} (mag : V -> A) junk vis flags vis_d flags_d alpha thr_mag thr_var thr_broad step window wmh sched nt nb nc np st :
  sort_keeps A -> setting vis flags vis_d flags_d step wmh nt nb nc np -> each_once sched nb ->
  flagger_dynamic_threshold mag (Some junk) (Some vis) (Some flags) vis_d flags_d alpha thr_mag thr_var thr_broad step window wmh sched st <> None.
Proof.
  intros SL W Hs. destruct (C52_flags mag junk vis flags vis_d flags_d alpha thr_mag thr_var thr_broad step window wmh sched nt nb nc np st SL W Hs) as (st' & r & E & _).
  rewrite E. discriminate.
Qed.
Print Assumptions C53_in_bounds_partial.

Definition arr (ty : Z) (sh : list Z) : mem := fst (create_wrapper (Some (1, 0)) ty MEM_CPU sh None SUCCESS).
(** A run in rational arithmetic on one baseline and polarisation *)
Definition run (nt nc : Z) (data : list Q) (flag_shape : list Z) (step window wmh : Z) : option (error * nd Z) :=
  flagger_dynamic_threshold (A := rat_num) (fun q => Qabs.Qabs q) (Some 0%Q) (Some (arr MEM_COMPLEX_DOUBLE [nt; 1; nc; 1])) (Some (arr MEM_INT flag_shape))
    (mk_nd [nt * nc] (fun i => nth (Z.to_nat (nth 0 i 0)) data 0%Q)) (mk_nd [fold_right Z.mul 1 flag_shape] (fun _ => 0))
    (1 # 2)%Q 3%Q 3%Q 3%Q step window wmh [(0%nat, 0)] SUCCESS.

(** The other ways out of range, which no check rejects: a sampling step of zero, fewer than two samples, a history of one sample, and
    a flag array that is smaller than the visibilities. *)
Theorem C53_settings_refuted :
  run 1 4 [1; 1; 1; 1]%Q [1; 1; 4; 1] 0 1 3 = None /\ run 1 4 [1; 1; 1; 1]%Q [1; 1; 4; 1] 3 1 3 = None /\
  run 2 4 [1; 1; 1; 1; 1; 1; 1; 1]%Q [2; 1; 4; 1] 1 1 1 = None /\ run 1 4 [1; 1; 1; 9]%Q [1; 1; 2; 1] 1 0 3 = None /\
  run 1 4 [1; 1; 1; 9]%Q [1; 1; 4; 1] 1 0 3 <> None.
Proof. repeat (split; [vm_compute; reflexivity|]). vm_compute. discriminate. Qed.
Print Assumptions C53_settings_refuted.

(** Every channel but the first is flagged when a channel at most [window] channels away on either side is detected. *)
Theorem C73_window_partial {A : num} {V} (mag : V -> A) junk vis flags vis_d flags_d alpha thr_mag thr_var thr_broad step window wmh sched nt nb nc np st st' r :
  sort_keeps A -> setting vis flags vis_d flags_d step wmh nt nb nc np -> each_once sched nb ->
  flagger_dynamic_threshold mag (Some junk) (Some vis) (Some flags) vis_d flags_d alpha thr_mag thr_var thr_broad step window wmh sched st = Some (st', r) -> st' = SUCCESS ->
  forall t b c p d, 0 <= t < nt -> 0 <= b < nb -> 0 <= c < nc -> 0 <= p < np -> 0 <= d < nc ->
    detected alpha thr_mag thr_var thr_broad step wmh nt nc (magnitude mag vis_d nb nc np b p) t d ->
    Z.abs (c - d) <= window -> c <> 0 -> elem r [at_ nb nc np b p t c] = 1.
Proof.
  intros SL W Hs E Hst t b c p d Ht Hb Hc Hp Hd D N C.
  destruct (C52_flags mag junk vis flags vis_d flags_d alpha thr_mag thr_var thr_broad step window wmh sched nt nb nc np st SL W Hs) as (st2 & r2 & E' & _ & _ & P).
  rewrite E in E'. injection E' as <- <-. apply (P Hst t b c p Ht Hb Hc Hp). exists d. auto.
Qed.
Print Assumptions C73_window_partial.

(** Channel 0 is not: channel 1 stands out, both its neighbours are within the window, and only channel 2 is flagged with it. *)
Theorem C73_refuted : exists r, run 1 8 [1; 90; 2; 3; 2; 1; 2; 3]%Q [1; 1; 8; 1] 1 1 3 = Some (SUCCESS, r) /\
  map (fun c => elem r [c]) (zrange 0 8) = [0; 1; 1; 0; 0; 0; 0; 0].
Proof. eexists. split; [vm_compute; reflexivity|]. vm_compute. reflexivity. Qed.
Print Assumptions C73_refuted.

(** Multiplying every visibility by the same non-zero complex number changes no flag, in exact arithmetic. *)
Theorem C74_scale lambda vis flags vis_d vis_d' flags_d (alpha thr_mag thr_var thr_broad : real_num) step window wmh sched nt nb nc np st :
  lambda <> C0 -> setting vis flags vis_d flags_d step wmh nt nb nc np -> each_once sched nb ->
  shape vis_d' = shape vis_d -> (forall i, elem vis_d' i = Cmul lambda (elem vis_d i)) ->
  exists st' r r', flagger_dynamic_threshold (A := real_num) Cmag (Some 0%R) (Some vis) (Some flags) vis_d flags_d alpha thr_mag thr_var thr_broad step window wmh sched st = Some (st', r) /\
    flagger_dynamic_threshold (A := real_num) Cmag (Some 0%R) (Some vis) (Some flags) vis_d' flags_d alpha thr_mag thr_var thr_broad step window wmh sched st = Some (st', r') /\
    forall t b c p, 0 <= t < nt -> 0 <= b < nb -> 0 <= c < nc -> 0 <= p < np -> elem r' [at_ nb nc np b p t c] = elem r [at_ nb nc np b p t c].
Proof.
  intros HL W Hs Sv EV.
  assert (W' : setting vis flags vis_d' flags_d step wmh nt nb nc np) by (destruct W; constructor; congruence).
  assert (SL : sort_keeps real_num) by (intro l; apply isort_length).
  destruct (C52_flags (A := real_num) Cmag 0%R vis flags vis_d flags_d alpha thr_mag thr_var thr_broad step window wmh sched nt nb nc np st SL W Hs) as (st1 & r1 & E1 & _ & N1 & P1).
  destruct (C52_flags (A := real_num) Cmag 0%R vis flags vis_d' flags_d alpha thr_mag thr_var thr_broad step window wmh sched nt nb nc np st SL W' Hs) as (st2 & r2 & E2 & _ & N2 & P2).
  assert (st1 = st2) as <-.
  { unfold flagger_dynamic_threshold in E1, E2. cbv zeta in E1, E2. destruct (failed _); [congruence|]. destruct (negb _); [congruence|]. destruct (_ && _); [|congruence].
    destruct (flagger _ _ vis_d _ _ _ _ _ _ _ _ _ _ _ _ _); [|discriminate]. destruct (flagger _ _ vis_d' _ _ _ _ _ _ _ _ _ _ _ _ _); [|discriminate].
    cbn [bind] in E1, E2. congruence. }
  exists st1, r1, r2. split; [exact E1|]. split; [exact E2|]. intros t b c p Ht Hb Hc Hp.
  assert (st1 = SUCCESS \/ st1 <> SUCCESS) as [ -> |NS] by (destruct st1; (left; reflexivity) || (right; discriminate)); [|rewrite N1, N2 by auto; auto].
  specialize (P1 eq_refl t b c p Ht Hb Hc Hp). specialize (P2 eq_refl t b c p Ht Hb Hc Hp). cbv zeta in P1, P2.
  pose proof (flagged_scale (Cmag lambda) (Cmag_pos lambda HL) alpha thr_mag thr_var thr_broad step window wmh nt nc (magnitude (A := real_num) Cmag vis_d nb nc np b p) (magnitude (A := real_num) Cmag vis_d' nb nc np b p)) as F.
  assert (EM : forall t c, magnitude (A := real_num) Cmag vis_d' nb nc np b p t c = (Cmag lambda * magnitude (A := real_num) Cmag vis_d nb nc np b p t c)%R).
  { intros u d. unfold magnitude. rewrite EV. apply Cmag_mul. }
  specialize (F EM t c).
  destruct (flagged_dec (A := real_num) alpha thr_mag thr_var thr_broad step window wmh nt nc (magnitude (A := real_num) Cmag vis_d nb nc np b p) t c) as [X|X].
  - rewrite (proj1 P1 X), (proj1 P2 (proj2 F X)). reflexivity.
  - rewrite (proj2 P1 X), (proj2 P2 (fun Y => X (proj1 F Y))). reflexivity.
Qed.
Print Assumptions C74_scale.

(** The hypotheses are met by a real run, in which a spike in time and channel is flagged at both times: two baselines, two threads. *)
Example C52_hyps : sort_keeps rat_num /\ sort_keeps real_num /\ each_once [(1%nat, 1); (0%nat, 0)] 2 /\
  setting (arr MEM_COMPLEX_DOUBLE [3; 1; 8; 1]) (arr MEM_INT [3; 1; 8; 1]) (mk_nd [24] (fun _ => 0%Q)) (mk_nd [24] (fun _ => 0)) 1 3 3 1 8 1 /\
  exists r, run 3 8 [1; 2; 3; 2; 1; 2; 3; 2;  1; 2; 3; 2; 60; 2; 3; 2;  1; 2; 3; 2; 1; 2; 3; 2]%Q [3; 1; 8; 1] 1 1 3 = Some (SUCCESS, r) /\
    map (fun c => elem r [c]) (zrange 0 24) = [0; 0; 0; 1; 1; 1; 0; 0;  0; 0; 0; 1; 1; 1; 0; 0;  0; 0; 0; 1; 1; 1; 0; 0].
Proof.
  split; [intro l; apply isort_length|]. split; [intro l; apply isort_length|]. split; [unfold each_once; cbn; apply perm_swap|].
  split; [constructor; try reflexivity; try lia; vm_compute; discriminate|]. eexists. split; [vm_compute; reflexivity|]. vm_compute. reflexivity.
Qed.
