(** C118: the restored image of Hogbom CLEAN on the GPU. *)
From Coq Require Import String Reals Lra Lia.
From Verif Require Import Base BaseFacts Mem Sum CRing Cplx FftConv FftConvSpec FftConvGpuSpec EsKernelsFacts HogbomSky HogbomSkySpec HogbomSkyFacts Prop_HogbomSky HogbomSkyGpu HogbomSkyGpuSpec HogbomSkyGpuFacts.
Open Scope Z_scope.

(** ** C118.  For all image and beam sizes for which the convolution has its margin, in both precisions, the call ends, in every schedule of its kernels with success, and the
    restored image is the residual plus the beams of all components; nothing else of the array changes.  The beams are centred on the components if the size of the beam is odd,
    one pixel further in both directions if it is even. *)
Theorem C118_sky : forall double n s P M (details comp residual sky : nd R),
  1 <= n -> 1 <= s <= 32767 -> padded_size n s P -> 3 <= s \/ n + 2 <= P -> P <= 32768 -> describes details s ->
  shape comp = [n * n] -> shape residual = [n * n] -> shape sky = [M] -> n * n <= M ->
  (exists st' sky', gpu_restore double details n comp residual sky SUCCESS st' sky') /\
  forall st' sky', gpu_restore double details n comp residual sky SUCCESS st' sky' ->
    st' = SUCCESS /\ shape sky' = [M] /\
    (forall i j, 0 <= i < n -> 0 <= j < n -> elem sky' [i * n + j] = (framed_beams (if Z.even s then 1 else 0) n s details (fun k => elem comp [k]) i j + elem residual [(i * n + j)%Z])%R) /\
    (forall t, t < 0 \/ n * n <= t -> elem sky' [t] = elem sky [t]).
Proof.
  intros until sky. intros Hn Hs HP HE HB D Sc Sr Ss HM. split.
  - now apply (gpu_restore_exists double n s P M).
  - intros st' sky' H. now apply (gpu_restore_result double n s P M details comp residual sky).
Qed.
Print Assumptions C118_sky.

(** With a beam of odd size every beam is centred on its component. *)
Theorem C118_odd_partial : forall double n s P M (details comp residual sky : nd R) st' sky',
  1 <= n -> 3 <= s <= 32767 -> Z.odd s = true -> padded_size n s P -> P <= 32768 -> describes details s ->
  shape comp = [n * n] -> shape residual = [n * n] -> shape sky = [M] -> n * n <= M ->
  gpu_restore double details n comp residual sky SUCCESS st' sky' ->
  st' = SUCCESS /\ forall i j, 0 <= i < n -> 0 <= j < n -> elem sky' [i * n + j] = (framed_beams 0 n s details (fun k => elem comp [k]) i j + elem residual [(i * n + j)%Z])%R.
Proof.
  intros until sky'. intros Hn Hs Os HP HB D Sc Sr Ss HM H.
  destruct (C118_sky double n s P M details comp residual sky) as (_ & W); try assumption; try lia. destruct (W _ _ H) as (E & _ & V & _). split; [exact E|].
  assert (Es : Z.even s = false) by (rewrite <- Z.negb_odd, Os; reflexivity). rewrite Es in V. exact V.
Qed.
Print Assumptions C118_odd_partial.

(** For even image and beam sizes, which are those that the CPU can restore (C115), the result is that of the CPU from the same components and residual. *)
Theorem C118_cpu : forall double n s P (details comp residual model sky : nd R),
  1 <= n -> 1 <= s <= 32767 -> Z.even n = true -> Z.even s = true -> padded_size n s P -> n + 2 <= P -> P <= 32768 -> describes details s ->
  shape comp = [n * n] -> shape residual = [n * n] -> shape model = [n * n] -> shape sky = [n * n] ->
  exists model' sky_cpu, restore details n comp residual model sky = Some (model', sky_cpu) /\
    forall st' sky', gpu_restore double details n comp residual sky SUCCESS st' sky' -> st' = SUCCESS /\ forall t, 0 <= t < n * n -> elem sky' [t] = elem sky_cpu [t].
Proof.
  intros until sky. intros Hn Hs En Es HP HE HB D Sc Sr Sm Ss.
  destruct (restore_lemma n s details comp residual model sky) as (m' & s' & E & _ & _ & _ & V); try assumption; try lia. exists m', s'. split; [exact E|]. intros st' sky' H.
  destruct (C118_sky double n s P (n * n) details comp residual sky) as (_ & W); try assumption; try lia. destruct (W _ _ H) as (-> & _ & X & _). split; [reflexivity|]. intros t Ht.
  assert (K : t = t / n * n + t mod n) by (rewrite Z.mul_comm; apply Z.div_mod; lia). pose proof (Z.mod_pos_bound t n ltac:(lia)) as B.
  assert (A : 0 <= t / n < n) by (split; [apply Z.div_pos; lia|apply Z.div_lt_upper_bound; lia]). rewrite K, V, X, Es, beams_even by assumption. reflexivity.
Qed.
Print Assumptions C118_cpu.

(** Refuted: every beam is centred on its component.  For every even size of the beam, a single component of flux 1, with no residual, gives an image with its peak of 1 one pixel
    further in both directions, and less than 1 where the component is. *)
Theorem C118_shift_refuted : forall double n s P M (details comp residual sky : nd R) p q st' sky',
  1 <= n -> 2 <= s <= 32767 -> Z.even s = true -> padded_size n s P -> n + 2 <= P -> P <= 32768 -> describes details s ->
  shape comp = [n * n] -> shape residual = [n * n] -> shape sky = [M] -> n * n <= M -> 0 <= p -> 0 <= q -> p + 1 < n -> q + 1 < n ->
  (forall t, 0 <= t < n * n -> elem comp [t] = if t =? p * n + q then 1%R else 0%R) -> (forall t, 0 <= t < n * n -> elem residual [t] = 0%R) ->
  gpu_restore double details n comp residual sky SUCCESS st' sky' ->
  st' = SUCCESS /\ elem sky' [(p + 1) * n + (q + 1)] = 1%R /\ (elem sky' [(p * n + q)%Z] < 1)%R.
Proof.
  intros until sky'. intros Hn Hs Es HP HE HB D Sc Sr Ss HM Hp Hq Hp1 Hq1 Vc Vr H.
  destruct (C118_sky double n s P M details comp residual sky) as (_ & W); try assumption; try lia. destruct (W _ _ H) as (E & _ & V & _). split; [exact E|]. rewrite Es in V.
  assert (Vs : forall i j, 0 <= i < n -> 0 <= j < n -> elem sky' [i * n + j] = if in_frame s (i - (p + 1)) (j - (q + 1)) then beam details (i - (p + 1)) (j - (q + 1)) else 0%R).
  { intros i j Hi Hj. rewrite V, Vr by (try assumption; nia). rewrite Rplus_0_r. unfold framed_beams.
    rewrite (sum_one _ _ rcm 0 n p).
    2:lia. 2:{ intros a Ha Na. apply (sum_none _ _ rcm). intros b Hb. rewrite Vc by nia. replace (a * n + b =? p * n + q) with false by (symmetry; apply Z.eqb_neq; intro Q; apply Na; nia). ring. }
    rewrite (sum_one _ _ rcm 0 n q).
    2:lia. 2:{ intros b Hb Nb. rewrite Vc by nia. replace (p * n + b =? p * n + q) with false by lia. ring. }
    rewrite Vc by nia. rewrite Z.eqb_refl. ring. }
  split.
  - rewrite Vs by lia. replace (p + 1 - (p + 1)) with 0 by lia. replace (q + 1 - (q + 1)) with 0 by lia.
    assert (S2 : 1 <= s / 2 < s). { rewrite Z.even_spec in Es. destruct Es as (h & Q). rewrite Q, Z.mul_comm, Z.div_mul by lia. lia. }
    unfold in_frame. rewrite !Z.add_0_l. replace (0 <=? s / 2) with true by lia. replace (s / 2 <? s) with true by lia. cbn [andb]. exact (proj1 (C115_beam details s 0 0 D)).
  - rewrite Vs by lia. destruct (in_frame s (p - (p + 1)) (q - (q + 1))); [|lra]. apply (proj2 (proj2 (C115_beam details s _ _ D))). intro Q. injection Q as Q1 Q2. lia.
Qed.
Print Assumptions C118_shift_refuted.

(** Images of 61 x 61 pixels with beams of 15 x 15, of 64 x 64 with 16 x 16 *)
Example C118_hyps : let details s := mk_nd [4] (fun i => match i with [0] => 3%R | [1] => 2%R | [2] => 30%R | _ => IZR s end) in
  describes (details 15) 15 /\ describes (details 16) 16 /\ padded_size 61 15 128 /\ padded_size 64 16 128 /\ 64 + 2 <= 128 /\ in_frame 15 (-7) 7 = true /\ in_frame 15 8 0 = false /\ in_frame 15 (-8) 0 = false.
Proof.
  cbv zeta. split; [|split]; [split; [reflexivity|]; split; [change (3 <> 0)%R; lra|]; split; [change (2 <> 0)%R; lra|reflexivity] ..|].
  assert (X : forall m, 64 < m <= 128 -> (exists k, 0 <= k /\ 128 = 2 ^ k) /\ m <= 128 /\ forall k, 0 <= k -> m <= 2 ^ k -> 128 <= 2 ^ k).
  { intros m Hm. split; [exists 7; split; [lia|reflexivity]|]. split; [lia|]. intros k Hk L. change 128 with (2 ^ 7). apply Z.pow_le_mono_r; [lia|]. destruct (Z_lt_le_dec k 7) as [K|K]; [|exact K].
    pose proof (Z.pow_le_mono_r 2 k 6 ltac:(lia) ltac:(lia)) as B. change (2 ^ 6) with 64 in B. lia. }
  split; [exact (X (61 + 15 - 1) ltac:(lia))|]. split; [exact (X (64 + 16 - 1) ltac:(lia))|]. split; [lia|]. repeat split; reflexivity.
Qed.
