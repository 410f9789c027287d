(** The whole call (proofs only). *)
From Coq Require Import String Lia Lra.
From Verif Require Import Base BaseFacts Mem Sum CRing Cplx Fft FftSpec FftConv FftConvSpec FftConvFacts FftConvFacts2 Gpu GpuFacts GpuFacts2 GpuLaunch GpuLaunchFacts GpuView GpuViewFacts PhaseRotateGpu GridUtilsGpuFacts FftConvGpu FftConvGpuSpec FftConvGpuFacts.
From Verif Require WeightingGpu.
Import WeightingGpu(gpu_buffer).
Open Scope Z_scope.

Lemma square_buffer m ty n : gpu_square m ty n -> gpu_buffer m SUCCESS = SUCCESS.
Proof. destruct m as [m|]; [|intros []]. intros (_ & E & _). unfold gpu_buffer, location. cbn [failed]. rewrite E. reflexivity. Qed.
Lemma square_mtype m ty n : gpu_square m ty n -> mtype m = ty.
Proof. destruct m as [m|]; [|intros []]. intros (E & _). exact E. Qed.
Lemma square_location m ty n : gpu_square m ty n -> location m = MEM_GPU.
Proof. destruct m as [m|]; [|intros []]. intros (_ & E & _). exact E. Qed.
Lemma square_dims m ty n : gpu_square m ty n -> shape_dim m 0 = n /\ shape_dim m 1 = n.
Proof. destruct m as [m|]; [|intros []]. intros (_ & _ & E & D & _). unfold shape_dim. rewrite D, E. split; reflexivity. Qed.
Lemma square_complex m ty n : gpu_square m ty n -> ty = MEM_COMPLEX_FLOAT \/ ty = MEM_COMPLEX_DOUBLE -> is_complex m = true.
Proof. destruct m as [m|]; [|intros []]. intros (E & _ & _ & _ & D) T. unfold is_complex, has_data. rewrite E. destruct (m_data m); [|now destruct D]. destruct T as [-> | ->]; reflexivity. Qed.
Lemma call_convolution in1 in2 out ty n1 n2 N a b o st' o' : gpu_square in1 ty n1 -> gpu_square in2 ty n2 -> gpu_square out ty N -> is_read_only out = false ->
  ty = MEM_COMPLEX_FLOAT \/ ty = MEM_COMPLEX_DOUBLE -> (gpu_fft_convolution in1 in2 out a b o SUCCESS st' o' <-> gpu_convolution in1 in2 out n1 n2 ty a b o SUCCESS st' o').
Proof.
  intros G1 G2 G3 W T. unfold gpu_fft_convolution. cbn [failed]. rewrite W. rewrite (square_location _ _ _ G1), (square_location _ _ _ G3), (square_mtype _ _ _ G1), (square_mtype _ _ _ G3), !Z.eqb_refl. cbn [negb].
  rewrite (square_complex _ _ _ G1 T). cbn [negb]. destruct (square_dims _ _ _ G1) as (-> & ->). destruct (square_dims _ _ _ G2) as (-> & ->). rewrite !Z.eqb_refl. cbn [negb]. reflexivity.
Qed.
Lemma half_of P k : P = 2 ^ k -> 0 <= k -> 2 <= P -> P = 2 * cdiv P 2 /\ 1 <= cdiv P 2.
Proof.
  intros E Hk HP. unfold cdiv. rewrite Z.quot_div_nonneg by lia. assert (k <> 0) by (intros ->; cbn in E; lia).
  assert (P = 2 * 2 ^ (k - 1)) as E'. { rewrite E. rewrite <- Z.pow_succ_r by lia. f_equal. lia. }
  assert (D : P / 2 = 2 ^ (k - 1)) by (rewrite E' at 1; rewrite Z.mul_comm; apply Z.div_mul; lia). rewrite D. lia.
Qed.

Lemma runs_some {L A T} (eqb : L -> L -> bool) plus (ths : list T) body (m m' : L -> A) : runs eqb plus ths body m m' -> forall t, In t ths -> exists k, body t = Some k.
Proof.
  intros (ops & F & _) t It. clear m m'. induction F as [|x o l k E F IH]; [destruct It|]. destruct It as [<-|It]; [eauto|now apply IH].
Qed.

Section Call.
Context (in1 in2 out : option mem) (ty n1 n2 N P M1 M2 M : Z) (a b o : nd C).
Context (Hn1 : 1 <= n1) (Hn2 : 1 <= n2) (HP : padded_size n1 n2 P) (HB : P <= 32768) (G1 : gpu_square in1 ty n1) (G2 : gpu_square in2 ty n2) (G3 : gpu_square out ty N).
Context (Sa : shape a = [M1]) (Sb : shape b = [M2]) (So : shape o = [M]) (Ha : n1 * n1 <= M1) (Hb : n2 * n2 <= M2).
Let zero := mk_nd [P * P] (fun _ : list Z => C0).
Let e1 := (P - n1) / 2.
Let e2 := (P - n2) / 2.
Definition half_len (P : Z) := cdiv P 2.

Lemma extras : 0 <= e1 /\ 0 <= e2 /\ n1 + e1 <= P /\ n2 + e2 <= P /\ cdiv (P - n1) 2 = e1 /\ cdiv (P - n2) 2 = e2 /\ 2 * e1 <= P - n1 <= 2 * e1 + 1.
Proof using Hn1 Hn2 HP.
  destruct HP as (_ & L & _). unfold cdiv. rewrite !Z.quot_div_nonneg by lia. fold e1 e2.
  pose proof (Z.div_mod (P - n1) 2 ltac:(lia)). pose proof (Z.mod_pos_bound (P - n1) 2 ltac:(lia)). pose proof (Z.div_mod (P - n2) 2 ltac:(lia)). pose proof (Z.mod_pos_bound (P - n2) 2 ltac:(lia)).
  fold e1 in H. fold e2 in H1. clearbody e1 e2. lia.
Qed.
(** The first five launches *)
Definition front (st5 : error) (m5 : nd C) : Prop :=
  exists st1 p1 st2 p2 st3 m3 st4 m4,
    conv_launch "pad_2D_gpu" ty (blocks_of n1 32, blocks_of n1 32, 1) (32, 32, 1) (pad_thread a [P * P] n1 n1 e1 e1 P) (gpu_buffer in1 SUCCESS) zero st1 p1 /\
    conv_launch "pad_2D_gpu" ty (blocks_of n2 32, blocks_of n2 32, 1) (32, 32, 1) (pad_thread b [P * P] n2 n2 e2 e2 P) (gpu_buffer in2 st1) zero st2 p2 /\
    conv_launch "complex_multiply" ty (blocks_of (P * P) 256, 1, 1) (256, 1, 1) (multiply_thread (cufft false P st2 p1) (cufft false P st2 p2) [P * P] (P * P)) st2 zero st3 m3 /\
    conv_launch "fft_normalise_gpu" ty (blocks_of (P * P) 256, 1, 1) (256, 1, 1) (normalise_thread [P * P] (P * P)) st3 (cufft true P st3 m3) st4 m4 /\
    conv_launch "fft_shift_2D_gpu" ty (blocks_of (cdiv P 2) 32, blocks_of (cdiv P 2) 32, 1) (32, 32, 1) (shift_thread m4 [P * P] P P (cdiv P 2) (cdiv P 2)) st4 zero st5 m5.
Lemma call_front st' o' : gpu_convolution in1 in2 out n1 n2 ty a b o SUCCESS st' o' <->
  exists st5 m5, front st5 m5 /\ conv_launch "remove_padding_2D_gpu" ty (blocks_of n1 32, blocks_of n1 32, 1) (32, 32, 1) (remove_thread m5 (shape o) P e1 e1 n1 n1) (gpu_buffer out st5) o st' o'.
Proof using Hn1 Hn2 HP.
  unfold gpu_convolution. rewrite (pad_size n1 n2 P) by (lia || exact HP). cbv zeta. destruct extras as (_ & _ & _ & _ & -> & -> & _). fold zero. unfold front. split.
  - intros (st1 & p1 & st2 & p2 & st3 & m3 & st4 & m4 & st5 & m5 & A & B & D & F & G & H). exists st5, m5. split; [|exact H]. exists st1, p1, st2, p2, st3, m3, st4, m4. repeat split; assumption.
  - intros (st5 & m5 & (st1 & p1 & st2 & p2 & st3 & m3 & st4 & m4 & A & B & D & F & G) & H). exists st1, p1, st2, p2, st3, m3, st4, m4, st5, m5. repeat split; assumption.
Qed.
(** The first four launches *)
Definition product_ok (m4 : nd C) : Prop := shape m4 = [P * P] /\ exists p q : nd C,
  (forall i j, 0 <= i < P -> 0 <= j < P -> elem p [i * P + j] = at0 a n1 (i - e1) (j - e1)) /\ (forall i j, 0 <= i < P -> 0 <= j < P -> elem q [i * P + j] = at0 b n2 (i - e2) (j - e2)) /\
  forall k l, 0 <= k < P -> 0 <= l < P -> elem m4 [k * P + l] = circ P (fun i j => elem p [i * P + j]) (fun i j => elem q [i * P + j]) k l.
Lemma P_pos : 1 <= P /\ 1 <= P * P <= 2147483647.
Proof using Hn1 Hn2 HP HB. destruct HP as (_ & L & _). clear - L HB Hn1 Hn2. nia. Qed.
Lemma four_result st1 p1 st2 p2 st3 m3 st4 m4 :
    conv_launch "pad_2D_gpu" ty (blocks_of n1 32, blocks_of n1 32, 1) (32, 32, 1) (pad_thread a [P * P] n1 n1 e1 e1 P) (gpu_buffer in1 SUCCESS) zero st1 p1 ->
    conv_launch "pad_2D_gpu" ty (blocks_of n2 32, blocks_of n2 32, 1) (32, 32, 1) (pad_thread b [P * P] n2 n2 e2 e2 P) (gpu_buffer in2 st1) zero st2 p2 ->
    conv_launch "complex_multiply" ty (blocks_of (P * P) 256, 1, 1) (256, 1, 1) (multiply_thread (cufft false P st2 p1) (cufft false P st2 p2) [P * P] (P * P)) st2 zero st3 m3 ->
    conv_launch "fft_normalise_gpu" ty (blocks_of (P * P) 256, 1, 1) (256, 1, 1) (normalise_thread [P * P] (P * P)) st3 (cufft true P st3 m3) st4 m4 ->
  st4 = SUCCESS /\ product_ok m4.
Proof using Hn1 Hn2 HP HB G1 G2 Sa Sb Ha Hb.
  intros A B D F. destruct extras as (E1 & E2 & L1 & L2 & _). destruct P_pos as (Pp & PP).
  rewrite (square_buffer _ _ _ G1) in A. apply (pad_result ty n1 e1 P M1 a) in A; try assumption. destruct A as (-> & S1 & V1).
  rewrite (square_buffer _ _ _ G2) in B. apply (pad_result ty n2 e2 P M2 b) in B; try assumption. destruct B as (-> & S2 & V2).
  apply (multiply_result ty (P * P)) in D; [|exact PP|now rewrite cufft_shape|now rewrite cufft_shape]. destruct D as (-> & S3 & V3).
  apply (normalise_result ty (P * P)) in F; [|exact PP|now rewrite cufft_shape]. destruct F as (-> & S4 & V4).
  split; [reflexivity|]. split; [exact S4|]. exists p1, p2. split; [exact V1|]. split; [exact V2|]. exact (back_at P p1 p2 m3 m4 Pp V3 V4).
Qed.
Lemma four_exists : exists st1 p1 st2 p2 st3 m3 st4 m4,
    conv_launch "pad_2D_gpu" ty (blocks_of n1 32, blocks_of n1 32, 1) (32, 32, 1) (pad_thread a [P * P] n1 n1 e1 e1 P) (gpu_buffer in1 SUCCESS) zero st1 p1 /\
    conv_launch "pad_2D_gpu" ty (blocks_of n2 32, blocks_of n2 32, 1) (32, 32, 1) (pad_thread b [P * P] n2 n2 e2 e2 P) (gpu_buffer in2 st1) zero st2 p2 /\
    conv_launch "complex_multiply" ty (blocks_of (P * P) 256, 1, 1) (256, 1, 1) (multiply_thread (cufft false P st2 p1) (cufft false P st2 p2) [P * P] (P * P)) st2 zero st3 m3 /\
    conv_launch "fft_normalise_gpu" ty (blocks_of (P * P) 256, 1, 1) (256, 1, 1) (normalise_thread [P * P] (P * P)) st3 (cufft true P st3 m3) st4 m4.
Proof using Hn1 Hn2 HP HB G1 G2 Sa Sb Ha Hb.
  destruct extras as (E1 & E2 & L1 & L2 & _). destruct P_pos as (Pp & PP).
  rewrite (square_buffer _ _ _ G1). destruct (pad_exists ty n1 e1 P M1 a) as (st1 & p1 & A); try assumption.
  pose proof A as A'. apply (pad_result ty n1 e1 P M1 a) in A'; try assumption. destruct A' as (-> & S1 & V1).
  destruct (pad_exists ty n2 e2 P M2 b) as (st2 & p2 & B); try assumption. pose proof B as B'. apply (pad_result ty n2 e2 P M2 b) in B'; try assumption. destruct B' as (-> & S2 & V2).
  destruct (multiply_exists ty (P * P) (cufft false P SUCCESS p1) (cufft false P SUCCESS p2)) as (st3 & m3 & D); [exact PP|now rewrite cufft_shape|now rewrite cufft_shape|].
  pose proof D as D'. apply (multiply_result ty (P * P)) in D'; [|exact PP|now rewrite cufft_shape|now rewrite cufft_shape]. destruct D' as (-> & S3 & V3).
  destruct (normalise_exists ty (P * P) (cufft true P SUCCESS m3)) as (st4 & m4 & F); [exact PP|].
  exists SUCCESS, p1, SUCCESS, p2, SUCCESS, m3, st4, m4. split; [exact A|]. split; [rewrite (square_buffer _ _ _ G2); exact B|]. split; [exact D|exact F].
Qed.
Definition shifted_ok (m5 : nd C) : Prop := shape m5 = [P * P] /\ exists p q : nd C,
  (forall i j, 0 <= i < P -> 0 <= j < P -> elem p [i * P + j] = at0 a n1 (i - e1) (j - e1)) /\ (forall i j, 0 <= i < P -> 0 <= j < P -> elem q [i * P + j] = at0 b n2 (i - e2) (j - e2)) /\
  forall k l, 0 <= k < P -> 0 <= l < P -> elem m5 [k * P + l] = circ P (fun i j => elem p [i * P + j]) (fun i j => elem q [i * P + j]) ((k + cdiv P 2) mod P) ((l + cdiv P 2) mod P).
Lemma front_result st5 m5 : 2 <= P -> front st5 m5 -> st5 = SUCCESS /\ shifted_ok m5.
Proof using Hn1 Hn2 HP HB G1 G2 Sa Sb Ha Hb.
  intros P2 (st1 & p1 & st2 & p2 & st3 & m3 & st4 & m4 & A & B & D & F & G). destruct (four_result _ _ _ _ _ _ _ _ A B D F) as (-> & S4 & p & q & Vp & Vq & V). clear A B D F.
  destruct HP as ((k & Hk & E) & _). destruct (half_of P k E Hk P2) as (Eh & Hh).
  apply (shift_result ty (cdiv P 2) P m4) in G; try assumption. destruct G as (-> & S5 & V5). split; [reflexivity|]. split; [exact S5|]. exists p, q. split; [exact Vp|]. split; [exact Vq|].
  intros i j Hi Hj. rewrite V5 by assumption. apply V; apply Z.mod_pos_bound; lia.
Qed.
Lemma front_exists : 2 <= P -> exists st5 m5, front st5 m5.
Proof using Hn1 Hn2 HP HB G1 G2 Sa Sb Ha Hb.
  intro P2. destruct four_exists as (st1 & p1 & st2 & p2 & st3 & m3 & st4 & m4 & A & B & D & F). destruct (four_result _ _ _ _ _ _ _ _ A B D F) as (-> & S4 & _).
  destruct HP as ((k & Hk & E) & _). destruct (half_of P k E Hk P2) as (Eh & Hh).
  destruct (shift_exists ty (cdiv P 2) P m4) as (st5 & m5 & G); try assumption. exists st5, m5, st1, p1, st2, p2, st3, m3, SUCCESS, m4. repeat split; assumption.
Qed.
Definition result_ok (o' : nd C) : Prop := shape o' = [M] /\
  (forall i j, 0 <= i < n1 -> 0 <= j < n1 -> elem o' [i * n1 + j] = full_conv a n1 b n2 (i + (n2 - 1) / 2) (j + (n2 - 1) / 2)) /\ (forall t, t < 0 \/ n1 * n1 <= t -> elem o' [t] = elem o [t]).
Lemma full_result st' o' : n1 + 2 <= P -> n1 * n1 <= M -> gpu_convolution in1 in2 out n1 n2 ty a b o SUCCESS st' o' -> st' = SUCCESS /\ result_ok o'.
Proof using Hn1 Hn2 HP HB G1 G2 G3 Sa Sb So Ha Hb.
  intros HE HM H. apply call_front in H. destruct H as (st5 & m5 & F & H). apply front_result in F; [|lia]. destruct F as (-> & S5 & p & q & Vp & Vq & V).
  destruct extras as (E1 & E2 & L1 & L2 & _ & _ & K). rewrite (square_buffer _ _ _ G3) in H.
  assert (1 <= e1) by lia. apply (remove_result ty n1 e1 P M m5 o) in H; [|lia..|exact S5|exact So]. destruct H as (-> & S6 & V6 & F6).
  split; [reflexivity|]. split; [exact S6|]. split; [|exact F6].
  intros i j Hi Hj. rewrite V6 by assumption. rewrite V by lia. destruct HP as ((k & Hk & E) & HL & _). destruct (half_of P k E Hk ltac:(lia)) as (Eh & Hh).
  apply (circ_full P (cdiv P 2) n1 n2 e1 e2 a b p q i j); try assumption; try lia; reflexivity.
Qed.
Lemma full_exists : n1 + 2 <= P -> n1 * n1 <= M -> exists st' o', gpu_convolution in1 in2 out n1 n2 ty a b o SUCCESS st' o'.
Proof using Hn1 Hn2 HP HB G1 G2 G3 Sa Sb So Ha Hb.
  intros HE HM. destruct front_exists as (st5 & m5 & F); [lia|]. pose proof F as F'. apply front_result in F'; [|lia]. destruct F' as (-> & S5 & _).
  destruct extras as (E1 & E2 & L1 & L2 & _ & _ & K). destruct (remove_exists ty n1 e1 P M m5 o) as (st' & o' & H); try assumption; try lia.
  exists st', o'. apply call_front. exists SUCCESS, m5. split; [exact F|]. rewrite (square_buffer _ _ _ G3). exact H.
Qed.
(** A thread of the last kernel that accesses memory outside its arrays *)
Lemma no_last x y m5 st' o' : 0 <= x < n1 -> 0 <= y < n1 -> n1 <= 32768 -> remove_thread m5 (shape o) P e1 e1 n1 n1 (x, y, 0) = None ->
  ~ conv_launch "remove_padding_2D_gpu" ty (blocks_of n1 32, blocks_of n1 32, 1) (32, 32, 1) (remove_thread m5 (shape o) P e1 e1 n1 n1) SUCCESS o st' o'.
Proof using Hn1.
  clear - Hn1. intros Hx Hy Hn E H. unfold conv_launch, launch_view in H. cbv zeta in H. cbn [failed] in H. rewrite conv_name in H by (cbn; auto 6). cbn [negb] in H.
  change (blocks_of n1 32, blocks_of n1 32, 1) with (blocks_of n1 32, blocks_of n1 32, blocks_of 1 1) in H. rewrite each_grid in H by lia. rewrite fits_square in H by lia. cbn [negb] in H. destruct H as (_ & m' & R & _).
  destruct (runs_some _ _ _ _ _ _ R (x, y, 0)) as (k & K); [|congruence]. apply each_thread; lia.
Qed.
Lemma edge st' o' : P < n1 + 2 -> 2 <= P -> ~ gpu_convolution in1 in2 out n1 n2 ty a b o SUCCESS st' o'.
Proof using Hn1 Hn2 HP HB G1 G2 G3 Sa Sb Ha Hb.
  intros HE P2 H. apply call_front in H. destruct H as (st5 & m5 & F & H). apply front_result in F; [|lia]. destruct F as (-> & S5 & _).
  destruct extras as (E1 & E2 & L1 & L2 & _ & _ & K). rewrite (square_buffer _ _ _ G3) in H. assert (E : e1 = 0) by lia.
  revert H. apply (no_last 0 0); try lia. unfold remove_thread. rewrite E. change (u32 0) with 0. replace (0 <? n1) with true by lia. cbn [andb].
  unfold rd. rewrite S5. destruct (in_shape _ _) eqn:I; [|reflexivity]. apply in_shape_1 in I. lia.
Qed.
Lemma small_output st' o' : n1 + 2 <= P -> M < n1 * n1 -> ~ gpu_convolution in1 in2 out n1 n2 ty a b o SUCCESS st' o'.
Proof using Hn1 Hn2 HP HB G1 G2 G3 Sa Sb So Ha Hb.
  intros HE HM H. apply call_front in H. destruct H as (st5 & m5 & F & H). apply front_result in F; [|lia]. destruct F as (-> & S5 & _).
  destruct extras as (E1 & E2 & L1 & L2 & _ & _ & K). rewrite (square_buffer _ _ _ G3) in H.
  revert H. apply (no_last (n1 - 1) (n1 - 1)); try lia. unfold remove_thread. rewrite !u32_id by lia. replace (n1 - 1 <? n1) with true by lia. cbn [andb].
  pose proof (flat_bound P (n1 - 1 + (e1 - 1)) (n1 - 1 + (e1 - 1)) ltac:(lia) ltac:(lia)).
  rewrite rd_some by (rewrite S5; apply in_shape_1; lia). cbn [bind]. unfold store. rewrite So. destruct (in_shape [M] _) eqn:I; [|reflexivity]. apply in_shape_1 in I. nia.
Qed.
(** One element and one element: the kernel that exchanges the quadrants gets no blocks *)
Lemma unit_result st' o' : P = 1 -> gpu_convolution in1 in2 out n1 n2 ty a b o SUCCESS st' o' <-> st' = ERR_RUNTIME /\ o' = o.
Proof using Hn1 Hn2 HP HB G1 G2 G3 Sa Sb Ha Hb.
  intros P1. assert (X : forall st5 m5, front st5 m5 -> st5 = ERR_RUNTIME).
  { intros st5 m5 (st1 & p1 & st2 & p2 & st3 & m3 & st4 & m4 & A & B & D & F & G). destruct (four_result _ _ _ _ _ _ _ _ A B D F) as (-> & _). clear A B D F.
    unfold conv_launch, launch_view in G. cbv zeta in G. cbn [failed] in G. rewrite conv_name in G by (cbn; auto 6). cbn [negb] in G. rewrite P1 in G. destruct G as (G & _). exact G. }
  rewrite call_front. split.
  - intros (st5 & m5 & F & H). apply X in F. subst st5. cbn in H. destruct H as (-> & ->). split; reflexivity.
  - intros (-> & ->). destruct four_exists as (st1 & p1 & st2 & p2 & st3 & m3 & st4 & m4 & A & B & D & F). destruct (four_result _ _ _ _ _ _ _ _ A B D F) as (-> & _).
    exists ERR_RUNTIME, zero. split.
    + exists st1, p1, st2, p2, st3, m3, SUCCESS, m4. split; [exact A|]. split; [exact B|]. split; [exact D|]. split; [exact F|].
      unfold conv_launch, launch_view. cbv zeta. cbn [failed]. rewrite conv_name by (cbn; auto 6). cbn [negb]. rewrite P1. split; reflexivity.
    + split; reflexivity.
Qed.
End Call.
