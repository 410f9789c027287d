(** C96, C97: the array utilities of the gridder in GPU memory.  Exact arithmetic. *)
From Coq Require Import Reals Lra Lia String.
From Verif Require Import Base BaseFacts Mem Checks ChecksFacts CRing Cplx Sum GridUtils GridUtilsSpec GridUtilsFacts Subgrid SubgridSpec SubgridFacts Gpu GpuFacts GpuFacts2 GpuLaunch GpuLaunchFacts GpuView GpuViewFacts PhaseRotateGpu GridUtilsGpu GridUtilsGpuSpec GridUtilsGpuFacts.
Open Scope Z_scope.

Lemma accum_names t_out t1 : complex_type t_out -> complex_type t1 \/ real_type t1 -> exists n, accum_kernel t_out t1 MEM_COMPLEX_DOUBLE = Some (n, false) /\ registered n = true.
Proof. intros [-> | ->] [[-> | ->]|[-> | ->]]; eexists; split; reflexivity. Qed.
Lemma accum_real_names t_out t1 t2 : real_type t_out -> complex_type t1 -> exists n, accum_kernel t_out t1 t2 = Some (n, true) /\ registered n = true.
Proof. intros [-> | ->] [-> | ->]; eexists; split; reflexivity. Qed.
Lemma dims2 {A} m ty (x : nd A) a b : described m ty x -> shape x = [a; b] -> shape_dim m 0 = a /\ shape_dim m 1 = b.
Proof. intros D E. split; rewrite (described_shape m ty x) by (auto; rewrite E; cbn; lia); rewrite E; reflexivity. Qed.
Lemma view2_ok {A} m ty (x : nd A) a b : described m ty x -> shape x = [a; b] -> writeable m -> view2 m SUCCESS = SUCCESS.
Proof. intros D E W. unfold view2. rewrite (described_type m ty x D). apply (view_ok m ty x 2 D); [now rewrite E|exact W]. Qed.
Lemma view2_const_ok {A} m ty (x : nd A) a b : described m ty x -> shape x = [a; b] -> view2_const m ty SUCCESS = SUCCESS.
Proof. intros D E. unfold view2_const. apply (view_const_ok m ty x 2 D). now rewrite E. Qed.
Lemma forall2_left {X Y} (P : X -> Y -> Prop) l k t : Forall2 P l k -> In t l -> exists o, P t o.
Proof. induction 1 as [|a b l k H F IH]; [intros []|]. intros [<-|I]; eauto. Qed.

(** ** C96: sdp_gridder_accumulate_scaled_arrays.
    Partial: exact arithmetic, arrays of matching shapes, sides within int. *)
Theorem C96_accumulate_partial out in1 in2 t_out t1 e out_d in1_d in2_d n m : side n -> side m ->
  described out t_out out_d -> shape out_d = [n; m] -> writeable out -> described in1 t1 in1_d -> shape in1_d = [n; m] ->
  optional in2 MEM_COMPLEX_DOUBLE [n; m] in2_d -> complex_type t_out -> complex_type t1 \/ real_type t1 ->
  (exists st' r, gpu_accumulate out in1 in2 e out_d in1_d in2_d SUCCESS st' r) /\
  forall st' r, gpu_accumulate out in1 in2 e out_d in1_d in2_d SUCCESS st' r ->
    (fits16 n m -> st' = SUCCESS /\ shape r = [n; m] /\
      (forall i j, 0 <= i < n -> 0 <= j < m -> elem r [i; j] = Cadd (elem out_d [i; j]) (Cmul (number t1 (elem in1_d [i; j])) (factor in2 in2_d e i j)))) /\
    (~ fits16 n m -> st' = ERR_RUNTIME /\ r = out_d).
Proof.
  intros Hn Hm Do So Wo D1 S1 D2 To T1. unfold gpu_accumulate. cbn [failed]. rewrite (described_loc _ _ _ Do), (described_loc _ _ _ D1), Z.eqb_refl. cbn [negb]. cbv zeta.
  destruct (dims2 out t_out out_d n m Do So) as (-> & ->). rewrite (described_type _ _ _ Do), (described_type _ _ _ D1).
  assert (E2 : match in2 with Some _ => mtype in2 | None => MEM_COMPLEX_DOUBLE end = MEM_COMPLEX_DOUBLE).
  { destruct in2 as [m2|]; [|reflexivity]. destruct (D2 ltac:(discriminate)) as (D & _). exact (described_type _ _ _ D). }
  rewrite E2. destruct (accum_names t_out t1 To T1) as (k & -> & Rg).
  assert (V2 : match in2 with Some _ => view2_const in2 MEM_COMPLEX_DOUBLE SUCCESS | None => SUCCESS end = SUCCESS).
  { destruct in2 as [m2|]; [|reflexivity]. destruct (D2 ltac:(discriminate)) as (D & S). exact (view2_const_ok _ _ _ _ _ D S). }
  rewrite V2, (view2_ok out t_out out_d n m Do So Wo), (view2_const_ok in1 t1 in1_d n m D1 S1).
  assert (Th : forall a b, 0 <= a < 2147483663 -> 0 <= b < 2147483663 -> _) by (intros a b; apply (accum_scale_th t1 n m in1_d in2 in2_d e a b S1); intro N; exact (proj2 (D2 N))).
  split.
  - exact (pixels_exists Cadd k n m _ out_d (fun a b => [a; b]) _ Hn Hm Rg Th).
  - intros st' r L. destruct (pixels_result Cadd k n m _ out_d (fun a b => [a; b]) _ Hn Hm Rg Th (fun a b a' b' _ _ _ _ => pos2_inj a b a' b') st' r L) as (X & Y). split; [|exact Y].
    intro F. destruct (X F) as (-> & S & V & _). rewrite S. auto.
Qed.
Print Assumptions C96_accumulate_partial.

(** A real output without second input: the real part is added. *)
Theorem C96_accumulate_real_partial out in1 t_out t1 e out_d in1_d in2_d n m : side n -> side m ->
  described out t_out out_d -> shape out_d = [n; m] -> writeable out -> described in1 t1 in1_d -> shape in1_d = [n; m] -> real_type t_out -> complex_type t1 ->
  (exists st' r, gpu_accumulate out in1 None e out_d in1_d in2_d SUCCESS st' r) /\
  forall st' r, gpu_accumulate out in1 None e out_d in1_d in2_d SUCCESS st' r ->
    (fits16 n m -> st' = SUCCESS /\ shape r = [n; m] /\ (forall i j, 0 <= i < n -> 0 <= j < m -> re (elem r [i; j]) = (re (elem out_d [i; j]) + re (elem in1_d [i; j]))%R)) /\
    (~ fits16 n m -> st' = ERR_RUNTIME /\ r = out_d).
Proof.
  intros Hn Hm Do So Wo D1 S1 To T1. unfold gpu_accumulate. cbn [failed]. rewrite (described_loc _ _ _ Do), (described_loc _ _ _ D1), Z.eqb_refl. cbn [negb]. cbv zeta.
  destruct (dims2 out t_out out_d n m Do So) as (-> & ->). rewrite (described_type _ _ _ Do), (described_type _ _ _ D1).
  destruct (accum_real_names t_out t1 MEM_COMPLEX_DOUBLE To T1) as (k & -> & Rg).
  rewrite (view2_ok out t_out out_d n m Do So Wo), (view2_const_ok in1 t1 in1_d n m D1 S1).
  assert (Th : forall a b, 0 <= a < 2147483663 -> 0 <= b < 2147483663 -> _) by (intros a b; apply (accum_real_th n m in1_d a b S1)).
  split.
  - exact (pixels_exists Cadd k n m _ out_d (fun a b => [a; b]) _ Hn Hm Rg Th).
  - intros st' r L. destruct (pixels_result Cadd k n m _ out_d (fun a b => [a; b]) _ Hn Hm Rg Th (fun a b a' b' _ _ _ _ => pos2_inj a b a' b') st' r L) as (X & Y). split; [|exact Y].
    intro F. destruct (X F) as (-> & S & V & _). rewrite S. split; [reflexivity|]. split; [exact So|]. intros i j Hi Hj. rewrite (V i j Hi Hj). reflexivity.
Qed.
Print Assumptions C96_accumulate_real_partial.

(** With a real output a second input is accepted and ignored (documented: out += in1 times in2 to the power exponent). *)
Theorem C96_real_scaled_refuted : forall out in1 in2 e out_d in1_d in2_d n m, side n -> side m -> fits16 n m ->
  described out MEM_DOUBLE out_d -> shape out_d = [n; m] -> writeable out -> described in1 MEM_COMPLEX_DOUBLE in1_d -> shape in1_d = [n; m] ->
  described in2 MEM_COMPLEX_DOUBLE in2_d -> shape in2_d = [n; m] ->
  forall st' r, gpu_accumulate out in1 in2 e out_d in1_d in2_d SUCCESS st' r ->
    st' = SUCCESS /\ forall i j, 0 <= i < n -> 0 <= j < m -> re (elem r [i; j]) = (re (elem out_d [i; j]) + re (elem in1_d [i; j]))%R.
Proof.
  intros out in1 in2 e out_d in1_d in2_d n m Hn Hm F Do So Wo D1 S1 D2 S2. unfold gpu_accumulate. cbn [failed]. rewrite (described_loc _ _ _ Do), (described_loc _ _ _ D1), Z.eqb_refl. cbn [negb]. cbv zeta.
  destruct (dims2 out _ out_d n m Do So) as (-> & ->). rewrite (described_type _ _ _ Do), (described_type _ _ _ D1).
  destruct (accum_real_names MEM_DOUBLE MEM_COMPLEX_DOUBLE (match in2 with Some _ => mtype in2 | None => MEM_COMPLEX_DOUBLE end) ltac:(now left) ltac:(now left)) as (k & -> & Rg).
  assert (V2 : match in2 with Some _ => view2_const in2 MEM_COMPLEX_DOUBLE SUCCESS | None => SUCCESS end = SUCCESS).
  { destruct in2 as [m2|]; [|reflexivity]. exact (view2_const_ok _ _ _ _ _ D2 S2). }
  rewrite V2, (view2_ok out _ out_d n m Do So Wo), (view2_const_ok in1 _ in1_d n m D1 S1).
  assert (Th : forall a b, 0 <= a < 2147483663 -> 0 <= b < 2147483663 -> _) by (intros a b; apply (accum_real_th n m in1_d a b S1)).
  intros st' r L. destruct (pixels_result Cadd k n m _ out_d (fun a b => [a; b]) _ Hn Hm Rg Th (fun a b a' b' _ _ _ _ => pos2_inj a b a' b') st' r L) as (X & _).
  destruct (X F) as (-> & S & V & _). split; [reflexivity|]. intros i j Hi Hj. rewrite (V i j Hi Hj). reflexivity.
Qed.
Print Assumptions C96_real_scaled_refuted.

(** ** sdp_gridder_scale_inv_array: the scaled array has the same precision throughout. *)
Lemma scale_inv_names t1 t_out : (t_out = MEM_COMPLEX_DOUBLE /\ (t1 = MEM_DOUBLE \/ t1 = MEM_COMPLEX_DOUBLE)) \/ (t_out = MEM_COMPLEX_FLOAT /\ (t1 = MEM_FLOAT \/ t1 = MEM_COMPLEX_FLOAT)) ->
  exists k, scale_inv_kernel t_out t1 MEM_COMPLEX_DOUBLE = Some k /\ registered k = true.
Proof. intros [[-> [-> | ->]]|[-> [-> | ->]]]; eexists; split; reflexivity. Qed.
Theorem C96_scale_inv_partial out in1 in2 t_out t1 e out_d in1_d in2_d n m : side n -> side m ->
  described out t_out out_d -> shape out_d = [n; m] -> writeable out -> described in1 t1 in1_d -> shape in1_d = [n; m] -> described in2 MEM_COMPLEX_DOUBLE in2_d -> shape in2_d = [n; m] ->
  (t_out = MEM_COMPLEX_DOUBLE /\ (t1 = MEM_DOUBLE \/ t1 = MEM_COMPLEX_DOUBLE)) \/ (t_out = MEM_COMPLEX_FLOAT /\ (t1 = MEM_FLOAT \/ t1 = MEM_COMPLEX_FLOAT)) ->
  (exists st' r, gpu_scale_inv out in1 in2 e out_d in1_d in2_d SUCCESS st' r) /\
  forall st' r, gpu_scale_inv out in1 in2 e out_d in1_d in2_d SUCCESS st' r ->
    (fits16 n m -> st' = SUCCESS /\ shape r = [n; m] /\
      (forall i j, 0 <= i < n -> 0 <= j < m -> elem r [i; j] = Cdiv (number t1 (elem in1_d [i; j])) (Cpowz (elem in2_d [i; j]) e))) /\
    (~ fits16 n m -> st' = ERR_RUNTIME /\ r = out_d).
Proof.
  intros Hn Hm Do So Wo D1 S1 D2 S2 T1. unfold gpu_scale_inv. cbn [failed]. rewrite (described_loc _ _ _ Do), (described_loc _ _ _ D1), (described_loc _ _ _ D2), Z.eqb_refl. cbn [negb andb]. cbv zeta.
  destruct (dims2 out t_out out_d n m Do So) as (-> & ->). rewrite (described_type _ _ _ Do), (described_type _ _ _ D1), (described_type _ _ _ D2).
  destruct (scale_inv_names t1 t_out T1) as (k & -> & Rg). rewrite (view2_const_ok in2 _ in2_d n m D2 S2), (view2_ok out t_out out_d n m Do So Wo), (view2_const_ok in1 t1 in1_d n m D1 S1).
  assert (Th : forall a b, 0 <= a < 2147483663 -> 0 <= b < 2147483663 -> _) by (intros a b; apply (scale_inv_th t1 n m in1_d in2_d e a b S1 S2)).
  split.
  - exact (pixels_exists Cadd k n m _ out_d (fun a b => [a; b]) _ Hn Hm Rg Th).
  - intros st' r L. destruct (pixels_result Cadd k n m _ out_d (fun a b => [a; b]) _ Hn Hm Rg Th (fun a b a' b' _ _ _ _ => pos2_inj a b a' b') st' r L) as (X & Y). split; [|exact Y].
    intro F. destruct (X F) as (-> & S & V & _). rewrite S. auto.
Qed.
Print Assumptions C96_scale_inv_partial.

(** ** sdp_gridder_idft: the transform of the CPU version (C63) is added to the image.  Partial: also square images, sizes within int. *)
Theorem C96_idft_partial uvw vis start end_ lmn taper image dbl su sv sw theta w_step f0 df uvw_d vis_d start_d end_d lmn_d taper_d image_d n nc sz :
  side sz -> 0 <= n -> 0 <= nc ->
  described uvw (if dbl : bool then MEM_DOUBLE else MEM_FLOAT) uvw_d -> shape uvw_d = [n; 3] -> described lmn (if dbl then MEM_DOUBLE else MEM_FLOAT) lmn_d -> shape lmn_d = [sz * sz; 3] ->
  described vis (if dbl then MEM_COMPLEX_DOUBLE else MEM_COMPLEX_FLOAT) vis_d -> shape vis_d = [n; nc] ->
  described image (if dbl then MEM_COMPLEX_DOUBLE else MEM_COMPLEX_FLOAT) image_d -> shape image_d = [sz; sz] -> writeable image ->
  optional start MEM_INT [n] start_d -> optional end_ MEM_INT [n] end_d -> optional taper MEM_DOUBLE [sz] taper_d ->
  let chs := match start, end_ with Some _, Some _ => Some (start_d, end_d) | _, _ => None end in
  let tap := match taper with Some _ => Some taper_d | None => None end in
  (exists st' r, gpu_idft uvw vis start end_ lmn taper image su sv sw theta w_step f0 df uvw_d vis_d start_d end_d lmn_d taper_d image_d SUCCESS st' r) /\
  forall st' r, gpu_idft uvw vis start end_ lmn taper image su sv sw theta w_step f0 df uvw_d vis_d start_d end_d lmn_d taper_d image_d SUCCESS st' r ->
    (fits16 sz sz -> st' = SUCCESS /\ shape r = [sz; sz] /\
      (forall i j, 0 <= i < sz -> 0 <= j < sz -> elem r [i; j] = Cadd (elem image_d [i; j])
         (Cmul (imaged uvw_d lmn_d f0 df (offsets theta w_step su sv sw) vis_d chs n nc (i * sz + j)) (RtoC (taper_value tap i j))))) /\
    (~ fits16 sz sz -> st' = ERR_RUNTIME /\ r = image_d).
Proof.
  intros Hs Hn Hc D1 S1 D2 S2 D3 S3 D4 S4 W4 O1 O2 O3 chs tap. unfold gpu_idft. cbn [failed].
  assert (K : exists k, idft_kernel (mtype lmn) (mtype image) (mtype uvw) (mtype vis) = Some k /\ registered k = true).
  { rewrite (described_type _ _ _ D1), (described_type _ _ _ D2), (described_type _ _ _ D3), (described_type _ _ _ D4). destruct dbl; eexists; split; reflexivity. }
  destruct K as (k & -> & Rg). cbv zeta. fold chs. fold tap. destruct (dims2 image _ image_d sz sz D4 S4) as (-> & ->).
  rewrite (view2_ok image _ image_d sz sz D4 S4 W4). rewrite (described_type _ _ _ D1), (described_type _ _ _ D2), (described_type _ _ _ D3).
  rewrite (view2_const_ok lmn _ lmn_d _ _ D2 S2), (view2_const_ok uvw _ uvw_d _ _ D1 S1), (view2_const_ok vis _ vis_d _ _ D3 S3).
  assert (V1 : match chs with Some _ => snd (check_and_view_const end_ MEM_INT 1 MEM_GPU (snd (check_and_view_const start MEM_INT 1 MEM_GPU SUCCESS))) | None => SUCCESS end = SUCCESS).
  { unfold chs. destruct start as [s|]; [|reflexivity]. destruct end_ as [e|]; [|reflexivity]. destruct (O1 ltac:(discriminate)) as (Da & Sa). destruct (O2 ltac:(discriminate)) as (Db & Sb).
    rewrite (view_const_ok (Some s) MEM_INT start_d 1 Da) by now rewrite Sa. apply (view_const_ok (Some e) MEM_INT end_d 1 Db). now rewrite Sb. }
  rewrite V1.
  assert (V3 : match taper with Some _ => snd (check_and_view_const taper MEM_DOUBLE 1 MEM_GPU SUCCESS) | None => SUCCESS end = SUCCESS).
  { destruct taper as [t|]; [|reflexivity]. destruct (O3 ltac:(discriminate)) as (Da & Sa). apply (view_const_ok (Some t) MEM_DOUBLE taper_d 1 Da). now rewrite Sa. }
  rewrite V3. rewrite S4.
  assert (SC : chs_shape chs n). { unfold chs. destruct start as [s|]; [|exact I]. destruct end_ as [e|]; [|exact I]. split; [exact (proj2 (O1 ltac:(discriminate)))|exact (proj2 (O2 ltac:(discriminate)))]. }
  assert (ST : taper_shape tap sz). { unfold tap. destruct taper as [t|]; [|exact I]. exact (proj2 (O3 ltac:(discriminate))). }
  assert (Th : forall a b, 0 <= a < 2147483663 -> 0 <= b < 2147483663 -> _) by (intros a b; apply (idft_th uvw_d vis_d chs lmn_d tap su sv sw theta w_step f0 df n nc sz a b S1 S2 S3 SC ST Hn Hc (proj1 Hs))).
  split.
  - exact (pixels_exists Cadd k sz sz _ image_d (fun a b => [a; b]) _ Hs Hs Rg Th).
  - intros st' r L. destruct (pixels_result Cadd k sz sz _ image_d (fun a b => [a; b]) _ Hs Hs Rg Th (fun a b a' b' _ _ _ _ => pos2_inj a b a' b') st' r L) as (X & Y). split; [|exact Y].
    intro F. destruct (X F) as (-> & S & V & _). rewrite S. auto.
Qed.
Print Assumptions C96_idft_partial.

(** ** Errors *)
Lemma launch_view_clean {A} plus n b t body st (x : nd A) st' x' : launch_view plus n b t body st x st' x' -> st' <> SUCCESS -> x' = x.
Proof. unfold launch_view. destruct st; cbn [failed]; try tauto. destruct n as [n|]; [|tauto]. destruct (registered n); cbn [negb]; [|tauto]. destruct (grid_ok _ _); cbn [negb]; [|tauto]. intros (-> & _) N. congruence. Qed.
Lemma launch_view_success {A} plus n b t body st (x : nd A) st' x' : launch_view plus n b t body st x st' x' -> st' = SUCCESS -> st = SUCCESS /\ n <> None.
Proof. unfold launch_view. destruct st; cbn [failed]; try (intros (-> & _); discriminate). destruct n as [n|]; [|intros (-> & _); discriminate]. intros _ _. split; [reflexivity|discriminate]. Qed.
(** A call that reports an error leaves the output alone. *)
Theorem C96_clean : forall out in1 in2 e out_d in1_d in2_d st st' r,
  (gpu_accumulate out in1 in2 e out_d in1_d in2_d st st' r \/ gpu_scale_inv out in1 in2 e out_d in1_d in2_d st st' r \/
   (exists uvw vis start end_ lmn taper su sv sw theta w_step f0 df uvw_d vis_d start_d end_d lmn_d taper_d,
      gpu_idft uvw vis start end_ lmn taper out su sv sw theta w_step f0 df uvw_d vis_d start_d end_d lmn_d taper_d out_d st st' r)) ->
  st' <> SUCCESS -> r = out_d.
Proof.
  intros out in1 in2 e out_d in1_d in2_d st st' r [H|[H|H]] N.
  - unfold gpu_accumulate in H. destruct (failed st); [tauto|]. destruct (negb _); [tauto|]. cbv zeta in H. destruct (accum_kernel _ _ _) as [[k []]|]; exact (launch_view_clean _ _ _ _ _ _ _ _ _ H N).
  - unfold gpu_scale_inv in H. destruct (failed st); [tauto|]. destruct (negb _); [tauto|]. exact (launch_view_clean _ _ _ _ _ _ _ _ _ H N).
  - destruct H as (uvw & vis & start & end_ & lmn & taper & su & sv & sw & theta & w_step & f0 & df & uvw_d & vis_d & start_d & end_d & lmn_d & taper_d & H).
    unfold gpu_idft in H. destruct (failed st); [tauto|]. destruct (idft_kernel _ _ _ _); [|tauto]. exact (launch_view_clean _ _ _ _ _ _ _ _ _ H N).
Qed.
Print Assumptions C96_clean.

(** Types for which there is no version of the function are refused. *)
Theorem C96_types : forall out in1 in2 e out_d in1_d in2_d st' r, location in1 = location out ->
  (complex_type (mtype out) -> ~ (complex_type (mtype in1) \/ real_type (mtype in1)) -> gpu_accumulate out in1 in2 e out_d in1_d in2_d SUCCESS st' r -> st' = ERR_DATA_TYPE) /\
  (real_type (mtype out) -> ~ complex_type (mtype in1) -> gpu_accumulate out in1 in2 e out_d in1_d in2_d SUCCESS st' r -> st' = ERR_DATA_TYPE) /\
  (~ complex_type (mtype out) -> ~ real_type (mtype out) -> gpu_accumulate out in1 in2 e out_d in1_d in2_d SUCCESS st' r -> st' = ERR_DATA_TYPE) /\
  (~ complex_type (mtype out) -> location in2 = location out -> gpu_scale_inv out in1 in2 e out_d in1_d in2_d SUCCESS st' r -> st' = ERR_DATA_TYPE).
Proof.
  intros out in1 in2 e out_d in1_d in2_d st' r L. unfold gpu_accumulate, gpu_scale_inv. cbn [failed]. rewrite L, Z.eqb_refl. cbn [negb andb]. cbv zeta.
  assert (K : forall t2, (complex_type (mtype out) /\ ~ (complex_type (mtype in1) \/ real_type (mtype in1)) \/ real_type (mtype out) /\ ~ complex_type (mtype in1) \/ ~ complex_type (mtype out) /\ ~ real_type (mtype out)) ->
    accum_kernel (mtype out) (mtype in1) t2 = None).
  { intros t2 H. unfold accum_kernel, complex_type, real_type in *.
    destruct (Z.eqb_spec (mtype out) MEM_COMPLEX_DOUBLE), (Z.eqb_spec (mtype out) MEM_COMPLEX_FLOAT), (Z.eqb_spec (mtype out) MEM_DOUBLE), (Z.eqb_spec (mtype out) MEM_FLOAT),
      (Z.eqb_spec (mtype in1) MEM_COMPLEX_DOUBLE), (Z.eqb_spec (mtype in1) MEM_COMPLEX_FLOAT), (Z.eqb_spec (mtype in1) MEM_DOUBLE), (Z.eqb_spec (mtype in1) MEM_FLOAT);
      cbn [andb]; try reflexivity; try (exfalso; tauto); unfold MEM_COMPLEX_DOUBLE, MEM_COMPLEX_FLOAT, MEM_DOUBLE, MEM_FLOAT in *; lia. }
  split; [|split; [|split]].
  - intros A B. rewrite K by tauto. intros (-> & _). reflexivity.
  - intros A B. rewrite K by tauto. intros (-> & _). reflexivity.
  - intros A B. rewrite K by tauto. intros (-> & _). reflexivity.
  - intros A L2. rewrite L2, Z.eqb_refl. cbn [negb andb]. unfold complex_type in A. unfold scale_inv_kernel. replace (mtype out =? MEM_COMPLEX_DOUBLE) with false by lia. replace (mtype out =? MEM_COMPLEX_FLOAT) with false by lia. cbn [andb].
    intros (-> & _). reflexivity.
Qed.
Print Assumptions C96_types.

(** Shapes are not compared: adding a smaller array reads outside it (no outcome is defined). *)
Definition some_mem (ty : Z) (sh : list Z) : option mem := Some (mk_mem ty MEM_GPU true true false (Z.of_nat (length sh)) (fold_right Z.mul 1 sh) 1 sh [] (Some (1, 0))).
Theorem C96_shapes_refuted : forall out_d in1_d in2_d : nd C, shape out_d = [2; 2] -> shape in1_d = [1; 2] ->
  ~ exists st' r, gpu_accumulate (some_mem MEM_COMPLEX_DOUBLE [2; 2]) (some_mem MEM_COMPLEX_DOUBLE [1; 2]) None 0 out_d in1_d in2_d SUCCESS st' r.
Proof.
  intros out_d in1_d in2_d S1 S2 (st' & r & H). unfold gpu_accumulate in H. cbn [failed] in H. cbv zeta in H.
  change (location (some_mem MEM_COMPLEX_DOUBLE [1; 2])) with MEM_GPU in H. change (location (some_mem MEM_COMPLEX_DOUBLE [2; 2])) with MEM_GPU in H. cbn [Z.eqb negb] in H.
  change (MEM_GPU =? MEM_GPU) with true in H. cbn [negb] in H. change (mtype (some_mem MEM_COMPLEX_DOUBLE [2; 2])) with MEM_COMPLEX_DOUBLE in H. change (mtype (some_mem MEM_COMPLEX_DOUBLE [1; 2])) with MEM_COMPLEX_DOUBLE in H.
  destruct (accum_names MEM_COMPLEX_DOUBLE MEM_COMPLEX_DOUBLE ltac:(now left) ltac:(left; now left)) as (k & E & Rg). rewrite E in H.
  change (view2_const (some_mem MEM_COMPLEX_DOUBLE [1; 2]) MEM_COMPLEX_DOUBLE (view2 (some_mem MEM_COMPLEX_DOUBLE [2; 2]) SUCCESS)) with SUCCESS in H.
  unfold launch_view in H. cbn [failed] in H. rewrite Rg in H. cbn [negb] in H. change (shape_dim (some_mem MEM_COMPLEX_DOUBLE [2; 2]) 0) with 2 in H. change (shape_dim (some_mem MEM_COMPLEX_DOUBLE [2; 2]) 1) with 2 in H.
  change (to_dim3 (blocks_of 2 16, blocks_of 2 16, 1)) with (1, 1, 1) in H. change (to_dim3 (16, 16, 1)) with (16, 16, 1) in H. change (grid_ok (1, 1, 1) (16, 16, 1)) with true in H. cbn [negb] in H.
  destruct H as (_ & m' & (ops & F & _) & _).
  assert (I : In (1, 0, 0) (threads3 (1, 1, 1) (16, 16, 1))) by (apply threads3_in; lia).
  destruct (forall2_left _ _ _ _ F I) as (o & X). unfold accum_scale_thread in X. change (u32 1) with 1 in X. change (u32 0) with 0 in X. change ((2 <=? 1) || (2 <=? 0)) with false in X. cbv iota zeta in X.
  unfold rd in X. rewrite S2 in X. discriminate X.
Qed.
Print Assumptions C96_shapes_refuted.

(** A concrete call *)
Example C96_hyps : side 3 /\ side 2 /\ fits16 3 2 /\
  described (some_mem MEM_COMPLEX_FLOAT [3; 2]) MEM_COMPLEX_FLOAT (mk_nd [3; 2] (fun _ => C0)) /\ writeable (some_mem MEM_COMPLEX_FLOAT [3; 2]) /\
  described (some_mem MEM_DOUBLE [3; 2]) MEM_DOUBLE (mk_nd [3; 2] (fun _ => C1)) /\
  optional (some_mem MEM_COMPLEX_DOUBLE [3; 2]) MEM_COMPLEX_DOUBLE [3; 2] (mk_nd [3; 2] (fun _ => C1)) /\
  optional (A := C) None MEM_COMPLEX_DOUBLE [3; 2] (mk_nd [] (fun _ => C0)) /\
  described (some_mem MEM_DOUBLE [4; 3]) MEM_DOUBLE (mk_nd [4; 3] (fun _ => 1%R)) /\ fits16 2 2 /\ ~ fits16 0 2 /\ ~ fits16 2 1048561.
Proof. unfold side, fits16, optional. split; [lia|]. split; [lia|]. split; [lia|]. split; [now repeat split|]. split; [split; [reflexivity|discriminate]|]. split; [now repeat split|]. split; [now repeat split|]. split; [congruence|]. split; [now repeat split|]. lia. Qed.

(** ** C97: sub-grids in GPU memory, pixel values in any commutative ring *)
Lemma sub_names dbl flt (b : bool) : let ty := if b then MEM_COMPLEX_DOUBLE else MEM_COMPLEX_FLOAT in subgrid_kernel dbl flt ty ty = Some (if b then dbl else flt).
Proof. destruct b; reflexivity. Qed.
(** Cutting out: as in CPU memory (C29), for sub-grids of any size.  Partial: exact arithmetic, sides within int. *)
Theorem C97_cut_out_partial : forall (A : cring) grid sub (dbl : bool) (grid_d sub_d : nd A) gu gv su sv ou ov, let ty := if dbl then MEM_COMPLEX_DOUBLE else MEM_COMPLEX_FLOAT in
  described grid ty grid_d -> shape grid_d = [gu; gv] -> described sub ty sub_d -> shape sub_d = [su; sv] -> writeable sub -> 0 < gu -> 0 < gv -> side su -> side sv ->
  (exists st' r, gpu_cut_out grid ou ov sub grid_d sub_d SUCCESS st' r) /\
  forall st' r, gpu_cut_out grid ou ov sub grid_d sub_d SUCCESS st' r ->
    (fits16 su sv -> st' = SUCCESS /\ shape r = [su; sv] /\ (forall i j, 0 <= i < su -> 0 <= j < sv -> elem r [i; j] = elem grid_d [pixel gu su ou i; pixel gv sv ov j])) /\
    (~ fits16 su sv -> st' = ERR_RUNTIME /\ r = sub_d).
Proof.
  intros A grid sub dbl grid_d sub_d gu gv su sv ou ov ty Dg Sg Ds Ss Ws Gu Gv Hu Hv. unfold gpu_cut_out. cbn [failed]. cbv zeta.
  rewrite (described_type _ _ _ Dg), (described_type _ _ _ Ds). unfold ty. rewrite sub_names. fold ty. destruct (dims2 sub ty sub_d su sv Ds Ss) as (-> & ->).
  rewrite (view2_const_ok grid ty grid_d gu gv Dg Sg), (view2_ok sub ty sub_d su sv Ds Ss Ws).
  match goal with |- (exists _ _, launch_view _ (Some ?k) _ _ _ _ _ _ _) /\ _ => assert (Rg : registered k = true) by (destruct dbl; reflexivity) end.
  assert (Th : forall a b, 0 <= a < 2147483663 -> 0 <= b < 2147483663 -> _) by (intros a b; apply (cut_out_th grid_d gu gv su sv ou ov a b Sg Gu Gv (proj1 Hu) (proj1 Hv))).
  split.
  - exact (pixels_exists radd _ su sv _ sub_d (fun a b => [a; b]) _ Hu Hv Rg Th).
  - intros st' r L. destruct (pixels_result radd _ su sv _ sub_d (fun a b => [a; b]) _ Hu Hv Rg Th (fun a b a' b' _ _ _ _ => pos2_inj a b a' b') st' r L) as (X & Y). split; [|exact Y].
    intro F. destruct (X F) as (-> & S & V & _). rewrite S. auto.
Qed.
Print Assumptions C97_cut_out_partial.

(** Adding: as in CPU memory, for sub-grids not larger than the grid. *)
Theorem C97_add_partial : forall (A : cring) grid sub (dbl : bool) (grid_d sub_d : nd A) gu gv su sv ou ov f, let ty := if dbl then MEM_COMPLEX_DOUBLE else MEM_COMPLEX_FLOAT in
  described grid ty grid_d -> shape grid_d = [gu; gv] -> described sub ty sub_d -> shape sub_d = [su; sv] -> writeable grid -> 0 < gu -> 0 < gv -> side su -> side sv -> su <= gu -> sv <= gv ->
  (exists st' r, gpu_subgrid_add grid ou ov sub f grid_d sub_d SUCCESS st' r) /\
  forall st' r, gpu_subgrid_add grid ou ov sub f grid_d sub_d SUCCESS st' r ->
    (fits16 su sv -> st' = SUCCESS /\ shape r = [gu; gv] /\
      (forall i j, 0 <= i < su -> 0 <= j < sv -> elem r [pixel gu su (- ou) i; pixel gv sv (- ov) j] = (elem grid_d [pixel gu su (- ou) i; pixel gv sv (- ov) j] + elem sub_d [i; j] * f)%cr) /\
      (forall x y, (forall i j, 0 <= i < su -> 0 <= j < sv -> ~ (x = pixel gu su (- ou) i /\ y = pixel gv sv (- ov) j)) -> elem r [x; y] = elem grid_d [x; y])) /\
    (~ fits16 su sv -> st' = ERR_RUNTIME /\ r = grid_d).
Proof.
  intros A grid sub dbl grid_d sub_d gu gv su sv ou ov f ty Dg Sg Ds Ss Wg Gu Gv Hu Hv Lu Lv. unfold gpu_subgrid_add. cbn [failed]. cbv zeta.
  rewrite (described_type _ _ _ Dg), (described_type _ _ _ Ds). unfold ty. rewrite sub_names. fold ty. destruct (dims2 sub ty sub_d su sv Ds Ss) as (-> & ->). destruct (dims2 grid ty grid_d gu gv Dg Sg) as (-> & ->).
  rewrite (view2_ok grid ty grid_d gu gv Dg Sg Wg), (view2_const_ok sub ty sub_d su sv Ds Ss).
  match goal with |- (exists _ _, launch_view _ (Some ?k) _ _ _ _ _ _ _) /\ _ => assert (Rg : registered k = true) by (destruct dbl; reflexivity) end.
  assert (Th : forall a b, 0 <= a < 2147483663 -> 0 <= b < 2147483663 -> _) by (intros a b; apply (sub_add_th sub_d gu gv su sv ou ov f a b Ss Gu Gv (proj1 Hu) (proj1 Hv))).
  assert (Inj : forall a b a' b', 0 <= a < su -> 0 <= b < sv -> 0 <= a' < su -> 0 <= b' < sv -> [pixel gu su (- ou) a; pixel gv sv (- ov) b] = [pixel gu su (- ou) a'; pixel gv sv (- ov) b'] -> a = a' /\ b = b').
  { intros a b a' b' Ha Hb Ha' Hb' E. apply pos2_inj in E. destruct E as (E1 & E2). split; [apply (pixel_inj gu su (- ou)); auto|apply (pixel_inj gv sv (- ov)); auto]. }
  split.
  - exact (pixels_exists radd _ su sv _ grid_d (fun a b => [pixel gu su (- ou) a; pixel gv sv (- ov) b]) _ Hu Hv Rg Th).
  - intros st' r L. destruct (pixels_result radd _ su sv _ grid_d (fun a b => [pixel gu su (- ou) a; pixel gv sv (- ov) b]) _ Hu Hv Rg Th Inj st' r L) as (X & Y). split; [|exact Y].
    intro F. destruct (X F) as (-> & S & V & O). rewrite S. split; [reflexivity|]. split; [exact Sg|]. split; [exact V|].
    intros x y N. apply O. intros i j Hi Hj E. apply pos2_inj in E. exact (N i j Hi Hj E).
Qed.
Print Assumptions C97_add_partial.

(** A sub-grid larger than the grid: two threads add to the same pixel without an atomic operation, and there is an execution in which one of the two
    contributions is lost (in CPU memory both are added, C29_add). *)
Definition one_grid : nd Zring := mk_nd [1; 1] (fun _ => 0).
Definition two_sub : nd Zring := mk_nd [2; 1] (fun _ => 1).
Lemma map_forall2 {X Y} (g : X -> option Y) l : forall k, map g l = map Some k -> Forall2 (fun t o => g t = Some o) l k.
Proof. induction l as [|a l IH]; intros [|b k] E; try discriminate; [constructor|]. cbn [map] in E. injection E as E1 E2. constructor; auto. Qed.
Theorem C97_add_race_refuted :
  (exists g', subgrid_add one_grid 0 0 two_sub 1 = Some g' /\ elem g' [0; 0] = 2) /\
  exists r, gpu_subgrid_add (some_mem MEM_COMPLEX_DOUBLE [1; 1]) 0 0 (some_mem MEM_COMPLEX_DOUBLE [2; 1]) (1 : Zring) one_grid two_sub SUCCESS SUCCESS r /\ elem r [0; 0] = 1.
Proof.
  split; [eexists; split; vm_compute; reflexivity|].
  destruct (lost_update (A := Zring) idx_eqb idx_reflect radd (threads3 (1, 1, 1) (16, 16, 1)) (subgrid_add_thread 1 1 two_sub 0 0 (1 : Zring)) [0; 0]
    (fun v => (v + (1 : Zring) * (1 : Zring))%cr) (fun v => (v + (1 : Zring) * (1 : Zring))%cr) (repeat [] 15) (repeat [] 239) (elem one_grid)) as (m' & R & V).
  - apply map_forall2. vm_compute. reflexivity.
  - intros k I. exact (repeat_spec _ _ _ I).
  - intros k I. exact (repeat_spec _ _ _ I).
  - exists (mk_nd [1; 1] m'). split; [|exact V]. unfold gpu_subgrid_add. cbn [failed]. cbv zeta.
    change (view2_const (some_mem MEM_COMPLEX_DOUBLE [2; 1]) _ _) with SUCCESS. change (subgrid_kernel _ _ _ _) with (Some "sdp_gridder_subgrid_add<complex<double>, complex<double>, double>"%string). cbv iota.
    unfold launch_view. cbn [failed]. change (registered _) with true. cbn [negb]. change (grid_ok _ _) with true. cbn [negb]. split; [reflexivity|]. exists m'. split; [exact R|reflexivity].
Qed.
Print Assumptions C97_add_race_refuted.

(** Real grids, which the CPU versions accept, and mixed precisions are refused with an error; nothing is written. *)
Theorem C97_types : forall (A : cring) grid sub (grid_d sub_d : nd A) ou ov f st' r,
  ~ (mtype grid = MEM_COMPLEX_DOUBLE /\ mtype sub = MEM_COMPLEX_DOUBLE) -> ~ (mtype grid = MEM_COMPLEX_FLOAT /\ mtype sub = MEM_COMPLEX_FLOAT) ->
  (gpu_subgrid_add grid ou ov sub f grid_d sub_d SUCCESS st' r -> st' = ERR_DATA_TYPE /\ r = grid_d) /\
  (gpu_cut_out grid ou ov sub grid_d sub_d SUCCESS st' r -> st' = ERR_DATA_TYPE /\ r = sub_d).
Proof.
  intros A grid sub grid_d sub_d ou ov f st' r N1 N2.
  assert (K : forall d e, subgrid_kernel d e (mtype grid) (mtype sub) = None).
  { intros d e. unfold subgrid_kernel. destruct (Z.eqb_spec (mtype grid) MEM_COMPLEX_DOUBLE), (Z.eqb_spec (mtype sub) MEM_COMPLEX_DOUBLE), (Z.eqb_spec (mtype grid) MEM_COMPLEX_FLOAT), (Z.eqb_spec (mtype sub) MEM_COMPLEX_FLOAT); cbn [andb]; tauto || reflexivity. }
  unfold gpu_subgrid_add, gpu_cut_out. cbn [failed]. cbv zeta. rewrite !K. split; intros (-> & ->); auto.
Qed.
Print Assumptions C97_types.

(** Shifting a stack of n square sub-grids: every sub-grid takes the values of the next; the last keeps its own (as C31).  Partial: sub-grids that are
    square, sides within int. *)
Theorem C97_shift_partial : forall (A : cring) sub (dbl : bool) (sub_d : nd A) n m, let ty := if dbl then MEM_COMPLEX_DOUBLE else MEM_COMPLEX_FLOAT in
  described sub ty sub_d -> shape sub_d = [n; m; m] -> writeable sub -> 0 <= n -> side m ->
  (exists st' r, gpu_shift_subgrids sub sub_d SUCCESS st' r) /\
  forall st' r, gpu_shift_subgrids sub sub_d SUCCESS st' r ->
    (1 <= m <= 524280 -> st' = SUCCESS /\ shape r = [n; m; m] /\
      (forall k i j, 0 <= k < n -> 0 <= i < m -> 0 <= j < m -> elem r [k; i; j] = elem sub_d [if k <? n - 1 then k + 1 else k; i; j])) /\
    (~ 1 <= m <= 524280 -> st' = ERR_RUNTIME /\ r = sub_d).
Proof.
  intros A sub dbl sub_d n m ty D S W Hn Hm. unfold gpu_shift_subgrids. cbn [failed]. cbv zeta.
  assert (E : forall d, 0 <= d < 3 -> shape_dim sub d = nth (Z.to_nat d) [n; m; m] 0) by (intros d Hd; rewrite (described_shape sub ty sub_d) by (auto; rewrite S; cbn; lia); now rewrite S).
  rewrite (E 0 ltac:(lia) : _ = n), (E 1 ltac:(lia) : _ = m), (E 2 ltac:(lia) : _ = m).
  rewrite (described_type _ _ _ D). assert (K : exists k, shift_kernel ty = Some k /\ registered k = true) by (unfold ty; destruct dbl; eexists; split; reflexivity). destruct K as (k & -> & Rg).
  rewrite (view_ok sub ty sub_d 3 D) by (rewrite ?S; auto).
  change (blocks_of m 32, blocks_of m 8, 1) with (blocks_of m 32, blocks_of m 8, blocks_of 1 1). unfold side in Hm.
  assert (Fg : fits_grid m m 1 8 1 = true <-> 1 <= m <= 524280) by (unfold fits_grid; lia).
  assert (Fin : forall y : nd (Z -> A), shape y = [m; m] -> (forall i j, 0 <= i < m -> 0 <= j < m -> elem y [i; j] = (if 1 <? n then shift_column (Z.to_nat (n - 1)) 0 (fun k => elem sub_d [k; i; j]) else (fun k => elem sub_d [k; i; j]))) ->
    forall k i j, 0 <= k < n -> 0 <= i < m -> 0 <= j < m -> elem (of_columns (shape sub_d) y) [k; i; j] = elem sub_d [if k <? n - 1 then k + 1 else k; i; j]).
  { intros y Sy Ey k' i j Hk Hi Hj. cbn [of_columns elem]. rewrite (Ey i j Hi Hj). destruct (Z.ltb_spec 1 n).
    - rewrite shift_column_val. replace (0 + Z.of_nat (Z.to_nat (n - 1))) with (n - 1) by lia. replace (0 <=? k') with true by lia. cbn [andb]. destruct (k' <? n - 1); reflexivity.
    - replace (k' <? n - 1) with false by lia. reflexivity. }
  assert (Sc : shape (columns sub_d) = [m; m]) by (unfold columns, dim; rewrite S; reflexivity).
  destruct (Z.ltb_spec 1 n) as [Ln|Ln].
  - assert (Th : forall a b c, 0 <= a < m + 32 - 1 -> 0 <= b < m + 8 - 1 -> 0 <= c < 1 + 1 - 1 ->
      exists k, shift_thread n m m (a, b, c) = Some k /\ if in_range m m 1 a b c then exists o, k = [o] /\ loc o = [b; a] /\ forall v, apply (fun x _ => x) o v = shift_column (A := A) (Z.to_nat (n - 1)) 0 v else k = []).
    { intros a b c Ha Hb Hc. destruct (shift_th (A := A) n m a b c ltac:(lia) ltac:(lia)) as (k0 & E0 & P0). exists k0. split; [exact E0|]. unfold in_range. replace (c <? 1) with true by lia. replace (1 <? n) with true in P0 by lia. exact P0. }
    split.
    + edestruct (each_exists (fun (a : Z -> A) (_ : Z -> A) => a) k m m 1 32 8 1 (shift_thread n m m) (columns sub_d) (fun a b _ => [b; a])) as (st' & y & L); [lia..|exact Rg|exact Th|]. eexists _, _, y. split; [exact L|reflexivity].
    + intros st' r (y & L & ->). eapply (each_result (fun (a : Z -> A) (_ : Z -> A) => a) k m m 1 32 8 1 (shift_thread n m m) (columns sub_d) (fun a b _ => [b; a])) in L; [|lia..|exact Rg|exact Th|].
      2:{ intros a b c a' b' c' _ _ Hc _ _ Hc' X. apply pos2_inj in X. lia. }
      destruct (fits_grid m m 1 8 1).
      * destruct L as (-> & Sy & V & _). cbn [failed]. split; [|intro X; exfalso; apply X, Fg; reflexivity]. intros _. split; [reflexivity|]. split; [exact S|]. apply Fin; [congruence|].
        intros i j Hi Hj. replace (1 <? n) with true by lia. rewrite (V j i 0) by lia. reflexivity.
      * destruct L as (-> & ->). cbn [failed]. split; [intro X; exfalso; apply Fg in X; discriminate|auto].
  - assert (Th : forall t, In t (threads3 (to_dim3 (blocks_of m 32, blocks_of m 8, blocks_of 1 1)) (to_dim3 (32, 8, 1))) -> shift_thread (A := A) n m m t = Some []).
    { intros [[a b] c] I. unfold shift_thread. destruct ((m <=? a) || (m <=? b)); [reflexivity|]. replace (n <=? 1) with true by lia. reflexivity. }
    unfold launch_view. cbn [failed]. rewrite Rg. cbn [negb]. pose proof (each_grid m m 1 32 8 1 ltac:(lia) ltac:(lia) ltac:(lia) ltac:(lia) ltac:(lia) ltac:(lia) ltac:(lia)) as Gr. cbv zeta in Gr. rewrite Gr.
    split.
    + destruct (fits_grid m m 1 8 1); cbn [negb]; [|eauto 8].
      destruct (runs_exists idx_eqb (fun (a : Z -> A) (_ : Z -> A) => a) (threads3 (to_dim3 (blocks_of m 32, blocks_of m 8, blocks_of 1 1)) (to_dim3 (32, 8, 1))) (shift_thread n m m) (elem (columns sub_d))) as (m' & R); [intros t I; rewrite (Th t I); eauto|].
      eexists _, _, _. split; [split; [reflexivity|]; exists m'; split; [exact R|reflexivity]|reflexivity].
    + intros st' r (y & L & ->). destruct (fits_grid m m 1 8 1); cbn [negb] in L.
      * destruct L as (-> & m' & R & ->). cbn [failed]. split; [|intro X; exfalso; apply X, Fg; reflexivity]. intros _. split; [reflexivity|]. split; [exact S|]. apply Fin; [exact Sc|].
        intros i j Hi Hj. cbn [elem]. replace (1 <? n) with false by lia.
        destruct (disjoint_result idx_eqb (fun (a : Z -> A) (_ : Z -> A) => a) idx_reflect _ _ _ _ R (threads3_nodup _ _)) as [_ Y].
        -- intros t q I X. rewrite (Th t I) in X. injection X as <-. constructor.
        -- intros t q o t' q' o' I _ X _ Io. rewrite (Th t I) in X. injection X as <-. destruct Io.
        -- rewrite Y; [reflexivity|]. intros t q o I X Io. rewrite (Th t I) in X. injection X as <-. destruct Io.
      * destruct L as (-> & ->). cbn [failed]. split; [intro X; exfalso; apply Fg in X; discriminate|auto].
Qed.
Print Assumptions C97_shift_partial.

Example C97_hyps : described (some_mem MEM_COMPLEX_FLOAT [4; 5]) MEM_COMPLEX_FLOAT (mk_nd [4; 5] (fun _ => 7) : nd Zring) /\ writeable (some_mem MEM_COMPLEX_FLOAT [4; 5]) /\
  described (some_mem MEM_COMPLEX_FLOAT [3; 2]) MEM_COMPLEX_FLOAT (mk_nd [3; 2] (fun _ => 1) : nd Zring) /\ side 3 /\ side 2 /\ fits16 3 2 /\ 3 <= 4 /\ 2 <= 5 /\
  described (some_mem MEM_COMPLEX_DOUBLE [3; 2; 2]) MEM_COMPLEX_DOUBLE (mk_nd [3; 2; 2] (fun _ => 1) : nd Zring) /\ 1 <= 2 <= 524280.
Proof. unfold side, fits16. split; [now repeat split|]. split; [split; [reflexivity|discriminate]|]. split; [now repeat split|]. repeat (split; [lia|]). split; [now repeat split|lia]. Qed.
