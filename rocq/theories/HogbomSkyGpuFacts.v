(** The restored image on the GPU (proofs only). *)
From Coq Require Import String Reals Lra Lia.
From Verif Require Import Base BaseFacts Mem Sum CRing Cplx FftConv FftConvSpec Gpu GpuFacts GpuFacts2 GpuLaunch GpuLaunchFacts GpuView GpuViewFacts PhaseRotateGpu GridUtilsGpuFacts FftConvGpu FftConvGpuSpec
  FftConvGpuFacts Prop_FftConvGpu HogbomSky HogbomSkySpec HogbomSkyFacts HogbomSkyGpu HogbomSkyGpuSpec.
Open Scope Z_scope.

Section Line.
Context {A : Type} (base sd sf : string) (double : bool) (n : Z) (body : Z * Z * Z -> option (list (op (list Z) A))) (x : nd A) (val : Z -> A -> A).
Context (Hn : 1 <= n <= 2147483647) (Nm : registered (base ++ if double then sd else sf) = true).
Context (Th : forall a, 0 <= a < 4294967296 -> body (a, 0, 0) = Some (if a <? n then [Update [a] (val a)] else [])).
Lemma sky_thread a b c : 0 <= a < n + 256 - 1 -> 0 <= b < 1 + 1 - 1 -> 0 <= c < 1 + 1 - 1 ->
  exists k, body (a, b, c) = Some k /\ if in_range n 1 1 a b c then exists o, k = [o] /\ loc o = [a] /\ forall v, apply (fun a _ => a) o v = val a v else k = [].
Proof using Hn Th.
  clear Nm. intros Ha Hb Hc. assert (b = 0) as -> by lia. assert (c = 0) as -> by lia. eexists. split; [apply Th; lia|]. unfold in_range. rewrite !andb_true_r. destruct (a <? n); [|reflexivity].
  eexists. split; [reflexivity|]. split; reflexivity.
Qed.
Lemma sky_result st' x' : sky_launch base double sd sf n body SUCCESS x st' x' ->
  st' = SUCCESS /\ shape x' = shape x /\ (forall a, 0 <= a < n -> elem x' [a] = val a (elem x [a])) /\ (forall a, a < 0 \/ n <= a -> elem x' [a] = elem x [a]).
Proof using Hn Nm Th.
  unfold sky_launch. change (blocks_of n 256, 1, 1) with (blocks_of n 256, blocks_of 1 1, blocks_of 1 1). intro H.
  apply (each_result (fun a _ => a) _ n 1 1 256 1 1 body x (fun a _ _ => [a]) (fun a _ _ => val a)) in H; try lia.
  - rewrite fits_line in H by exact Hn. destruct H as (U & B & C1 & D). split; [exact U|]. split; [exact B|]. split; [intros a Ha; exact (C1 a 0 0 Ha ltac:(lia) ltac:(lia))|].
    intros a Ha. apply D. intros a' b' c' Ha' _ _ E. injection E as ->. lia.
  - exact sky_thread.
  - intros a b c a' b' c' Ha Hb Hc Ha' Hb' Hc' E. injection E as ->. repeat split; lia.
Qed.
Lemma sky_exists : exists st' x', sky_launch base double sd sf n body SUCCESS x st' x'.
Proof using Hn Nm Th.
  unfold sky_launch. change (blocks_of n 256, 1, 1) with (blocks_of n 256, blocks_of 1 1, blocks_of 1 1).
  apply (each_exists (fun a _ => a) _ n 1 1 256 1 1 body x (fun a _ _ => [a]) (fun a _ _ => val a)); try lia; exact sky_thread.
Qed.
End Line.

Lemma int16_id s : 0 <= s <= 32767 -> int16 s = s.
Proof. intro H. unfold int16. rewrite Z.mod_small by lia. lia. Qed.
Lemma square_ok ty n : gpu_square (complex_square ty n) ty n.
Proof. repeat split. discriminate. Qed.

Section Restore.
Context (double : bool) (n s P M : Z) (details comp residual sky : nd R).
Context (Hn : 1 <= n) (Hs : 1 <= s <= 32767) (HP : padded_size n s P) (HE : 3 <= s \/ n + 2 <= P) (HB : P <= 32768) (D : describes details s).
Context (Sc : shape comp = [n * n]) (Sr : shape residual = [n * n]) (Ss : shape sky = [M]) (HM : n * n <= M).
Let ty := if double then MEM_COMPLEX_DOUBLE else MEM_COMPLEX_FLOAT.
Let cvals := fun (a : Z) (_ : C) => RtoC (elem comp [a]).
Let bvals := fun (a : Z) (_ : C) => RtoC (beam details (a / s - s / 2) (a mod s - s / 2)).
Lemma sizes : 1 <= n * n <= 2147483647 /\ 1 <= s * s <= 2147483647.
Proof. destruct HP as (_ & L & _). clear - Hn Hs L HB. nia. Qed.
Lemma complex_ops a : 0 <= a < 4294967296 -> complex_thread comp [n * n] (n * n) (a, 0, 0) = Some (if a <? n * n then [Update [a] (cvals a)] else []).
Proof.
  intro Ha. unfold complex_thread. rewrite u32_id by lia. destruct (Z.ltb_spec a (n * n)); [|reflexivity]. rewrite rd_some by (rewrite Sc; apply in_shape_1; lia). cbn [bind]. apply store_some. lia.
Qed.
Lemma beam_ops a : 0 <= a < 4294967296 ->
  beam_thread (elem details [0]) (elem details [1]) (elem details [2]) (int16 s) [s * s] (a, 0, 0) = Some (if a <? s * s then [Update [a] (bvals a)] else []).
Proof.
  intro Ha. pose proof D as (_ & N0 & N1 & _). unfold beam_thread. rewrite u32_id by lia. rewrite int16_id by lia. cbv zeta. destruct (Z.ltb_spec a (s * s)); [|reflexivity].
  rewrite store_some by lia. unfold bvals. unfold beam. rewrite gaussian_form by assumption.
  replace (cdiv a s) with (a / s) by (symmetry; apply Z.quot_div_nonneg; lia). replace (cmod a s) with (a mod s) by (symmetry; apply Z.rem_mod_nonneg; lia).
  replace (cdiv s 2) with (s / 2) by (symmetry; apply Z.quot_div_nonneg; lia). replace (PI / 180 * elem details [2%Z])%R with (PI * elem details [2%Z] / 180)%R by field. reflexivity.
Qed.
Lemma real_ops (conv : nd C) a : shape conv = [n * n] -> 0 <= a < 4294967296 -> real_thread conv (shape sky) (n * n) (a, 0, 0) = Some (if a <? n * n then [Update [a] (fun _ => re (elem conv [a]))] else []).
Proof.
  intros Sv Ha. unfold real_thread. rewrite u32_id by lia. destruct (Z.ltb_spec a (n * n)); [|reflexivity]. rewrite rd_some by (rewrite Sv; apply in_shape_1; lia). cbn [bind]. unfold update_real.
  assert (E : in_shape (shape sky) [a] = true) by (rewrite Ss; apply in_shape_1; lia). now rewrite E.
Qed.
Lemma residual_ops a : 0 <= a < 4294967296 -> residual_thread residual (shape sky) (n * n) (a, 0, 0) = Some (if a <? n * n then [Update [a] (fun o => (o + elem residual [a])%R)] else []).
Proof.
  intros Ha. unfold residual_thread. rewrite u32_id by lia. destruct (Z.ltb_spec a (n * n)); [|reflexivity]. rewrite rd_some by (rewrite Sr; apply in_shape_1; lia). cbn [bind]. unfold update_real.
  assert (E : in_shape (shape sky) [a] = true) by (rewrite Ss; apply in_shape_1; lia). now rewrite E.
Qed.
Lemma conv_value (cc cb : nd C) i j : (forall a, 0 <= a < n * n -> elem cc [a] = RtoC (elem comp [a])) -> (forall a, 0 <= a < s * s -> elem cb [a] = RtoC (beam details (a / s - s / 2) (a mod s - s / 2))) ->
  0 <= i < n -> 0 <= j < n -> re (full_conv cc n cb s (i + (s - 1) / 2) (j + (s - 1) / 2)) = framed_beams (if Z.even s then 1 else 0) n s details (fun k => elem comp [k]) i j.
Proof.
  intros Vc Vb Hi Hj. unfold full_conv, framed_beams. rewrite re_sum. apply (sum_ext Rplus 0%R). intros p Hp. rewrite re_sum. apply (sum_ext Rplus 0%R). intros q Hq.
  rewrite Vc by nia. set (d := if Z.even s then 1 else 0).
  assert (O : (s - 1) / 2 = s / 2 - d).
  { unfold d. destruct (Z.even s) eqn:E.
    - rewrite Z.even_spec in E. destruct E as (h & ->). rewrite (Z.mul_comm 2 h), Z.div_mul by lia. replace (h * 2 - 1) with (1 + (h - 1) * 2) by lia. rewrite Z.div_add by lia. reflexivity.
    - assert (Z.odd s = true) as F by (rewrite <- Z.negb_even, E; reflexivity). rewrite Z.odd_spec in F. destruct F as (h & ->). replace (2 * h + 1 - 1) with (h * 2) by lia. rewrite Z.div_mul by lia.
      replace (2 * h + 1) with (1 + h * 2) by lia. rewrite Z.div_add by lia. cbn. lia. }
  clearbody d. rewrite O. set (h := s / 2) in *. unfold at0, in_frame. fold h.
  replace (i - (p + d) + h) with (i + (h - d) - p) by lia. replace (j - (q + d) + h) with (j + (h - d) - q) by lia.
  set (X := i + (h - d) - p). set (Y := j + (h - d) - q).
  destruct ((0 <=? X) && (X <? s) && (0 <=? Y) && (Y <? s)) eqn:W.
  - assert (0 <= X < s /\ 0 <= Y < s) as (HX & HY) by lia. rewrite Vb by nia.
    replace ((X * s + Y) / s) with X by (rewrite Z.add_comm, Z.div_add by lia; rewrite Z.div_small by lia; lia).
    replace ((X * s + Y) mod s) with Y by (rewrite Z.add_comm, Z.mod_add by lia; rewrite Z.mod_small by lia; lia).
    replace (X - h) with (i - (p + d)) by (unfold X; lia). replace (Y - h) with (j - (q + d)) by (unfold Y; lia). unfold Cmul, RtoC, re, im. cbn [fst snd]. ring.
  - unfold Cmul, RtoC, C0, re, im. cbn [fst snd]. ring.
Qed.
Lemma names base : In base ["create_copy_complex"; "create_cbeam"]%string -> registered (base ++ if double then "<double, cuDoubleComplex>" else "<float, cuFloatComplex>") = true.
Proof. clear. intros [<-|[<-|[]]]; destruct double; reflexivity. Qed.
Lemma name_real : registered ("create_copy_real" ++ if double then "<cuDoubleComplex, double>" else "<cuFloatComplex, float>") = true.
Proof. clear. destruct double; reflexivity. Qed.
Lemma name_add : registered ("add_residual" ++ if double then "<double>" else "<float>") = true.
Proof. clear. destruct double; reflexivity. Qed.
Lemma ty_ok : complex_type ty.
Proof. clear. unfold ty. destruct double; [right|left]; reflexivity. Qed.
Lemma details_read : rd details [0] = Some (elem details [0]) /\ rd details [1] = Some (elem details [1]) /\ rd details [2] = Some (elem details [2]) /\ rd details [3] = Some (IZR s).
Proof. destruct D as (Sd & _ & _ & D3). rewrite <- D3. repeat split; rewrite rd_some by (rewrite Sd; reflexivity); reflexivity. Qed.

Lemma gpu_restore_result st' sky' : gpu_restore double details n comp residual sky SUCCESS st' sky' ->
  st' = SUCCESS /\ shape sky' = [M] /\
  (forall i j, 0 <= i < n -> 0 <= j < n -> elem sky' [i * n + j] = (framed_beams (if Z.even s then 1 else 0) n s details (fun k => elem comp [k]) i j + elem residual [(i * n + j)%Z])%R) /\
  (forall t, t < 0 \/ n * n <= t -> elem sky' [t] = elem sky [t]).
Proof.
  destruct sizes as (Nn & Nss). destruct details_read as (R0 & R1 & R2 & R3). unfold gpu_restore. rewrite R0, R1, R2, R3, truncated_IZR. cbv zeta. replace (s <? 0) with false by lia.
  intros (st1 & cc & st2 & cb & st3 & conv & st4 & sky1 & A & B & V & E & F).
  apply (sky_result _ _ _ _ (n * n) _ _ cvals) in A; [|exact Nn|apply names; cbn; auto|exact complex_ops]. destruct A as (-> & S1 & V1 & _).
  apply (sky_result _ _ _ _ (s * s) _ _ bvals) in B; [|exact Nss|apply names; cbn; auto|exact beam_ops]. destruct B as (-> & S2 & V2 & _).
  destruct (C112_same_partial (complex_square ty n) (complex_square ty s) (complex_square ty n) ty n s n P (n * n) (s * s) (n * n) cc cb (mk_nd [n * n] (fun _ => C0))) as (_ & W);
    try assumption; try apply square_ok; try lia; [exact ty_ok|reflexivity|reflexivity|].
  apply W in V. destruct V as (-> & S3 & V3 & _).
  apply (sky_result _ _ _ _ (n * n) _ _ (fun a _ => re (elem conv [a]))) in E; [|exact Nn|exact name_real|intros; now apply real_ops]. destruct E as (-> & S4 & V4 & F4).
  apply (sky_result _ _ _ _ (n * n) _ _ (fun a o => (o + elem residual [a])%R)) in F; [|exact Nn|exact name_add|exact residual_ops]. destruct F as (-> & S5 & V5 & F5).
  split; [reflexivity|]. split; [congruence|]. split.
  - intros i j Hi Hj. rewrite V5, V4 by nia. f_equal. rewrite V3 by assumption. apply conv_value; assumption.
  - intros t Ht. rewrite F5, F4 by assumption. reflexivity.
Qed.
Lemma gpu_restore_exists : exists st' sky', gpu_restore double details n comp residual sky SUCCESS st' sky'.
Proof.
  destruct sizes as (Nn & Nss). destruct details_read as (R0 & R1 & R2 & R3). unfold gpu_restore. rewrite R0, R1, R2, R3, truncated_IZR. cbv zeta. replace (s <? 0) with false by lia.
  destruct (sky_exists "create_copy_complex" "<double, cuDoubleComplex>" "<float, cuFloatComplex>" double (n * n) (complex_thread comp [n * n] (n * n)) (mk_nd [n * n] (fun _ => C0)) cvals Nn
    (names _ ltac:(cbn; auto)) complex_ops) as (st1 & cc & A).
  pose proof A as A'. apply (sky_result _ _ _ _ (n * n) _ _ cvals) in A'; [|exact Nn|apply names; cbn; auto|exact complex_ops]. destruct A' as (-> & S1 & V1 & _).
  destruct (sky_exists "create_cbeam" "<double, cuDoubleComplex>" "<float, cuFloatComplex>" double (s * s) (beam_thread (elem details [0]) (elem details [1]) (elem details [2]) (int16 s) [s * s])
    (mk_nd [s * s] (fun _ => C0)) bvals Nss (names _ ltac:(cbn; auto)) beam_ops) as (st2 & cb & B).
  pose proof B as B'. apply (sky_result _ _ _ _ (s * s) _ _ bvals) in B'; [|exact Nss|apply names; cbn; auto|exact beam_ops]. destruct B' as (-> & S2 & V2 & _).
  destruct (C112_same_partial (complex_square ty n) (complex_square ty s) (complex_square ty n) ty n s n P (n * n) (s * s) (n * n) cc cb (mk_nd [n * n] (fun _ => C0))) as ((st3 & conv & V) & W);
    try assumption; try apply square_ok; try lia; [exact ty_ok|reflexivity|reflexivity|].
  pose proof (W _ _ V) as (-> & S3 & _).
  destruct (sky_exists "create_copy_real" "<cuDoubleComplex, double>" "<cuFloatComplex, float>" double (n * n) (real_thread conv (shape sky) (n * n)) sky (fun a _ => re (elem conv [a])) Nn name_real
    (fun a Ha => real_ops conv a S3 Ha)) as (st4 & sky1 & E).
  pose proof E as E'. apply (sky_result _ _ _ _ (n * n) _ _ (fun a _ => re (elem conv [a]))) in E'; [|exact Nn|exact name_real|intros; now apply real_ops]. destruct E' as (-> & S4 & _).
  destruct (sky_exists "add_residual" "<double>" "<float>" double (n * n) (residual_thread residual (shape sky) (n * n)) sky1 (fun a o => (o + elem residual [a])%R) Nn name_add residual_ops) as (st5 & sky2 & F).
  exists st5, sky2. exists SUCCESS, cc, SUCCESS, cb, SUCCESS, conv, SUCCESS, sky1. repeat split; assumption.
Qed.
End Restore.

(** For even sizes the frame is the one of the CPU *)
Lemma frame_even s X Y : Z.even s = true -> in_frame s X Y = in_beam s X Y.
Proof.
  intro E. rewrite Z.even_spec in E. destruct E as (h & ->). unfold in_frame, in_beam. rewrite (Z.mul_comm 2 h), Z.div_mul by lia. f_equal; [f_equal; [f_equal|]|].
  - destruct (Z.leb_spec 0 (X + h)), (Z.leb_spec (- h) X); try reflexivity; lia.
  - destruct (Z.ltb_spec (X + h) (h * 2)), (Z.ltb_spec X h); try reflexivity; lia.
  - destruct (Z.leb_spec 0 (Y + h)), (Z.leb_spec (- h) Y); try reflexivity; lia.
  - destruct (Z.ltb_spec (Y + h) (h * 2)), (Z.ltb_spec Y h); try reflexivity; lia.
Qed.
Lemma beams_even d n s details comp i j : Z.even s = true -> framed_beams d n s details comp i j = beams d n s details comp i j.
Proof.
  intro E. unfold framed_beams, beams. apply (sum_ext Rplus 0%R). intros p _. apply (sum_ext Rplus 0%R). intros q _. rewrite frame_even by exact E. reflexivity.
Qed.
