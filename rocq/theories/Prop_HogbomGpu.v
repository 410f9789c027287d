(** C90, C91: Hogbom CLEAN on the GPU. *)
From Coq Require Import QArith.
From Verif Require Import Base BaseFacts Sum CRing Hogbom HogbomSpec HogbomFacts GpuBlock HogbomGpu HogbomGpuSpec HogbomGpuFacts HogbomGpuFacts2 HogbomGpuFacts3 HogbomGpuRuns.
Open Scope Z_scope.

(** C90: images of 16 x 16 or 256 x 256 pixels on a device that keeps the threads of a warp in step: every schedule finds a greatest pixel and its value *)
Theorem C90_peak n m m' : n = 16 \/ n = 256 -> find_peak true n m m' -> exists k, peak_at n m k /\ names m' k (num (m (Res k))) /\ only_max m m'.
Proof. exact (peak_found n m m'). Qed.
Print Assumptions C90_peak.
(** For these sizes and all other multiples of 256 it accesses only memory that is there, in step or not *)
Theorem C90_safe n ls m : n = 16 \/ (1 <= n /\ n mod 256 = 0) -> ~ find_peak_oob (valid n) ls n m.
Proof. exact (peak_safe n ls m). Qed.
Print Assumptions C90_safe.
(** The search always can be completed: no barrier is waited for in vain *)
Theorem C90_ends n ls m : 1 <= n -> exists m', find_peak ls n m m'.
Proof.
  intro Hn. apply reduce_ends. rewrite blocks_for_ok by nia. pose proof (Z.div_mod (n * n + 255) 256 ltac:(lia)). pose proof (Z.mod_pos_bound (n * n + 255) 256 ltac:(lia)). nia.
Qed.
Print Assumptions C90_ends.
(** For all other sizes the search reads outside its arrays *)
Theorem C90_bounds_refuted n ls m : 1 <= n -> n <> 16 -> n mod 256 <> 0 -> find_peak_oob (valid n) ls n m.
Proof. exact (peak_unsafe n ls m). Qed.
Print Assumptions C90_bounds_refuted.
(** On a device that schedules threads independently the peak can be missed *)
Theorem C90_lockstep_refuted : exists m m', find_peak false 16 m m' /\ peak_at 16 m 24 /\ num (m (Res 24)) = 1%Qc /\ num (m' (MaxV 0)) = 0%Qc.
Proof.
  destruct lost as (m' & F & V). exists (spots [24]), m'. split; [exact F|]. split; [|split; [reflexivity|exact V]]. split; [lia|]. intros i _. cbn [spots num existsb]. rewrite Z.eqb_refl. destruct (i =? 24); cbn; discriminate.
Qed.
Print Assumptions C90_lockstep_refuted.
(** With more than one block in the second launch, also on a device that keeps them in step *)
Theorem C90_levels_refuted : exists m m', find_peak true 512 m m' /\ peak_at 512 m 300 /\ num (m (Res 300)) = 1%Qc /\ num (m' (MaxV 0)) = 0%Qc.
Proof.
  destruct raced as (m' & F & V). exists (spots [300]), m'. split; [exact F|]. split; [|split; [reflexivity|exact V]]. split; [lia|]. intros i _. cbn [spots num existsb]. rewrite Z.eqb_refl. destruct (i =? 300); cbn; discriminate.
Qed.
Print Assumptions C90_levels_refuted.
(** Of several greatest pixels it need not be the first, which the CPU takes (C35) *)
Theorem C90_tie_refuted : exists m m' k, find_peak true 16 m m' /\ first_peak (16 * 16) (image m) k /\ int (m' (MaxI 0)) <> k.
Proof.
  destruct tie as (m' & F & I & _). exists (spots [1; 128]), m', 1. split; [exact F|]. split; [|lia]. split; [lia|]. unfold image. cbn [elem nth0 nth]. unfold nth0. cbn [nth spots num existsb]. rewrite !Z.eqb_refl. cbn [orb]. split.
  - intros i _. destruct ((i =? 1) || ((i =? 128) || false)); cbn; discriminate.
  - intros i Hi. replace (i =? 1) with false by lia. replace (i =? 128) with false by lia. reflexivity.
Qed.
Print Assumptions C90_tie_refuted.

(** C91: the CLEAN loop is a sequence of at most cycle_limit cycles, each at a greatest pixel above the threshold; if fewer ran, no pixel is above it *)
Theorem C91_cycles n gain threshold limit dirty psf model m' : n = 16 \/ n = 256 -> 1 <= limit -> hogbom_gpu true n (2 * n) gain threshold limit dirty psf model m' ->
  exists m k, starts n (2 * n) dirty psf model m /\ gpu_cycles n gain threshold k m m' /\ Z.of_nat k <= limit /\
    (Z.of_nat k < limit -> forall i, 0 <= i < n * n -> (num (m' (Res i)) <= threshold)%Qc).
Proof.
  intros Hn Hl (m & St & L). destruct (loop_result n gain threshold limit 0 m m' Hn L) as (k & C & Le & Re). { destruct St as (_ & _ & _ & ->). reflexivity. }
  exists m, k. split; [exact St|]. split; [exact C|]. split; [lia|]. intro. apply Re. lia.
Qed.
Print Assumptions C91_cycles.
(** The residual image is the dirty image minus the found components convolved with the PSF; the components are added to what the model image held *)
Theorem C91_consistent n gain threshold limit dirty psf model m' : n = 16 \/ n = 256 -> 1 <= limit -> hogbom_gpu true n (2 * n) gain threshold limit dirty psf model m' ->
  forall i j, 0 <= i < n -> 0 <= j < n -> num (m' (Res (n * i + j))) =
    (dirty (n * i + j)%Z - convolved n (mk_nd [(n * n)%Z] (fun idx => num (m' (Model (nth0 idx 0))) - model (nth0 idx 0))) (mk_nd [(2 * n * (2 * n))%Z] (fun idx => psf (nth0 idx 0))) i j)%Qc.
Proof.
  intros Hn Hl H. destruct (C91_cycles n gain threshold limit dirty psf model m' Hn Hl H) as (m & k & (S1 & S2 & S3 & S4) & C & _). assert (Pn : 0 < n) by lia.
  set (psf_a := mk_nd [(2 * n * (2 * n))%Z] (fun idx => psf (nth0 idx 0))). set (dirty_a := mk_nd [(n * n)%Z] (fun idx => dirty (nth0 idx 0))).
  destruct (cycles_keep n gain threshold k m m' psf_a dirty_a m Pn C) as [K _].
  - intros i Hi. rewrite S2 by lia. reflexivity.
  - intros i j Hi Hj. pose proof (flat_range n i j Hi Hj) as Fr. cbn [snd fst]. unfold image. cbn [elem]. unfold nth0. cbn [nth]. rewrite S1 by assumption. cbn [num dirty_a elem]. unfold nth0. cbn [nth].
    assert (Z0 : convolved n (added m m) psf_a i j = 0%Qc); [|rewrite Z0; ring]. unfold convolved. apply (rsum_none (A := Qc_ring)). intros x Hx. apply (rsum_none (A := Qc_ring)). intros y Hy. cbn [added elem r0 Qc_ring]. unfold Qcminus. rewrite Qcplus_opp_r. apply Qcmult_0_l.
  - intros i j Hi Hj. specialize (K i j Hi Hj). cbn [snd fst image elem dirty_a] in K. unfold nth0 in K at 1. cbn [nth] in K. rewrite K. unfold nth0 at 1. cbn [nth].
    match goal with |- (_ - ?a = _ - ?b)%Qc => assert (E : a = b); [|now rewrite E] end. unfold convolved. apply sum_ext. intros x Hx. apply sum_ext. intros y Hy. cbn [added elem]. unfold nth0. cbn [nth]. rewrite (S3 (n * x + y)) by (apply flat_range; assumption). reflexivity.
Qed.
Print Assumptions C91_consistent.
(** The loop always can be completed *)
Theorem C91_ends n ls psf_dim gain threshold limit dirty psf model : 1 <= n -> exists m', hogbom_gpu ls n psf_dim gain threshold limit dirty psf model m'.
Proof.
  intro Hn. set (m := fun l => match l with Res i => Num (dirty i) | Psf i => Num (psf i) | Model i => Num (model i) | _ => Int 0 end).
  destruct (loop_ends ls n psf_dim gain threshold limit Hn m 0) as (m' & L). exists m', m. split; [repeat split; reflexivity|exact L].
Qed.
Print Assumptions C91_ends.
(** After the peak has been found, the two kernels of a cycle access only memory that is there *)
Theorem C91_safe n gain threshold m m1 m2 : n = 16 \/ n = 256 -> find_peak true n m m1 ->
  ~ run_oob (valid n) 1 1 (add_clean_comp gain threshold) m1 /\
  (run 1 1 (add_clean_comp gain threshold) m1 m2 -> ~ run_oob (valid n) (blocks_for (n * n)) 256 (subtract_psf n (2 * n) gain threshold) m2).
Proof.
  intros Hn F. destruct (peak_found n m m1 Hn F) as (k & [Hk _] & [Ni _] & _). rewrite <- Ni in Hk. split; [apply add_safe; [lia|exact Hk]|]. intro A. destruct (add_result gain threshold m1 m2 A) as [A1 _].
  apply subtract_safe; [lia|]. rewrite A1 by (reflexivity || discriminate). exact Hk.
Qed.
Print Assumptions C91_safe.
(** The model image is not cleared: the identity of C34 is false of it when it held something before the call *)
Theorem C91_model_refuted : ~ forall gain threshold dirty psf model m', hogbom_gpu true 16 32 gain threshold 1 dirty psf model m' ->
  consistent 16 (mk_nd [1024] (fun idx => psf (nth0 idx 0))) (mk_nd [256] (fun idx => dirty (nth0 idx 0))) (mk_nd [256] (fun idx => num (m' (Model (nth0 idx 0)))), image m').
Proof.
  intro H. set (one := fun i => if i =? 0 then 1%Qc else 0%Qc). set (psf := fun i => if i =? 528 then 1%Qc else 0%Qc). set (zero := fun _ : Z => 0%Qc).
  destruct (C91_ends 16 true 32 1%Qc 1%Qc 1 zero psf one ltac:(lia)) as (m' & R). specialize (H _ _ _ _ _ _ R 0 0 ltac:(lia) ltac:(lia)). cbn [snd image elem] in H. unfold nth0 in H. cbn [nth] in H.
  destruct (C91_cycles 16 1%Qc 1%Qc 1 zero psf one m' ltac:(lia) ltac:(lia) R) as (m & k & (S1 & S2 & S3 & _) & C & _).
  assert (Ck : num (m' (Res 0)) = 0%Qc /\ forall i, 0 <= i < 256 -> num (m' (Model i)) = one i).
  { inversion C as [a a' Sa|k' a a1 a2 Cy C']; subst.
    - split; [rewrite Sa by (try (intro; split); (discriminate || reflexivity)); rewrite S1 by lia; reflexivity|]. intros i Hi. rewrite Sa by (try (intro; split); (discriminate || reflexivity)). rewrite S3 by lia. reflexivity.
    - exfalso. destruct Cy as (x & y & Hx & Hy & [Hk _] & Lt & _). rewrite S1 in Lt by assumption. cbn in Lt. discriminate. }
  destruct Ck as [R0 Mo]. change (16 * 0 + 0) with 0 in H. rewrite R0 in H. cbn [fst zero] in H. unfold convolved in H.
  assert (E : convolved 16 (mk_nd [256] (fun idx => one (nth0 idx 0))) (mk_nd [1024] (fun idx => psf (nth0 idx 0))) 0 0 = 1%Qc) by (apply Qc_is_canon; vm_compute; reflexivity).
  assert (Q : (0 = 0 - convolved 16 (mk_nd [256] (fun idx => one (nth0 idx 0))) (mk_nd [1024] (fun idx => psf (nth0 idx 0))) 0 0)%Qc); [|rewrite E in Q; discriminate].
  rewrite H at 1. match goal with |- (_ - ?a = _ - ?b)%Qc => assert (Eab : a = b); [|now rewrite Eab] end. unfold convolved. apply sum_ext. intros x Hx. apply sum_ext. intros y Hy. cbn [elem]. unfold nth0. cbn [nth]. rewrite Mo by (apply (flat_range 16); assumption). reflexivity.
Qed.
Print Assumptions C91_model_refuted.
(** A peak exactly at the threshold is cleaned by the CPU and not by the GPU *)
Theorem C91_threshold_refuted : exists dirty psf comp res,
  hogbom [16; 16] [32; 32] [4] [16; 16] [16; 16] [16; 16] dirty psf 1 1 1 = Some (SUCCESS, (comp, res)) /\ elem comp [0] = 1%Qc /\
  forall m', hogbom_gpu true 16 32 1 1 1 dirty psf (fun _ => 0%Qc) m' -> num (m' (Model 0)) = 0%Qc.
Proof.
  set (dirty := fun i => if i =? 0 then 1%Qc else 0%Qc). set (psf := fun i => if i =? 528 then 1%Qc else 0%Qc). exists dirty, psf.
  destruct (hogbom_lemma 16 [4] [16; 16] [16; 16] dirty psf 1 1 1) as (comp & res & k & E & (res0 & R0 & C) & Le & Re & _); [lia|lia|reflexivity|reflexivity|reflexivity|reflexivity|].
  change (2 * 16) with 32 in E. exists comp, res. split; [exact E|]. clear E. split.
  - inversion C as [s|k' s s1 s2 Cy C']; subst.
    + exfalso. specialize (Re ltac:(lia) 0 ltac:(lia)). rewrite R0 in Re by lia. cbn in Re. discriminate.
    + assert (k' = 0%nat) by lia. subst k'. inversion C'; subst. destruct Cy as (x & y & Hx & Hy & [Hk [Mx _]] & _ & Cm & _). cbv zeta in Cm. cbn [fst snd elem] in *.
      assert (Z0 : 16 * x + y = 0). { destruct (Z.eq_dec (16 * x + y) 0) as [|Ne]; [assumption|exfalso]. specialize (Mx 0 ltac:(lia)). rewrite !R0 in Mx by lia. unfold dirty in Mx. replace (16 * x + y =? 0) with false in Mx by lia. cbn in Mx. now apply Mx. }
      rewrite Cm by lia. rewrite Z0. cbn [Z.eqb]. rewrite R0 by lia. apply Qc_is_canon. reflexivity.
  - intros m' R. destruct (C91_cycles 16 1%Qc 1%Qc 1 dirty psf (fun _ => 0%Qc) m' ltac:(lia) ltac:(lia) R) as (m & k2 & (S1 & S2 & S3 & _) & C2 & _).
    inversion C2 as [a a' Sa|k' a a1 a2 Cy C']; subst.
    + rewrite Sa by (try (intro; split); (discriminate || reflexivity)). rewrite S3 by lia. reflexivity.
    + exfalso. destruct Cy as (x & y & Hx & Hy & [Hk _] & Lt & _). rewrite S1 in Lt by assumption. unfold dirty in Lt. cbn [num] in Lt. destruct (16 * x + y =? 0); cbn in Lt; discriminate.
Qed.
Print Assumptions C91_threshold_refuted.

(** Concrete case: one source of value 2 at pixel 17, a point PSF, gain 1, threshold 1: there is a run, and it ends with a component of 2 and an empty residual *)
Example C91_hyps : exists m', hogbom_gpu true 16 32 1 1 3 (fun i => if i =? 17 then 1 + 1 else 0)%Qc (fun i => if i =? 528 then 1%Qc else 0%Qc) (fun _ => 0%Qc) m' /\ num (m' (Model 17)) = (1 + 1)%Qc /\ num (m' (Res 17)) = 0%Qc.
Proof.
  set (dirty := (fun i => if i =? 17 then 1 + 1 else 0)%Qc). set (psf := fun i => if i =? 528 then 1%Qc else 0%Qc).
  destruct (C91_ends 16 true 32 1%Qc 1%Qc 3 dirty psf (fun _ => 0%Qc) ltac:(lia)) as (m' & R). exists m'. split; [exact R|].
  destruct (C91_cycles 16 1%Qc 1%Qc 3 dirty psf (fun _ => 0%Qc) m' ltac:(lia) ltac:(lia) R) as (m & k & (S1 & S2 & S3 & _) & C & Le & Re).
  inversion C as [a a' Sa|k' a a1 a2 Cy C']; subst.
  - exfalso. specialize (Re ltac:(lia) 17 ltac:(lia)). rewrite Sa in Re by (try (intro; split); (discriminate || reflexivity)). rewrite S1 in Re by lia. cbn in Re. now apply Re.
  - destruct Cy as (x & y & Hx & Hy & [Hk Mx] & Lt & Cm & Cr & Cp). cbv zeta in *.
    assert (Z0 : 16 * x + y = 17). { destruct (Z.eq_dec (16 * x + y) 17) as [|Ne]; [assumption|exfalso]. rewrite S1 in Lt by assumption. unfold dirty in Lt. replace (16 * x + y =? 17) with false in Lt by lia. cbn in Lt. discriminate. }
    assert (x = 1 /\ y = 1) as [-> ->] by lia. change (16 * 1 + 1) with 17 in *. rewrite (S1 17) in * by lia.
    assert (R1 : forall i j, 0 <= i < 16 -> 0 <= j < 16 -> num (a1 (Res (16 * i + j))) = 0%Qc).
    { intros i j Hi Hj. rewrite Cr by assumption. rewrite S1 by (apply (flat_range 16); assumption). rewrite S2 by lia. cbn [num]. unfold dirty, psf. destruct (Z.eqb_spec (16 * i + j) 17) as [Ei|Ei].
      - replace (2 * 16 * (16 - 1 + i) + (16 - 1 + j) =? 528) with true by lia. apply Qc_is_canon. reflexivity.
      - replace (2 * 16 * (16 - 1 + i) + (16 - 1 + j) =? 528) with false by lia. apply Qc_is_canon. reflexivity. }
    inversion C' as [b b' Sb|k2 b b1 b2 Cy2 C2]; subst.
    + rewrite !Sb by (try (intro; split); (discriminate || reflexivity)). rewrite Cm by lia. rewrite S3 by lia. split; [apply Qc_is_canon; reflexivity|]. exact (R1 1 1 ltac:(lia) ltac:(lia)).
    + exfalso. destruct Cy2 as (x & y & Hx2 & Hy2 & _ & Lt2 & _). rewrite R1 in Lt2 by assumption. discriminate.
Qed.
(** Concrete case: an image with two pixels of value 1 *)
Example C90_hyps : exists m', find_peak true 16 (spots [1; 128]) m' /\ int (m' (MaxI 0)) = 128 /\ num (m' (MaxV 0)) = 1%Qc.
Proof. exact tie. Qed.
