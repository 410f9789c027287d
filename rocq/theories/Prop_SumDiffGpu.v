(** C100: the sum of differences on the GPU. *)
From Coq Require Import String Lia.
From Verif Require Import Base BaseFacts Sum CRing GpuBlock GpuBlockFacts GpuLaunch Mem Checks ChecksFacts GridUtils GridUtilsFacts GridUtilsGpuSpec GridUtilsGpuFacts SumDiffGpu SumDiffGpuFacts SumDiffGpuRuns.
Open Scope Z_scope.

Lemma rows_default n r0 r1 : 0 <= n -> (r0 < 0 \/ r1 < 0) \/ (0 <= r0 <= r1 /\ r1 <= n) -> forall a (a_d : nd Z), described a MEM_INT a_d -> shape a_d = [n] ->
  0 <= first_row r0 r1 <= last_row a r0 r1 /\ last_row a r0 r1 <= n /\ first_row r0 r1 = (if (r0 <? 0) || (r1 <? 0) then 0 else r0) /\ last_row a r0 r1 = if (r0 <? 0) || (r1 <? 0) then n else r1.
Proof.
  intros Hn H a a_d D S. unfold first_row, last_row. assert (E : shape_dim a 0 = n) by (rewrite (described_shape a MEM_INT a_d) by (auto; rewrite S; cbn; lia); now rewrite S). rewrite E.
  destruct ((r0 <? 0) || (r1 <? 0)) eqn:Q; lia.
Qed.
Lemma in_row n i : in_shape [n] [i] = true <-> 0 <= i < n.
Proof. apply in_shape_1. Qed.

(** On a device that keeps the threads of a warp in step the call can be completed, and in every schedule the result is the sum of a - b over the rows,
    reduced to a 32-bit int.  Partial: other devices (C100_lockstep_refuted). *)
Theorem C100_sum_partial a b a_d b_d n r0 r1 : described a MEM_INT a_d -> described b MEM_INT b_d -> shape a_d = [n] -> shape b_d = [n] -> 0 <= n ->
  (r0 < 0 \/ r1 < 0) \/ (0 <= r0 <= r1 /\ r1 <= n) ->
  let lo := if (r0 <? 0) || (r1 <? 0) then 0 else r0 in
  let hi := if (r0 <? 0) || (r1 <? 0) then n else r1 in
  let true_sum := sum Z.add 0 lo hi (fun i => elem a_d [i]) - sum Z.add 0 lo hi (fun i => elem b_d [i]) in
  forall old, (exists out, gpu_sum_diff true a b a_d b_d r0 r1 SUCCESS old out) /\
  forall out, gpu_sum_diff true a b a_d b_d r0 r1 SUCCESS old out ->
    exists v, out = Some (SUCCESS, v) /\ (v - true_sum) mod 4294967296 = 0 /\ -2147483648 <= v < 2147483648.
Proof.
  intros Da Db Sa Sb Hn Hr lo hi true_sum old. destruct (rows_default n r0 r1 Hn Hr a a_d Da Sa) as (Hl & Hh & El & Eh). unfold gpu_sum_diff. cbn [failed]. cbv zeta.
  rewrite (view_const_ok a MEM_INT a_d 1 Da), (view_const_ok b MEM_INT b_d 1 Db) by (rewrite ?Sa, ?Sb; reflexivity). rewrite (described_type _ _ _ Da), (described_type _ _ _ Db). cbn [Z.eqb andb]. change (MEM_INT =? MEM_INT) with true. cbn [andb failed].
  change (registered the_kernel) with true. cbn [negb]. fold lo in El. fold hi in Eh. rewrite El, Eh in *. split.
  - set (m := fun l => match l with RowA i => elem a_d [i] | RowB i => elem b_d [i] | _ => 0 end).
    destruct (launch_ends loc_eqb 8 512 22 (sum_diff_thread true lo hi) m ltac:(lia)) as (m' & L). { intros. apply syncs_thread. }
    eexists. exists m, m'. split; [split; reflexivity|]. split; [exact L|reflexivity].
  - intros out (m & m' & (Ha & Hb) & L & ->). eexists. split; [reflexivity|]. split.
    + rewrite Zminus_mod, i32_mod, (launch_result lo hi m m') by (assumption || lia). rewrite <- Zminus_mod.
      assert (E : sum Z.add 0 lo hi (diff m) = true_sum); [|rewrite E, Z.sub_diag; reflexivity].
      unfold true_sum. rewrite <- zs_sub. apply sum_ext. intros i Hi. unfold diff. rewrite Ha, Hb by (rewrite ?Sa, ?Sb, in_row; lia). reflexivity.
    + unfold i32. pose proof (Z.mod_pos_bound (sum Z.add 0 0 8 (fun c => m' (Added c)) + 2147483648) 4294967296 ltac:(lia)). lia.
Qed.
Print Assumptions C100_sum_partial.

(** If the sum fits in an int, the result is the one on the CPU (C33). *)
Theorem C100_cpu_partial a b a_d b_d n r0 r1 : described a MEM_INT a_d -> described b MEM_INT b_d -> shape a_d = [n] -> shape b_d = [n] -> 0 <= n ->
  (r0 < 0 \/ r1 < 0) \/ (0 <= r0 <= r1 /\ r1 <= n) ->
  forall v, sum_diff a_d b_d r0 r1 = Some (SUCCESS, v) -> -2147483648 <= v < 2147483648 ->
  forall old out, gpu_sum_diff true a b a_d b_d r0 r1 SUCCESS old out -> out = Some (SUCCESS, v).
Proof.
  intros Da Db Sa Sb Hn Hr v E Hv old out G. rewrite (sum_diff_lemma a_d b_d n r0 r1 Sa Sb Hn) in E by lia. cbv zeta in E. injection E as E.
  destruct (C100_sum_partial a b a_d b_d n r0 r1 Da Db Sa Sb Hn Hr old) as [_ U]. destruct (U out G) as (w & -> & M0 & Hw). rewrite E in M0. do 2 f_equal.
  apply Z.mod_divide in M0; [|lia]. destruct M0 as (q & Q). nia.
Qed.
Print Assumptions C100_cpu_partial.

(** Every access of the kernel is to memory that is there, in step or not. *)
Theorem C100_safe ls a a_d b_d n r0 r1 : described a MEM_INT a_d -> shape a_d = [n] -> shape b_d = [n] -> 0 <= n -> (r0 < 0 \/ r1 < 0) \/ (0 <= r0 <= r1 /\ r1 <= n) ->
  ~ gpu_sum_diff_oob ls a_d b_d a r0 r1.
Proof.
  intros Da Sa Sb Hn Hr (m & _ & m' & g & b & t & l & E & Hb & Ht & Nx & Bad). destruct (rows_default n r0 r1 Hn Hr a a_d Da Sa) as (Hl & Hh & _).
  destruct (safe_exec loc_eqb loc_eqb_ok 8 512 (there a_d b_d) (fun _ _ => True) _ _ E) as [F _].
  - intros c u Hc Hu. cbn [snd]. assert (Ft : foot (there a_d b_d) (there a_d b_d) (sum_diff_thread ls (first_row r0 r1) (last_row a r0 r1) c u)).
    { apply foot_thread; [exact Hu| | |].
      - intros w Hw. cbn. auto.
      - exact Hc.
      - intros i Hi. cbn [there]. rewrite Sa, Sb, in_row. lia. }
    clear - Ft. revert Ft. generalize (sum_diff_thread ls (first_row r0 r1) (last_row a r0 r1) c u). induction p as [|l k IH|l v k IH|k IH]; cbn; intuition.
  - auto.
  - specialize (F b t Hb Ht). cbn [snd] in F. destruct (g b t); cbn in *; try discriminate; injection Nx as ->; tauto.
Qed.
Print Assumptions C100_safe.

Definition gpu_ints (n : Z) : option Mem.mem := Some (Mem.mk_mem MEM_INT MEM_GPU true true false 1 n 1 [n] [4] (Some (1, 0))).
(** Without lockstep (devices with independent thread scheduling) a difference can be lost: four rows, a sum of 1, a result of 0. *)
Theorem C100_lockstep_refuted : ~ forall a b a_d b_d n, described a MEM_INT a_d -> described b MEM_INT b_d -> shape a_d = [n] -> shape b_d = [n] -> 0 <= n ->
  forall v, sum_diff a_d b_d 0 n = Some (SUCCESS, v) -> -2147483648 <= v < 2147483648 -> forall old out, gpu_sum_diff false a b a_d b_d 0 n SUCCESS old out -> out = Some (SUCCESS, v).
Proof.
  intro H. set (a_d := mk_nd [4] (fun idx => match idx with [3] => 1 | _ => 0 end)). set (b_d := mk_nd [4] (fun _ => 0)).
  specialize (H (gpu_ints 4) (gpu_ints 4) a_d b_d 4 ltac:(repeat split) ltac:(repeat split) eq_refl eq_refl ltac:(lia) 1 eq_refl ltac:(lia) 0).
  destruct lost as (m' & L & V). assert (X : Some (SUCCESS, 0) = Some (SUCCESS, 1)); [|discriminate]. apply H.
  unfold gpu_sum_diff. cbn [failed]. cbv zeta. change (failed _) with false. change (registered the_kernel) with true. cbn [negb]. exists one_at_3, m'. split; [|split; [exact L|]].
  - split; intros i Hi; [|reflexivity]. reflexivity.
  - rewrite V. reflexivity.
Qed.
Print Assumptions C100_lockstep_refuted.

(** A sum that does not fit in an int is reported wrongly, unlike on the CPU: 2 (2^31 - 1) becomes -2. *)
Theorem C100_overflow_refuted : exists a b a_d b_d, described a MEM_INT a_d /\ described b MEM_INT b_d /\ sum_diff a_d b_d 0 2 = Some (SUCCESS, 4294967294) /\
  forall old, (exists out, gpu_sum_diff true a b a_d b_d 0 2 SUCCESS old out) /\ forall out, gpu_sum_diff true a b a_d b_d 0 2 SUCCESS old out -> out = Some (SUCCESS, -2).
Proof.
  exists (gpu_ints 2), (gpu_ints 2), (mk_nd [2] (fun _ => 2147483647)), (mk_nd [2] (fun _ => 0)). split; [repeat split|]. split; [repeat split|]. split; [reflexivity|]. intro old.
  destruct (C100_sum_partial (gpu_ints 2) (gpu_ints 2) (mk_nd [2] (fun _ => 2147483647)) (mk_nd [2] (fun _ => 0)) 2 0 2 ltac:(repeat split) ltac:(repeat split) eq_refl eq_refl ltac:(lia) ltac:(lia) old) as [Ex U].
  split; [exact Ex|]. intros out G. destruct (U out G) as (v & -> & M0 & Hv). do 2 f_equal.
  change (sum Z.add 0 _ _ _ - sum Z.add 0 _ _ _) with 4294967294 in M0. apply Z.mod_divide in M0; [|lia]. destruct M0 as (q & Q). lia.
Qed.
Print Assumptions C100_overflow_refuted.

(** Errors are not reported: with an array that is not of ints, the wrong number of dimensions or the second array elsewhere, a null pointer is dereferenced. *)
Theorem C100_errors_refuted ls a b a_d b_d r0 r1 old : location a = MEM_GPU -> mtype a <> MEM_INT \/ mtype b <> MEM_INT \/ num_dims a <> 1 \/ num_dims b <> 1 \/ location b <> MEM_GPU ->
  gpu_sum_diff ls a b a_d b_d r0 r1 SUCCESS old None /\ forall out, gpu_sum_diff ls a b a_d b_d r0 r1 SUCCESS old out -> out = None.
Proof.
  intros La H. unfold gpu_sum_diff. cbn [failed]. cbv zeta.
  assert (F : failed (if (mtype a =? MEM_INT) && (mtype b =? MEM_INT) then snd (check_and_view_const b MEM_INT 1 MEM_GPU (snd (check_and_view_const a MEM_INT 1 MEM_GPU SUCCESS))) else ERR_DATA_TYPE) = true).
  { destruct (Z.eqb_spec (mtype a) MEM_INT) as [Ta|Ta]; [|reflexivity]. destruct (Z.eqb_spec (mtype b) MEM_INT) as [Tb|Tb]; [|reflexivity]. cbn [andb].
    unfold check_and_view_const, check_type, check_num_dims, check_location. cbn [failed snd]. rewrite Ta, Tb, La, !Z.eqb_refl. cbn [negb failed snd].
    change (Z.of_nat 1) with 1. destruct (Z.eqb_spec (num_dims a) 1) as [Na|Na]; cbn [negb failed snd]; [|reflexivity]. destruct (Z.eqb_spec (num_dims b) 1) as [Nb|Nb]; cbn [negb failed snd]; [|reflexivity].
    destruct (Z.eqb_spec (location b) MEM_GPU) as [Lb|Lb]; cbn [negb failed snd]; [|reflexivity]. tauto. }
  rewrite F. auto.
Qed.
Print Assumptions C100_errors_refuted.

(** The lengths of the arrays are not compared, unlike on the CPU: the kernel reads past the end of a shorter second array. *)
Theorem C100_lengths_refuted ls a b a_d b_d n old : described a MEM_INT a_d -> described b MEM_INT b_d -> shape a_d = [n + 1] -> shape b_d = [n] -> 0 <= n < 512 ->
  sum_diff a_d b_d (-1) (-1) = Some (ERR_INVALID_ARGUMENT, 0) /\ (exists out, gpu_sum_diff ls a b a_d b_d (-1) (-1) SUCCESS old (Some out)) /\ gpu_sum_diff_oob ls a_d b_d a (-1) (-1).
Proof.
  intros Da Db Sa Sb Hn. set (m := fun l => match l with RowA i => elem a_d [i] | RowB i => elem b_d [i] | _ => 0 end).
  assert (E : shape_dim a 0 = n + 1) by (rewrite (described_shape a MEM_INT a_d) by (auto; rewrite Sa; cbn; lia); now rewrite Sa). split; [|split].
  - unfold sum_diff, dim. rewrite Sa, Sb. cbn [nth]. replace (n + 1 =? n) with false by lia. reflexivity.
  - unfold gpu_sum_diff. cbn [failed]. cbv zeta.
    rewrite (view_const_ok a MEM_INT a_d 1 Da), (view_const_ok b MEM_INT b_d 1 Db) by (rewrite ?Sa, ?Sb; reflexivity). rewrite (described_type _ _ _ Da), (described_type _ _ _ Db). change (MEM_INT =? MEM_INT) with true. cbn [andb failed].
    change (registered the_kernel) with true. cbn [negb].
    destruct (launch_ends loc_eqb 8 512 22 (sum_diff_thread ls (first_row (-1) (-1)) (last_row a (-1) (-1))) m ltac:(lia)) as (m' & L). { intros. apply syncs_thread. }
    eexists. exists m, m'. split; [split; reflexivity|]. split; [exact L|reflexivity].
  - exists m. split; [split; reflexivity|]. unfold first_row, last_row. cbn [Z.ltb Z.compare orb]. rewrite E.
    set (k := Sync (tree_step 256 0 n (tree_step 128 0 n (tree_step 64 0 n (if n <? 32 then warp_reduce ls 0 n (add_result 0 n) else add_result 0 n))))).
    assert (P0 : sum_diff_thread ls 0 (n + 1) 0 n = St (Sh 0 n) 0 (add_row 0 n n (rows 0 (n + 512 * 2 * 8) (n + 1) 0 n k))).
    { unfold sum_diff_thread. fold k. replace (0 * (512 * 2) + n + 0) with n by lia. replace (Z.to_nat (n + 1 - n)) with 1%nat by lia. cbn [rows]. replace (n <? n + 1) with true by lia. replace (n + 512 <? n + 1) with false by lia. reflexivity. }
    eexists _, _, 0, n, (RowB n). split; [|split; [lia|split; [lia|split]]].
    + eapply ge_step; [apply g_step with (b := 0); [lia|]; apply b_store with (t := n); [lia|exact P0]|].
      eapply ge_step; [apply g_step with (b := 0); [lia|]; rewrite block_same; apply b_load with (t := n); [lia|]; rewrite set_same; reflexivity|]. apply ge_refl.
    + rewrite block_same, set_same. reflexivity.
    + cbn [there]. rewrite Sb, in_row. lia.
Qed.
Print Assumptions C100_lengths_refuted.

(** Concrete case: 3 rows, differences 5, -2 and 4 *)
Example C100_hyps : exists a b a_d b_d, described a MEM_INT a_d /\ described b MEM_INT b_d /\ shape a_d = [3] /\ shape b_d = [3] /\ sum_diff a_d b_d (-1) 0 = Some (SUCCESS, 7) /\
  forall old out, gpu_sum_diff true a b a_d b_d (-1) 0 SUCCESS old out -> out = Some (SUCCESS, 7).
Proof.
  set (a_d := mk_nd [3] (fun idx => match idx with [0] => 6 | [1] => 1 | _ => 9 end)). set (b_d := mk_nd [3] (fun idx => match idx with [0] => 1 | [1] => 3 | _ => 5 end)).
  exists (gpu_ints 3), (gpu_ints 3), a_d, b_d. assert (Da : described (gpu_ints 3) MEM_INT a_d) by repeat split. assert (Db : described (gpu_ints 3) MEM_INT b_d) by repeat split.
  split; [exact Da|]. split; [exact Db|]. split; [reflexivity|]. split; [reflexivity|]. split; [reflexivity|].
  intros old out G. exact (C100_cpu_partial _ _ a_d b_d 3 (-1) 0 Da Db eq_refl eq_refl ltac:(lia) ltac:(lia) 7 eq_refl ltac:(lia) old out G).
Qed.
