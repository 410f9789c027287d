(** C108: the prefix sum over tiles on the GPU. *)
From Coq Require Import String Lia.
From Verif Require Import Base BaseFacts Sum CRing GpuBlock GpuBlockFacts GpuBlockFacts3 GpuLaunch Tiled TiledFacts PrefixGpu PrefixGpuFacts.
From Verif Require SumDiffGpu SumDiffGpuFacts.
Import SumDiffGpu(i32). Import SumDiffGpuFacts(i32_mod, i32_eq, i32_id, add_mod).
Open Scope Z_scope.

(** What one launch does with fewer than 512 tiles *)
Lemma one_turn X n m c : GpuBlockFacts3.rule (A := Z) loc_eqb 512 X -> 0 <= n < 512 -> (forall t, 0 <= t < 512 -> c t = prefix_thread n 0 t) ->
  (forall m1 c1, (forall t, 0 <= t < 512 -> c1 t = Done) -> (forall t, 0 <= t <= n -> m1 (Offs t) = i32 (sum Z.add 0 0 t (fun i => m (Points i)))) -> X (m1, c1)) -> X (m, c).
Proof.
  intros Hx Hn C K. assert (L : Z.to_nat (cdiv (n + 512) 512) = 1%nat). { unfold cdiv. rewrite Z.quot_div_nonneg by lia. rewrite <- (Z.div_unique (n + 512) 512 1 n) by lia. reflexivity. }
  apply (turn_rule X 0 n (fun t => t) (fun _ => 0) m c Hx). { intros t Ht. rewrite C by assumption. unfold prefix_thread. now rewrite L. }
  intros m1 c1 C1 V1 N1. apply (Hx m1 c1 (fun t l => t <= n /\ l = Offs t) (fun t l => exists i, l = Scr i)).
  { intros t Ht. rewrite C1 by assumption. unfold write. destruct (Z.leb_spec t n); cbn; eauto 10. }
  { intros t t' l Ht Ht' N (_ & ->). split; [intros (i & Q); discriminate|]. intros (_ & Q). inversion Q. lia. }
  intros m2 c2 (P2 & V2 & _). apply K.
  - intros t Ht. rewrite P2, C1 by assumption. unfold write. destruct (t <=? n); reflexivity.
  - intros t Ht. rewrite (V2 t) by (lia || auto with zarith). rewrite C1 by lia. unfold write. replace (t <=? n) with true by lia. cbn. rewrite psame. apply i32_eq. rewrite Z.add_0_r, V1 by lia. f_equal.
    rewrite (sum_cons _ _) by lia. unfold value at 1. replace ((0 <=? 0) && (0 <=? n) && (0 <? 0)) with false by lia. rewrite Z.add_0_l, Z.add_0_l.
    transitivity (sum Z.add 0 (0 + 1) (t + 1) (value n (fun t => t) m)); [reflexivity|]. rewrite (sum_shift _ _ 0 t 1). apply sum_ext. intros i Hi. unfold value. replace ((0 <=? i + 1) && (i + 1 <=? n) && (0 <? i + 1)) with true by lia. f_equal. f_equal. lia.
Qed.

(** With fewer than 512 tiles, in every schedule the offset of a tile is the number of entries in the tiles before it, as an int, and the last offset is the number of all.
    Partial: fewer than 512 tiles (C108_race_refuted). *)
Theorem C108_offsets_partial n points offsets : 0 <= n < 512 -> shape points = [n] -> shape offsets = [n + 1] ->
  (exists r, gpu_prefix_sum n points offsets r) /\
  forall r, gpu_prefix_sum n points offsets r -> shape r = [n + 1] /\ forall k, 0 <= k <= n -> elem r [k] = i32 (sum Z.add 0 0 k (fun i => elem points [i])).
Proof.
  intros Hn Sp So. split.
  - set (m := fun l => match l with Points i => elem points [i] | Offs i => elem offsets [i] | Scr _ => 0 end).
    destruct (launch_ends_one loc_eqb 512 (prefix_thread n) m (fun _ => True)) as (m' & L & _).
    { apply (one_turn (GpuBlockFacts3.ends loc_eqb 512 (fun _ => True)) n m); [apply rule_some; [exact loc_eqb_ok|lia]|exact Hn|reflexivity|]. intros m1 c1 C1 _. now apply ends_done. }
    eexists. split; [reflexivity|]. exists m, m'. split; [split; reflexivity|]. split; [exact L|reflexivity].
  - intros r (_ & m & m' & (Hp & _) & L & ->). cbn [shape]. split; [exact So|]. intros k Hk. cbn [elem nth].
    apply launch_one in L. destruct L as ([m0 c0] & E & Fi & <-). cbn [fst].
    assert (V : forall t, 0 <= t <= n -> m0 (Offs t) = i32 (sum Z.add 0 0 t (fun i => m (Points i)))).
    { revert E. apply (one_turn (fun s => bexec loc_eqb 512 s (m0, c0) -> forall t, 0 <= t <= n -> m0 (Offs t) = i32 (sum Z.add 0 0 t (fun i => m (Points i)))) n m); [now apply rule_all; [exact loc_eqb_ok|]|exact Hn|reflexivity|].
      intros m1 c1 C1 V1 E1. apply all_done in E1; [|exact C1]. cbn [fst] in E1. subst m0. exact V1. }
    rewrite V by exact Hk. f_equal. apply sum_ext. intros i Hi. apply Hp. rewrite Sp. apply in_shape_1. lia.
Qed.
Print Assumptions C108_offsets_partial.

(** These are the offsets that the CPU computes, if there are fewer than 2^31 entries. *)
Theorem C108_cpu_partial n points offsets : 0 <= n < 512 -> shape points = [n] -> shape offsets = [n + 1] ->
  (forall k, 0 <= k <= n -> 0 <= sum Z.add 0 0 k (fun i => elem points [i]) <= 2147483647) ->
  exists rc, prefix_sum n points offsets = Some rc /\ forall r, gpu_prefix_sum n points offsets r -> nd_eq r rc.
Proof.
  intros Hn Sp So B. destruct (prefix_lemma n points offsets Sp So ltac:(lia)) as (rc & E & Sc & V). exists rc. split; [exact E|]. intros r G.
  destruct (C108_offsets_partial n points offsets Hn Sp So) as (_ & U). destruct (U r G) as (Sr & Vr). split; [congruence|]. rewrite Sr. intros idx Ii.
  destruct idx as [|k [|]]; try (cbn in Ii; rewrite ?andb_false_r in Ii; discriminate). apply in_shape_1 in Ii. rewrite Vr, V by lia. apply i32_id. specialize (B k ltac:(lia)). lia.
Qed.
Print Assumptions C108_cpu_partial.

(** No thread accesses memory that is not there, for any number of tiles *)
Theorem C108_safe n points offsets : 0 <= n -> shape points = [n] -> shape offsets = [n + 1] -> ~ gpu_prefix_sum_oob n points offsets.
Proof.
  intros Hn Sp So (m & _ & O). revert O. apply (safe_never loc_eqb loc_eqb_ok 1 512 (there points offsets) (fun _ _ => True)); [|auto]. intros b t Hb Ht. unfold prefix_thread.
  assert (G : forall f idx run, 0 <= idx -> safe (there points offsets) (fun _ _ => True) (prefix_loops f n idx run t)); [|apply G; lia].
  induction f as [|f IH]; intros idx run Hi; [exact I|].
  assert (Sc : forall i, 0 <= i < 1024 -> there points offsets (Scr i)) by (intros i Hi'; exact Hi').
  assert (Wr : forall r, safe (there points offsets) (fun _ _ => True) (write n idx r t (fun r => prefix_loops f n (idx + 512) r t))).
  { intro r. unfold write. assert (Re : safe (there points offsets) (fun _ _ => True) (Ld (Scr 1023) (fun z => prefix_loops f n (idx + 512) (i32 (r + z)) t))). { cbn [safe]. split; [apply Sc; lia|]. intros v _. apply IH. lia. }
    destruct (Z.leb_spec idx n); [|exact Re]. cbn [safe]. split; [apply Sc; lia|]. intros v _. split; [|split; [exact I|exact Re]]. cbn [there]. rewrite So. apply in_shape_1. lia. }
  assert (Ss : forall j k, 0 <= j <= 512 -> safe (there points offsets) (fun _ _ => True) k -> safe (there points offsets) (fun _ _ => True) (scan_step j t k)).
  { intros j k Hj K. unfold scan_step. cbn [safe]. split; [apply Sc; lia|]. intros v _. split; [apply Sc; lia|]. intros w _. split; [apply Sc; lia|]. auto. }
  assert (Bo : forall v, safe (there points offsets) (fun _ _ => True) (St (Scr t) 0 (St (Scr (t + 512)) v (scan t (write n idx run t (fun r => prefix_loops f n (idx + 512) r t)))))).
  { intro v. cbn [safe]. split; [apply Sc; lia|]. split; [exact I|]. split; [apply Sc; lia|]. split; [exact I|]. unfold scan. repeat (apply Ss; [lia|]). cbn [safe]. apply Wr. }
  cbn [prefix_loops]. destruct (_ && _) eqn:Q; [|exact (Bo 0)]. cbn [safe]. split; [|intros v _; exact (Bo v)]. cbn [there]. rewrite Sp. apply in_shape_1. lia.
Qed.
Print Assumptions C108_safe.

(** With 512 tiles the running total is read while the last thread clears it for the next turn: whatever the numbers of entries are, there is a schedule in which the
    total number of entries that is reported is the number of entries of the last tile. *)
Theorem C108_race_refuted points offsets : shape points = [512] -> shape offsets = [513] ->
  exists r, gpu_prefix_sum 512 points offsets r /\ elem r [512] = i32 (elem points [511]).
Proof.
  intros Sp So.
  set (m := fun l => match l with Points i => elem points [i] | Offs i => elem offsets [i] | Scr _ => 0 end).
  destruct (launch_ends_one loc_eqb 512 (prefix_thread 512) m (fun m' => m' (Offs 512) = i32 (elem points [511]))) as (m' & L & V).
  2: { eexists. split; [split; [reflexivity|]; exists m, m'; split; [split; reflexivity|]; split; [exact L|reflexivity]|]. cbn [elem nth]. exact V. }
  set (Q := fun m' : loc -> Z => m' (Offs 512) = i32 (elem points [511])). pose proof (rule_some loc_eqb loc_eqb_ok 512 Q ltac:(lia)) as Hx.
  apply (turn_rule _ 1 512 (fun t => t) (fun _ => 0) m _ Hx). { intros t Ht. reflexivity. }
  intros m1 c1 C1 _ N1. apply (ends_first loc_eqb 512 Q m1 c1 511 ltac:(lia)). rewrite (C1 511) by lia. unfold write. change (511 <=? 512) with true. cbv iota. cbn [GpuBlockFacts.solo].
  change (511 + 512) with 1023. set (y := i32 (m1 (Scr 1023) + 0)). set (m2 := GpuBlock.put loc_eqb m1 (Offs 511) y). set (r511 := i32 (0 + m2 (Scr 1023))).
  change (prefix_loops 1 512 1023 r511 511) with (St (Scr 511) 0 (St (Scr 1023) 0 (scan 511 (write 512 1023 r511 511 (fun r => prefix_loops 0 512 (1023 + 512) r 511))))).
  cbn [GpuBlockFacts.solo]. set (m3 := GpuBlock.put loc_eqb (GpuBlock.put loc_eqb m2 (Scr 511) 0) (Scr 1023) 0).
  match goal with |- context [scan 511 ?k] => set (k511 := k); change (GpuBlockFacts.solo loc_eqb m3 (scan 511 k511)) with (m3, scan 511 k511) end. cbn [fst snd]. intros c2 C2 O2.
  assert (C3 : forall t, 0 <= t < 511 -> c2 t = write 512 t 0 t (fun r => prefix_loops 1 512 (t + 512) r t)) by (intros t Ht; rewrite O2, C1 by lia; reflexivity).
  assert (R3 : m3 (Scr 1023) = 0) by apply psame. assert (R3' : m3 (Scr 511) = 0) by (unfold m3; rewrite pother by discriminate; apply psame).
  assert (P3 : m3 (Points 511) = elem points [511]). { unfold m3, m2. rewrite !pother by discriminate. rewrite N1 by discriminate. reflexivity. }
  clearbody m3. clearbody r511. clear m2 y C1 N1 O2.
  set (run := fun t => if t =? 511 then r511 else 0).
  set (k := fun t => write 512 (t + 512) (run t) t (fun r => prefix_loops 0 512 (t + 512 + 512) r t)).
  set (v := fun u => if u =? 0 then elem points [511] else 0).
  assert (S3 : forall t, 0 <= t < 511 -> exists m4, GpuBlockFacts.solo loc_eqb m3 (c2 t) = (m4, scan t (k t)) /\ m4 (Scr t) = 0 /\ m4 (Scr (t + 512)) = v t).
  { intros t Ht. rewrite C3 by assumption. unfold write. replace (t <=? 512) with true by lia. cbn [GpuBlockFacts.solo]. set (m4 := GpuBlock.put loc_eqb m3 (Offs t) _).
    assert (E1 : m4 (Scr 1023) = 0) by (unfold m4; rewrite pother by discriminate; exact R3). assert (E2 : m4 (Points 511) = elem points [511]) by (unfold m4; rewrite pother by discriminate; exact P3).
    rewrite E1. change (i32 (0 + 0)) with 0. clearbody m4. cbn [prefix_loops].
    assert (Rt : run t = 0) by (unfold run; replace (t =? 511) with false by lia; reflexivity). unfold k. rewrite Rt.
    assert (Go : forall x, x = v t -> exists m5, GpuBlockFacts.solo loc_eqb m4 (St (Scr t) 0 (St (Scr (t + 512)) x (scan t (write 512 (t + 512) 0 t (fun r => prefix_loops 0 512 (t + 512 + 512) r t))))) =
      (m5, scan t (write 512 (t + 512) 0 t (fun r => prefix_loops 0 512 (t + 512 + 512) r t))) /\ m5 (Scr t) = 0 /\ m5 (Scr (t + 512)) = v t).
    { intros x ->. eexists. split; [reflexivity|]. split; [rewrite pother by (intro X; inversion X; lia); apply psame|apply psame]. }
    destruct (_ && _) eqn:B.
    - cbn [GpuBlockFacts.solo]. apply Go. assert (t = 0) as -> by lia. exact E2.
    - apply Go. unfold v. replace (t =? 0) with false by lia. reflexivity. }
  apply (Hx m3 c2 (fun t l => t < 511 /\ (l = Scr t \/ l = Scr (t + 512) \/ l = Offs t)) (fun t l => t < 511 /\ ((exists i, l = Points i) \/ l = Scr (t + 512) \/ l = Scr 1023))).
  { intros t Ht. destruct (Z.eq_dec t 511) as [->|Nt]; [rewrite C2; exact I|]. rewrite C3 by lia.
    assert (Lt : t < 511) by lia. unfold write. replace (t <=? 512) with true by lia. cbn [foot1]. split; [auto|]. intros _. split; [auto|]. split; [auto|]. intro z.
    cbn [prefix_loops]. destruct (_ && _); cbn [foot1]; [split; [eauto|]; intros _|]; repeat (split; [auto|]); exact I. }
  { intros t t' l Ht Ht' N (L1 & W). split; intros (L2 & W'); (destruct W as [-> | [-> | ->]]); (destruct W' as [W'|[W'|W']]; [try (destruct W' as (i & W')); inversion W'; lia|inversion W'; lia|inversion W'; lia]). }
  intros m5 c5 (P5 & V5 & N5).
  apply (scan_rule _ v m5 c5 k Hx).
  - intros u Hu. unfold v. replace (u =? 0) with false by lia. reflexivity.
  - apply inv_one; [|intros u Hu; unfold v; replace (u =? 0) with false by lia; reflexivity]. intros t Ht. destruct (Z.eq_dec t 511) as [->|Nt].
    + rewrite !N5; [split; [exact R3'|exact R3]| |]; intros t' Ht' (L' & [X|[X|X]]); inversion X; lia.
    + destruct (S3 t ltac:(lia)) as (m4 & E & A & B). assert (Lt : t < 511) by lia; rewrite !(V5 t) by auto. rewrite E. auto.
  - intros t Ht. rewrite P5 by assumption. destruct (Z.eq_dec t 511) as [->|Nt]; [rewrite C2; reflexivity|]. destruct (S3 t ltac:(lia)) as (m4 & E & _). rewrite E. reflexivity.
  - intros m6 c6 C6 V6 N6. apply (Hx m6 c6 (fun t l => t = 0 /\ l = Offs 512) (fun t l => exists i, l = Scr i)).
    + intros t Ht. rewrite C6 by assumption. unfold k, write. destruct (Z.leb_spec (t + 512) 512) as [Le|Le]; cbn [foot1]; [|cbn; eauto 10]. split; [eauto|]. intro. split; [split; [lia|f_equal; lia]|]. split; [eauto|]. intro. exact I.
    + intros t t' l Ht Ht' N (T0 & ->). split; [intros (i & X); discriminate|]. intros (T1 & _). lia.
    + intros m7 c7 (P7 & V7 & _). apply ends_done.
      * intros t Ht. rewrite P7, C6 by assumption. unfold k, write. destruct (_ <=? _); reflexivity.
      * unfold Q. rewrite (V7 0) by (auto; lia). rewrite C6 by lia. unfold k, write, run. change (0 + 512) with 512. change (512 <=? 512) with true. change (0 =? 511) with false. cbv iota. cbn [GpuBlockFacts.solo fst prefix_loops]. rewrite psame. apply i32_eq. rewrite Z.add_0_r. change 512 with (0 + 512) at 1. rewrite (V6 0) by lia. f_equal. change (0 + 1) with 1. rewrite (sum_one _ _ Zcm 0 1 0) by (intros; lia). reflexivity.
Qed.
Print Assumptions C108_race_refuted.

Example C108_hyps : exists points offsets : nd Z, shape points = [3] /\ shape offsets = [4] /\ (forall k, 0 <= k <= 3 -> 0 <= sum Z.add 0 0 k (fun i => elem points [i]) <= 2147483647) /\
  exists rc, prefix_sum 3 points offsets = Some rc /\ elem rc [2] = 5 /\ elem rc [3] = 6.
Proof.
  exists (mk_nd [3] (fun i => 3 - nth 0 i 0)), (mk_nd [4] (fun _ => 0)). split; [reflexivity|]. split; [reflexivity|]. split.
  - intros k Hk. assert (k = 0 \/ k = 1 \/ k = 2 \/ k = 3) as [-> | [-> | [-> | ->]]] by lia; vm_compute; split; discriminate.
  - eexists. split; [vm_compute; reflexivity|]. split; reflexivity.
Qed.
