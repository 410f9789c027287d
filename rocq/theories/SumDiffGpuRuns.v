(** A particular execution of sdp_gridder_sum_diff on a GPU that schedules threads independently *)
From Coq Require Import Lia.
From Verif Require Import Base BaseFacts Sum CRing GpuBlock GpuBlockFacts SumDiffGpu SumDiffGpuFacts.
Open Scope Z_scope.

(** The threads of a block take turns, each up to the next barrier *)
Fixpoint pass (m : mem) (ps : list code) : mem * list code :=
  match ps with [] => (m, []) | p :: ps => let (m1, p1) := solo m p in let (m2, ps2) := pass m1 ps in (m2, p1 :: ps2) end.
Definition done (p : code) : bool := match p with Done => true | _ => false end.
Fixpoint rounds (fuel : nat) (m : mem) (ps : list code) : option mem :=
  let (m1, ps1) := pass m ps in if forallb done ps1 then Some m1 else match fuel with O => None | S f => rounds f m1 (map release ps1) end.

Lemma pass_length m ps : length (snd (pass m ps)) = length ps.
Proof. revert m. induction ps as [|p ps IH]; intro m; [reflexivity|]. cbn. destruct (solo m p) as [m1 p1]. specialize (IH m1). destruct (pass m1 ps) as [m2 ps2]. cbn in *. now rewrite IH. Qed.
Lemma pass_waits m ps : Forall (fun p => waiting p = true) (snd (pass m ps)).
Proof. revert m. induction ps as [|p ps IH]; intro m; [constructor|]. cbn. pose proof (solo_waiting loc_eqb m p) as W. destruct (solo m p) as [m1 p1]. specialize (IH m1). destruct (pass m1 ps) as [m2 ps2]. cbn in *. now constructor. Qed.
Lemma pass_sound T ps : forall off m c, 0 <= off -> off + Z.of_nat (length ps) <= T -> (forall k, (k < length ps)%nat -> c (off + Z.of_nat k) = nth k ps Done) ->
  exists c', bexec T (m, c) (fst (pass m ps), c') /\ (forall k, (k < length ps)%nat -> c' (off + Z.of_nat k) = nth k (snd (pass m ps)) Done) /\ forall t, t < off -> c' t = c t.
Proof.
  induction ps as [|p ps IH]; intros off m c Ho Hl C.
  - exists c. split; [apply be_refl|]. split; [cbn; lia|auto].
  - cbn [length] in Hl. destruct (solo_exec loc_eqb T off p ltac:(lia) m c) as (c1 & E1 & C1 & O1). { specialize (C 0%nat ltac:(cbn; lia)). now rewrite Z.add_0_r in C. }
    cbn [pass]. destruct (solo m p) as [m1 p1]. cbn [fst snd] in *. destruct (IH (off + 1) m1 c1) as (c2 & E2 & C2 & O2); [lia|lia| |].
    { intros k Hk. rewrite O1 by lia. replace (off + 1 + Z.of_nat k) with (off + Z.of_nat (S k)) by lia. apply (C (S k)). cbn. lia. }
    destruct (pass m1 ps) as [m2 ps2]. cbn [fst snd] in *. exists c2. split; [eapply bexec_trans; eauto|]. split.
    + intros [|k] Hk.
      * rewrite Z.add_0_r, O2 by lia. exact C1.
      * replace (off + Z.of_nat (S k)) with (off + 1 + Z.of_nat k) by lia. cbn [nth]. apply C2. cbn in Hk. lia.
    + intros t Ht. rewrite O2 by lia. apply O1. lia.
Qed.
Lemma rounds_sound fuel : forall m ps m' c, rounds fuel m ps = Some m' -> (forall k, (k < length ps)%nat -> c (Z.of_nat k) = nth k ps Done) ->
  exists c', bexec (Z.of_nat (length ps)) (m, c) (m', c') /\ forall k, (k < length ps)%nat -> c' (Z.of_nat k) = Done.
Proof.
  induction fuel as [|f IH]; intros m ps m' c R C; destruct (pass_sound (Z.of_nat (length ps)) ps 0 m c ltac:(lia) ltac:(lia) C) as (c1 & E1 & C1 & _);
    pose proof (pass_length m ps) as Le; pose proof (pass_waits m ps) as Wa; cbn [rounds] in R; destruct (pass m ps) as [m1 ps1]; cbn [fst snd] in *.
  - destruct (forallb done ps1) eqn:D; [|discriminate]. injection R as <-. exists c1. split; [exact E1|]. intros k Hk. specialize (C1 k Hk). rewrite Z.add_0_l in C1. rewrite C1. rewrite forallb_forall in D. specialize (D _ (nth_In ps1 Done ltac:(rewrite Le; exact Hk))). destruct (nth k ps1 Done); (reflexivity || discriminate).
  - destruct (forallb done ps1) eqn:D.
    + injection R as <-. exists c1. split; [exact E1|]. intros k Hk. specialize (C1 k Hk). rewrite Z.add_0_l in C1. rewrite C1. rewrite forallb_forall in D. specialize (D _ (nth_In ps1 Done ltac:(rewrite Le; exact Hk))). destruct (nth k ps1 Done); (reflexivity || discriminate).
    + destruct (IH m1 (map release ps1) m' (fun t => release (c1 t)) R) as (c2 & E2 & C2).
      { intros k Hk. rewrite map_length, Le in Hk. specialize (C1 k Hk). rewrite Z.add_0_l in C1. cbv beta. rewrite C1. change (Done : code) with (release (Done : code)) at 2. now rewrite map_nth. }
      rewrite map_length, Le in *. exists c2. split; [|exact C2]. eapply bexec_trans; [exact E1|]. eapply be_step; [|exact E2].
      assert (Wk : forall t, 0 <= t < Z.of_nat (length ps) -> c1 t = nth (Z.to_nat t) ps1 Done). { intros t Ht. rewrite <- C1 by lia. f_equal. lia. }
      apply b_sync.
      * intros t Ht. rewrite Wk by assumption. rewrite Forall_forall in Wa. apply Wa. apply nth_In. lia.
      * assert (Ex : exists p, In p ps1 /\ done p = false). { clear - D. induction ps1 as [|p l IH]; [discriminate|]. cbn in D. apply Bool.andb_false_iff in D. destruct D as [D|D]; [exists p; split; [left; reflexivity|exact D]|]. destruct (IH D) as (q & I & Q). exists q. split; [right; exact I|exact Q]. }
        destruct Ex as (p & I & Q). destruct (In_nth _ _ Done I) as (k & Hk & Ek). exists (Z.of_nat k). split; [lia|]. rewrite Wk by lia. rewrite Nat2Z.id, Ek. rewrite Forall_forall in Wa. specialize (Wa p I). destruct p; (reflexivity || discriminate).
Qed.

(** Four rows, the last of which has a difference of 1 *)
Definition one_at_3 : mem := fun l => match l with RowA 3 => 1 | _ => 0 end.
Definition threads (ls : bool) : list code := map (fun k => sum_diff_thread ls 0 4 0 (Z.of_nat k)) (seq 0 512).
Lemma run_block : exists m', rounds 10 one_at_3 (threads false) = Some m' /\ m' (Added 0) = 0.
Proof.
  assert (H : match rounds 10 one_at_3 (threads false) with Some m' => m' (Added 0) =? 0 | None => false end = true) by (vm_compute; reflexivity).
  destruct (rounds 10 one_at_3 (threads false)) as [m'|]; [|discriminate]. exists m'. split; [reflexivity|]. now apply Z.eqb_eq.
Qed.

Notation safe := (safe (L := loc) (A := Z)).
Definition kept (l : loc) (v : Z) : Prop := match l with Sh b _ => b <> 0 -> v = 0 | Added _ => v = 0 | _ => True end.
Lemma kept_thread ls b t : 0 < b -> 0 <= t -> safe (fun _ => True) kept (sum_diff_thread ls 0 4 b t).
Proof.
  intros Hb Ht. unfold sum_diff_thread. cbn [GpuBlockFacts.safe kept]. split; [exact I|]. split; [auto|].
  replace (Z.to_nat (4 - (b * (512 * 2) + t + 0))) with 0%nat by lia. cbn [rows GpuBlockFacts.safe].
  assert (Ze : forall x y, kept (Sh b t) x -> kept (Sh b t) y -> kept (Sh b t) (i32 (x + y))). { cbn. intros x y X Y N. rewrite X, Y by assumption. reflexivity. }
  assert (Wr : safe (fun _ => True) kept (add_result b t)). { unfold add_result. destruct (t =? 0); cbn; [|exact I]. split; [exact I|]. intros v K. split; [exact I|]. split; [apply K; lia|exact I]. }
  assert (Tr : forall s k, safe (fun _ => True) kept k -> safe (fun _ => True) kept (tree_step s b t k)). { intros s k K. unfold tree_step. destruct (t <? s); cbn [GpuBlockFacts.safe]; auto 10. }
  assert (Lo : forall k, safe (fun _ => True) kept k -> safe (fun _ => True) kept (lock ls k)) by (intros; destruct ls; auto).
  assert (Wa : forall s k, safe (fun _ => True) kept k -> safe (fun _ => True) kept (warp_step ls s b t k)).
  { intros s k K. unfold warp_step. cbn [GpuBlockFacts.safe]. split; [exact I|]. intros. apply Lo. cbn [GpuBlockFacts.safe]. split; [exact I|]. intros. apply Lo. cbn [GpuBlockFacts.safe]. split; [exact I|]. split; [now apply Ze|]. now apply Lo. }
  repeat apply Tr. destruct (t <? 32); [|exact Wr]. unfold warp_reduce. now repeat apply Wa.
Qed.
(** The first block in that order, then the others in any order: the difference is lost *)
Lemma lost : exists m', launch loc_eqb 8 512 (sum_diff_thread false 0 4) one_at_3 m' /\ zs 0 8 (fun c => m' (Added c)) = 0.
Proof.
  destruct run_block as (m1 & R & V). assert (Ln : length (threads false) = 512%nat) by (unfold threads; rewrite map_length, seq_length; reflexivity).
  destruct (rounds_sound 10 one_at_3 _ m1 (sum_diff_thread false 0 4 0) R) as (c1 & E1 & F1).
  { rewrite Ln. intros k Hk. unfold threads. rewrite (nth_indep _ Done (sum_diff_thread false 0 4 0 (Z.of_nat 0))) by (rewrite map_length, seq_length; exact Hk). rewrite (map_nth (fun k => sum_diff_thread false 0 4 0 (Z.of_nat k))). now rewrite seq_nth by exact Hk. }
  rewrite Ln in *. change (Z.of_nat 512) with 512 in E1.
  destruct (lift_block loc_eqb 8 512 0 ltac:(lia) _ _ E1 (sum_diff_thread false 0 4) eq_refl) as (g1 & G1 & B1 & O1). cbn [fst snd] in *.
  assert (D1 : forall t, 0 <= t < 512 -> c1 t = Done). { intros t Ht. specialize (F1 (Z.to_nat t) ltac:(lia)). now rewrite Z2Nat.id in F1 by lia. }
  destruct (launch_ends loc_eqb 8 512 22 g1 m1 ltac:(lia)) as (m2 & g2 & G2 & Fi).
  { intros b t Hb Ht. destruct (Z.eq_dec b 0) as [->|N]; [rewrite B1, D1 by assumption; exact I|]. rewrite O1 by assumption. apply syncs_thread. }
  assert (K1 : forall l, kept l (m1 l)).
  { destruct (lift_block loc_eqb 1 512 0 ltac:(lia) _ _ E1 (sum_diff_thread false 0 4) eq_refl) as (gx & Gx & _). cbn [fst snd] in Gx.
    destruct (project loc_eqb loc_eqb_ok 1 512 (fun b l => match l with Sh c _ | Added c => c = b | _ => False end) (fun b l => match l with Sh c _ | Added c => c = b | _ => True end) one_at_3 (sum_diff_thread false 0 4) (m1, gx)) as [_ Q]; [| |exact Gx|].
    { intros b t Hb Ht. apply foot_thread; auto. }
    { intros b b' l Hb Hb' N W. destruct l; cbn in *; lia. }
    intros [i|i|b t|b]; cbn [kept fst] in *; auto.
    - intro N. rewrite Q by (intros b' Hb'; lia). reflexivity.
    - destruct (Z.eq_dec b 0) as [->|N]; [exact V|]. rewrite Q by (intros b' Hb'; lia). reflexivity. }
  destruct (safe_exec loc_eqb loc_eqb_ok 8 512 (fun _ => True) kept _ _ G2) as [_ K2].
  { intros b t Hb Ht. cbn [fst snd]. destruct (Z.eq_dec b 0) as [->|N]; [rewrite B1, D1 by assumption; exact I|]. rewrite O1 by assumption. apply kept_thread; lia. }
  { intros l _. apply K1. }
  exists m2. split; [exists g2; split; [eapply gexec_trans; eauto|exact Fi]|]. apply (sum_none _ _ Zcm). intros c _. exact (K2 (Added c) I).
Qed.
