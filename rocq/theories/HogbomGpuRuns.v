(** Particular executions of the reduction on the GPU *)
From Coq Require Import QArith Lia.
From Verif Require Import Base BaseFacts Hogbom HogbomSpec GpuBlock GpuBlockFacts HogbomGpu HogbomGpuSpec HogbomGpuFacts HogbomGpuFacts2.
Open Scope Z_scope.

(** The threads of a block take turns, each up to the next barrier *)
Fixpoint pass (m : mem) (ps : list code) : mem * list code :=
  match ps with [] => (m, []) | p :: ps => let (m1, p1) := solo m p in let (m2, ps2) := pass m1 ps in (m2, p1 :: ps2) end.
Definition done (p : code) : bool := match p with Done => true | _ => false end.
Fixpoint rounds (fuel : nat) (m : mem) (ps : list code) : option mem :=
  let (m1, ps1) := pass m ps in if forallb done ps1 then Some m1 else match fuel with O => None | S f => rounds f m1 (map release ps1) end.

Lemma pass_length m ps : length (snd (pass m ps)) = length ps.
Proof. revert m. induction ps as [|p ps IH]; intro m; [reflexivity|]. cbn. destruct (solo m p) as [m1 p1]. specialize (IH m1). destruct (pass m1 ps) as [m2 ps2]. cbn in *. now rewrite IH. Qed.
Lemma pass_waits m ps : Forall (fun p => waiting p = true) (snd (pass m ps)).
Proof. revert m. induction ps as [|p ps IH]; intro m; [constructor|]. cbn. pose proof (solo_waiting loc_eqb m p) as W. destruct (solo m p) as [m1 p1]. specialize (IH m1). destruct (pass m1 ps) as [m2 ps2]. cbn in *. now constructor. Qed.
Lemma pass_sound T ps : forall off m c, 0 <= off -> off + Z.of_nat (length ps) <= T -> (forall k, (k < length ps)%nat -> c (off + Z.of_nat k) = nth k ps Done) ->
  exists c', bexec T (m, c) (fst (pass m ps), c') /\ (forall k, (k < length ps)%nat -> c' (off + Z.of_nat k) = nth k (snd (pass m ps)) Done) /\ forall t, t < off -> c' t = c t.
Proof.
  induction ps as [|p ps IH]; intros off m c Ho Hl C.
  - exists c. split; [apply be_refl|]. split; [cbn; lia|auto].
  - cbn [length] in Hl. destruct (solo_exec loc_eqb T off p ltac:(lia) m c) as (c1 & E1 & C1 & O1). { specialize (C 0%nat ltac:(cbn; lia)). now rewrite Z.add_0_r in C. }
    cbn [pass]. destruct (solo m p) as [m1 p1]. cbn [fst snd] in *. destruct (IH (off + 1) m1 c1) as (c2 & E2 & C2 & O2); [lia|lia| |].
    { intros k Hk. rewrite O1 by lia. replace (off + 1 + Z.of_nat k) with (off + Z.of_nat (S k)) by lia. apply (C (S k)). cbn. lia. }
    destruct (pass m1 ps) as [m2 ps2]. cbn [fst snd] in *. exists c2. split; [eapply bexec_trans; eauto|]. split.
    + intros [|k] Hk.
      * rewrite Z.add_0_r, O2 by lia. exact C1.
      * replace (off + Z.of_nat (S k)) with (off + 1 + Z.of_nat k) by lia. cbn [nth]. apply C2. cbn in Hk. lia.
    + intros t Ht. rewrite O2 by lia. apply O1. lia.
Qed.
Lemma rounds_sound fuel : forall m ps m' c, rounds fuel m ps = Some m' -> (forall k, (k < length ps)%nat -> c (Z.of_nat k) = nth k ps Done) ->
  exists c', bexec (Z.of_nat (length ps)) (m, c) (m', c') /\ forall k, (k < length ps)%nat -> c' (Z.of_nat k) = Done.
Proof.
  induction fuel as [|f IH]; intros m ps m' c R C; destruct (pass_sound (Z.of_nat (length ps)) ps 0 m c ltac:(lia) ltac:(lia) C) as (c1 & E1 & C1 & _);
    pose proof (pass_length m ps) as Le; pose proof (pass_waits m ps) as Wa; cbn [rounds] in R; destruct (pass m ps) as [m1 ps1]; cbn [fst snd] in *.
  - destruct (forallb done ps1) eqn:D; [|discriminate]. injection R as <-. exists c1. split; [exact E1|]. intros k Hk. specialize (C1 k Hk). rewrite Z.add_0_l in C1. rewrite C1. rewrite forallb_forall in D. specialize (D _ (nth_In ps1 Done ltac:(rewrite Le; exact Hk))). destruct (nth k ps1 Done); (reflexivity || discriminate).
  - destruct (forallb done ps1) eqn:D.
    + injection R as <-. exists c1. split; [exact E1|]. intros k Hk. specialize (C1 k Hk). rewrite Z.add_0_l in C1. rewrite C1. rewrite forallb_forall in D. specialize (D _ (nth_In ps1 Done ltac:(rewrite Le; exact Hk))). destruct (nth k ps1 Done); (reflexivity || discriminate).
    + destruct (IH m1 (map release ps1) m' (fun t => release (c1 t)) R) as (c2 & E2 & C2).
      { intros k Hk. rewrite map_length, Le in Hk. specialize (C1 k Hk). rewrite Z.add_0_l in C1. cbv beta. rewrite C1. change (Done : code) with (release (Done : code)) at 2. now rewrite map_nth. }
      rewrite map_length, Le in *. exists c2. split; [|exact C2]. eapply bexec_trans; [exact E1|]. eapply be_step; [|exact E2].
      assert (Wk : forall t, 0 <= t < Z.of_nat (length ps) -> c1 t = nth (Z.to_nat t) ps1 Done). { intros t Ht. rewrite <- C1 by lia. f_equal. lia. }
      apply b_sync.
      * intros t Ht. rewrite Wk by assumption. rewrite Forall_forall in Wa. apply Wa. apply nth_In. lia.
      * assert (Ex : exists p, In p ps1 /\ done p = false). { clear - D. induction ps1 as [|p l IH]; [discriminate|]. cbn in D. apply Bool.andb_false_iff in D. destruct D as [D|D]; [exists p; split; [left; reflexivity|exact D]|]. destruct (IH D) as (q & I & Q). exists q. split; [right; exact I|exact Q]. }
        destruct Ex as (p & I & Q). destruct (In_nth _ _ Done I) as (k & Hk & Ek). exists (Z.of_nat k). split; [lia|]. rewrite Wk by lia. rewrite Nat2Z.id, Ek. rewrite Forall_forall in Wa. specialize (Wa p I). destruct p; (reflexivity || discriminate).
Qed.

Definition threads (kernel : Z -> Z -> code) (b : Z) : list code := map (fun k => kernel b (Z.of_nat k)) (seq 0 256).
Lemma single_launch fuel kernel m m' : rounds fuel m (threads kernel 0) = Some m' -> run 1 256 kernel m m'.
Proof.
  intro R. assert (Ln : length (threads kernel 0) = 256%nat) by (unfold threads; rewrite map_length, seq_length; reflexivity).
  destruct (rounds_sound fuel m _ m' (kernel 0) R) as (c' & E & F).
  { rewrite Ln. intros k Hk. unfold threads. rewrite (nth_indep _ Done (kernel 0 (Z.of_nat 0))) by (rewrite map_length, seq_length; exact Hk). rewrite (map_nth (fun k => kernel 0 (Z.of_nat k))). now rewrite seq_nth by exact Hk. }
  rewrite Ln in *. change (Z.of_nat 256) with 256 in E. destruct (lift_block loc_eqb 1 256 0 ltac:(lia) _ _ E kernel eq_refl) as (g & Eg & G0 & _). cbn [fst snd] in *. exists m. split; [auto|]. exists g. split; [exact Eg|].
  intros b t Hb Ht. assert (b = 0) as -> by lia. rewrite G0. specialize (F (Z.to_nat t) ltac:(lia)). now rewrite Z2Nat.id in F by lia.
Qed.

(** An image that is 1 at the given pixels and 0 elsewhere *)
Definition spots (ks : list Z) : mem := fun l =>
  match l with Res i => Num (if existsb (Z.eqb i) ks then 1 else 0) | MaxV _ | ShV _ _ | Psf _ | Model _ => Num 0 | MaxI _ | ShI _ _ | Reached => Int 0 end.
Notation outcome ls ks := (rounds 40 (clear_max 16 (spots ks)) (threads (level ls true) 0)).
Lemma outcome_peak ls ks m' : outcome ls ks = Some m' -> find_peak ls 16 (spots ks) m'.
Proof. intro H. unfold find_peak. change (blocks_for (16 * 16)) with 1. apply reduce_last; [lia|]. exact (single_launch _ _ _ _ H). Qed.

(** Without lockstep the first thread can run through all its steps before the others *)
Lemma lost : exists m', find_peak false 16 (spots [24]) m' /\ num (m' (MaxV 0)) = 0%Qc.
Proof.
  assert (H : match outcome false [24] with Some m' => Qeq_bool (num (m' (MaxV 0))) 0 | None => false end = true) by (vm_compute; reflexivity).
  destruct (outcome false [24]) as [m'|] eqn:E; [|discriminate]. exists m'. split; [exact (outcome_peak false [24] m' E)|]. apply Qc_is_canon. now apply Qeq_bool_eq.
Qed.
(** Of two equal peaks the later one can be found *)
Lemma tie : exists m', find_peak true 16 (spots [1; 128]) m' /\ int (m' (MaxI 0)) = 128 /\ num (m' (MaxV 0)) = 1%Qc.
Proof.
  assert (H : match outcome true [1; 128] with Some m' => (int (m' (MaxI 0)) =? 128) && Qeq_bool (num (m' (MaxV 0))) 1 | None => false end = true) by (vm_compute; reflexivity).
  destruct (outcome true [1; 128]) as [m'|] eqn:E; [|discriminate]. apply andb_true_iff in H. destruct H as [H1 H2]. exists m'. split; [exact (outcome_peak true [1; 128] m' E)|]. split; [now apply Z.eqb_eq|]. apply Qc_is_canon. now apply Qeq_bool_eq.
Qed.

(** 512 x 512 pixels: the second block of the second launch overwrites an element that the first block has not read yet *)
Lemma block_run ls first b m g : 0 <= b < 4 -> g b = level ls first b -> exists m' g', gexec loc_eqb 4 256 (m, g) (m', g') /\ bexec 256 (m, g b) (m', g' b) /\ (forall t, 0 <= t < 256 -> g' b t = Done) /\ forall b', b' <> b -> g' b' = g b'.
Proof.
  intros Hb Eg. destruct (block_ends loc_eqb 256 34 ltac:(lia) m (g b)) as (m' & c' & E & F); [rewrite Eg; intros; apply syncs_find|].
  destruct (lift_block loc_eqb 4 256 b Hb _ _ E g eq_refl) as (g' & Eg' & G1 & G2). cbn [fst snd] in *. exists m', g'. split; [exact Eg'|]. rewrite G1. auto.
Qed.
Definition zero_except (P : Z -> Prop) (m : mem) : Prop := forall i, 0 <= i < 1024 -> ~ P i -> num (m (MaxV i)) = 0%Qc.
Lemma zero_block b P m c m' c' : 0 <= b < 4 -> (forall u, 0 <= u < 256 -> ~ P (b * 256 + u)) -> (forall t, 0 <= t < 256 -> c t = level true false b t) -> bexec 256 (m, c) (m', c') -> (forall t, 0 <= t < 256 -> c' t = Done) ->
  zero_except P m -> zero_except (fun i => P i /\ i <> b) m'.
Proof.
  intros Hb Np Hc E F Z0 i Hi Ni. destruct (block_result b MaxV true m c (m', c')) as ((u & Hu & V & _) & _ & N); [right; reflexivity|exact Hc|exact E|exact F|]. cbn [fst] in *. destruct (Z.eq_dec i b) as [->|Ne].
  - rewrite V. apply Z0; [lia|]. now apply Np.
  - rewrite N; [apply Z0; [exact Hi|tauto]| | |]; [|congruence|congruence]. intros (t & _ & [X|X]); discriminate.
Qed.
Lemma level_two m : zero_except (fun i => i = 1) m -> exists m', run 4 256 (level true false) m m' /\ zero_except (fun _ => False) m'.
Proof.
  intro Z0. destruct (block_run true false 1 m (level true false) ltac:(lia) eq_refl) as (m1 & g1 & E1 & B1 & D1 & K1).
  assert (Z1 : zero_except (fun i => i = 1 /\ i <> 1) m1) by (apply (zero_block 1 _ m (level true false 1) m1 (g1 1)); auto; lia).
  assert (W : forall m0 : mem, zero_except (fun i => i = 1 /\ i <> 1) m0 -> zero_except (fun _ => False) m0) by (intros m0 H i Hi _; apply H; [exact Hi|lia]). apply W in Z1. clear W.
  assert (W : forall b (m0 : mem), zero_except (fun i => False /\ i <> b) m0 -> zero_except (fun _ => False) m0) by (intros b m0 H i Hi _; apply H; [exact Hi|tauto]).
  destruct (block_run true false 0 m1 g1 ltac:(lia) (K1 0 ltac:(lia))) as (m2 & g2 & E2 & B2 & D2 & K2). rewrite K1 in B2 by lia. assert (Z2 := W 0 m2 (zero_block 0 (fun _ => False) m1 _ m2 (g2 0) ltac:(lia) ltac:(auto) ltac:(auto) B2 D2 Z1)).
  destruct (block_run true false 2 m2 g2 ltac:(lia)) as (m3 & g3 & E3 & B3 & D3 & K3); [rewrite K2, K1 by lia; reflexivity|]. rewrite K2, K1 in B3 by lia. assert (Z3 := W 2 m3 (zero_block 2 (fun _ => False) m2 _ m3 (g3 2) ltac:(lia) ltac:(auto) ltac:(auto) B3 D3 Z2)).
  destruct (block_run true false 3 m3 g3 ltac:(lia)) as (m4 & g4 & E4 & B4 & D4 & K4); [rewrite K3, K2, K1 by lia; reflexivity|]. rewrite K3, K2, K1 in B4 by lia. assert (Z4 := W 3 m4 (zero_block 3 (fun _ => False) m3 _ m4 (g4 3) ltac:(lia) ltac:(auto) ltac:(auto) B4 D4 Z3)).
  exists m4. split; [|exact Z4]. exists m. split; [auto|]. exists g4. split; [eapply gexec_trans; [exact E1|]; eapply gexec_trans; [exact E2|]; eapply gexec_trans; [exact E3|exact E4]|].
  intros b t Hb Ht. assert (b = 0 \/ b = 1 \/ b = 2 \/ b = 3) as [->|[->|[->| ->]]] by lia.
  - rewrite K4, K3 by lia. auto.
  - rewrite K4, K3, K2 by lia. auto.
  - rewrite K4 by lia. auto.
  - auto.
Qed.
Lemma raced : exists m', find_peak true 512 (spots [300]) m' /\ num (m' (MaxV 0)) = 0%Qc.
Proof.
  unfold find_peak. change (blocks_for (512 * 512)) with 1024. set (m := clear_max 512 (spots [300])). destruct (run_ends 1024 true true m) as (m1 & R1). pose proof (run_result 1024 true m m1 ltac:(lia) ltac:(auto) R1) as [Q1 _].
  assert (Z1 : zero_except (fun i => i = 1) m1).
  { intros i Hi Ni. destruct (Q1 i Hi) as [(u & Hu & -> & _) _]. unfold m. cbn. rewrite orb_false_r. destruct (Z.eqb_spec (i * 256 + u) 300) as [X|X]; [exfalso; lia|reflexivity]. }
  destruct (level_two m1 Z1) as (m2 & R2 & Z2). destruct (run_ends 1 false true m2) as (m3 & R3). pose proof (run_result 1 false m2 m3 ltac:(lia) ltac:(auto) R3) as [Q3 _].
  exists m3. split.
  - eapply reduce_more; [lia|exact R1|]. change (blocks_for 1024) with 4. eapply reduce_more; [lia|exact R2|]. change (blocks_for 4) with 1. apply reduce_last; [lia|exact R3].
  - destruct (Q3 0 ltac:(lia)) as [(u & Hu & -> & _) _]. apply Z2; [lia|auto].
Qed.
