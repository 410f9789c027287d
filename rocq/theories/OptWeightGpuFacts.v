(** Facts about optimised weighting on the GPU *)
From Coq Require Import Lia.
From Verif Require Import Base BaseFacts QNum Tiled GpuAtom GpuAtomFacts OptWeightGpu.
Open Scope Z_scope.

Lemma oloc_eqb_ok x y : oloc_eqb x y = true <-> x = y.
Proof.
  destruct x, y; cbn [oloc_eqb]; try (split; discriminate); rewrite ?andb_true_iff, ?Z.eqb_eq; (split; [intro H; try (destruct H); congruence|intro H; injection H; auto]).
Qed.
Lemma slots_range start total t i : 0 <= t -> In i (slots start total t) -> start <= i < total.
Proof.
  intros Ht I. unfold slots in I. apply in_map_iff in I. destruct I as (k & <- & I). apply in_zrange in I.
  pose proof (Z.mul_div_le (total - (t + start) + 511) 512 ltac:(lia)). nia.
Qed.

Section Thread.
Context (sw sw2 : Z -> oloc) (offsets sorted_tile : nd Z) (uu vv : nd Q) (weight : Z -> option (Z * Q)) (tlu tlv gs rob : Z).
Notation thread := (briggs_thread sw sw2 offsets sorted_tile uu vv weight tlu tlv gs rob).
Context (S : Prop) (W R : oloc -> Prop) (b : Z).
(** [ok i]: the slot can be read, or the thread may get stuck *)
Definition slot_ok (i : Z) : Prop := (S \/ forall tu tv, cell_of uu vv gs tu tv i <> None) /\ match weight i with Some (o, _) => W (Out o) | None => S end.
Context (Hs : W (sw b) /\ W (sw2 b) /\ R (sw b) /\ R (sw2 b)) (Hc : forall c, 0 <= c < 512 -> W (Cell b c) /\ R (Cell b c)).
Lemma cell_range tu tv i c : cell_of uu vv gs tu tv i = Some (Some c) -> 0 <= c < 512.
Proof using.
  unfold cell_of. destruct (rd uu [i]) as [u|]; [|discriminate]. cbn [bind]. destruct (rd vv [i]) as [v|]; [|discriminate]. cbn [bind].
  match goal with |- context [if ?x then _ else _] => destruct x eqn:E end; [|discriminate]. intro H. injection H as <-. clear - E. lia.
Qed.
Lemma gather_within tu tv ls k : (forall i, In i ls -> slot_ok i) -> within S W R k -> within S W R (gather uu vv weight gs b tu tv ls k).
Proof using Hc.
  intros H Hk. induction ls as [|i ls IH]; [exact Hk|]. cbn [gather]. assert (IH' := IH (fun j I => H j (or_intror I))). destruct (H i (or_introl eq_refl)) as (H1 & H2).
  destruct (cell_of uu vv gs tu tv i) as [[c|]|] eqn:E; [|exact IH'|cbn [within]; destruct H1 as [?|H1]; [assumption|destruct (H1 tu tv E)]].
  destruct (weight i) as [[o w]|]; cbn [within]; [|exact H2]. split; [apply Hc; exact (cell_range _ _ _ _ E)|exact IH'].
Qed.
Lemma sums_within tu tv ls k : (forall i, In i ls -> slot_ok i) -> (forall r, within S W R (k r)) -> forall r, within S W R (sums sw sw2 uu vv gs rob b tu tv ls r k).
Proof using Hc Hs.
  intros H Hk. induction ls as [|i ls IH]; intro r; [exact (Hk r)|]. cbn [sums]. assert (IH' := IH (fun j I => H j (or_intror I))). destruct (H i (or_introl eq_refl)) as (H1 & _).
  destruct (cell_of uu vv gs tu tv i) as [[c|]|] eqn:E; [| |cbn [within]; destruct H1 as [?|H1]; [assumption|destruct (H1 tu tv E)]]; cbn [within].
  - pose proof (Hc c (cell_range _ _ _ _ E)). repeat (split; intros; try tauto; try apply IH').
  - repeat (split; intros; try tauto; try apply IH').
Qed.
Lemma scatter_within tu tv ls : (forall i, In i ls -> slot_ok i) -> forall r, within S W R (scatter uu vv weight gs b tu tv ls r).
Proof using Hc.
  intros H r. induction ls as [|i ls IH]; [exact Logic.I|]. cbn [scatter]. assert (IH' := IH (fun j I => H j (or_intror I))). destruct (H i (or_introl eq_refl)) as (H1 & H2).
  destruct (cell_of uu vv gs tu tv i) as [[c|]|] eqn:E; [|exact IH'|cbn [within]; destruct H1 as [?|H1]; [assumption|destruct (H1 tu tv E)]].
  destruct (weight i) as [[o w]|]; cbn [within]; [|exact H2]. split; [apply Hc; exact (cell_range _ _ _ _ E)|]. intro v. split; [exact H2|exact IH'].
Qed.
Lemma thread_within t : 0 <= t < 512 -> (S \/ (rd offsets [b] <> None /\ rd offsets [b + 1] <> None /\ rd sorted_tile [elem offsets [b]] <> None)) ->
  (forall i, elem offsets [b] <= i < elem offsets [b + 1] - elem offsets [b] -> slot_ok i) -> within S W R (thread b t).
Proof using Hc Hs.
  intros Ht Ho Hi. unfold briggs_thread. cbn [within]. split; [now apply Hc|]. split; [tauto|]. split; [tauto|].
  destruct (rd offsets [b]) as [s|] eqn:E1; cbn [bind]; [|cbn [within]; tauto]. destruct (rd offsets [b + 1]) as [e|] eqn:E2; cbn [bind]; [|cbn [within]; tauto].
  pose proof (rd_inv _ _ _ E1) as (_ & Es). pose proof (rd_inv _ _ _ E2) as (_ & Ee). rewrite <- Es, <- Ee in *.
  destruct (rd sorted_tile [s]) as [code|]; cbn [bind within]; [|tauto].
  assert (Hl : forall i, In i (slots s (e - s) t) -> slot_ok i) by (intros i I; apply Hi; exact (slots_range _ _ _ _ (proj1 Ht) I)).
  apply gather_within; [exact Hl|]. cbn [within]. apply sums_within; [exact Hl|]. intro r. cbn [within]. now apply scatter_within.
Qed.
End Thread.

(** Every block can come to its first barrier *)
Definition after_start sw sw2 offsets sorted_tile uu vv weight tlu tlv gs rob b t := match briggs_thread sw sw2 offsets sorted_tile uu vv weight tlu tlv gs rob b t with St _ _ (St _ _ (St _ _ (Sync k))) => k | p => p end.
Lemma to_barrier sw sw2 offsets sorted_tile uu vv weight tlu tlv gs rob B b m : 0 <= b < B ->
  let kernel := briggs_thread sw sw2 offsets sorted_tile uu vv weight tlu tlv gs rob in
  exists m' g, exec oloc_eqb Qplus B 512 (m, kernel) (m', g) /\ forall t, 0 <= t < 512 -> g b t = after_start sw sw2 offsets sorted_tile uu vv weight tlu tlv gs rob b t.
Proof.
  intros Hb kernel.
  assert (K : forall n : nat, (n <= 512)%nat -> exists m' g, exec oloc_eqb Qplus B 512 (m, kernel) (m', g) /\
    forall t, 0 <= t < 512 -> g b t = if t <? Z.of_nat n then Sync (after_start sw sw2 offsets sorted_tile uu vv weight tlu tlv gs rob b t) else kernel b t).
  { induction n as [|n IH]; intro Hn.
    - exists m, kernel. split; [apply e_refl|]. intros t Ht. destruct (Z.ltb_spec t (Z.of_nat 0)); [lia|reflexivity].
    - destruct IH as (m' & g & E & G); [lia|]. pose proof (G (Z.of_nat n) ltac:(lia)) as Gn. destruct (Z.ltb_spec (Z.of_nat n) (Z.of_nat n)); [lia|]. unfold kernel, briggs_thread in Gn.
      do 2 eexists. split.
      + eapply exec_trans; [exact E|]. eapply e_step; [apply (s_thread oloc_eqb Qplus B 512 _ _ b (Z.of_nat n)); [exact Hb|lia|rewrite Gn; reflexivity]|].
        eapply e_step; [apply (s_thread oloc_eqb Qplus B 512 _ _ b (Z.of_nat n)); [exact Hb|lia|unfold set_thread; rewrite !Z.eqb_refl; reflexivity]|].
        eapply e_step; [apply (s_thread oloc_eqb Qplus B 512 _ _ b (Z.of_nat n)); [exact Hb|lia|unfold set_thread; rewrite !Z.eqb_refl; reflexivity]|]. apply e_refl.
      + intros t Ht. unfold set_thread. rewrite Z.eqb_refl. cbn [andb]. destruct (Z.eqb_spec t (Z.of_nat n)) as [->|N].
        * destruct (Z.ltb_spec (Z.of_nat n) (Z.of_nat (S n))); [reflexivity|lia].
        * rewrite G by exact Ht. destruct (Z.ltb_spec t (Z.of_nat n)), (Z.ltb_spec t (Z.of_nat (S n))); try reflexivity; lia. }
  destruct (K 512%nat ltac:(lia)) as (m' & g & E & G). exists m', (release_block g b). split.
  - eapply exec_trans; [exact E|]. eapply e_step; [|apply e_refl]. apply s_sync; [exact Hb| |].
    + intros t Ht. rewrite G by exact Ht. destruct (Z.ltb_spec t (Z.of_nat 512)); [reflexivity|lia].
    + exists 0. split; [lia|]. rewrite G by lia. reflexivity.
  - intros t Ht. unfold release_block. rewrite Z.eqb_refl, G by exact Ht. destruct (Z.ltb_spec t (Z.of_nat 512)); [reflexivity|lia].
Qed.
