(** Facts about the reduction on the GPU: one block *)
From Coq Require Import QArith Lia.
From Verif Require Import Base BaseFacts Hogbom GpuBlock GpuBlockFacts HogbomGpu.
Open Scope Z_scope.

Lemma loc_eqb_ok x y : loc_eqb x y = true <-> x = y.
Proof.
  destruct x, y; cbn; try (split; (discriminate || congruence)); rewrite ?Bool.andb_true_iff, ?Z.eqb_eq; (split; [intuition; subst; reflexivity|intro E; inversion E; auto]).
Qed.
Notation mem := (loc -> val).
Notation bexec := (bexec (A := val) loc_eqb).
Notation put := (put (A := val) loc_eqb).
Notation solo := (solo (A := val) loc_eqb).
Definition psame := @put_same loc val loc_eqb loc_eqb_ok.
Definition pother := @put_other loc val loc_eqb loc_eqb_ok.
Definition fin (s : mem * (Z -> code)) : Prop := forall t, 0 <= t < 256 -> snd s t = Done.

Definition slot (b : Z) (m : mem) (t : Z) : val * val := (m (ShV b t), m (ShI b t)).
Definition pick (p q : val * val) : val * val := if Qcltb (num (fst p)) (num (fst q)) then q else p.
Definition mine (b : Z) (l : loc) : Prop := exists t, 0 <= t < 256 /\ (l = ShV b t \/ l = ShI b t).

Ltac phase_at W R H F := let m1 := fresh "m1" in let c1 := fresh "c1" in let E1 := fresh "E" in let P1 := fresh "P" in let V1 := fresh "V" in let N1 := fresh "N" in
  destruct (phase loc_eqb loc_eqb_ok 256 _ _ W R _) with (3 := H) (4 := F) as (m1 & c1 & E1 & P1 & V1 & N1).

Lemma tree_phase b s m c k s' : 0 < s -> 2 * s <= 256 -> (forall t, 0 <= t < 256 -> c t = tree_step s b t (k t)) -> bexec 256 (m, c) s' -> fin s' ->
  exists m1 c1, bexec 256 (m1, c1) s' /\ (forall t, 0 <= t < 256 -> c1 t = k t) /\
    (forall t, 0 <= t < 256 -> slot b m1 t = if t <? s then pick (slot b m t) (slot b m (t + s)) else slot b m t) /\ (forall l, ~ mine b l -> m1 l = m l).
Proof.
  intros Hs H2 C E F.
  destruct (phase loc_eqb loc_eqb_ok 256 m c (fun t l => t < s /\ (l = ShV b t \/ l = ShI b t)) (fun t l => t < s /\ (l = ShV b t \/ l = ShV b (t + s) \/ l = ShI b (t + s))) s') as (m1 & c1 & E1 & P1 & V1 & N1); [| |exact E|exact F|].
  - intros t Ht. rewrite C by assumption. unfold tree_step. destruct (Z.ltb_spec t s); [|exact I]. cbn. split; [auto|]. intro x. split; [auto|]. intro y. destruct (Qcltb _ _); cbn; auto 10.
  - intros t t' l Ht Ht' N [L W]. split.
    + intros [L' [->|[->| ->]]]; destruct W as [W|W]; inversion W; lia.
    + intros [L' [->| ->]]; destruct W as [W|W]; inversion W; lia.
  - assert (S : forall t, 0 <= t < 256 -> snd (solo m (c t)) = Sync (k t) /\ (t < s -> (fst (solo m (c t)) (ShV b t), fst (solo m (c t)) (ShI b t)) = pick (slot b m t) (slot b m (t + s)))).
    { intros t Ht. rewrite C by assumption. unfold tree_step, pick, slot. cbn [fst snd]. destruct (Z.ltb_spec t s); [|split; [reflexivity|lia]]. cbn [GpuBlockFacts.solo]. destruct (Qcltb _ _) eqn:Q; cbn [GpuBlockFacts.solo fst snd]; [|auto].
      split; [reflexivity|]. intros _. rewrite !psame. rewrite !pother, !psame by congruence. reflexivity. }
    exists m1, c1. split; [exact E1|]. split; [|split].
    + intros t Ht. rewrite P1 by assumption. rewrite (proj1 (S t Ht)). reflexivity.
    + intros t Ht. destruct (Z.ltb_spec t s).
      * rewrite <- (proj2 (S t Ht)) by assumption. unfold slot. now rewrite !(V1 t) by auto.
      * unfold slot. now rewrite !N1 by (intros t' Ht' [L [W|W]]; inversion W; lia).
    + intros l Nl. apply N1. intros t Ht [L W]. apply Nl. exists t. auto.
Qed.

(** A phase of lockstep in which every thread below 16 executes at most one instruction *)
Lemma warp_phase b s m c k s' : 0 < s <= 16 -> (forall t, 0 <= t < 256 -> c t = if t <? 16 then warp_step true s b t (k t) else Done) -> bexec 256 (m, c) s' -> fin s' ->
  exists m1 c1, bexec 256 (m1, c1) s' /\ (forall t, 0 <= t < 256 -> c1 t = if t <? 16 then k t else Done) /\
    (forall t, 0 <= t < 256 -> slot b m1 t = if t <? 16 then pick (slot b m t) (slot b m (t + s)) else slot b m t) /\ (forall l, ~ mine b l -> m1 l = m l).
Proof.
  intros Hs C E F. unfold warp_step, lock in C. set (take := fun t => Qcltb (num (m (ShV b t))) (num (m (ShV b (t + s))))).
  (* load of the first value *)
  destruct (phase loc_eqb loc_eqb_ok 256 m c (fun t l => False) (fun t l => l = ShV b t) s') as (m1 & c1 & E1 & P1 & _ & N1); [| |exact E|exact F|].
  { intros t Ht. rewrite C by assumption. destruct (t <? 16); cbn; auto. }
  { intros; easy. }
  assert (M1 : forall l, m1 l = m l) by (intro; apply N1; auto).
  assert (C1 : forall t, 0 <= t < 256 -> c1 t = if t <? 16 then Ld (ShV b (t + s)) (fun y => Sync (if Qcltb (num (m (ShV b t))) (num y) then
      Ld (ShV b (t + s)) (fun y => Sync (St (ShV b t) y (Sync (Ld (ShI b (t + s)) (fun i => Sync (St (ShI b t) i (Sync (k t)))))))) else Sync (Sync (Sync (Sync (k t)))))) else Done).
  { intros t Ht. rewrite P1, C by assumption. destruct (t <? 16); reflexivity. }
  clear P1 N1 C E c.
  (* load of the second value *)
  destruct (phase loc_eqb loc_eqb_ok 256 m1 c1 (fun t l => False) (fun t l => l = ShV b (t + s)) s') as (m2 & c2 & E2 & P2 & _ & N2); [| |exact E1|exact F|].
  { intros t Ht. rewrite C1 by assumption. destruct (t <? 16); cbn; auto. }
  { intros; easy. }
  assert (M2 : forall l, m2 l = m l) by (intro; rewrite N2 by auto; apply M1).
  assert (C2 : forall t, 0 <= t < 256 -> c2 t = if t <? 16 then (if take t then
      Ld (ShV b (t + s)) (fun y => Sync (St (ShV b t) y (Sync (Ld (ShI b (t + s)) (fun i => Sync (St (ShI b t) i (Sync (k t)))))))) else Sync (Sync (Sync (Sync (k t))))) else Done).
  { intros t Ht. rewrite P2, C1 by assumption. unfold take. destruct (t <? 16); [|reflexivity]. cbn. rewrite M1. reflexivity. }
  clear P2 N2 C1 E1 M1 c1 m1.
  (* third load *)
  destruct (phase loc_eqb loc_eqb_ok 256 m2 c2 (fun t l => False) (fun t l => l = ShV b (t + s)) s') as (m3 & c3 & E3 & P3 & _ & N3); [| |exact E2|exact F|].
  { intros t Ht. rewrite C2 by assumption. destruct (t <? 16), (take t); cbn; auto. }
  { intros; easy. }
  assert (M3 : forall l, m3 l = m l) by (intro; rewrite N3 by auto; apply M2).
  assert (C3 : forall t, 0 <= t < 256 -> c3 t = if t <? 16 then (if take t then
      St (ShV b t) (m (ShV b (t + s))) (Sync (Ld (ShI b (t + s)) (fun i => Sync (St (ShI b t) i (Sync (k t)))))) else Sync (Sync (Sync (k t)))) else Done).
  { intros t Ht. rewrite P3, C2 by assumption. destruct (t <? 16); [|reflexivity]. destruct (take t); [|reflexivity]. cbn. rewrite M2. reflexivity. }
  clear P3 N3 C2 E2 M2 c2 m2.
  (* store of the value *)
  destruct (phase loc_eqb loc_eqb_ok 256 m3 c3 (fun t l => t < 16 /\ take t = true /\ l = ShV b t) (fun t l => False) s') as (m4 & c4 & E4 & P4 & V4 & N4); [| |exact E3|exact F|].
  { intros t Ht. rewrite C3 by assumption. destruct (Z.ltb_spec t 16); [|exact I]. destruct (take t); cbn; auto. }
  { intros t t' l Ht Ht' N (L & Q & ->). split; [easy|]. intros (L' & Q' & X). inversion X. lia. }
  assert (C4 : forall t, 0 <= t < 256 -> c4 t = if t <? 16 then (if take t then Ld (ShI b (t + s)) (fun i => Sync (St (ShI b t) i (Sync (k t)))) else Sync (Sync (k t))) else Done).
  { intros t Ht. rewrite P4, C3 by assumption. destruct (t <? 16); [|reflexivity]. destruct (take t); reflexivity. }
  assert (V4' : forall t, 0 <= t < 256 -> m4 (ShV b t) = if (t <? 16) && take t then m (ShV b (t + s)) else m (ShV b t)).
  { intros t Ht. destruct (Z.ltb_spec t 16); cbn [andb].
    - destruct (take t) eqn:Q.
      + rewrite (V4 t) by auto. rewrite C3 by assumption. rewrite (proj2 (Z.ltb_lt t 16)), Q by assumption. cbn. now rewrite psame.
      + rewrite N4, M3; [reflexivity|]. intros t' Ht' (_ & Q' & X). inversion X. congruence.
    - rewrite N4, M3; [reflexivity|]. intros t' Ht' (? & Q' & X). inversion X. lia. }
  assert (N4' : forall l, (forall t, 0 <= t < 256 -> l <> ShV b t) -> m4 l = m l).
  { intros l Nl. rewrite N4, M3; [reflexivity|]. intros t Ht (_ & _ & ->). now apply (Nl t). }
  clear P4 V4 N4 C3 E3 M3 c3 m3.
  (* load of the index *)
  destruct (phase loc_eqb loc_eqb_ok 256 m4 c4 (fun t l => False) (fun t l => l = ShI b (t + s)) s') as (m5 & c5 & E5 & P5 & _ & N5); [| |exact E4|exact F|].
  { intros t Ht. rewrite C4 by assumption. destruct (t <? 16), (take t); cbn; auto. }
  { intros; easy. }
  assert (M5 : forall l, m5 l = m4 l) by (intro; apply N5; auto).
  assert (C5 : forall t, 0 <= t < 256 -> c5 t = if t <? 16 then (if take t then St (ShI b t) (m (ShI b (t + s))) (Sync (k t)) else Sync (k t)) else Done).
  { intros t Ht. rewrite P5, C4 by assumption. destruct (t <? 16); [|reflexivity]. destruct (take t); [|reflexivity]. cbn. rewrite N4' by (intros; discriminate). reflexivity. }
  clear P5 N5 C4 E4 c4.
  (* store of the index *)
  destruct (phase loc_eqb loc_eqb_ok 256 m5 c5 (fun t l => t < 16 /\ take t = true /\ l = ShI b t) (fun t l => False) s') as (m6 & c6 & E6 & P6 & V6 & N6); [| |exact E5|exact F|].
  { intros t Ht. rewrite C5 by assumption. destruct (Z.ltb_spec t 16); [|exact I]. destruct (take t); cbn; auto. }
  { intros t t' l Ht Ht' N (L & Q & ->). split; [easy|]. intros (L' & Q' & X). inversion X. lia. }
  exists m6, c6. split; [exact E6|]. split; [|split].
  - intros t Ht. rewrite P6, C5 by assumption. destruct (t <? 16); [|reflexivity]. destruct (take t); reflexivity.
  - intros t Ht. unfold slot, pick. cbn [fst snd]. rewrite (N6 (ShV b t)) by (intros t' _ (_ & _ & X); discriminate). rewrite M5, V4' by assumption. fold (take t). destruct (Z.ltb_spec t 16); cbn [andb].
    + destruct (take t) eqn:Q.
      * rewrite (V6 t) by auto. rewrite C5 by assumption. rewrite (proj2 (Z.ltb_lt t 16)), Q by assumption. cbn. now rewrite psame.
      * rewrite N6, M5, N4'; [reflexivity|intros; discriminate|]. intros t' Ht' (_ & Q' & X). inversion X. congruence.
    + rewrite N6, M5, N4'; [reflexivity|intros; discriminate|]. intros t' Ht' (? & Q' & X). inversion X. lia.
  - intros l Nl. rewrite N6, M5, N4'; [reflexivity| |].
    + intros t Ht ->. apply Nl. exists t. auto.
    + intros t Ht (_ & _ & ->). apply Nl. exists t. auto.
Qed.

(** The invariant of the reduction: slots hold pairs of the input, and the first [d] slots cover all of them *)
Definition inv (b : Z) (orig : Z -> val * val) (d : Z) (m : mem) : Prop :=
  (forall t, 0 <= t < 256 -> exists u, 0 <= u < 256 /\ slot b m t = orig u) /\ (forall u, 0 <= u < 256 -> (num (fst (orig u)) <= num (fst (slot b m (u mod d))))%Qc).

Lemma pick_ge p q : (num (fst p) <= num (fst (pick p q)) /\ num (fst q) <= num (fst (pick p q)))%Qc.
Proof.
  unfold pick, Qcltb. destruct (Qclt_le_dec _ _) as [Lt|Le].
  - split; [now apply Qclt_le_weak|apply Qcle_refl].
  - split; [apply Qcle_refl|exact Le].
Qed.
Lemma halve b orig s lim m m1 : 0 < s <= lim -> lim + s <= 256 -> inv b orig (2 * s) m ->
  (forall t, 0 <= t < 256 -> slot b m1 t = if t <? lim then pick (slot b m t) (slot b m (t + s)) else slot b m t) -> inv b orig s m1.
Proof.
  intros Hs Hl [I1 I2] U. split.
  - intros t Ht. rewrite U by assumption. destruct (Z.ltb_spec t lim); [|auto]. unfold pick. destruct (Qcltb _ _); apply I1; lia.
  - intros u Hu. pose proof (Z.mod_pos_bound u s ltac:(lia)) as B. rewrite U by lia. rewrite (proj2 (Z.ltb_lt (u mod s) lim)) by lia. eapply Qcle_trans; [apply I2; exact Hu|].
    assert (M : u mod (2 * s) = u mod s \/ u mod (2 * s) = u mod s + s). { rewrite (Z.mul_comm 2 s), Z.rem_mul_r by lia. pose proof (Z.mod_pos_bound (u / s) 2 ltac:(lia)). assert ((u / s) mod 2 = 0 \/ (u / s) mod 2 = 1) as [-> | ->] by lia; lia. }
    destruct M as [-> | ->]; apply pick_ge.
Qed.

Lemma write_phase b m c s' : (forall t, 0 <= t < 256 -> c t = write_result b t) -> bexec 256 (m, c) s' -> fin s' ->
  fst s' (MaxV b) = m (ShV b 0) /\ fst s' (MaxI b) = m (ShI b 0) /\ forall l, l <> MaxV b -> l <> MaxI b -> fst s' l = m l.
Proof.
  intros C E F. destruct (phase loc_eqb loc_eqb_ok 256 m c (fun t l => t = 0 /\ (l = MaxV b \/ l = MaxI b)) (fun t l => t = 0 /\ (l = ShV b 0 \/ l = ShI b 0)) s') as (m1 & c1 & E1 & P1 & V1 & N1); [| |exact E|exact F|].
  - intros t Ht. rewrite C by assumption. unfold write_result. destruct (Z.eqb_spec t 0); cbn; auto 10.
  - intros t t' l Ht Ht' N [-> W]. split; intros [-> _]; easy.
  - assert (D1 : forall t, 0 <= t < 256 -> c1 t = Done). { intros t Ht. rewrite P1, C by assumption. unfold write_result. destruct (t =? 0); reflexivity. }
    assert (Q : forall s, bexec 256 s s' -> (forall t, 0 <= t < 256 -> snd s t = Done) -> forall l, fst s' l = fst s l).
    { clear. intros s E D. inversion E as [|s0 s1 s2 St E2]; subst; [reflexivity|]. exfalso. inversion St as [m0 c0 t l k Ht Et|m0 c0 t l v k Ht Et|m0 c0 Wa [t [Ht Ba]]]; subst; cbn [snd] in D; rewrite D in *; discriminate || assumption. }
    specialize (Q _ E1 D1). cbn [fst] in Q. rewrite !Q. rewrite !(V1 0) by (auto || lia). rewrite C by lia. unfold write_result. cbn [Z.eqb GpuBlockFacts.solo fst]. repeat (rewrite psame || rewrite pother by congruence). split; [reflexivity|]. split; [reflexivity|].
    intros l N2 N3. rewrite Q. apply N1. intros t _ [_ [X|X]]; auto.
Qed.

(** The result of a block *)
Definition first_or_max (f : Z -> loc) : Prop := (f = Res \/ f = MaxV).
Lemma block_result b input init m c s' : first_or_max input -> (forall t, 0 <= t < 256 -> c t = find_maximum_value true input init b t) -> bexec 256 (m, c) s' -> fin s' ->
  let index u := if init then m (MaxI (b * 256 + u)) else Int (b * 256 + u) in
  (exists u, 0 <= u < 256 /\ fst s' (MaxV b) = m (input (b * 256 + u)) /\ fst s' (MaxI b) = index u) /\
  (forall u, 0 <= u < 256 -> (num (m (input (b * 256 + u)%Z)) <= num (fst s' (MaxV b)))%Qc) /\
  (forall l, ~ mine b l -> l <> MaxV b -> l <> MaxI b -> fst s' l = m l).
Proof.
  intros Hin C E F index.
  assert (Sh : forall i, shared (input i) = false) by (destruct Hin as [-> | ->]; reflexivity).
  assert (Ni : forall i t, input i <> ShV b t /\ input i <> ShI b t) by (intros i t; specialize (Sh i); split; intro X; rewrite X in Sh; discriminate).
  set (orig := fun u => (m (input (b * 256 + u)), index u)).
  set (rest := fun t => tree 9 (Z.shiftr 256 1) b t (if t <? 16 then warp_reduce true b t (write_result b t) else write_result b t)).
  destruct (phase loc_eqb loc_eqb_ok 256 m c (fun t l => l = ShV b t \/ l = ShI b t) (fun t l => shared l = false) s') as (m1 & c1 & E1 & P1 & V1 & N1); [| |exact E|exact F|].
  { intros t Ht. rewrite C by assumption. unfold find_maximum_value. cbn. split; [auto|]. split; [auto|]. split; [apply Sh|]. intro x. split; [auto|]. destruct init; cbn; auto. }
  { intros t t' l Ht Ht' N W. split; [destruct W; subst; discriminate|]. intros W'. destruct W as [-> | ->], W' as [X|X]; inversion X; lia. }
  assert (C1 : forall t, 0 <= t < 256 -> c1 t = rest t). { intros t Ht. rewrite P1, C by assumption. unfold find_maximum_value. cbn [GpuBlockFacts.solo]. destruct init; reflexivity. }
  assert (I1 : inv b orig 256 m1).
  { assert (S : forall t, 0 <= t < 256 -> slot b m1 t = orig t).
    { intros t Ht. unfold slot, orig. rewrite !(V1 t) by auto. rewrite C by assumption. unfold find_maximum_value, index. cbn [GpuBlockFacts.solo]. destruct (Ni (b * 256 + t) t) as [X1 X2].
      destruct init; cbn [GpuBlockFacts.solo fst]; repeat (rewrite psame || rewrite pother by congruence); reflexivity. }
    split; [intros t Ht; exists t; auto|]. intros u Hu. rewrite Z.mod_small by lia. rewrite S by assumption. apply Qcle_refl. }
  assert (K1 : forall l, ~ mine b l -> m1 l = m l). { intros l Nl. apply N1. intros t Ht W. apply Nl. exists t. auto. }
  clear P1 V1 N1 E C.
  (* rounds with barriers *)
  unfold rest in C1. change (Z.shiftr 256 1) with 128 in C1. cbn [tree] in C1. change (16 <? 128) with true in C1. change (Z.shiftr 128 1) with 64 in C1. cbn [Z.ltb Z.compare] in C1.
  change (Z.shiftr 64 1) with 32 in C1. change (16 <? 64) with true in C1. change (Z.shiftr 32 1) with 16 in C1. change (16 <? 32) with true in C1. change (16 <? 16) with false in C1. cbv iota in C1.
  destruct (tree_phase b 128 m1 c1 _ s' ltac:(lia) ltac:(lia) C1 E1 F) as (m2 & c2 & E2 & C2 & U2 & K2).
  pose proof (halve b orig 128 128 m1 m2 ltac:(lia) ltac:(lia) I1 U2) as I2.
  destruct (tree_phase b 64 m2 c2 _ s' ltac:(lia) ltac:(lia) C2 E2 F) as (m3 & c3 & E3 & C3 & U3 & K3).
  pose proof (halve b orig 64 64 m2 m3 ltac:(lia) ltac:(lia) I2 U3) as I3.
  destruct (tree_phase b 32 m3 c3 _ s' ltac:(lia) ltac:(lia) C3 E3 F) as (m4 & c4 & E4 & C4 & U4 & K4).
  pose proof (halve b orig 32 32 m3 m4 ltac:(lia) ltac:(lia) I3 U4) as I4.
  (* the warp *)
  assert (C4' : forall t, 0 <= t < 256 -> c4 t = if t <? 16 then warp_reduce true b t (write_result b t) else Done).
  { intros t Ht. rewrite C4 by assumption. destruct (Z.ltb_spec t 16); [reflexivity|]. unfold write_result. destruct (Z.eqb_spec t 0); [lia|reflexivity]. }
  unfold warp_reduce in C4'.
  destruct (warp_phase b 16 m4 c4 _ s' ltac:(lia) C4' E4 F) as (m5 & c5 & E5 & C5 & U5 & K5). pose proof (halve b orig 16 16 m4 m5 ltac:(lia) ltac:(lia) I4 U5) as I5.
  destruct (warp_phase b 8 m5 c5 _ s' ltac:(lia) C5 E5 F) as (m6 & c6 & E6 & C6 & U6 & K6). pose proof (halve b orig 8 16 m5 m6 ltac:(lia) ltac:(lia) I5 U6) as I6.
  destruct (warp_phase b 4 m6 c6 _ s' ltac:(lia) C6 E6 F) as (m7 & c7 & E7 & C7 & U7 & K7). pose proof (halve b orig 4 16 m6 m7 ltac:(lia) ltac:(lia) I6 U7) as I7.
  destruct (warp_phase b 2 m7 c7 _ s' ltac:(lia) C7 E7 F) as (m8 & c8 & E8 & C8 & U8 & K8). pose proof (halve b orig 2 16 m7 m8 ltac:(lia) ltac:(lia) I7 U8) as I8.
  destruct (warp_phase b 1 m8 c8 _ s' ltac:(lia) C8 E8 F) as (m9 & c9 & E9 & C9 & U9 & K9). pose proof (halve b orig 1 16 m8 m9 ltac:(lia) ltac:(lia) I8 U9) as I9.
  destruct (write_phase b m9 c9 s') as (R1 & R2 & R3); [|exact E9|exact F|].
  { intros t Ht. rewrite C9 by assumption. destruct (Z.ltb_spec t 16); [reflexivity|]. unfold write_result. destruct (Z.eqb_spec t 0); [lia|reflexivity]. }
  destruct I9 as [J1 J2]. split; [|split].
  - destruct (J1 0 ltac:(lia)) as (u & Hu & Eu). exists u. split; [exact Hu|]. unfold slot, orig in Eu. injection Eu as Ev Ei. now rewrite R1, R2.
  - intros u Hu. specialize (J2 u Hu). rewrite Z.mod_1_r in J2. rewrite R1. exact J2.
  - intros l Nl L1 L2. rewrite R3 by assumption. now rewrite K9, K8, K7, K6, K5, K4, K3, K2, K1 by assumption.
Qed.
