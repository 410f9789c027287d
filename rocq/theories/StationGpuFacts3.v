From Coq Require Import Reals String Lia.
From Verif Require Import Base BaseFacts Sum CRing Cplx Clamp GpuBlock GpuBlockFacts GpuBlockFacts2 GpuLaunch GpuLaunchFacts Mem SphericalWave Station StationSpec StationFacts StationGpu StationGpuFacts StationGpuFacts2.
Open Scope Z_scope.
Notation mem := (loc -> val).

Section Grid.
Context (pol num_in off_pts num_out off_output : Z) (weights : nd C) (x_in y_in z_in x_out y_out : nd R) (z_out : option (nd R)) (idx : option (nd Z))
    (data : option (nd C)) (output : nd C) (wavenumber norm : R) (eval_x eval_y : bool) (maxc : Z) (m0 : mem).
Context (Hpol : pol = 1 \/ pol = 4) (B : beam_sizes pol num_in off_pts num_out off_output weights x_in y_in z_in x_out y_out z_out idx data output).
Context (Hm : 0 < maxc).
Context (M0 : holds weights x_in y_in z_in x_out y_out z_out idx data output m0).
Notation thread := (station_thread pol wavenumber num_in off_pts num_out (has z_out) (has idx) (has data) off_output norm eval_x eval_y maxc).
Notation V := (there weights x_in y_in z_in x_out y_out z_out idx data output maxc).
Notation good := (good pol num_in off_pts num_out off_output weights x_in y_in z_in x_out y_out z_out idx data output wavenumber norm eval_x eval_y maxc).
Notation post := (post pol num_in off_pts num_out off_output weights x_in y_in z_in x_out y_out z_out idx data wavenumber norm eval_x eval_y).
Notation value := (value pol num_in off_pts num_out weights x_in y_in z_in x_out y_out z_out idx data wavenumber norm).
Notation outs_of := (outs_of pol off_output eval_x eval_y).

Lemma point_sizes b t : 0 <= b < 8388608 -> 0 <= t < 256 -> b * 256 + t < num_out -> i32 (i32 (b * 256 + t) + off_pts) = b * 256 + t + off_pts /\ 0 <= b * 256 + t + off_pts < off_pts + num_out.
Proof using B. clear Hpol Hm M0. intros Hb Ht L. destruct B as (N1 & N2 & N3 & N4 & _ & _ & _ & _ & _ & _ & _ & _ & _ & _ & I1 & I2). clear B. rewrite (i32_id (b * 256 + t)) by lia. rewrite i32_id by lia. lia. Qed.
Lemma thread_good b t : 0 <= b < 8388608 -> 0 <= t < 256 -> good b (Z.to_nat num_in) 0 t m0 (thread b t).
Proof using B Hpol Hm M0.
  intros Hb Ht. assert (N0 : 0 <= num_in) by apply B. unfold station_thread. pose proof (point_sizes b t Hb Ht) as Ps. rewrite (i32_id (b * 256 + t)) in * by (clear - Hb Ht; lia).
  pose proof (fun q o Hq => foot1_chunks pol num_in off_pts num_out off_output weights x_in y_in z_in x_out y_out z_out idx data output norm eval_x eval_y maxc b Hpol B Hb (Z.to_nat num_in) 0 t q o ltac:(lia) Ht Hq) as F.
  pose proof (fun q o Hq => safe1_chunks pol num_in off_pts num_out off_output weights x_in y_in z_in x_out y_out z_out idx data output norm eval_x eval_y maxc b Hpol B Hm Hb (Z.to_nat num_in) 0 t q o ltac:(lia) ltac:(lia) Ht Hq) as S.
  destruct (Z.ltb_spec (b * 256 + t) num_out) as [Lv|Lv].
  - destruct (Ps Lv) as (-> & Pi). assert (Hl : forall q : option (R * R * R), q <> None -> live num_out b t) by (intros; exact Lv).
    destruct B as (_ & _ & _ & _ & _ & _ & _ & _ & Bx & By & Bz & _). destruct M0 as (_ & _ & _ & _ & A5 & A6 & A7 & _).
    pose proof (least_in _ _ _ Bx Pi) as Ix. pose proof (least_in _ _ _ By Pi) as Iy.
    destruct z_out as [zd|] eqn:Ez; cbn [has].
    + pose proof (least_in _ _ _ (Bz zd eq_refl) Pi) as Iz. split; [|split].
      * cbn [GpuBlockFacts.foot1]. split; [exact I|intros vx]. split; [exact I|intros vy]. split; [exact I|intros vz]. apply F. apply Hl.
      * cbn [GpuBlockFacts2.safe1 there inside_opt]. unfold inside. split; [exact Ix|intros vx _]. split; [exact Iy|intros vy _]. split; [exact Iz|intros vz _]. apply S. apply Hl.
      * exists (C0, C0, C0, C0). cbn [GpuBlockFacts.solo]. rewrite (A5 _ Ix), (A6 _ Iy), (A7 zd _ eq_refl Iz). cbn [real]. unfold pt. replace (b * 256 + t <? num_out) with true by lia. split; [reflexivity|].
        intros _ p Hx. rewrite Z.min_l by lia. rewrite sum_empty by lia. apply eval_cases in Hx; [|exact Hpol]. destruct Hx as [[_ ->]|[_ [[[-> | ->] _]|[[-> | ->] _]]]]; reflexivity.
    + split; [|split].
      * cbn [GpuBlockFacts.foot1]. split; [exact I|intros vx]. split; [exact I|intros vy]. apply F. apply Hl.
      * cbn [GpuBlockFacts2.safe1 there inside_opt]. unfold inside. split; [exact Ix|intros vx _]. split; [exact Iy|intros vy _]. apply S. apply Hl.
      * exists (C0, C0, C0, C0). cbn [GpuBlockFacts.solo]. rewrite (A5 _ Ix), (A6 _ Iy). cbn [real]. unfold pt. replace (b * 256 + t <? num_out) with true by lia. cbn [direction_z]. rewrite Rmult_0_r. split; [reflexivity|].
        intros _ p Hx. rewrite Z.min_l by lia. rewrite sum_empty by lia. apply eval_cases in Hx; [|exact Hpol]. destruct Hx as [[_ ->]|[_ [[[-> | ->] _]|[[-> | ->] _]]]]; reflexivity.
  - split; [|split]; [apply F; congruence|apply S; congruence|]. exists (C0, C0, C0, C0). unfold pt. replace (b * 256 + t <? num_out) with false by lia. split; [reflexivity|].
    intro L. unfold live in L. lia.
Qed.
Lemma thread_syncs b t : syncs (2 * Z.to_nat num_in + 0) (thread b t).
Proof using.
  clear. unfold station_thread.
  assert (G : forall q, syncs (2 * Z.to_nat num_in + 0) (chunks pol num_in num_out (has idx) (has data) eval_x eval_y maxc (Z.to_nat num_in) 0 b t q (C0, C0, C0, C0) (finish pol off_output norm eval_x eval_y (i32 (b * 256 + t)) q))).
  { intro q. apply syncs_chunks. intros [[[o0 o1] o2] o3]. unfold finish. destruct q; [|exact I]. destruct (pol =? 1); [exact I|]. destruct (pol =? 4); [|exact I]. destruct eval_x, eval_y; exact I. }
  destruct (_ <? _); [|apply G]. cbn [GpuBlockFacts.syncs]. intros vx vy. destruct (has z_out); cbn [GpuBlockFacts.syncs]; intros; apply G.
Qed.
Definition blockW (b : Z) (l : loc) : Prop := match l with Out i => exists t, 0 <= t < 256 /\ b * 256 + t < num_out /\ outs_of (b * 256 + t) i | _ => sh b (fun _ => True) l end.
Definition blockR (b : Z) (l : loc) : Prop := input l \/ sh b (fun _ => True) l.
Lemma thread_foot b t : 0 <= b < 8388608 -> 0 <= t < 256 -> foot (blockW b) (blockR b) (thread b t).
Proof using B Hpol.
  clear Hm M0. intros Hb Ht. unfold station_thread. rewrite (i32_id (b * 256 + t)) by (clear - Hb Ht; lia).
  assert (G : forall q, (q <> None -> b * 256 + t < num_out) -> foot (blockW b) (blockR b) (chunks pol num_in num_out (has idx) (has data) eval_x eval_y maxc (Z.to_nat num_in) 0 b t q (C0, C0, C0, C0) (finish pol off_output norm eval_x eval_y (b * 256 + t) q))).
  { intros q Hq. apply foot_chunks; [intros l Hl; left; exact Hl|intros l Hl; split; [destruct l; cbn in *; tauto|right; exact Hl]|]. intro o.
    pattern (finish pol off_output norm eval_x eval_y (b * 256 + t) q o). apply all_finish; [exact Hpol| |exact I|].
    - intro Q. exact (live_sizes pol num_in off_pts num_out off_output weights x_in y_in z_in x_out y_out z_out idx data output b Hpol B Hb t Ht (Hq Q)).
    - intros i v k Q O K. cbn. split; [exists t; auto|exact K]. }
  destruct (Z.ltb_spec (b * 256 + t) num_out); [|apply G; congruence]. cbn [GpuBlockFacts.foot]. split; [left; exact I|intros vx]. split; [left; exact I|intros vy].
  destruct (has z_out); cbn [GpuBlockFacts.foot]; [split; [left; exact I|intros vz]|]; apply G; auto.
Qed.
Lemma blocks_apart b b' l : b <> b' -> blockW b l -> ~ blockR b' l /\ ~ blockW b' l.
Proof using Hpol.
  clear B M0 Hm. intros N. unfold blockR. destruct l as [i|i|i|i|i|i|i|i|i|i|c i|c i|c i|c i|c i]; cbn; try tauto; try (intros (-> & _); split; [intros [K|(K & _)]; [exact K|congruence]|intros (K & _); congruence]).
  intros (t & Ht & L & O). split; [tauto|]. intros (t' & Ht' & L' & O'). pose proof (outs_disjoint pol off_output eval_x eval_y Hpol _ _ _ O O'). lia.
Qed.

(** ** The grid *)
Lemma grid_claim nb m' g : nb <= 8388608 -> gexec loc_eqb nb 256 (m0, thread) (m', g) ->
  (forall b t l, 0 <= b < nb -> 0 <= t < 256 -> next_access (g b t) = Some l -> V l) /\
  (finished nb 256 g -> (forall b t p, 0 <= b < nb -> 0 <= t < 256 -> b * 256 + t < num_out -> evaluated pol eval_x eval_y p = true -> m' (Out (pol * (b * 256 + t + off_output) + p)) = Cx (value (b * 256 + t) p)) /\
    forall i, (forall b t, 0 <= b < nb -> 0 <= t < 256 -> b * 256 + t < num_out -> ~ outs_of (b * 256 + t) i) -> m' (Out i) = m0 (Out i)).
Proof using B Hpol Hm M0.
  intros Hn E.
  destruct (project loc_eqb loc_eqb_ok nb 256 blockW blockR m0 thread (m', g)) as [P N]; [| |exact E|].
  { intros b t Hb Ht. apply thread_foot; lia. }
  { intros b b' l _ _ Ne. now apply blocks_apart. }
  cbn [fst snd] in *.
  assert (Cl : forall b, 0 <= b < nb -> exists m1, claim 256 V (post b m0) (m1, g b) /\ forall l, blockW b l -> m1 l = m' l).
  { intros b Hb. destruct (P b Hb) as (m1 & E1 & A1). exists m1. split; [|exact A1].
    apply (block_claim pol num_in off_pts num_out off_output weights x_in y_in z_in x_out y_out z_out idx data output wavenumber norm eval_x eval_y maxc b m0 Hpol B Hm ltac:(lia) M0 (Z.to_nat num_in) 0 m0 (thread b) (m1, g b)); try lia; [split; auto| |exact E1].
    intros t Ht. apply thread_good; lia. }
  split.
  - intros b t l Hb Ht Nx. destruct (Cl b Hb) as (m1 & (C1 & _) & _). exact (C1 t l Ht Nx).
  - intro Fi. split.
    + intros b t p Hb Ht Lv Hx. destruct (Cl b Hb) as (m1 & (_ & C2) & A1). cbn [fst snd] in C2. destruct (C2 (fun t Ht => Fi b t Hb Ht)) as (P1 & _). rewrite <- A1; [now apply P1|]. cbn. exists t. split; [exact Ht|]. split; [exact Lv|]. exists p. auto.
    + intros i Hi. apply N. intros b Hb (t & Ht & Lv & O). exact (Hi b t Hb Ht Lv O).
Qed.
End Grid.
