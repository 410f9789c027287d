From Coq Require Import Reals String Lia.
From Verif Require Import Base BaseFacts Sum CRing Cplx Clamp GpuBlock GpuBlockFacts GpuBlockFacts2 GpuLaunch GpuLaunchFacts Mem SphericalWave Station StationSpec StationFacts StationGpu.
Open Scope Z_scope.
Notation mem := (loc -> val).
Notation foot := (foot (L := loc) (A := val)). Notation foot1 := (foot1 (L := loc) (A := val)). Notation solo := (solo (A := val) loc_eqb).
Notation safe1 := (safe1 (L := loc) (A := val)). Notation syncs := (syncs (L := loc) (A := val)).

Lemma loc_eqb_ok x y : loc_eqb x y = true <-> x = y.
Proof.
  split.
  - destruct x, y; cbn [loc_eqb]; try discriminate; intro H; rewrite ?andb_true_iff, ?Z.eqb_eq in H; (subst; reflexivity) || (destruct H; subst; reflexivity).
  - intros ->. destruct y; cbn [loc_eqb]; rewrite ?Z.eqb_refl; reflexivity.
Qed.
Lemma i32_id z : -2147483648 <= z <= 2147483647 -> i32 z = z.
Proof. intro H. unfold SumDiffGpu.i32. rewrite Z.mod_small by lia. lia. Qed.
Lemma put_eq (m : mem) l v : put loc_eqb m l v l = v.
Proof. apply put_same. apply loc_eqb_ok. Qed.
Lemma put_ne (m : mem) l v l' : l <> l' -> put loc_eqb m l v l' = m l'.
Proof. apply put_other. apply loc_eqb_ok. Qed.

(** Arrays that are only read *)
Definition input (l : loc) : Prop := match l with Weight _ | ElemX _ | ElemY _ | ElemZ _ | PointX _ | PointY _ | PointZ _ | Index _ | Data _ => True | _ => False end.
Definition sh (b : Z) (P : Z -> Prop) (l : loc) : Prop := match l with ShW c i | ShX c i | ShY c i | ShZ c i | ShI c i => c = b /\ P i | _ => False end.

Section Kernel.
Context (pol : Z) (wavenumber : R) (num_in off_pts num_out : Z) (has_z has_idx has_data : bool) (off_output : Z) (norm : R) (eval_x eval_y : bool) (maxc : Z).
Notation fill := (fill has_idx). Notation accum := (accum pol eval_x eval_y). Notation one_element := (one_element pol num_out has_data eval_x eval_y).
Notation elements := (elements pol num_out has_data eval_x eval_y). Notation chunks := (chunks pol num_in num_out has_idx has_data eval_x eval_y maxc).
Notation finish := (finish pol off_output norm eval_x eval_y).

(** ** Footprints *)
Lemma foot_fill b (W R : loc -> Prop) k j size : (forall l, input l -> R l) -> (forall l, sh b (fun _ => True) l -> W l) -> foot W R k -> forall n t, foot W R (fill n j size t b k).
Proof using.
  clear. intros Hr Hw Hk. induction n as [|n IH]; intro t; cbn [StationGpu.fill]; [exact Hk|]. destruct (t <? size); [|exact Hk].
  cbn. repeat (split; [first [apply Hr; exact I|apply Hw; cbn; auto]|intros]). destruct has_idx; cbn; repeat (split; [first [apply Hr; exact I|apply Hw; cbn; auto]|intros]); apply IH.
Qed.
Lemma foot1_fill b (W R : loc -> Prop) k j size t0 : (forall l, input l -> R l) -> (forall l, sh b (fun i => i mod 256 = t0) l -> W l) -> foot1 W R k -> forall n t, t mod 256 = t0 -> foot1 W R (fill n j size t b k).
Proof using.
  clear. intros Hr Hw Hk. induction n as [|n IH]; intros t Ht; cbn [StationGpu.fill]; [exact Hk|]. destruct (t <? size); [|exact Hk].
  assert (Ht' : (t + 256) mod 256 = t0) by (rewrite <- Ht; replace (t + 256) with (t + 1 * 256) by ring; apply Z.mod_add; lia).
  cbn. repeat (split; [first [apply Hr; exact I|apply Hw; cbn; auto]|intros]). destruct has_idx; cbn; repeat (split; [first [apply Hr; exact I|apply Hw; cbn; auto]|intros]); now apply IH.
Qed.
Lemma all_accum (P : code -> Prop) (read : Z -> (C -> code) -> code) k : (forall p k, 0 <= p < pol -> (forall v, P (k v)) -> P (read p k)) -> (forall o, P (k o)) -> forall o, P (accum read o k).
Proof using.
  clear. intros Hr Hk [[[o0 o1] o2] o3]. unfold StationGpu.accum. destruct (Z.eqb_spec pol 1); [apply Hr; [lia|auto]|]. destruct (Z.eqb_spec pol 4); [|auto].
  destruct eval_x, eval_y; repeat (first [apply Hk | apply Hr; [lia|]; intros ]).
Qed.
Lemma foot_elements b (W R : loc -> Prop) i_out xo yo zo k : (forall l, input l -> R l) -> (forall l, sh b (fun _ => True) l -> R l) -> (forall o, foot W R (k o)) -> forall n i o, foot W R (elements n i b i_out xo yo zo o k).
Proof using.
  clear. intros Hr Hs Hk. induction n as [|n IH]; intros i o; cbn [StationGpu.elements]; [apply Hk|]. unfold StationGpu.one_element. cbn.
  repeat (split; [apply Hs; cbn; auto|intros]). destruct has_data; cbn.
  - split; [apply Hs; cbn; auto|intros]. apply (all_accum (foot W R)); [|auto]. intros p f _ Hf. cbn. split; [apply Hr; exact I|auto].
  - apply (all_accum (foot W R)); auto.
Qed.
Lemma foot1_elements b i_out xo yo zo k : (forall o, foot1 (fun _ => False) (fun _ => True) (k o)) -> forall n i o, foot1 (fun _ => False) (fun _ => True) (elements n i b i_out xo yo zo o k).
Proof using.
  clear. intros Hk. induction n as [|n IH]; intros i o; cbn [StationGpu.elements]; [apply Hk|]. unfold StationGpu.one_element. cbn.
  repeat (split; [exact I|intros]). destruct has_data; cbn.
  - split; [exact I|intros]. apply (all_accum (foot1 (fun _ => False) (fun _ => True))); [|auto]. intros p f _ Hf. cbn. auto.
  - apply (all_accum (foot1 (fun _ => False) (fun _ => True))); auto.
Qed.
Lemma foot_chunks b t (W R : loc -> Prop) pt k : (forall l, input l -> R l) -> (forall l, sh b (fun _ => True) l -> W l /\ R l) -> (forall o, foot W R (k o)) -> forall n j o, foot W R (chunks n j b t pt o k).
Proof using.
  clear. intros Hr Hs Hk. induction n as [|n IH]; intros j o; cbn [StationGpu.chunks]; [apply Hk|]. destruct (j <? num_in); [|apply Hk].
  apply foot_fill; [exact Hr|apply Hs|]. cbn. destruct pt as [[[xo yo] zo]|]; [|apply IH]. apply foot_elements; [exact Hr|apply Hs|]. intro. cbn. apply IH.
Qed.
(** The output elements of a point *)
Definition outs_of (i_out : Z) (i : Z) : Prop := exists p, evaluated pol eval_x eval_y p = true /\ i = pol * (i_out + off_output) + p.
Lemma all_finish (P : code -> Prop) i_out pt : pol = 1 \/ pol = 4 ->
  (pt <> None -> 0 <= i_out /\ 0 <= off_output /\ pol * (off_output + i_out + 1) <= 2147483647) -> P Done -> (forall i v k, pt <> None -> outs_of i_out i -> P k -> P (St (Out i) v k)) -> forall o, P (finish i_out pt o).
Proof using.
  clear. intros Hp Hl Hd Hs [[[o0 o1] o2] o3]. unfold StationGpu.finish. destruct pt as [pt|]; [|exact Hd]. destruct (Hl ltac:(discriminate)) as (L1 & L2 & L3). clear Hl.
  assert (E : i32 (pol * i32 (i_out + off_output)) = pol * (i_out + off_output)) by (destruct Hp as [Hp|Hp]; rewrite Hp in *; rewrite (i32_id (i_out + off_output)) by lia; apply i32_id; lia).
  rewrite E. clear E. assert (N : Some pt <> None) by discriminate.
  assert (Ev : forall p, 0 <= p < pol -> i32 (pol * (i_out + off_output) + p) = pol * (i_out + off_output) + p) by (intros; destruct Hp as [Hp|Hp]; rewrite Hp in *; apply i32_id; lia).
  assert (O : forall p, evaluated pol eval_x eval_y p = true -> outs_of i_out (pol * (i_out + off_output) + p)) by (intros p He; exists p; auto).
  assert (O0 : evaluated pol eval_x eval_y 0 = true -> outs_of i_out (pol * (i_out + off_output))) by (intro He; exists 0; rewrite Z.add_0_r; auto).
  destruct Hp as [Hp|Hp]; rewrite Hp in *; cbn [Z.eqb Pos.eqb].
  - apply Hs; auto.
  - rewrite !Ev by lia. destruct eval_x, eval_y; repeat (first [exact Hd | apply Hs; [exact N|first [now apply O0|now apply O]|]]).
Qed.

(** ** Barriers *)
Lemma syncs_fill s b j size k : syncs s k -> forall n t, syncs s (fill n j size t b k).
Proof using. clear. intro Hk. induction n as [|n IH]; intro t; cbn [StationGpu.fill]; [exact Hk|]. destruct (t <? size); [|exact Hk]. cbn. intros. destruct has_idx; cbn; auto. Qed.
Lemma syncs_elements s b i_out xo yo zo k : (forall o, syncs s (k o)) -> forall n i o, syncs s (elements n i b i_out xo yo zo o k).
Proof using.
  clear. intros Hk. induction n as [|n IH]; intros i o; cbn [StationGpu.elements]; [apply Hk|]. unfold StationGpu.one_element. cbn. intros. destruct has_data; cbn; intros; apply (all_accum (syncs s)); auto; intros; cbn; auto.
Qed.
Lemma syncs_chunks s b t pt k : (forall o, syncs s (k o)) -> forall n j o, syncs (2 * n + s) (chunks n j b t pt o k).
Proof using.
  clear. intros Hk. induction n as [|n IH]; intros j o; cbn [StationGpu.chunks]; [apply Hk|]. destruct (j <? num_in); [|apply (syncs_up s); [apply Hk|lia]].
  apply syncs_fill. replace (2 * S n + s)%nat with (S (S (2 * n + s))) by lia. cbn [GpuBlockFacts.syncs]. destruct pt as [[[xo yo] zo]|]; [apply syncs_elements; intro|]; cbn [GpuBlockFacts.syncs]; apply IH.
Qed.

(** ** What the phases compute *)
Definition five (m : mem) (b t : Z) : val * val * val * val * val := (m (ShW b t), m (ShX b t), m (ShY b t), m (ShZ b t), m (ShI b t)).
Definition five_in (m : mem) (g : Z) : val * val * val * val * val := (m (Weight g), m (ElemX g), m (ElemY g), m (ElemZ g), if has_idx then m (Index g) else Int g).
Lemma solo_fill b j size : forall n t m k, size - t <= Z.of_nat n -> 0 <= t ->
  exists m1, solo m (fill n j size t b k) = solo m1 k /\ (forall l, ~ sh b (fun _ => True) l -> m1 l = m l) /\ (forall t', t' < t -> five m1 b t' = five m b t') /\
    forall t', t <= t' < size -> (t' - t) mod 256 = 0 -> five m1 b t' = five_in m (j + t').
Proof using.
  clear. induction n as [|n IH]; intros t m k Hn Ht; cbn [StationGpu.fill].
  - exists m. repeat split; auto. intros; lia.
  - destruct (Z.ltb_spec t size); [|exists m; repeat split; auto; intros; lia].
    set (m1 := put loc_eqb (put loc_eqb (put loc_eqb (put loc_eqb (put loc_eqb m (ShW b t) (m (Weight (j + t)))) (ShX b t) (m (ElemX (j + t)))) (ShY b t) (m (ElemY (j + t)))) (ShI b t) (if has_idx then m (Index (j + t)) else Int (j + t))) (ShZ b t) (m (ElemZ (j + t)))).
    destruct (IH (t + 256) m1 k ltac:(lia) ltac:(lia)) as (m2 & E & N & L & V). exists m2.
    assert (M1 : forall l, ~ sh b (fun _ => True) l -> m1 l = m l).
    { intros l Hl. unfold m1. rewrite !put_ne; [reflexivity|intros <-; apply Hl; cbn; auto..]. }
    assert (F1 : five m1 b t = five_in m (j + t)).
    { unfold five, five_in, m1. cbn. unfold GpuBlock.put. cbn [loc_eqb]. rewrite !Z.eqb_refl. cbn [andb]. reflexivity. }
    assert (F2 : forall t', t' <> t -> five m1 b t' = five m b t').
    { intros t' Ne. unfold five, m1. rewrite !put_ne by (try discriminate; intro Q; injection Q; intro; apply Ne; auto). reflexivity. }
    split; [|split; [|split]].
    + rewrite <- E. destruct has_idx; cbn; unfold m1; cbn; repeat (rewrite put_ne by discriminate); reflexivity.
    + intros l Hl. rewrite N, M1 by exact Hl. reflexivity.
    + intros t' Ht'. rewrite L by lia. apply F2. lia.
    + intros t' Ht' Md. destruct (Z_lt_le_dec t' (t + 256)) as [Lt|Ge].
      * assert (t' = t). { rewrite Z.mod_small in Md by lia. lia. } subst t'. rewrite L by lia. exact F1.
      * rewrite V; [|lia|]. { unfold five_in. destruct has_idx; rewrite !M1 by (cbn; tauto); reflexivity. }
        replace (t' - (t + 256)) with (t' - t + (-1) * 256) by ring. rewrite Z.mod_add by lia. exact Md.
Qed.
Lemma solo_accum m read (V : Z -> C) (o : outs) (k : outs -> code) : pol = 1 \/ pol = 4 -> (forall p (k : C -> code), 0 <= p < pol -> solo m (read p k) = solo m (k (V p))) ->
  exists o', solo m (accum read o k) = solo m (k o') /\ forall p, evaluated pol eval_x eval_y p = true -> sel o' p = Cadd (sel o p) (V p).
Proof using.
  clear. intros Hp Hr. destruct o as [[[o0 o1] o2] o3]. unfold StationGpu.accum. destruct Hp as [Hp|Hp]; rewrite Hp in *; cbn [Z.eqb Pos.eqb].
  - rewrite Hr by lia. eexists. split; [reflexivity|]. intros p Hx. unfold evaluated in Hx. cbn [Z.eqb Pos.eqb] in Hx. apply Z.eqb_eq in Hx. subst p. reflexivity.
  - exists (if eval_x then Cadd o0 (V 0) else o0, if eval_x then Cadd o1 (V 1) else o1, if eval_y then Cadd o2 (V 2) else o2, if eval_y then Cadd o3 (V 3) else o3). split.
    + destruct eval_x, eval_y; rewrite ?Hr by lia; reflexivity.
    + intros p Hx. apply eval_cases in Hx; [|now right]. destruct Hx as [[Q _]|[_ [[[-> | ->] ->]|[[-> | ->] ->]]]]; [discriminate|..]; reflexivity.
Qed.
Lemma solo_finish m i_out x o : pol = 1 \/ pol = 4 -> 0 <= i_out -> 0 <= off_output -> pol * (off_output + i_out + 1) <= 2147483647 ->
  exists m', solo m (finish i_out (Some x) o) = (m', Done) /\ forall p, evaluated pol eval_x eval_y p = true -> m' (Out (pol * (i_out + off_output) + p)) = Cx (Cmul (sel o p) (RtoC norm)).
Proof using.
  clear. intros Hp L1 L2 L3. destruct o as [[[o0 o1] o2] o3]. unfold StationGpu.finish.
  assert (E : i32 (pol * i32 (i_out + off_output)) = pol * (i_out + off_output)) by (destruct Hp as [Hp|Hp]; rewrite Hp in *; rewrite (i32_id (i_out + off_output)) by lia; apply i32_id; lia).
  rewrite E. clear E.
  assert (Ev : forall p, 0 <= p < pol -> i32 (pol * (i_out + off_output) + p) = pol * (i_out + off_output) + p) by (intros; destruct Hp as [Hp|Hp]; rewrite Hp in *; apply i32_id; lia).
  destruct Hp as [Hp|Hp]; rewrite Hp in *; cbn [Z.eqb Pos.eqb].
  - eexists. split; [reflexivity|]. intros p Hx. unfold evaluated in Hx. cbn [Z.eqb Pos.eqb] in Hx. apply Z.eqb_eq in Hx. subst p. rewrite Z.add_0_r. apply put_eq.
  - rewrite !Ev by lia. set (a := 4 * (i_out + off_output)).
    assert (Q : forall p q, p <> q -> Out (a + p) <> Out (a + q)) by (intros p q N E; injection E; lia). assert (Q0 : forall q, q <> 0 -> Out a <> Out (a + q)) by (intros q N E; injection E; lia).
    destruct eval_x, eval_y; cbn [GpuBlockFacts.solo]; eexists; (split; [reflexivity|]); intros p Hx; (apply eval_cases in Hx; [|now right]);
      (destruct Hx as [[W _]|[_ [[[-> | ->] W]|[[-> | ->] W]]]]; try discriminate W); rewrite ?Z.add_0_r; repeat first [apply put_eq | rewrite put_ne by first [apply Q; lia | apply Q0; lia | apply not_eq_sym; apply Q0; lia]].
Qed.
End Kernel.
