From Coq Require Import Reals String Lia.
From Verif Require Import Base BaseFacts Sum CRing Cplx Clamp GpuBlock GpuBlockFacts GpuBlockFacts2 GpuLaunch GpuLaunchFacts Mem SphericalWave Station StationSpec StationFacts StationGpu StationGpuFacts.
Open Scope Z_scope.
Notation mem := (loc -> val).

Lemma least_in {A} (a : nd A) n i : at_least a n -> 0 <= i < n -> in_shape (shape a) [i] = true.
Proof. intros (m & S & L) H. rewrite S. apply in_shape_1. lia. Qed.

Section Block.
Context (pol num_in off_pts num_out off_output : Z) (weights : nd C) (x_in y_in z_in x_out y_out : nd R) (z_out : option (nd R)) (idx : option (nd Z))
    (data : option (nd C)) (output : nd C) (wavenumber norm : R) (eval_x eval_y : bool) (maxc b : Z) (m0 : mem).
Context (Hpol : pol = 1 \/ pol = 4) (B : beam_sizes pol num_in off_pts num_out off_output weights x_in y_in z_in x_out y_out z_out idx data output).
Context (Hm : 0 < maxc) (Hb : 0 <= b < 8388608).
Context (M0 : holds weights x_in y_in z_in x_out y_out z_out idx data output m0).
Notation fill := (fill (has idx)). Notation accum := (accum pol eval_x eval_y). Notation one_element := (one_element pol num_out (has data) eval_x eval_y).
Notation elements := (elements pol num_out (has data) eval_x eval_y). Notation chunks := (chunks pol num_in num_out (has idx) (has data) eval_x eval_y maxc).
Notation finish := (finish pol off_output norm eval_x eval_y). Notation outs_of := (outs_of pol off_output eval_x eval_y).
Notation V := (there weights x_in y_in z_in x_out y_out z_out idx data output maxc).
Notation F := (F pol off_pts num_out weights x_in y_in z_in x_out y_out z_out idx data wavenumber).
Notation value := (value pol num_in off_pts num_out weights x_in y_in z_in x_out y_out z_out idx data wavenumber norm).

(** The inputs are still in memory *)
Definition keeps (m : mem) : Prop := (forall l, input l -> m l = m0 l) /\ forall i, m (Out i) = m0 (Out i).
(** A chunk of elements is in shared memory *)
Definition loaded (m : mem) (j size : Z) : Prop :=
  forall i, 0 <= i < size -> five m b i = (Cx (elem weights [j + i]), Re (elem x_in [j + i]), Re (elem y_in [j + i]), Re (elem z_in [j + i]), Int (beam_index idx (j + i))).
Lemma loaded_in m j size : keeps m -> 0 <= j -> j + size <= num_in -> forall i, 0 <= i < size ->
  five_in (has idx) m (j + i) = (Cx (elem weights [j + i]), Re (elem x_in [j + i]), Re (elem y_in [j + i]), Re (elem z_in [j + i]), Int (beam_index idx (j + i))).
Proof using B M0.
  clear Hm Hpol Hb. intros (K & _) Hj Hs i Hi. destruct B as (N1 & N2 & N3 & N4 & Bw & Bx & By & Bz & Bxo & Byo & Bzo & Bi & Bo & Bd & I1 & I2). destruct M0 as (A1 & A2 & A3 & A4 & A5 & A6 & A7 & A8 & A9 & A10).
  unfold five_in. rewrite !K by exact I. rewrite (A1 (j + i)), (A2 (j + i)), (A3 (j + i)), (A4 (j + i)) by (eapply least_in; [eassumption|lia]).
  destruct idx as [d|] eqn:E; cbn [has beam_index]; [|reflexivity]. rewrite (A8 d (j + i) eq_refl); [reflexivity|]. eapply least_in; [apply Bi; reflexivity|lia].
Qed.

(** The address of the response of an element *)
Lemma address g i_out : 0 <= g < num_in -> 0 <= i_out < num_out -> data <> None ->
  forall p, 0 <= p < pol -> i32 (i32 (pol * i32 (beam_index idx g * num_out + i_out)) + p) = pol * (beam_index idx g * num_out + i_out) + p /\ inside_opt data (pol * (beam_index idx g * num_out + i_out) + p).
Proof using B Hpol.
  clear Hm Hb M0. intros Hg Ho Hd p Hp. destruct data as [d|] eqn:E; [|congruence]. cbn [inside_opt]. unfold inside.
  destruct B as (N1 & N2 & N3 & N4 & Bw & Bx & By & Bz & Bxo & Byo & Bzo & Bi & Bo & Bd & I1 & I2). destruct (Bd d eq_refl g Hg) as (P0 & Pd & Pi). set (k := beam_index idx g) in *. clearbody k.
  assert (Q0 : 0 <= k * num_out) by (apply Z.mul_nonneg_nonneg; lia). replace ((k + 1) * num_out) with (k * num_out + num_out) in * by ring. set (q := k * num_out) in *. clearbody q.
  split.
  - destruct Hpol as [Hq|Hq]; rewrite Hq in *; rewrite (i32_id (q + i_out)) by lia; rewrite (i32_id (_ * (q + i_out))) by lia; apply i32_id; lia.
  - eapply least_in; [exact Pd|]. destruct Hpol as [Hq|Hq]; rewrite Hq in *; lia.
Qed.

Notation X j := (wavenumber * elem x_out [(j + off_pts)%Z])%R. Notation Y j := (wavenumber * elem y_out [(j + off_pts)%Z])%R. Notation Zd j := (wavenumber * direction_z z_out (j + off_pts)%Z)%R.
Lemma solo_elements m j size i_out k : keeps m -> 0 <= j -> j + size <= num_in -> loaded m j size -> 0 <= i_out < num_out -> forall n i o, 0 <= i -> i + Z.of_nat n <= size ->
  exists o', solo m (elements n i b i_out (X i_out) (Y i_out) (Zd i_out) o k) = solo m (k o') /\
    forall p, evaluated pol eval_x eval_y p = true -> sel o' p = Cadd (sel o p) (sum Cadd C0 (j + i) (j + i + Z.of_nat n) (F i_out p)).
Proof using B Hpol M0.
  clear Hm Hb. intros K Hj Hs Ld Ho. induction n as [|n IH]; intros i o Hi Hn; cbn [StationGpu.elements].
  - exists o. split; [reflexivity|]. intros p _. rewrite sum_empty by lia. csolve.
  - assert (Ev : exists o', solo m (one_element b i i_out (X i_out) (Y i_out) (Zd i_out) o (fun o => elements n (i + 1) b i_out (X i_out) (Y i_out) (Zd i_out) o k)) = solo m (elements n (i + 1) b i_out (X i_out) (Y i_out) (Zd i_out) o' k) /\
      forall p, evaluated pol eval_x eval_y p = true -> sel o' p = Cadd (sel o p) (F i_out p (j + i))).
    { specialize (Ld i ltac:(lia)). unfold five in Ld. injection Ld as E1 E2 E3 E4 E5. unfold StationGpu.one_element. cbn [GpuBlockFacts.solo]. rewrite E1, E2, E3, E4. cbn [real cx].
      set (ph := (X i_out * elem x_in [(j + i)%Z] + Y i_out * elem y_in [(j + i)%Z] + Zd i_out * elem z_in [(j + i)%Z])%R).
      assert (Eph : ph = (wavenumber * (elem x_in [(j + i)%Z] * elem x_out [(i_out + off_pts)%Z] + elem y_in [(j + i)%Z] * elem y_out [(i_out + off_pts)%Z] + elem z_in [(j + i)%Z] * direction_z z_out (i_out + off_pts)%Z))%R) by (unfold ph; ring).
      unfold StationFacts.F. rewrite <- Eph. clearbody ph. pose proof (address (j + i) i_out ltac:(lia) Ho) as Ad. destruct K as (K & _). destruct M0 as (A1 & A2 & A3 & A4 & A5 & A6 & A7 & A8 & A9 & A10).
      destruct data as [d|] eqn:Ed; cbn [has].
      - cbn [GpuBlockFacts.solo]. rewrite E5. cbn [int].
        destruct (solo_accum pol eval_x eval_y m (fun p k => Ld (Data (i32 (i32 (pol * i32 (beam_index idx (j + i) * num_out + i_out)) + p))) (fun v => k (Cmul (Cmul (cis ph) (elem weights [j + i])) (cx v))))
          (fun p => Cmul (Cmul (elem weights [j + i]) (cis ph)) (beam_response pol num_out idx (Some d) (j + i) i_out p)) o (fun o => StationGpu.elements pol num_out true eval_x eval_y n (i + 1) b i_out (X i_out) (Y i_out) (Zd i_out) o k) Hpol) as (o' & E & P); [|exists o'; split; [exact E|exact P]].
        intros p f Hp. cbn [GpuBlockFacts.solo]. destruct (Ad ltac:(discriminate) p Hp) as (Ea & In). rewrite Ea. cbn [inside_opt] in In. rewrite K by exact I. rewrite (A9 d _ eq_refl In). cbn [cx beam_response].
        match goal with |- solo m (f ?x) = solo m (f ?y) => replace x with y; [reflexivity|] end. csolve.
      - destruct (solo_accum pol eval_x eval_y m (fun _ k => k (Cmul (cis ph) (elem weights [j + i]))) (fun _ => Cmul (cis ph) (elem weights [j + i])) o (fun o => StationGpu.elements pol num_out false eval_x eval_y n (i + 1) b i_out (X i_out) (Y i_out) (Zd i_out) o k) Hpol) as (o' & E & P); [auto|].
        exists o'. split; [exact E|]. intros p Hx. rewrite P by exact Hx. cbn [beam_response]. f_equal. csolve. }
    destruct Ev as (o1 & E1 & P1). destruct (IH (i + 1) o1 ltac:(lia) ltac:(lia)) as (o2 & E2 & P2). exists o2. split; [rewrite E1; exact E2|]. intros p Hx. rewrite P2, P1 by exact Hx.
    rewrite (sum_cons Cadd C0 (j + i)) by lia. replace (j + i + Z.of_nat (S n)) with (j + (i + 1) + Z.of_nat n) by lia. replace (j + (i + 1)) with (j + i + 1) by ring. csolve.
Qed.

(** ** Nothing else is accessed *)
Lemma safe_fill j size k : 0 <= j -> j + size <= num_in -> size <= maxc -> safe1 V (fun _ _ => True) k -> forall n t, 0 <= t -> safe1 V (fun _ _ => True) (fill n j size t b k).
Proof using B.
  clear Hm Hb M0 Hpol. intros Hj Hs Hc Hk. destruct B as (N1 & N2 & N3 & N4 & Bw & Bx & By & Bz & Bxo & Byo & Bzo & Bi & Bo & Bd & I1 & I2).
  induction n as [|n IH]; intros t Ht; cbn [StationGpu.fill]; [exact Hk|]. destruct (Z.ltb_spec t size); [|exact Hk].
  cbn [GpuBlockFacts2.safe1 there]. unfold inside. split; [eapply least_in; [exact Bw|lia]|intros _ _]. split; [lia|]. split; [exact I|]. split; [eapply least_in; [exact Bx|lia]|intros _ _]. split; [lia|]. split; [exact I|].
  split; [eapply least_in; [exact By|lia]|intros _ _]. split; [lia|]. split; [exact I|]. destruct idx as [d|] eqn:E; cbn [has GpuBlockFacts2.safe1 there inside_opt].
  - unfold inside. split; [eapply least_in; [apply (Bi d eq_refl)|lia]|intros _ _]. split; [lia|]. split; [exact I|]. split; [eapply least_in; [exact Bz|lia]|intros _ _]. split; [lia|]. split; [exact I|]. apply IH. lia.
  - split; [lia|]. split; [exact I|]. split; [eapply least_in; [exact Bz|lia]|intros _ _]. split; [lia|]. split; [exact I|]. apply IH. lia.
Qed.
Definition known (j size : Z) (l : loc) (v : val) : Prop := match l with ShI c i => c = b -> 0 <= i < size -> v = Int (beam_index idx (j + i)) | _ => True end.
Lemma safe_elements j size i_out xo yo zo k : 0 <= j -> j + size <= num_in -> size <= maxc -> 0 <= i_out < num_out -> (forall o, safe1 V (known j size) (k o)) ->
  forall n i o, 0 <= i -> i + Z.of_nat n <= size -> safe1 V (known j size) (elements n i b i_out xo yo zo o k).
Proof using B Hpol.
  clear Hm Hb M0. intros Hj Hs Hc Ho Hk. induction n as [|n IH]; intros i o Hi Hn; cbn [StationGpu.elements]; [apply Hk|]. unfold StationGpu.one_element. cbn [GpuBlockFacts2.safe1 there].
  split; [lia|intros ? _]. split; [lia|intros ? _]. split; [lia|intros ? _]. split; [lia|intros ? _].
  assert (Hr : forall o, safe1 V (known j size) (elements n (i + 1) b i_out xo yo zo o k)) by (intro; apply IH; lia). clear IH.
  pose proof (address (j + i) i_out ltac:(lia) Ho) as Ad. destruct (has data) eqn:E.
  - cbn [GpuBlockFacts2.safe1 there]. split; [lia|]. intros vn Kv. cbn [known] in Kv. rewrite (Kv eq_refl ltac:(lia)). cbn [int]. apply (all_accum pol eval_x eval_y (safe1 V (known j size))); [|exact Hr].
    intros p f Hp Hf. cbn [GpuBlockFacts2.safe1 there]. destruct (Ad ltac:(intros ->; discriminate) p Hp) as (-> & In). split; [exact In|]. auto.
  - apply (all_accum pol eval_x eval_y (safe1 V (known j size))); auto.
Qed.

(** ** A block *)
Definition live (t : Z) : Prop := b * 256 + t < num_out.
Definition pt (t : Z) : option (R * R * R) := if b * 256 + t <? num_out then Some (X (b * 256 + t), Y (b * 256 + t), Zd (b * 256 + t)) else None.
Definition fillW (t : Z) : loc -> Prop := sh b (fun i => i mod 256 = t).
Definition outW (t : Z) (l : loc) : Prop := match l with Out i => live t /\ outs_of (b * 256 + t) i | _ => False end.
Definition phaseW (j t : Z) : loc -> Prop := if j <? num_in then fillW t else outW t.
Lemma ends n j t q o k : num_in <= j -> chunks n j b t q o k = k o.
Proof using. clear. intro H. destruct n; cbn [StationGpu.chunks]; [reflexivity|]. destruct (Z.ltb_spec j num_in); [lia|reflexivity]. Qed.
Lemma live_sizes t : 0 <= t < 256 -> live t -> 0 <= b * 256 + t /\ 0 <= off_output /\ pol * (off_output + (b * 256 + t) + 1) <= 2147483647.
Proof using B Hb Hpol. clear Hm M0. unfold live. destruct B as (N1 & N2 & N3 & N4 & _ & _ & _ & _ & _ & _ & _ & _ & _ & _ & I1 & I2). intros Ht L. destruct Hpol as [Hq|Hq]; rewrite Hq in *; lia. Qed.
Lemma foot1_chunks n j t q o : num_in - j <= Z.of_nat n -> 0 <= t < 256 -> (q <> None -> live t) -> foot1 (phaseW j t) input (chunks n j b t q o (finish (b * 256 + t) q)).
Proof using B Hb Hpol.
  clear Hm M0. intros Hn Ht Hl. unfold phaseW. destruct (Z.ltb_spec j num_in).
  - destruct n as [|n]; [lia|]. cbn [StationGpu.chunks]. replace (j <? num_in) with true by lia. apply (foot1_fill (has idx) b _ _ _ _ _ t); auto; [exact I|]. apply Z.mod_small. lia.
  - rewrite ends by lia. pattern (finish (b * 256 + t) q o). apply all_finish; auto; [|exact I|].
    + intro Q. now apply live_sizes; auto.
    + intros i v k Q O K. cbn. split; [split; auto|exact K].
Qed.
Lemma safe1_chunks n j t q o : num_in - j <= Z.of_nat n -> 0 <= j -> 0 <= t < 256 -> (q <> None -> live t) -> safe1 V (fun _ _ => True) (chunks n j b t q o (finish (b * 256 + t) q)).
Proof using B Hb Hpol Hm.
  clear M0. intros Hn Hj Ht Hl. destruct (Z_lt_le_dec j num_in) as [Lt|Le].
  - destruct n as [|n]; [lia|]. cbn [StationGpu.chunks]. replace (j <? num_in) with true by lia. apply safe_fill; try lia; [destruct (Z.ltb_spec maxc (num_in - j)); lia|destruct (Z.ltb_spec maxc (num_in - j)); lia|exact I].
  - rewrite ends by lia. pattern (finish (b * 256 + t) q o). apply all_finish; auto; [|exact I|].
    + intro Q. now apply live_sizes; auto.
    + intros i v k Q (p & Hx & ->) K. cbn [GpuBlockFacts2.safe1 there]. split; [|split; [exact I|exact K]]. unfold inside. destruct B as (N1 & N2 & N3 & N4 & _ & _ & _ & _ & _ & _ & _ & _ & Bo & _ & I1 & I2).
      eapply least_in; [exact Bo|]. specialize (Hl Q). unfold live in Hl. pose proof (eval_range _ _ _ _ Hpol Hx) as Hr. clear - Hl Hr Hpol N4 Hb Ht. destruct Hpol as [Hq|Hq]; rewrite Hq in *; lia.
Qed.

Definition good (n : nat) (j t : Z) (m : mem) (p : code) : Prop :=
  foot1 (phaseW j t) input p /\ safe1 V (fun _ _ => True) p /\
  exists o, solo m p = solo m (chunks n j b t (pt t) o (finish (b * 256 + t) (pt t))) /\ (live t -> forall p, evaluated pol eval_x eval_y p = true -> sel o p = sum Cadd C0 0 (Z.min j num_in) (F (b * 256 + t) p)).
Definition post (m : mem) : Prop :=
  (forall t p, 0 <= t < 256 -> live t -> evaluated pol eval_x eval_y p = true -> m (Out (pol * (b * 256 + t + off_output) + p)) = Cx (value (b * 256 + t) p)) /\
  (forall i, (forall t, 0 <= t < 256 -> live t -> ~ outs_of (b * 256 + t) i) -> m (Out i) = m0 (Out i)).
Lemma outs_disjoint j j' i : outs_of j i -> outs_of j' i -> j = j'.
Proof using Hpol. clear B M0 Hm Hb. intros (p & Hp & ->) (p' & Hp' & E). pose proof (eval_range _ _ _ _ Hpol Hp). pose proof (eval_range _ _ _ _ Hpol Hp'). destruct Hpol as [Q|Q]; rewrite Q in *; lia. Qed.
Lemma phase_disjoint j t t' l : 0 <= t < 256 -> 0 <= t' < 256 -> t <> t' -> phaseW j t l -> ~ input l /\ ~ phaseW j t' l.
Proof using Hpol.
  clear B M0 Hm Hb. intros Ht Ht' N. unfold phaseW. destruct (j <? num_in).
  - destruct l; cbn; try tauto; intros (_ & E); (split; [tauto|]); intros (_ & E'); lia.
  - destruct l; cbn; try tauto. intros (_ & E). split; [tauto|]. intros (_ & E'). pose proof (outs_disjoint _ _ _ E E'). lia.
Qed.
Lemma last_phase j m c s' : num_in <= j -> keeps m -> (forall t, 0 <= t < 256 -> exists n, good n j t m (c t)) -> bexec loc_eqb 256 (m, c) s' -> claim 256 V post s'.
Proof using B Hb Hpol.
  clear Hm M0. intros Hj (K & Ko) G E.
  apply (phase_claim loc_eqb loc_eqb_ok 256 V (fun _ _ => True) (phaseW j) (fun _ => input) post m c s'); auto.
  - intros t Ht. destruct (G t Ht) as (n & Gf & _). exact Gf.
  - intros t t' l Ht Ht'. now apply phase_disjoint.
  - intros t Ht. destruct (G t Ht) as (n & _ & Gs & _). exact Gs.
  - intros m1 c1 E1 Ec Ew En. unfold phaseW in Ew, En. replace (j <? num_in) with false in * by lia.
    assert (So : forall t, 0 <= t < 256 -> exists o, solo m (c t) = solo m (finish (b * 256 + t) (pt t) o) /\ (live t -> forall p, evaluated pol eval_x eval_y p = true -> sel o p = sum Cadd C0 0 num_in (F (b * 256 + t) p))).
    { intros t Ht. destruct (G t Ht) as (n & _ & _ & o & Es & Eo). exists o. rewrite ends in Es by assumption. split; [exact Es|]. rewrite Z.min_r in Eo by lia. exact Eo. }
    apply (done_claim loc_eqb 256 V post m1 c1); [|exact E1|].
    + intros t Ht. rewrite (Ec t Ht). destruct (So t Ht) as (o & -> & _). unfold pt. destruct (Z.ltb_spec (b * 256 + t) num_out) as [Lv|Lv].
      * destruct (live_sizes t Ht Lv) as (L1 & L2 & L3). destruct (solo_finish pol off_output norm eval_x eval_y m (b * 256 + t) (X (b * 256 + t), Y (b * 256 + t), Zd (b * 256 + t)) o Hpol L1 L2 L3) as (m' & -> & _). reflexivity.
      * destruct o as [[[o0 o1] o2] o3]. reflexivity.
    + split.
      * intros t p Ht Lv Hx. rewrite (Ew t _ Ht) by (cbn; split; [exact Lv|]; exists p; auto). destruct (So t Ht) as (o & -> & Eo). unfold pt. replace (b * 256 + t <? num_out) with true by (unfold live in Lv; lia).
        destruct (live_sizes t Ht Lv) as (L1 & L2 & L3). destruct (solo_finish pol off_output norm eval_x eval_y m (b * 256 + t) (X (b * 256 + t), Y (b * 256 + t), Zd (b * 256 + t)) o Hpol L1 L2 L3) as (m' & -> & Ev). cbn [fst].
        rewrite (Ev p Hx), (Eo Lv p Hx). unfold StationFacts.value, beam_sum. unfold StationFacts.F. f_equal. csolve.
      * intros i Ni. rewrite En; [apply Ko|]. intros t Ht (Lv & Oi). exact (Ni t Ht Lv Oi).
Qed.
Lemma block_claim n : forall j m c s', num_in - j <= Z.of_nat n -> 0 <= j -> keeps m -> (forall t, 0 <= t < 256 -> good n j t m (c t)) -> bexec loc_eqb 256 (m, c) s' -> claim 256 V post s'.
Proof using B Hb Hpol Hm M0.
  induction n as [|n IH]; intros j m c s' Hn Hj K G E.
  - apply (last_phase j m c s'); auto; [lia|]. intros t Ht. exists 0%nat. auto.
  - destruct (Z_lt_le_dec j num_in) as [Lt|Le]; [|apply (last_phase j m c s'); auto; intros t Ht; exists (S n); auto].
    set (size := if maxc <? num_in - j then maxc else num_in - j).
    assert (Hs : 0 < size /\ j + size <= num_in /\ size <= maxc /\ Z.min (j + maxc) num_in = j + size) by (clear - Lt Hm; unfold size; destruct (Z.ltb_spec maxc (num_in - j)); lia). destruct Hs as (Hs0 & Hs1 & Hs2 & Hs3).
    set (next := fun t o => (Sync (chunks n (j + maxc) b t (pt t) o (finish (b * 256 + t) (pt t))) : code)).
    set (work := fun t o => match pt t with Some (xo, yo, zo) => elements (Z.to_nat size) 0 b (i32 (b * 256 + t)) xo yo zo o (next t) | None => next t o end).
    assert (So : forall t, 0 <= t < 256 -> exists o m1, solo m (c t) = (m1, Sync (work t o)) /\ (forall l, ~ sh b (fun _ => True) l -> m1 l = m l) /\ (forall t', 0 <= t' < size -> t' mod 256 = t -> five m1 b t' = five_in (has idx) m (j + t')) /\
      (live t -> forall p, evaluated pol eval_x eval_y p = true -> sel o p = sum Cadd C0 0 j (F (b * 256 + t) p))).
    { intros t Ht. destruct (G t Ht) as (_ & _ & o & Es & Eo). rewrite Z.min_l in Eo by lia. exists o. cbn [StationGpu.chunks] in Es. replace (j <? num_in) with true in Es by lia. fold size in Es. change (fun o : outs => Sync (chunks n (j + maxc) b t (pt t) o (finish (b * 256 + t) (pt t)))) with (next t) in Es. change (Sync (chunks n (j + maxc) b t (pt t) o (finish (b * 256 + t) (pt t)))) with (next t o) in Es. fold (work t o) in Es.
      destruct (solo_fill (has idx) b j size (Z.to_nat size) t m (Sync (work t o)) ltac:(lia) ltac:(lia)) as (m1 & E1 & N1 & _ & V1). exists m1. rewrite Es, E1. split; [reflexivity|]. split; [exact N1|]. split; [|exact Eo].
      intros t' Ht' Md. apply V1.
      - pose proof (Z.div_mod t' 256). pose proof (Z.div_pos t' 256). lia.
      - rewrite Zminus_mod, Md, (Z.mod_small t) by lia. rewrite Z.sub_diag. reflexivity. }
    apply (phase_claim loc_eqb loc_eqb_ok 256 V (fun _ _ => True) (phaseW j) (fun _ => input) post m c s'); auto.
    + intros t Ht. apply (G t Ht).
    + intros t t' l Ht Ht'. now apply phase_disjoint.
    + intros t Ht. apply (G t Ht).
    + intros m1 c1 E1 Ec Ew En. unfold phaseW in Ew, En. replace (j <? num_in) with true in * by lia.
      assert (K1 : keeps m1). { destruct K as (K & Ko). split; [intros l Hl; rewrite <- (K l Hl)|intro i; rewrite <- (Ko i)]; apply En; intros t Ht; [destruct l; cbn in *; tauto|cbn; tauto]. }
      assert (L1 : loaded m1 j size).
      { intros i Hi. rewrite <- (loaded_in m j size K Hj Hs1 i Hi). pose proof (Z.mod_pos_bound i 256 ltac:(lia)) as Md. destruct (So (i mod 256) Md) as (o & mx & Ex & _ & Vx & _). rewrite <- (Vx i Hi eq_refl).
        unfold five. rewrite !(Ew (i mod 256) _ Md) by (cbn; auto). rewrite Ex. reflexivity. }
      assert (C1 : forall t, 0 <= t < 256 -> exists o, c1 t = work t o /\ (live t -> forall p, evaluated pol eval_x eval_y p = true -> sel o p = sum Cadd C0 0 j (F (b * 256 + t) p))).
      { intros t Ht. destruct (So t Ht) as (o & mx & Ex & _ & _ & Eo). exists o. split; [|exact Eo]. rewrite (Ec t Ht), Ex. reflexivity. }
      clear So Ec Ew En G E K m c.
      assert (Io : forall t, 0 <= t < 256 -> i32 (b * 256 + t) = b * 256 + t) by (intros t Ht; apply i32_id; clear - Ht Hb; lia).
      apply (phase_claim loc_eqb loc_eqb_ok 256 V (known j size) (fun _ _ => False) (fun _ _ => True) post m1 c1 s'); auto.
      * intros t Ht. destruct (C1 t Ht) as (o & -> & _). unfold work. destruct (pt t) as [[[xo yo] zo]|]; [|exact I]. apply foot1_elements. intro. exact I.
      * intros t Ht. destruct (C1 t Ht) as (o & -> & _). unfold work, pt. destruct (Z.ltb_spec (b * 256 + t) num_out) as [Lv|Lv]; [|exact I]. rewrite Io by exact Ht. apply safe_elements; try lia. intro. exact I.
      * intros l Vl. destruct l as [i|i|i|i|i|i|i|i|i|i|c i|c i|c i|c i|c i]; cbn [known]; auto. intros -> Hi. specialize (L1 i Hi). unfold five in L1. injection L1. auto.
      * intros m2 c2 E2 Ec2 _ En2. assert (M2 : forall l, m2 l = m1 l) by (intro l; apply En2; auto).
        apply (IH (j + maxc) m2 c2 s'); [lia|lia| | |exact E2].
        { destruct K1 as (K1 & K2). split; [intros l Hl; rewrite M2; auto|intro i; rewrite M2; auto]. }
        intros t Ht. rewrite (Ec2 t Ht). destruct (C1 t Ht) as (o & -> & Eo). unfold work.
        assert (Pl : pt t <> None -> live t) by (unfold pt, live; destruct (Z.ltb_spec (b * 256 + t) num_out); [auto|congruence]).
        destruct (pt t) as [[[xo yo] zo]|] eqn:Ep.
        -- assert (Lv : live t) by (apply Pl; discriminate). unfold pt in Ep. replace (b * 256 + t <? num_out) with true in Ep by (unfold live in Lv; lia). injection Ep as <- <- <-. rewrite Io by exact Ht.
           destruct (solo_elements m1 j size (b * 256 + t) (next t) K1 Hj Hs1 L1 ltac:(unfold live in Lv; lia) (Z.to_nat size) 0 o ltac:(lia) ltac:(lia)) as (o' & -> & Eo'). unfold next. cbn [GpuBlockFacts.solo snd release].
           assert (Ep : pt t = Some (X (b * 256 + t), Y (b * 256 + t), Zd (b * 256 + t))) by (unfold pt; replace (b * 256 + t <? num_out) with true by (unfold live in Lv; lia); reflexivity).
           split; [|split]; [apply foot1_chunks; try lia; auto|apply safe1_chunks; try lia; auto|]. exists o'. split; [reflexivity|]. intros _ p Hx. rewrite (Eo' p Hx), (Eo Lv p Hx). rewrite Hs3. rewrite Z.add_0_r, Z2Nat.id by lia.
           symmetry. apply (sum_split _ _ Ccm); lia.
        -- unfold next. rewrite Ep. cbn [GpuBlockFacts.solo snd release]. split; [|split]; [apply foot1_chunks; try lia; auto|apply safe1_chunks; try lia; auto|]. exists o. rewrite Ep. split; [reflexivity|]. intro Lv. exfalso. unfold pt in Ep. replace (b * 256 + t <? num_out) with true in Ep by (unfold live in Lv; lia). discriminate.
Qed.
End Block.
