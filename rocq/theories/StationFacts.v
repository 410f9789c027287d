From Coq Require Import Lra.
From Verif Require Import Base BaseFacts Sum CRing Cplx Clamp Mem Sets SphericalWaveFacts2 Station StationSpec.
Open Scope Z_scope.

Lemma rd_least {A} (a : nd A) n i : at_least a n -> 0 <= i < n -> rd a [i] = Some (elem a [i]).
Proof. intros (m & S & L) H. apply rd_some. rewrite S. apply in_shape_1. lia. Qed.
Lemma to_int_in z : 0 <= z <= 2147483647 -> to_int z = Some z.
Proof. intro H. unfold to_int. replace ((-2147483648 <=? z) && (z <=? 2147483647)) with true by lia. reflexivity. Qed.

Definition sel (o : outs) (p : Z) : C := let '(o0, o1, o2, o3) := o in if p =? 0 then o0 else if p =? 1 then o1 else if p =? 2 then o2 else o3.
Lemma Ccm : cmonoid Cadd C0.
Proof. constructor; [apply Cadd_assoc|apply Cadd_comm|apply Cadd_0]. Qed.

Lemma eval_cases pol ex ey p : pol = 1 \/ pol = 4 -> evaluated pol ex ey p = true ->
  (pol = 1 /\ p = 0) \/ (pol = 4 /\ ((p = 0 \/ p = 1) /\ ex = true \/ (p = 2 \/ p = 3) /\ ey = true)).
Proof.
  intros [ -> | -> ]; unfold evaluated; cbn [Z.eqb Pos.eqb].
  - intro H. apply Z.eqb_eq in H. auto.
  - destruct (Z.eqb_spec p 0); cbn [orb]; [intro; right; split; [reflexivity|]; auto|]. destruct (Z.eqb_spec p 1); [intro; right; split; [reflexivity|]; auto|].
    intro H. apply andb_prop in H. destruct H as [H ->]. apply orb_prop in H. right. split; [reflexivity|]. right. split; [|reflexivity]. destruct H as [H|H]; apply Z.eqb_eq in H; auto.
Qed.
Lemma eval_range pol ex ey p : pol = 1 \/ pol = 4 -> evaluated pol ex ey p = true -> 0 <= p < pol.
Proof. intros Hp H. apply eval_cases in H; auto. lia. Qed.

Lemma accumulate_ok pol ex ey (v : Z -> option C) V o : pol = 1 \/ pol = 4 -> (forall p, 0 <= p < pol -> v p = Some (V p)) ->
  exists o', accumulate pol ex ey v o = Some o' /\ forall p, evaluated pol ex ey p = true -> sel o' p = Cadd (sel o p) (V p).
Proof.
  intros Hp Hv. destruct o as [[[o0 o1] o2] o3]. unfold accumulate. destruct Hp as [ -> | -> ]; cbn [Z.eqb Pos.eqb].
  - rewrite Hv by lia. cbn [bind]. eexists. split; [reflexivity|]. intros p Hx. unfold evaluated in Hx. cbn [Z.eqb Pos.eqb] in Hx. apply Z.eqb_eq in Hx. subst p. reflexivity.
  - rewrite (Hv 0), (Hv 1), (Hv 2), (Hv 3) by lia. cbn [bind].
    destruct ex, ey; cbn [bind fst snd]; (eexists; split; [reflexivity|]); intros p Hx; apply eval_cases in Hx; auto;
      assert (Hc : (p = 0 \/ p = 1) \/ (p = 2 \/ p = 3)) by lia; destruct Hc as [[ -> | -> ]|[ -> | -> ]]; try reflexivity; lia.
Qed.

Section Facts.
Context (pol num_in off_pts num_out off_output : Z) (weights : nd C) (x_in y_in z_in x_out y_out : nd R) (z_out : option (nd R)) (idx : option (nd Z))
    (data : option (nd C)) (output : nd C) (wavenumber norm : R) (eval_x eval_y : bool).
Context (Hpol : pol = 1 \/ pol = 4) (B : beam_sizes pol num_in off_pts num_out off_output weights x_in y_in z_in x_out y_out z_out idx data output).

Definition value (j p : Z) : C :=
  beam_sum num_in (fun i => elem weights [i]) (fun i => elem x_in [i]) (fun i => elem y_in [i]) (fun i => elem z_in [i]) wavenumber
    (elem x_out [j + off_pts]) (elem y_out [j + off_pts]) (direction_z z_out (j + off_pts)) (fun i => beam_response pol num_out idx data i j p) norm.

Definition F (j p i : Z) : C :=
  Cmul (Cmul (elem weights [i]) (cis (wavenumber * (elem x_in [i] * elem x_out [j + off_pts] + elem y_in [i] * elem y_out [j + off_pts] + elem z_in [i] * direction_z z_out (j + off_pts)))))
    (beam_response pol num_out idx data i j p).

Lemma element_ok j i o : 0 <= j < num_out -> 0 <= i < num_in ->
  exists o', element pol weights x_in y_in z_in num_out j idx data eval_x eval_y (wavenumber * elem x_out [(j + off_pts)%Z])%R (wavenumber * elem y_out [(j + off_pts)%Z])%R
      (wavenumber * direction_z z_out (j + off_pts)%Z)%R i o = Some o' /\ forall p, evaluated pol eval_x eval_y p = true -> sel o' p = Cadd (sel o p) (F j p i).
Proof.
  intros Hj Hi. destruct B as (N1 & N2 & N3 & N4 & Bw & Bx & By & Bz & Bxo & Byo & Bzo & Bi & Bo & Bd & I1 & I2). unfold element.
  rewrite (rd_least x_in num_in), (rd_least y_in num_in), (rd_least z_in num_in), (rd_least weights num_in) by assumption. cbn [bind].
  set (ph := (wavenumber * elem x_out [(j + off_pts)%Z] * elem x_in [i] + wavenumber * elem y_out [(j + off_pts)%Z] * elem y_in [i] + wavenumber * direction_z z_out (j + off_pts)%Z * elem z_in [i])%R).
  assert (Eph : ph = (wavenumber * (elem x_in [i] * elem x_out [(j + off_pts)%Z] + elem y_in [i] * elem y_out [(j + off_pts)%Z] + elem z_in [i] * direction_z z_out (j + off_pts)%Z))%R) by (unfold ph; ring).
  unfold F. rewrite <- Eph. destruct data as [d|] eqn:Ed.
  - assert (Ei : match idx with Some d => rd d [i] | None => Some i end = Some (beam_index idx i)).
    { destruct idx as [di|] eqn:E; [|reflexivity]. cbn [beam_index]. apply (rd_least di num_in); auto. }
    rewrite Ei. cbn [bind]. destruct (Bd d eq_refl i Hi) as (P0 & Pd & Pi). set (b := beam_index idx i) in *. rewrite to_int_in by nia. cbn [bind].
    apply accumulate_ok; [assumption|]. intros p Hp. rewrite (rd_least d _ _ Pd) by nia. cbn [bind beam_response]. fold b. f_equal. csolve.
  - destruct (accumulate_ok pol eval_x eval_y (fun _ => Some (Cmul (cis ph) (elem weights [i]))) (fun _ => Cmul (cis ph) (elem weights [i])) o) as (o' & E & P); auto.
    exists o'. split; [exact E|]. intros p Hx. rewrite P by assumption. cbn [beam_response]. f_equal. csolve.
Qed.

Lemma elements_ok j : 0 <= j < num_out ->
  exists o', for_ 0 num_in (element pol weights x_in y_in z_in num_out j idx data eval_x eval_y (wavenumber * elem x_out [(j + off_pts)%Z])%R (wavenumber * elem y_out [(j + off_pts)%Z])%R
      (wavenumber * direction_z z_out (j + off_pts)%Z)%R) (C0, C0, C0, C0) = Some o' /\
  forall p, evaluated pol eval_x eval_y p = true -> Cmul (sel o' p) (RtoC norm) = value j p.
Proof.
  intro Hj. destruct B as (N1 & _).
  destruct (for_inv (fun k (o : outs) => k <= num_in /\ forall p, evaluated pol eval_x eval_y p = true -> sel o p = sum Cadd C0 0 k (F j p)) 0 num_in
    (element pol weights x_in y_in z_in num_out j idx data eval_x eval_y (wavenumber * elem x_out [(j + off_pts)%Z])%R (wavenumber * elem y_out [(j + off_pts)%Z])%R
      (wavenumber * direction_z z_out (j + off_pts)%Z)%R) (C0, C0, C0, C0)) as (o & E & _ & P).
  - exact N1.
  - split; [exact N1|]. intros p _. rewrite sum_empty by lia. cbn. destruct (p =? 0), (p =? 1), (p =? 2); reflexivity.
  - intros i o Hi [_ P]. destruct (element_ok j i o Hj Hi) as (o' & E & P'). exists o'. split; [exact E|]. split; [lia|]. intros p Hx. rewrite P', P by assumption. now rewrite (sum_snoc _ _ Ccm) by lia.
  - exists o. split; [exact E|]. intros p Hx. rewrite P by assumption. unfold value, beam_sum. unfold F. csolve.
Qed.

Definition own (j : Z) (ix : list Z) : bool :=
  if pol =? 1 then idx_eqb [pol * (j + off_output)] ix
  else (eval_x && (idx_eqb [pol * (j + off_output)] ix || idx_eqb [pol * (j + off_output) + 1] ix)) ||
       (eval_y && (idx_eqb [pol * (j + off_output) + 2] ix || idx_eqb [pol * (j + off_output) + 3] ix)).
Lemma own_spec j ix : own j ix = true <-> exists p, evaluated pol eval_x eval_y p = true /\ ix = [pol * (j + off_output) + p].
Proof.
  unfold own. split.
  - destruct Hpol as [P|P]; rewrite P; cbn [Z.eqb Pos.eqb].
    + destruct (idx_eqb_spec [1 * (j + off_output)] ix) as [<-|]; [|discriminate]. intros _. exists 0. split; [reflexivity|]. f_equal. lia.
    + intro H. apply orb_prop in H. destruct H as [H|H]; apply andb_prop in H; destruct H as [Hx H]; apply orb_prop in H; destruct H as [H|H];
        (match type of H with idx_eqb ?a ?b = true => destruct (idx_eqb_spec a b) as [<-|]; [|discriminate] end).
      * exists 0. split; [exact Hx|]. f_equal. lia.
      * exists 1. split; [exact Hx|]. reflexivity.
      * exists 2. split; [exact Hx|]. reflexivity.
      * exists 3. split; [exact Hx|]. reflexivity.
  - intros (p & Hx & ->). destruct (eval_cases _ _ _ _ Hpol Hx) as [(P & ->)|(P & [([ -> | -> ] & ->)|([ -> | -> ] & ->)])]; rewrite P; cbn [Z.eqb Pos.eqb]; rewrite ?Z.add_0_r, ?idx_eqb_refl, ?orb_true_r; reflexivity.
Qed.

Lemma beam_sets n : shape output = [n] -> sets [n] (own_all 0 num_out own) (fun ix v => forall j p, 0 <= j < num_out -> evaluated pol eval_x eval_y p = true -> ix = [pol * (j + off_output) + p] -> v = value j p)
  (fun output => station_beam_dft pol wavenumber num_in weights x_in y_in z_in off_pts num_out x_out y_out z_out idx data off_output output norm eval_x eval_y).
Proof.
  intro Sn. apply sets_for. intros j Hj. destruct (elements_ok j Hj) as (o & E & P).
  destruct B as (N1 & N2 & N3 & N4 & Bw & Bx & By & Bz & Bxo & Byo & Bzo & Bi & Bo & Bd & I1 & I2). destruct Bo as (n' & Sn' & Ln). rewrite Sn in Sn'. injection Sn' as <-.
  assert (Pp : 0 < pol <= 4) by (destruct Hpol; lia).
  apply (sets_ext _ (own j) _ _ (store pol eval_x eval_y o norm (pol * (j + off_output)))); [|reflexivity|].
  - set (V := fun (ix : list Z) (v : C) => forall j' p, 0 <= j' < num_out -> evaluated pol eval_x eval_y p = true -> ix = [pol * (j' + off_output) + p] -> v = value j' p).
    assert (Q : forall p, 0 <= p < pol -> in_shape [n] [pol * (j + off_output) + p] = true) by (intros; apply in_shape_1; nia).
    assert (G : forall p, evaluated pol eval_x eval_y p = true -> V [pol * (j + off_output) + p] (Cmul (sel o p) (RtoC norm))).
    { intros p Hx j' p' Hj' Hx' K. injection K as K. pose proof (eval_range _ _ _ _ Hpol Hx). pose proof (eval_range _ _ _ _ Hpol Hx').
      assert (j' = j) by nia. subst j'. assert (p' = p) by nia. subst p'. apply P. exact Hx. }
    assert (Q0 : in_shape [n] [pol * (j + off_output)] = true) by (rewrite <- (Q 0) by lia; do 2 f_equal; lia).
    assert (G0 : evaluated pol eval_x eval_y 0 = true -> V [pol * (j + off_output)] (Cmul (sel o 0) (RtoC norm))) by (intro H; replace (pol * (j + off_output)) with (pol * (j + off_output) + 0) by lia; now apply G).
    unfold own, store. destruct o as [[[o0 o1] o2] o3]. destruct Hpol as [Ep|Ep]; rewrite Ep in *; cbn [Z.eqb Pos.eqb] in *.
    + apply sets_wr; [exact Q0|]. apply G0. reflexivity.
    + set (at_ := 4 * (j + off_output)) in *. apply (sets_seq [n] (fun ix => eval_x && (idx_eqb [at_] ix || idx_eqb [at_ + 1] ix)) (fun ix => eval_y && (idx_eqb [at_ + 2] ix || idx_eqb [at_ + 3] ix)) V
        (fun output => if eval_x then let* output := wr output [at_] (Cmul o0 (RtoC norm)) in wr output [at_ + 1] (Cmul o1 (RtoC norm)) else Some output)
        (fun output => if eval_y then let* output := wr output [at_ + 2] (Cmul o2 (RtoC norm)) in wr output [at_ + 3] (Cmul o3 (RtoC norm)) else Some output)).
      * apply sets_if. intro Ex. apply sets_seq; apply sets_wr; auto; [apply (Q 1); lia|apply (G 1); exact Ex].
      * apply sets_if. intro Ey. apply sets_seq; apply sets_wr; auto; [apply (Q 2); lia|apply (G 2); exact Ey|apply (Q 3); lia|apply (G 3); exact Ey].
  - intros st S. cbv beta. rewrite (to_int_in (j + off_pts)) by lia. cbn [bind].
    rewrite (rd_least x_out (off_pts + num_out)), (rd_least y_out (off_pts + num_out)) by (auto; lia). cbn [bind].
    assert (Ez : match z_out with Some z_out => let* z := rd z_out [j + off_pts] in Some (wavenumber * z)%R | None => Some 0%R end = Some (wavenumber * direction_z z_out (j + off_pts)%Z)%R).
    { destruct z_out as [z|] eqn:Z; cbn [direction_z]; [|f_equal; ring]. rewrite (rd_least z (off_pts + num_out)) by (auto; lia). reflexivity. }
    rewrite Ez. cbn [bind]. rewrite E. cbn [bind]. rewrite to_int_in by nia. reflexivity.
Qed.
End Facts.
