(** Facts about the checks and the memory of plan creation *)
From Coq Require Import Reals QArith Lia.
From Verif Require Import Base Mem MemFacts Clamp EsParams EsPlan EsBuffers EsBuffersSpec.
Open Scope Z_scope.

Lemma contig_iff m : is_c_contiguous m = true <-> exists x, m = Some x /\ m_contig x = true /\ m_data x <> None.
Proof.
  unfold is_c_contiguous, has_data. destruct m as [x|]; [|split; [discriminate|intros (? & ? & _); discriminate]]. split.
  - intro H. exists x. split; [reflexivity|]. destruct (m_data x); [|discriminate]. split; [exact H|discriminate].
  - intros (y & E & C & D). injection E as <-. destruct (m_data x); [exact C|congruence].
Qed.
Lemma array_iff m ty loc : array_of m ty loc <-> mtype m = ty /\ location m = loc /\ is_c_contiguous m = true.
Proof.
  rewrite contig_iff. split.
  - intros (x & -> & T & L & C & D). cbn. repeat split; auto. now exists x.
  - intros (T & L & x & -> & C & D). exists x. cbn in T, L. auto.
Qed.
Lemma ro_iff m : is_c_contiguous m = true -> is_read_only m = false <-> writable m.
Proof.
  intro C. apply contig_iff in C. destruct C as (x & -> & _ & D). unfold is_read_only, writable, has_data. destruct (m_data x); [|congruence]. cbn. split; [eauto|intros (y & E & R); now injection E as <-].
Qed.
Lemma complex_iff m : is_c_contiguous m = true -> is_complex m = (Z.land (mtype m) MEM_COMPLEX =? MEM_COMPLEX).
Proof. intro C. apply contig_iff in C. destruct C as (x & -> & _ & D). unfold is_complex, has_data. destruct (m_data x); [|congruence]. reflexivity. Qed.

Definition uvw_type_ok (dbl : bool) (ty : Z) : Prop := if dbl then ty = MEM_DOUBLE else ty <> MEM_DOUBLE /\ Z.land ty MEM_COMPLEX <> MEM_COMPLEX.

Lemma accepts uvw freq vis weight dirty deg :
  check_buffers uvw freq vis weight dirty deg SUCCESS = SUCCESS <->
  exists dbl, uvw_type_ok dbl (mtype uvw) /\ buffers_fit (mtype uvw) dbl uvw freq vis weight dirty /\ writable (if deg then vis else dirty).
Proof.
  split.
  - unfold check_buffers. cbv zeta. intro H. repeat match type of H with (if ?b then _ else _) = SUCCESS => destruct b eqn:?; [discriminate|] end.
    repeat match goal with H : _ || _ = false |- _ => apply orb_false_iff in H; destruct H | H : negb _ = false |- _ => apply negb_false_iff in H | H : (_ =? _) = true |- _ => apply Z.eqb_eq in H end.
    assert (W : writable (if deg then vis else dirty)).
    { destruct deg; [destruct (is_read_only vis) eqn:R|destruct (is_read_only dirty) eqn:R]; try discriminate; now apply ro_iff in R. }
    assert (Cu : is_c_contiguous uvw = true) by assumption. assert (Iu : is_complex uvw = false) by assumption. assert (Cx := complex_iff uvw Cu). rewrite Iu in Cx. symmetry in Cx. apply Z.eqb_neq in Cx.
    destruct (mtype uvw =? MEM_DOUBLE) eqn:D.
    all: repeat match goal with H : _ || _ = false |- _ => apply orb_false_iff in H; destruct H | H : negb _ = false |- _ => apply negb_false_iff in H | H : (_ =? _) = true |- _ => apply Z.eqb_eq in H end.
    + exists true. split; [assumption|]. split; [|exact W]. exists (location uvw). cbv zeta. rewrite !array_iff. repeat split; auto.
    + apply Z.eqb_neq in D. exists false. split; [split; assumption|]. split; [|exact W]. exists (location uvw). cbv zeta. rewrite !array_iff. repeat split; auto.
  - intros (dbl & U & (loc & A) & W). cbv zeta in A. rewrite !array_iff in A.
    destruct A as ((_ & Lu & Cu) & (Tf & Lf & Cf) & (Tv & Lv & Cv) & (Tw & Lw & Cw) & (Td & Ld & Cd) & S1 & S2 & S3 & S4 & S5 & S6).
    unfold check_buffers. cbv zeta. rewrite Lu, Lf, Lv, Lw, Ld, Z.eqb_refl. cbn [negb orb].
    rewrite !complex_iff by assumption. rewrite Tf, Tv, Tw, Td, S1, S2, S3, S4, S5, S6, !Z.eqb_refl, Cu, Cf, Cv, Cw, Cd. cbn [negb orb].
    assert (R : (if deg then if is_read_only vis then ERR_INVALID_ARGUMENT else SUCCESS else if is_read_only dirty then ERR_INVALID_ARGUMENT else SUCCESS) = SUCCESS).
    { destruct deg; [apply (ro_iff vis Cv) in W|apply (ro_iff dirty Cd) in W]; now rewrite W. }
    destruct dbl; cbn [uvw_type_ok] in U.
    + rewrite U. exact R.
    + destruct U as [U1 U2]. apply Z.eqb_neq in U1, U2. rewrite U1, U2. exact R.
Qed.

Lemma complex_iff2 m : present m -> is_complex m = true <-> complex_type m.
Proof. intros (x & -> & D). unfold is_complex, complex_type, has_data. destruct (m_data x); [|congruence]. cbn [andb mtype]. apply Z.eqb_eq. Qed.
Lemma complex_iff3 m : present m -> is_complex m = false <-> ~ complex_type m.
Proof. intro P. rewrite <- (complex_iff2 m P). destruct (is_complex m); split; (discriminate || congruence || auto). Qed.
Lemma type_code uvw freq vis weight dirty deg : present uvw -> present freq -> present vis -> present weight -> present dirty ->
  location freq = location uvw -> location vis = location uvw -> location weight = location uvw -> location dirty = location uvw ->
  check_buffers uvw freq vis weight dirty deg SUCCESS = ERR_DATA_TYPE <->
  ~ kinds_fit uvw freq vis weight dirty \/ (kinds_fit uvw freq vis weight dirty /\ sizes_fit uvw freq vis weight dirty /\ ~ precisions_fit uvw freq vis weight dirty).
Proof.
  intros Pu Pf Pv Pw Pd Lf Lv Lw Ld. unfold check_buffers. cbv zeta. rewrite Lf, Lv, Lw, Ld, Z.eqb_refl. cbn [negb orb].
  unfold kinds_fit. rewrite <- (complex_iff3 uvw Pu), <- (complex_iff3 freq Pf), <- (complex_iff2 vis Pv), <- (complex_iff3 weight Pw), <- (complex_iff3 dirty Pd).
  destruct (is_complex uvw); [split; [intros _; left; intuition discriminate|reflexivity]|]. destruct (is_complex freq); [split; [intros _; left; intuition discriminate|reflexivity]|].
  destruct (is_complex vis); cbn [negb]; [|split; [intros _; left; intuition discriminate|reflexivity]]. destruct (is_complex weight); [split; [intros _; left; intuition discriminate|reflexivity]|].
  destruct (is_complex dirty); [split; [intros _; left; intuition discriminate|reflexivity]|].
  assert (Bad : forall P : Prop, ~ sizes_fit uvw freq vis weight dirty -> ERR_INVALID_ARGUMENT = ERR_DATA_TYPE <-> ~ (false = false /\ false = false /\ true = true /\ false = false /\ false = false) \/ P /\ sizes_fit uvw freq vis weight dirty /\ ~ precisions_fit uvw freq vis weight dirty).
  { intros P N. split; [discriminate|]. intros [X|X]; [exfalso; apply X; auto|tauto]. }
  destruct (shape_dim uvw 0 =? shape_dim vis 0) eqn:S1; cbn [negb]; [|apply Z.eqb_neq in S1; apply Bad; unfold sizes_fit; tauto]. destruct (shape_dim uvw 1 =? 3) eqn:S2; cbn [negb]; [|apply Z.eqb_neq in S2; apply Bad; unfold sizes_fit; tauto].
  destruct (shape_dim freq 0 =? shape_dim vis 1) eqn:S3; cbn [negb]; [|apply Z.eqb_neq in S3; apply Bad; unfold sizes_fit; tauto]. destruct (shape_dim weight 0 =? shape_dim vis 0) eqn:S4; cbn [negb orb]; [|apply Z.eqb_neq in S4; apply Bad; unfold sizes_fit; tauto].
  destruct (shape_dim weight 1 =? shape_dim vis 1) eqn:S5; cbn [negb orb]; [|apply Z.eqb_neq in S5; apply Bad; unfold sizes_fit; tauto]. destruct (shape_dim dirty 0 =? shape_dim dirty 1) eqn:S6; cbn [negb]; [|apply Z.eqb_neq in S6; apply Bad; unfold sizes_fit; tauto].
  clear Bad. apply Z.eqb_eq in S1, S2, S3, S4, S5, S6.
  match goal with |- (if ?b then _ else ?r) = _ <-> _ => assert (B : b = true <-> ~ precisions_fit uvw freq vis weight dirty); [|assert (Rn : r <> ERR_DATA_TYPE); [|destruct b]] end.
  - unfold precisions_fit. destruct (Z.eqb_spec (mtype uvw) MEM_DOUBLE) as [E|E].
    + rewrite !orb_true_iff, !negb_true_iff, !Z.eqb_neq. split; [intros [[[H|H]|H]|H]; intuition|]. intro H. destruct (Z.eq_dec (mtype freq) MEM_DOUBLE), (Z.eq_dec (mtype vis) MEM_COMPLEX_DOUBLE), (Z.eq_dec (mtype weight) MEM_DOUBLE), (Z.eq_dec (mtype dirty) MEM_DOUBLE); intuition.
    + rewrite !orb_true_iff, !negb_true_iff, !Z.eqb_neq. split; [intros [[[H|H]|H]|H]; intuition|]. intro H. destruct (Z.eq_dec (mtype freq) MEM_FLOAT), (Z.eq_dec (mtype vis) MEM_COMPLEX_FLOAT), (Z.eq_dec (mtype weight) MEM_FLOAT), (Z.eq_dec (mtype dirty) MEM_FLOAT); intuition.
  - repeat match goal with |- (if ?b then _ else _) <> _ => destruct b end; discriminate.
  - split; [intros _; right; split; [auto|]; split; [repeat split; assumption|now apply B]|reflexivity].
  - split; [intro X; now apply Rn in X|]. intros [X|(_ & _ & X)]; [exfalso; apply X; auto|]. apply B in X. discriminate.
Qed.

Lemma codes uvw freq vis weight dirty deg st : let r := check_buffers uvw freq vis weight dirty deg st in
  (r = st \/ r = ERR_MEM_LOCATION \/ r = ERR_DATA_TYPE \/ r = ERR_INVALID_ARGUMENT) /\
  (~ (location freq = location uvw /\ location vis = location uvw /\ location weight = location uvw /\ location dirty = location uvw) -> r = ERR_MEM_LOCATION) /\
  (st <> ERR_MEM_LOCATION -> r = ERR_MEM_LOCATION -> ~ (location freq = location uvw /\ location vis = location uvw /\ location weight = location uvw /\ location dirty = location uvw)).
Proof.
  cbv zeta. unfold check_buffers. cbv zeta. destruct (_ || negb (location uvw =? location dirty)) eqn:L.
  - split; [auto|]. split; [auto|]. intros _ _ (A & B & C & D). rewrite A, B, C, D, Z.eqb_refl in L. discriminate.
  - repeat match goal with H : _ || _ = false |- _ => apply orb_false_iff in H; destruct H | H : negb _ = false |- _ => apply negb_false_iff in H | H : (_ =? _) = true |- _ => apply Z.eqb_eq in H end.
    repeat match goal with |- context [if ?b then ERR_DATA_TYPE else _] => destruct b; [split; [auto|]; split; [intro X; exfalso; apply X; auto|discriminate]|]
      | |- context [if ?b then ERR_INVALID_ARGUMENT else _] => destruct b; [split; [auto|]; split; [intro X; exfalso; apply X; auto|discriminate]|] | |- context [if deg then _ else _] => destruct deg end.
    all: split; [auto|]; split; [intro X; exfalso; apply X; auto|intros N E; congruence].
Qed.
Lemma check_keeps uvw freq vis weight dirty deg st : check_buffers uvw freq vis weight dirty deg SUCCESS = SUCCESS -> check_buffers uvw freq vis weight dirty deg st = st.
Proof.
  unfold check_buffers. cbv zeta. intro H. repeat match type of H with (if ?b then _ else _) = SUCCESS => destruct b; [discriminate|] end.
  destruct deg; [destruct (is_read_only vis)|destruct (is_read_only dirty)]; congruence.
Qed.
