(** C47, C70: prolate spheroidal wave functions. *)
From Verif Require Import Base BaseFacts Mem Checks Clamp QNum WHeight Pswf PswfFacts.
From Coq Require Import Lqa Lia.
Open Scope Z_scope.

(** The PSWF of a handle with parameters m, c and coefficients ck, at the number x *)
Notation pswf_at m c ck := (fun x : Q => aswfa m m c ck (fq x)).

(** C47.  For every even size the table holds 0 (or the end correction) at index 0 and the function
    value sdp_pswf_evaluate returns for 2 (j - size/2) / size at every other index, for every
    arithmetic, whatever the array held before. *)
Theorem C47_table : forall (A : arith) m c (ck : nd A) (ec : bool) (small : A) (out : mem) (data : nd A) size,
  (forall x y, (x == y)%Q -> @fq A x = fq y) ->
  (0 <= c)%Q -> (c < 364)%Q -> shape ck = [200] ->
  m_num_dims out = 1 -> m_loc out = MEM_CPU -> is_read_only (Some out) = false ->
  In (m_type out) [MEM_DOUBLE; MEM_FLOAT; MEM_COMPLEX_FLOAT; MEM_COMPLEX_DOUBLE] ->
  shape data = [size] -> size mod 2 = 0 -> 2 <= size ->
  exists t, pswf_generate (fz 0) small (pswf_at m c ck) ec (Some out) data 0 SUCCESS = Some (SUCCESS, t, None) /\
    shape t = [size] /\ elem t [0] = (if ec then small else fz 0) /\
    forall j, 1 <= j < size -> evaluate (fz 0) (pswf_at m c ck) (2 * inject_Z (j - size / 2) / inject_Z size)%Q = Some (elem t [j]).
Proof.
  intros A m c ck ec small out data size PR C1 C2 S N L R T SD Ev Hs.
  destruct (generate_ok (fz 0) small (pswf_at m c ck) ec data size SD Ev Hs) as (t & E & St & T0 & Th & V).
  { intros. now apply aswfa_ok. }
  { now apply aswfa_ok. }
  exists t. split.
  - destruct out as [ty loc cg ow ro nd_ ne rf sh sd dt]. cbn in N, L, R, T.
    destruct dt as [dt|]; [|discriminate R]. cbn in R. subst nd_ loc ro.
    destruct T as [<-|[<-|[<-|[<-|[]]]]]; (unfold pswf_generate; cbn -[generate aswfa check_and_view];
      match goal with |- context [check_and_view ?a ?b ?c ?d ?e] => let r := eval vm_compute in (snd (check_and_view a b c d e)) in
        assert (CV : snd (check_and_view a b c d e) = r) by (vm_compute; reflexivity); destruct (check_and_view a b c d e) as [vw st] end;
      cbn [snd] in CV; subst st; cbn [failed]; rewrite E; reflexivity).
  - split; [exact St|]. split; [exact T0|]. intros j Hj.
    assert (H2 : 2 * (size / 2) = size) by (rewrite (Z.div_mod size 2) at 2 by lia; lia).
    revert H2 Th V. generalize (size / 2). intros h H2 Th V. unfold evaluate.
    assert (AB : forall i, 0 <= i -> Qabs (2 * inject_Z i / inject_Z size) = (2 * inject_Z i / inject_Z size)%Q /\
                                     Qabs (2 * inject_Z (- i) / inject_Z size) = (2 * inject_Z i / inject_Z size)%Q).
    { intros i Hi. destruct size as [|p|p]; [lia| |lia]. unfold Qdiv, Qinv, Qmult, inject_Z, Qabs. cbn [Qnum Qden].
      rewrite !Z.mul_1_r. split; f_equal; lia. }
    assert (LT : forall i, 0 <= i < h -> Qltb (2 * inject_Z i / inject_Z size) 1 = true).
    { intros i Hi. apply WHeightFacts.Qltb_iff. apply Qlt_shift_div_r; [change 0%Q with (inject_Z 0); rewrite <- Zlt_Qlt; lia|].
      rewrite Qmult_1_l. change 2%Q with (inject_Z 2). rewrite <- inject_Z_mult, <- Zlt_Qlt. lia. }
    destruct (Z.lt_trichotomy j h) as [X|[->|X]].
    + replace (j - h) with (- (h - j)) by lia. destruct (AB (h - j) ltac:(lia)) as [_ ->]. rewrite LT by lia.
      destruct (V (h - j) ltac:(lia)) as [_ ->]. do 3 f_equal. lia.
    + rewrite Z.sub_diag. destruct (AB 0 ltac:(lia)) as [-> _]. rewrite LT by lia.
      rewrite (PR (2 * inject_Z 0 / inject_Z size)%Q 0%Q); [exact Th|]. change (inject_Z 0) with 0%Q. unfold Qdiv. ring.
    + destruct (AB (j - h) ltac:(lia)) as [-> _]. rewrite LT by lia.
      destruct (V (j - h) ltac:(lia)) as [-> _]. do 3 f_equal. lia.
Qed.
Print Assumptions C47_table.

Definition some_out : mem := mk_mem MEM_DOUBLE MEM_CPU true true false 1 6 1 [6] [8] (Some (1, 0)).
Example C47_hyps : (forall x y, (x == y)%Q -> @fq (exact (fun x _ => x)) x = fq y) /\ (0 <= 3 # 2)%Q /\ ((3 # 2) < 364)%Q /\
  m_num_dims some_out = 1 /\ m_loc some_out = MEM_CPU /\ is_read_only (Some some_out) = false /\
  In (m_type some_out) [MEM_DOUBLE; MEM_FLOAT; MEM_COMPLEX_FLOAT; MEM_COMPLEX_DOUBLE] /\ 6 mod 2 = 0 /\ 2 <= 6.
Proof. split; [exact Qred_complete|]. repeat split; try reflexivity; try discriminate; try lia. left. reflexivity. Qed.

(** The table is symmetric about its centre. *)
Theorem C47_symmetric : forall (A : arith) m c (ck : nd A) ec (small : A) (data t : nd A) size out r,
  (0 <= c)%Q -> (c < 364)%Q -> shape ck = [200] -> shape data = [size] -> size mod 2 = 0 -> 2 <= size ->
  pswf_generate (fz 0) small (pswf_at m c ck) ec out data 0 SUCCESS = Some (SUCCESS, t, r) ->
  forall i, 0 <= i < size / 2 -> elem t [size / 2 + i] = elem t [size / 2 - i].
Proof.
  intros A m c ck ec small data t size out r C1 C2 S SD Ev Hs.
  destruct (generate_ok (fz 0) small (pswf_at m c ck) ec data size SD Ev Hs) as (t' & E & _ & _ & _ & V).
  { intros. now apply aswfa_ok. }
  { now apply aswfa_ok. }
  unfold pswf_generate. cbn [failed]. destruct out as [out|]; [|discriminate].
  intros H i Hi. repeat match type of H with context [if ?b then _ else _] => destruct b; try discriminate end.
  destruct (check_and_view _ _ _ _ _) as [vw st]. destruct (failed st) eqn:Fs; [injection H as -> _ _; discriminate|].
  rewrite E in H. cbn [bind] in H. injection H as _ <- _.
  destruct (Z.eq_dec i 0) as [->|N]; [do 2 f_equal; lia|].
  destruct (V i ltac:(lia)) as [V1 V2]. congruence.
Qed.
Print Assumptions C47_symmetric.

(** The table kept in the handle (a null array and a size) holds the same values. *)
Theorem C47_cached : forall (A : arith) m c (ck : nd A) ec (small : A) (data : nd A) size,
  (forall x y, (x == y)%Q -> @fq A x = fq y) ->
  (0 <= c)%Q -> (c < 364)%Q -> shape ck = [200] -> size mod 2 = 0 -> 2 <= size ->
  exists t, pswf_generate (fz 0) small (pswf_at m c ck) ec None data size SUCCESS = Some (SUCCESS, data, Some t) /\
  forall (out : mem) (data' : nd A), m_num_dims out = 1 -> m_loc out = MEM_CPU -> is_read_only (Some out) = false ->
    m_type out = MEM_DOUBLE -> shape data' = [size] ->
    exists t', pswf_generate (fz 0) small (pswf_at m c ck) ec (Some out) data' 0 SUCCESS = Some (SUCCESS, t', None) /\
      forall j, 0 <= j < size -> elem t [j] = elem t' [j].
Proof.
  intros A m c ck ec small data size PR C1 C2 S Ev Hs.
  set (o := mk_mem MEM_DOUBLE MEM_CPU true true false 1 size 1 [size] [8] (Some (1, 0))).
  assert (D : exists t, generate (fz 0) small (pswf_at m c ck) ec (mk_nd [size] (fun _ => fz 0)) = Some t).
  { destruct (generate_ok (fz 0) small (pswf_at m c ck) ec (mk_nd [size] (fun _ => fz 0)) size) as (t & E & _); eauto; intros; now apply aswfa_ok. }
  destruct D as (t & Et). exists t. split.
  - unfold pswf_generate. cbn [failed]. destruct (Z.leb_spec size 0); [lia|]. rewrite Et. reflexivity.
  - intros out data' N L R T SD.
    destruct (C47_table A m c ck ec small out data' size PR C1 C2 S N L R) as (t' & E' & S' & T0' & V'); auto.
    { rewrite T. left. reflexivity. }
    destruct (C47_table A m c ck ec small o (mk_nd [size] (fun _ => fz 0)) size PR C1 C2 S) as (t1 & E1 & S1 & T01 & V1); auto.
    { left. reflexivity. }
    exists t'. split; [exact E'|]. intros j Hj.
    assert (EQ : t1 = t).
    { unfold pswf_generate in E1. cbn -[generate aswfa fz] in E1. rewrite Et in E1. cbn in E1. injection E1 as <-. reflexivity. }
    subst t1. destruct (Z.eq_dec j 0) as [->|]; [congruence|].
    specialize (V' j ltac:(lia)). specialize (V1 j ltac:(lia)). congruence.
Qed.
Print Assumptions C47_cached.

(** Any error leaves the caller's array as it was. *)
Theorem C47_error : forall (A : arith) m c (ck : nd A) ec (small : A) out (data t : nd A) size st st' r,
  pswf_generate (fz 0) small (pswf_at m c ck) ec out data size st = Some (st', t, r) -> st' <> SUCCESS -> t = data /\ r = None.
Proof.
  intros A m c ck ec small out data t size st st' r H N. unfold pswf_generate in H.
  destruct (failed st) eqn:F0; [injection H as <- <- <-; auto|].
  destruct st; try discriminate F0.
  destruct out as [out|].
  - repeat match type of H with context [if ?b then _ else _] => destruct b; [injection H as <- <- <-; auto|] end.
    destruct (check_and_view _ _ _ _ _) as [vw s2]. destruct (failed s2) eqn:Fs; [injection H as <- <- <-; auto|].
    destruct (generate _ _ _ _ _); [|discriminate]. cbn [bind] in H. injection H as <- <- <-. destruct s2; try discriminate Fs. congruence.
  - match type of H with context [if ?b then _ else _] => destruct b; [injection H as <- <- <-; auto|] end.
    destruct (generate _ _ _ _ _); [|discriminate]. cbn [bind] in H. injection H as <- <- <-. congruence.
Qed.
Print Assumptions C47_error.

(** For every odd size of at least 3 the last element is not written, and index 0 holds 0, so the
    table is neither complete nor symmetric. *)
Theorem C47_odd_refuted : forall (A : arith) m c (ck : nd A) ec (small : A) (data : nd A) size,
  (0 <= c)%Q -> (c < 364)%Q -> shape ck = [200] -> shape data = [size] -> size mod 2 = 1 -> 3 <= size ->
  forall t r, pswf_generate (fz 0) small (pswf_at m c ck) ec (Some some_out) data 0 SUCCESS = Some (SUCCESS, t, r) ->
  elem t [size - 1] = elem data [size - 1] /\ elem t [0] = fz 0.
Proof.
  intros A m c ck ec small data size C1 C2 S SD Od Hs t r H. unfold pswf_generate in H. cbn in H.
  destruct (generate _ _ _ _ _) as [t1|] eqn:E; [|discriminate]. cbn in H. injection H as <- _.
  eapply generate_odd; eauto.
Qed.
Print Assumptions C47_odd_refuted.

Example C47_odd_runs : exists (t : nd Q) r, let A := exact (fun x _ => 1%Q) in
  @pswf_generate A (@fz A 0) (@fz A 0) (fun x => aswfa (A := A) 0 0 1 (mk_nd [200] (fun i => if idx_eqb i [0] then 1%Q else 0%Q)) (@fq A x)) false
    (Some some_out) (mk_nd [3] (fun _ => 7%Q)) 0 SUCCESS = Some (SUCCESS, t, r) /\ elem t [0] = 0%Q /\ elem t [1] = 1%Q /\ elem t [2] = 7%Q.
Proof. eexists. eexists. cbv zeta. split; [reflexivity|]. split; [|split]; vm_compute; reflexivity. Qed.

(** An array of size 0 is written at index 0. *)
Theorem C47_empty_refuted : forall (A : arith) m c (ck : nd A) ec (small : A) (data : nd A),
  shape data = [0] -> pswf_generate (fz 0) small (pswf_at m c ck) ec (Some some_out) data 0 SUCCESS = None.
Proof.
  intros A m c ck ec small data S. unfold pswf_generate. cbn. unfold generate, wr. rewrite S. reflexivity.
Qed.
Print Assumptions C47_empty_refuted.

(** Raising to an integer power by squaring *)
Theorem C70_power : forall pw (b : Q) e, 0 <= e -> (@cipow (exact pw) b e == b ^ e)%Q.
Proof. exact cipow_ok. Qed.
Print Assumptions C70_power.

(** C70.  For 1e-10 <= c < 174 the coefficient computation reads no array element that was not
    written and stays inside its arrays of 200 elements: for every arithmetic, m and eigenvalue. *)
Theorem C70_create_partial : forall (A : arith) m c (cv : A) (df a d g : nd (option A)) (ck : nd A),
  (em10 <= c)%Q -> (c < 174)%Q ->
  shape df = [200] -> shape a = [200] -> shape d = [200] -> shape g = [200] -> shape ck = [200] ->
  exists ck', pswf_create m c cv df a d g ck = Some ck' /\ shape ck' = [200] /\
    forall x, exists v, aswfa m m c ck' x = Some v.
Proof.
  intros A m c cv df a d g ck C1 C2 S1 S2 S3 S4 S5.
  destruct (create_ok m c cv df a d g ck C1 C2 S1 S2 S3 S4 S5) as (ck' & E & S). exists ck'. split; [exact E|]. split; [exact S|].
  intro x. apply aswfa_ok; auto.
  - apply Qle_trans with em10; [discriminate|exact C1].
  - lra.
Qed.
Print Assumptions C70_create_partial.

Example C70_hyps : (em10 <= 3 # 2)%Q /\ ((3 # 2) < 174)%Q.
Proof. split; vm_compute; [discriminate|reflexivity]. Qed.

(** For every c >= 174 it writes past the end of its arrays. *)
Theorem C70_overflow_refuted : forall (A : arith) m c (cv : A) (df a d g : nd (option A)) (ck : nd A),
  (174 <= c)%Q -> shape a = [200] -> pswf_create m c cv df a d g ck = None.
Proof. intros. now apply create_overflow. Qed.
Print Assumptions C70_overflow_refuted.

(** For c = 0, m = 0 an element that was never written is read (no index is out of range: with the
    arrays fully written the computation finishes). *)
Theorem C70_uninitialised_refuted : let A := exact (fun x _ => x) in
  let fresh := mk_nd [200] (fun _ => @None Q) in let full := mk_nd [200] (fun _ => Some 0%Q) in
  let zero := mk_nd [200] (fun _ => 0%Q) in
  @pswf_create A 0 0 0%Q fresh fresh fresh fresh zero = None /\
  @pswf_create A 0 0 0%Q full fresh fresh fresh zero <> None.
Proof.
  cbv zeta. split; [vm_compute; reflexivity|].
  intro E. apply (f_equal (fun o => match o with Some _ => true | None => false end)) in E. vm_compute in E. discriminate.
Qed.
Print Assumptions C70_uninitialised_refuted.
