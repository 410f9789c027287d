(** C81: argument checks and failure behaviour of the exponential-of-semicircle gridder *)
From Coq Require Import Reals QArith Lia.
From Verif Require Import Base Mem MemFacts Clamp EsParams EsParamsSpec EsParamsFacts EsPlan EsBuffers EsBuffersSpec EsBuffersFacts EsBuffersFacts2 Prop_EsParams.
Open Scope Z_scope.

(** Exactly these buffers are taken; the output (visibilities for degridding, else the image) is writable. *)
Theorem C81_accepts uvw freq vis weight dirty deg :
  check_buffers uvw freq vis weight dirty deg SUCCESS = SUCCESS <->
  exists dbl : bool, (if dbl then mtype uvw = MEM_DOUBLE else mtype uvw <> MEM_DOUBLE /\ Z.land (mtype uvw) MEM_COMPLEX <> MEM_COMPLEX) /\
    buffers_fit (mtype uvw) dbl uvw freq vis weight dirty /\ writable (if deg then vis else dirty).
Proof. exact (accepts uvw freq vis weight dirty deg). Qed.
Print Assumptions C81_accepts.

(** Other buffers give one of three codes, that for the memory location exactly when the locations differ. *)
Theorem C81_codes uvw freq vis weight dirty deg : let r := check_buffers uvw freq vis weight dirty deg SUCCESS in
  (r = SUCCESS \/ r = ERR_MEM_LOCATION \/ r = ERR_DATA_TYPE \/ r = ERR_INVALID_ARGUMENT) /\
  (r = ERR_MEM_LOCATION <-> ~ (location freq = location uvw /\ location vis = location uvw /\ location weight = location uvw /\ location dirty = location uvw)).
Proof. cbv zeta. destruct (codes uvw freq vis weight dirty deg SUCCESS) as (A & B & D). split; [exact A|]. split; [apply D; discriminate|exact B]. Qed.
Print Assumptions C81_codes.

(** The code for the data type is given exactly for a wrong kind of number, or for a wrong precision when the shapes fit; so the third code stands for the rest. *)
Theorem C81_type_code uvw freq vis weight dirty deg : present uvw -> present freq -> present vis -> present weight -> present dirty ->
  location freq = location uvw -> location vis = location uvw -> location weight = location uvw -> location dirty = location uvw ->
  check_buffers uvw freq vis weight dirty deg SUCCESS = ERR_DATA_TYPE <->
  ~ kinds_fit uvw freq vis weight dirty \/ (kinds_fit uvw freq vis weight dirty /\ sizes_fit uvw freq vis weight dirty /\ ~ precisions_fit uvw freq vis weight dirty).
Proof. exact (type_code uvw freq vis weight dirty deg). Qed.
Print Assumptions C81_type_code.

(** Creation, in a library without CUDA: no plan ever.  An earlier error, different pixel sizes and buffers that do not fit leave the memory alone; with fitting
    buffers the missing GPU is reported and all memory is given back. *)
Theorem C81_create plan_size vals uvw freq vis weight dirty px py epsilon h st : 0 <= shape_dim dirty 0 <= 39999 ->
  exists h' st', create_plan (fun _ => false) plan_size vals uvw freq vis weight dirty px py epsilon h st = Some (h', st', None) /\ st' <> SUCCESS /\
    (st <> SUCCESS -> h' = h /\ st' = st) /\
    (st = SUCCESS -> px <> py -> h' = h /\ st' = ERR_INVALID_ARGUMENT) /\
    (st = SUCCESS -> px = py -> check_buffers uvw freq vis weight dirty false SUCCESS <> SUCCESS -> h' = h /\ st' = check_buffers uvw freq vis weight dirty false SUCCESS) /\
    (st = SUCCESS -> px = py -> check_buffers uvw freq vis weight dirty false SUCCESS = SUCCESS -> nothing_left h h' /\ st' = ERR_MEM_LOCATION).
Proof.
  intro Hi. unfold create_plan. destruct (failed st) eqn:F.
  - assert (st <> SUCCESS) by (destruct st; [discriminate|discriminate..]). exists h, st. split; [reflexivity|]. repeat (split; [now auto|]). intros; congruence.
  - assert (st = SUCCESS) as -> by (destruct st; [reflexivity|discriminate..]). unfold check_parameters. destruct (Req_EM_T px py) as [E|N].
    2:{ cbn [failed]. exists h, ERR_INVALID_ARGUMENT. split; [reflexivity|]. split; [discriminate|]. split; [congruence|]. split; [auto|]. split; intros; congruence. }
    cbn [failed]. destruct (failed (check_buffers uvw freq vis weight dirty false SUCCESS)) eqn:C.
    { exists h, (check_buffers uvw freq vis weight dirty false SUCCESS). assert (X : check_buffers uvw freq vis weight dirty false SUCCESS <> SUCCESS) by (intro X; rewrite X in C; discriminate).
      split; [reflexivity|]. split; [exact X|]. split; [congruence|]. split; [congruence|]. split; [auto|]. intros; congruence. }
    assert (K : check_buffers uvw freq vis weight dirty false SUCCESS = SUCCESS) by (destruct (check_buffers uvw freq vis weight dirty false SUCCESS); [reflexivity|discriminate..]).
    rewrite K. assert (K' := K). apply accepts in K'. destruct K' as (dbl & _ & (loc & B) & _). cbv zeta in B. rewrite !array_iff in B. destruct B as (_ & _ & (Tv & _) & _).
    assert (Hv : 0 < type_size (mtype vis)) by (rewrite Tv; destruct dbl; reflexivity).
    unfold to_int. replace (_ && _) with true by lia. cbn [bind]. destruct (C56_entry_partial epsilon (shape_dim dirty 0) (negb (Z.land (mtype vis) MEM_DOUBLE =? 0)) ltac:(lia)) as (r & g & _ & _ & _ & -> & _). cbn [bind snd].
    destruct (plan_memory_ok plan_size vals (negb (Z.land (mtype vis) MEM_DOUBLE =? 0)) (mtype vis) (shape_dim dirty 0) g h ltac:(lia) Hv) as (h1 & ms & -> & Al & f & G & Fn & Fo). cbn [bind failed].
    assert (FH : free_handles h1 ms = Some h1).
    { clear -Al. unfold free_handles. induction Al as [|m ms [D R] _ IH]; [reflexivity|]. cbn [fold_left bind]. rewrite free_null by assumption. cbn [bind fst]. exact IH. }
    rewrite FH. cbn [bind]. destruct (grown_free _ _ _ _ _ G Fn) as (h2 & -> & _ & G2). cbn [bind]. exists h2, ERR_MEM_LOCATION. split; [reflexivity|]. split; [discriminate|]. split; [congruence|]. split; [congruence|]. split; [congruence|].
    intros _ _ _. split; [|reflexivity]. destruct G2 as (L & A & Bk & _). split; [exact L|]. split; [exact A|]. intros b Hb. specialize (Bk b Hb). destruct (b_live (h_blk h2 b)); [|reflexivity]. exfalso.
    destruct (b =? h_next h) eqn:Q; [discriminate|]. rewrite Fo in Bk by lia. discriminate.
Qed.
Print Assumptions C81_create.

(** When memory for the first table is not available, its content is written through a null pointer. *)
Theorem C81_oom_refuted oom plan_size vals uvw freq vis weight dirty px epsilon h : oom 0 = true -> 0 <= shape_dim dirty 0 <= 39999 -> check_buffers uvw freq vis weight dirty false SUCCESS = SUCCESS ->
  create_plan oom plan_size vals uvw freq vis weight dirty px px epsilon h SUCCESS = None.
Proof.
  intros O Hi K. unfold create_plan. cbn [failed]. unfold check_parameters. destruct (Req_EM_T px px); [|congruence]. cbn [failed]. rewrite K. cbn [failed].
  unfold to_int. replace (_ && _) with true by lia. cbn [bind]. destruct (C56_entry_partial epsilon (shape_dim dirty 0) (negb (Z.land (mtype vis) MEM_DOUBLE =? 0)) ltac:(lia)) as (r & g & _ & _ & _ & -> & _). cbn [bind snd].
  set (dbl := negb (Z.land (mtype vis) MEM_DOUBLE =? 0)). enough (E : plan_memory oom plan_size vals dbl (mtype vis) (shape_dim dirty 0) g h SUCCESS = None) by now rewrite E.
  unfold plan_memory. destruct (h_calloc h _) as [h1 p1]. destruct (h_calloc h1 _) as [h2 p2]. destruct (h_calloc h2 _) as [h3 p3]. destruct (h_calloc h3 _) as [h4 p4]. destruct (h_calloc h4 _) as [h5 p5].
  destruct (h_store _ _ _ _) as [h6|]; [|reflexivity]. cbn [bind]. destruct (h_store _ _ _ _) as [h7|]; [|reflexivity]. cbn [bind]. destruct (h_store _ _ _ _) as [h8|]; [|reflexivity]. cbn [bind]. destruct (h_store _ _ _ _) as [h9|]; [|reflexivity]. cbn [bind].
  rewrite O. destruct (create_oom h9 (if dbl then MEM_DOUBLE else MEM_FLOAT) 32 ltac:(lia) ltac:(destruct dbl; auto)) as (m & -> & D).
  destruct (mem_create (oom 1) _ _ _ _ _) as [[h10 m1] s1]. destruct (mem_create (oom 2) _ _ _ _ _) as [[h11 m2] s2]. destruct (mem_create (oom 3) _ _ _ _ _) as [[h12 m3] s3]. cbv zeta. unfold fill at 1. rewrite D. reflexivity.
Qed.
Print Assumptions C81_oom_refuted.

(** Execution: nothing happens after an error or without a plan; else the checks decide. *)
Theorem C81_exec have_plan px py uvw freq vis weight dirty deg st :
  (st <> SUCCESS \/ have_plan = false -> exec_checks have_plan px py uvw freq vis weight dirty deg st = st) /\
  (have_plan = true -> exec_checks have_plan px py uvw freq vis weight dirty deg SUCCESS = SUCCESS <-> px = py /\ check_buffers uvw freq vis weight dirty deg SUCCESS = SUCCESS).
Proof.
  unfold exec_checks, check_parameters. split.
  - intros [N| ->]; [replace (failed st) with true by (destruct st; [congruence|reflexivity..]); reflexivity|]. now rewrite orb_true_r.
  - intros ->. cbn [failed negb orb]. destruct (Req_EM_T px py) as [E|E]; cbn [failed]; split; auto; try (intros [? ?]; auto; congruence). discriminate.
Qed.
Print Assumptions C81_exec.

(** Degridding overwrites the image (C87_degridding), but takes a read-only one; only the location, type, shape and contiguity of the image are looked at. *)
Theorem C81_readonly_refuted uvw freq vis weight dirty st : 
  check_buffers uvw freq vis weight (Some (set_read_only dirty true)) true st = check_buffers uvw freq vis weight (Some dirty) true st.
Proof. reflexivity. Qed.
Print Assumptions C81_readonly_refuted.

Definition handle (ty : Z) (sh : list Z) : option mem := Some (fst (create_wrapper (Some (0, 0)) ty MEM_CPU sh None SUCCESS)).
(** Integer coordinates are taken with buffers of single precision, and additional dimensions are not noticed. *)
Theorem C81_type_refuted : check_buffers (handle MEM_INT [5; 3]) (handle MEM_FLOAT [4]) (handle MEM_COMPLEX_FLOAT [5; 4]) (handle MEM_FLOAT [5; 4]) (handle MEM_FLOAT [8; 8]) false SUCCESS = SUCCESS.
Proof. vm_compute. reflexivity. Qed.
Print Assumptions C81_type_refuted.
Theorem C81_rank_refuted : check_buffers (handle MEM_DOUBLE [5; 3; 2]) (handle MEM_DOUBLE [4; 6]) (handle MEM_COMPLEX_DOUBLE [5; 4; 9]) (handle MEM_DOUBLE [5; 4]) (handle MEM_DOUBLE [8; 8; 2]) false SUCCESS = SUCCESS.
Proof. vm_compute. reflexivity. Qed.
Print Assumptions C81_rank_refuted.

Example C81_hyps : check_buffers (handle MEM_DOUBLE [5; 3]) (handle MEM_DOUBLE [4]) (handle MEM_COMPLEX_DOUBLE [5; 4]) (handle MEM_DOUBLE [5; 4]) (handle MEM_DOUBLE [8; 8]) false SUCCESS = SUCCESS /\ shape_dim (handle MEM_DOUBLE [8; 8]) 0 = 8.
Proof. split; vm_compute; reflexivity. Qed.
