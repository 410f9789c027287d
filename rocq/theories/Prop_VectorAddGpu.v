(** C114: addition of vectors in GPU memory. *)
From Coq Require Import Lia.
From Verif Require Import Base BaseFacts Mem Gpu GpuLaunch Examples ExamplesSpec Prop_Examples VectorAddGpu VectorAddGpuSpec VectorAddGpuFacts.
Open Scope Z_scope.

(** ** C114.  Every accepted call with at least one and at most 2^32 elements stores the sums, whatever the order in which the threads run, also when an input is the output itself. *)
Theorem C114_sum_partial : forall (A : Type) (add : A -> A -> A) a_m b_m out_m a b out,
  let n := num_elements out_m in
  gpu_addable a_m b_m out_m -> has_elements a n -> has_elements b n -> shape out = [n] -> 1 <= n <= 4294967296 ->
  (exists st r, gpu_vector_add add a_m b_m out_m a b out SUCCESS st r) /\
  forall st r, gpu_vector_add add a_m b_m out_m a b out SUCCESS st r ->
    st = SUCCESS /\ shape r = [n] /\ (forall i, 0 <= i < n -> elem r [i] = add (before a out i) (before b out i)) /\ (forall idx, (forall i, 0 <= i < n -> idx <> [i]) -> elem r idx = elem out idx).
Proof. intros A add a_m b_m out_m a b out n Ok Ha Hb Ho Hn. subst n. split; [apply add_exists; auto; lia|]. intros st r. apply add_result; auto; lia. Qed.
Print Assumptions C114_sum_partial.

(** That is what the call does with the same vectors in CPU memory (here: three vectors one after the other). *)
Theorem C114_cpu : forall (A : Type) (add : A -> A -> A) a_m b_m out_m a_c b_c out_c a b out st r,
  let n := num_elements out_m in
  gpu_addable a_m b_m out_m -> shape a = [n] -> shape b = [n] -> shape out = [n] -> 1 <= n <= 4294967296 ->
  addable a_c b_c out_c -> num_elements out_c = n ->
  gpu_vector_add add a_m b_m out_m (Some a) (Some b) out SUCCESS st r ->
  let memory := mk_nd [3 * n] (fun idx => match idx with [i] => if i <? n then elem a [i] else if i <? 2 * n then elem b [i - n] else elem out [i - 2 * n] | _ => elem out idx end) in
  exists r', vector_add add a_c b_c out_c 0 n (2 * n) memory SUCCESS = Some (st, r') /\ forall i, 0 <= i < n -> elem r [i] = elem r' [2 * n + i].
Proof.
  intros A add a_m b_m out_m a_c b_c out_c a b out st r n Ok Sa Sb So Hn Ac Nc E memory. subst n. set (n := num_elements out_m) in *.
  destruct (proj2 (C114_sum_partial A add a_m b_m out_m (Some a) (Some b) out Ok Sa Sb So Hn) st r E) as (-> & _ & V & _).
  destruct (C61_vector_add add a_c b_c out_c 0 n (2 * n) memory (3 * n) Ac) as (r' & E' & V' & _); try reflexivity; rewrite ?Nc; unfold inside, same_or_apart; try lia.
  exists r'. split; [exact E'|]. rewrite Nc in V'. intros i Hi. rewrite V, V' by lia. cbn [before]. unfold memory. cbn [elem]. f_equal.
  - replace (0 + i <? n) with true by lia. f_equal.
  - replace (n + i <? n) with false by lia. replace (n + i <? 2 * n) with true by lia. f_equal. f_equal. lia.
Qed.
Print Assumptions C114_cpu.

(** Whatever else the arguments are, and after an earlier error, the output is not touched and an error is reported. *)
Theorem C114_rejects : forall (A : Type) (add : A -> A -> A) a_m b_m out_m a b out st st' r,
  location out_m = MEM_GPU -> ~ gpu_addable a_m b_m out_m \/ failed st = true -> gpu_vector_add add a_m b_m out_m a b out st st' r -> failed st' = true /\ r = out.
Proof.
  intros A add a_m b_m out_m a b out st st' r Lo H. unfold gpu_vector_add. destruct (failed st) eqn:F; [intros (-> & ->); auto|]. destruct H as [N|]; [|discriminate]. cbv zeta.
  destruct (is_read_only out_m) eqn:R; [intros (-> & ->); auto|].
  destruct (Z.eqb_spec (mtype a_m) (mtype out_m)) as [Ta|]; cbn [negb orb]; [|intros (-> & ->); auto].
  destruct (Z.eqb_spec (mtype b_m) (mtype out_m)) as [Tb|]; cbn [negb orb]; [|intros (-> & ->); auto].
  destruct (Z.eqb_spec (location a_m) (location out_m)) as [La|]; cbn [negb orb]; [|intros (-> & ->); auto].
  destruct (Z.eqb_spec (location b_m) (location out_m)) as [Lb|]; cbn [negb orb]; [|intros (-> & ->); auto].
  destruct (Z.eqb_spec (num_elements a_m) (num_elements out_m)) as [Na|]; cbn [negb orb]; [|intros (-> & ->); auto].
  destruct (Z.eqb_spec (num_elements b_m) (num_elements out_m)) as [Nb|]; cbn [negb orb]; [|intros (-> & ->); auto].
  destruct (Z.eqb_spec (mtype out_m) MEM_DOUBLE) as [D|]; [exfalso; apply N; unfold gpu_addable; intuition congruence|].
  destruct (Z.eqb_spec (mtype out_m) MEM_FLOAT) as [D|]; [exfalso; apply N; unfold gpu_addable; intuition congruence|].
  unfold GpuView.launch_view. cbn [failed]. intros (-> & ->). auto.
Qed.
Print Assumptions C114_rejects.

(** Refuted: the sums of all elements are stored.  The element of a thread is computed with 32 bits: no thread works on the elements from 2^32 on, and the call succeeds. *)
Theorem C114_wrap_refuted : forall (A : Type) (add : A -> A -> A) a_m b_m out_m a b out st r,
  let n := num_elements out_m in
  gpu_addable a_m b_m out_m -> has_elements a n -> has_elements b n -> shape out = [n] -> 4294967296 < n <= 549755813632 ->
  gpu_vector_add add a_m b_m out_m a b out SUCCESS st r -> st = SUCCESS /\ forall i, 4294967296 <= i < n -> elem r [i] = elem out [i].
Proof.
  intros A add a_m b_m out_m a b out st r n Ok Ha Hb Ho Hn E. subst n. destruct (add_wrap add a_m b_m out_m a b out Ok Ha Hb Ho ltac:(lia) st r ltac:(lia) E) as (-> & V). split; [reflexivity|]. intros i Hi. apply V. lia.
Qed.
Print Assumptions C114_wrap_refuted.
(** There are such calls. *)
Theorem C114_wrap_exists_refuted : exists a_m b_m out_m (out : nd Z) r, gpu_addable a_m b_m out_m /\ num_elements out_m = 4294967297 /\ shape out = [4294967297] /\
  gpu_vector_add Z.add a_m b_m out_m (Some (mk_nd [4294967297] (fun _ => 1))) (Some (mk_nd [4294967297] (fun _ => 1))) out SUCCESS SUCCESS r /\ elem r [4294967296] = 0.
Proof.
  set (m := Some (mk_mem MEM_FLOAT MEM_GPU true true false 1 4294967297 1 [4294967297] [4] (Some (7, 0)))). set (x := mk_nd [4294967297] (fun _ : list Z => 1)). set (o := mk_nd [4294967297] (fun _ : list Z => 0)).
  assert (Ok : gpu_addable m m m) by (repeat split; left; reflexivity).
  destruct (add_exists Z.add m m m (Some x) (Some x) o Ok eq_refl eq_refl eq_refl) as (st & r & E); [cbn; lia|].
  destruct (C114_wrap_refuted Z Z.add m m m (Some x) (Some x) o st r Ok eq_refl eq_refl eq_refl) as (-> & V); [cbn; lia|exact E|].
  exists m, m, m, o, r. split; [exact Ok|]. split; [reflexivity|]. split; [reflexivity|]. split; [exact E|]. rewrite V by (cbn; lia). reflexivity.
Qed.
Print Assumptions C114_wrap_exists_refuted.

(** Refuted: vectors without elements can be added, as in CPU memory.  No block can be launched for them, which is an error. *)
Theorem C114_empty_refuted : forall (A : Type) (add : A -> A -> A) a_m b_m out_m a b out st r,
  gpu_addable a_m b_m out_m -> num_elements out_m = 0 -> gpu_vector_add add a_m b_m out_m a b out SUCCESS st r -> st = ERR_RUNTIME /\ r = out.
Proof. intros A add a_m b_m out_m a b out st r Ok N E. apply add_launch in E; [|exact Ok|lia]. rewrite N in E. exact E. Qed.
Print Assumptions C114_empty_refuted.

Example C114_hyps : let m n := Some (mk_mem MEM_FLOAT MEM_GPU true true false 1 n 1 [n] [4] (Some (7, 0))) in
  gpu_addable (m 300) (m 300) (m 300) /\ has_elements (Some (mk_nd [300] (fun _ => 1))) 300 /\ has_elements (None : option (nd Z)) 300 /\ gpu_addable (m 0) (m 0) (m 0) /\ ~ gpu_addable (m 2) (m 3) (m 3).
Proof. cbv zeta. repeat split; try (left; reflexivity). intros (_ & _ & _ & _ & _ & _ & _ & H & _). discriminate. Qed.
