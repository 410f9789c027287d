(** Property theorems C17-C18: the parallel task pool of the w-stacking (de)gridder.
    [pool_steps init s n]: state [s] is reached after [n] steps of any threads in any order. *)
From Verif Require Import Base BaseFacts TaskPool TaskPoolSpec TaskPoolFacts.
From Coq Require Import Permutation.

(** ** C17: when all threads have stopped, every row of every sub-grid with visibilities has
    been processed exactly once, and sub-grids without visibilities not at all. *)
Theorem C17_rows_exactly_once : forall nvis rows chans nt u0 u1 v0 v1 s n iu iv r,
  (0 < nt)%nat ->
  (forall u v, 0 <= nvis u v) -> 0 <= r < rows -> u0 <= iu <= u1 -> v0 <= iv <= v1 ->
  pool_steps (pool_init (count_visibilities nvis rows chans (Z.of_nat nt) u0 u1 v0 v1) nt) s n ->
  all_done s ->
  times_covered (map piece_of (p_done s)) iu iv r = Nat.b2n (0 <? nvis iu iv).
Proof. exact exactly_once_lemma. Qed.
Print Assumptions C17_rows_exactly_once.

(** At every moment, counting work in progress as well, no row is taken twice. *)
Theorem C17_never_twice : forall nvis rows chans nt u0 u1 v0 v1 s n iu iv r,
  (forall u v, 0 <= nvis u v) -> 0 <= r < rows -> u0 <= iu <= u1 -> v0 <= iv <= v1 ->
  pool_steps (pool_init (count_visibilities nvis rows chans (Z.of_nat nt) u0 u1 v0 v1) nt) s n ->
  (times_covered (map piece_of (p_done s ++ in_work s)) iu iv r <= Nat.b2n (0 <? nvis iu iv)%Z)%nat.
Proof. exact never_twice_lemma. Qed.
Print Assumptions C17_never_twice.
Example C17_hyps : exists k,
  count_visibilities (fun u v => if u =? v then 5000 else 0) 7 1000 3 0 1 0 1 = k /\
  map tk_chunks k = [3; 0; 0; 3] /\ map tk_per k = [3; 7; 7; 3] /\
  times_covered (flat_map remaining k) 1 1 6 = 1%nat /\
  times_covered (flat_map remaining k) 1 0 6 = 0%nat.
Proof. eexists. split; [reflexivity|]. repeat split. Qed.

(** Whatever the schedule and the number of threads, the same pieces of work get done. *)
Theorem C17_schedule_independent : forall tasks n1 n2 s1 s2 k1 k2,
  (0 < n1)%nat -> (0 < n2)%nat ->
  pool_steps (pool_init tasks n1) s1 k1 -> all_done s1 ->
  pool_steps (pool_init tasks n2) s2 k2 -> all_done s2 ->
  Permutation (map piece_of (p_done s1)) (map piece_of (p_done s2)).
Proof. exact schedule_independent. Qed.
Print Assumptions C17_schedule_independent.

(** At most one thread is ever inside the shared-list critical section. *)
Theorem C17_mutual_exclusion : forall tasks n s k t u p q,
  pool_steps (pool_init tasks n) s k ->
  nth_error (p_pc s) t = Some p -> nth_error (p_pc s) u = Some q ->
  holds p = true -> holds q = true -> t = u.
Proof. exact mutex_lemma. Qed.
Print Assumptions C17_mutual_exclusion.

(** ** C18: every execution is finite (a bound fixed at the start) ... *)
Theorem C18_bounded : forall tasks nt s n,
  pool_steps (pool_init tasks nt) s n -> (n <= measure (pool_init tasks nt))%nat.
Proof. intros tasks nt s n H. pose proof (bounded_lemma _ _ _ H). lia. Qed.
Print Assumptions C18_bounded.

(** ... and never gets stuck before every worker has left its loop ... *)
Theorem C18_no_deadlock : forall tasks nt s n,
  pool_steps (pool_init tasks nt) s n -> ~ all_done s -> exists s', pool_step s s'.
Proof. exact progress_lemma. Qed.
Print Assumptions C18_no_deadlock.

(** ... at which point the number of tasks handed out is the sum of the chunk counts. *)
Theorem C18_total_tasks : forall tasks nt s n, (0 < nt)%nat ->
  Forall (fun t => 0 <= tk_chunks t) tasks ->
  pool_steps (pool_init tasks nt) s n -> all_done s ->
  Z.of_nat (length (p_done s)) = zsum (map tk_chunks tasks).
Proof. exact total_chunks_lemma. Qed.
Print Assumptions C18_total_tasks.

(** From every reachable state some continuation, and by the two theorems above every maximal
    one, ends with all workers stopped; so the final states quantified over exist. *)
Theorem C18_completes : forall tasks nt s n, pool_steps (pool_init tasks nt) s n ->
  exists s' n', pool_steps s s' n' /\ all_done s'.
Proof. exact completes_lemma. Qed.
Print Assumptions C18_completes.
Example C18_hyps : Forall (fun t => 0 <= tk_chunks t) (count_visibilities (fun u _ => u) 2 3 1 0 4001 0 0).
Proof.
  apply Forall_forall. intros t H. unfold count_visibilities in H. apply in_flat_map in H.
  destruct H as (u & Hu & H). apply in_map_iff in H. destruct H as (v & <- & Hv).
  apply in_zrange in Hu. apply task_make_facts; lia.
Qed.
