(** C117: threads adding to a shared array. *)
From Coq Require Import Lia Permutation.
From Verif Require Import Base BaseFacts Sum CRing Cplx Subgrid SubgridSpec WStack SharedAdd SharedAddSpec SharedAddSpec2 SharedAddFacts SharedAddFacts2.
Open Scope Z_scope.

(** ** C117.  When pieces of additions are in a critical section, or no index is touched by two threads, every execution of the threads that finishes leaves what doing the
    pieces one after another, in any order, would leave. *)
Theorem C117_no_update_lost : forall (I A : Type) (eqb : I -> I -> bool) (add : A -> A -> A) (zero : A), (forall i j, eqb i j = true <-> i = j) -> cmonoid add zero ->
  forall (locked : bool) (n k : Z) (M : I -> A) (progs : Z -> list piece) (s : state) (order : list piece),
    (locked = false -> separate n progs) -> steps eqb add locked n k (start M progs) s -> finished n s -> Permutation order (all_pieces n progs) ->
    forall i, mem s i = apply eqb add (concat order) M i.
Proof. intros I A eqb add zero EQ CM locked n k M progs s order H St F P. exact (final eqb EQ add zero CM locked n M progs k s order H St F P). Qed.
Print Assumptions C117_no_update_lost.

(** Every execution is finite, with a bound fixed at the start, and does not get stuck before all threads are done. *)
Theorem C117_bounded : forall (I A : Type) (eqb : I -> I -> bool) (add : A -> A -> A) (zero : A), (forall i j, eqb i j = true <-> i = j) -> cmonoid add zero ->
  forall (locked : bool) (n k : Z) (M : I -> A) (progs : Z -> list piece) (s : state),
    (locked = false -> separate n progs) -> steps eqb add locked n k (start M progs) s -> k <= work (all_pieces n progs).
Proof. intros I A eqb add zero EQ CM locked n k M progs s H St. exact (bounded eqb EQ add zero CM locked n M progs k s H St). Qed.
Print Assumptions C117_bounded.
Theorem C117_no_deadlock : forall (I A : Type) (eqb : I -> I -> bool) (add : A -> A -> A) (zero : A), (forall i j, eqb i j = true <-> i = j) -> cmonoid add zero ->
  forall (locked : bool) (n k : Z) (M : I -> A) (progs : Z -> list piece) (s : state),
    (locked = false -> separate n progs) -> steps eqb add locked n k (start M progs) s -> finished n s \/ exists s', step eqb add locked n s s'.
Proof. intros I A eqb add zero EQ CM locked n k M progs s H St. exact (progress eqb EQ add zero CM locked n M progs k s H St). Qed.
Print Assumptions C117_no_deadlock.

(** Gridding: threads add sub-grids to the grid in the critical section.  Whatever sub-grids [subs] each thread gets and however they interleave, the grid is the one
    obtained by adding all sub-grids one after another, in any order. *)
Theorem C117_grid : forall (A : cring) (nt k gu gv : Z) (factor : A) (grid : nd A) (subs : Z -> list (Z * Z * nd A)) (order : list (Z * Z * nd A)) (s : state),
  0 < gu -> 0 < gv -> shape grid = [gu; gv] -> (forall q, In q order -> exists su sv, shape (snd q) = [su; sv] /\ 0 <= su /\ 0 <= sv) ->
  Permutation order (concat (map subs (zrange 0 nt))) ->
  steps idx_eqb radd true nt k (start (elem grid) (fun t => map (sub_piece gu gv factor) (subs t))) s -> finished nt s ->
  exists g', each order (fun q g => subgrid_add g (fst (fst q)) (snd (fst q)) (snd q) factor) grid = Some g' /\ shape g' = [gu; gv] /\ forall x y, mem s [x; y] = elem g' [x; y].
Proof.
  intros A nt k gu gv factor grid subs order s H1 H2 Sg H P St F.
  destruct (each_add gu gv factor order H1 H2 H grid Sg) as (g' & E & S' & V). exists g'. split; [exact E|]. split; [exact S'|]. intros x y. rewrite V.
  erewrite (C117_no_update_lost _ _ idx_eqb radd r0 idx_ok (Rcm (A := A)) true nt k (elem grid) _ s (map (sub_piece gu gv factor) order)); [reflexivity|discriminate|exact St|exact F|].
  unfold all_pieces. rewrite map_concat_rows. now apply Permutation_map.
Qed.
Print Assumptions C117_grid.

(** One addition of a sub-grid: its rows are shared among threads without a critical section.  When the sub-grid is not larger than the grid, the result is that of the
    sequential loop. *)
Theorem C117_rows : forall (A : cring) (nt k gu gv su sv ou ov : Z) (factor : A) (grid sub : nd A) (rows : Z -> list Z) (s : state),
  0 < gu -> 0 < gv -> 0 <= su <= gu -> 0 <= sv -> shape grid = [gu; gv] -> shape sub = [su; sv] ->
  Permutation (concat (map rows (zrange 0 nt))) (zrange 0 su) ->
  steps idx_eqb radd false nt k (start (elem grid) (fun t => map (sub_row gu gv su sv ou ov sub factor) (rows t))) s -> finished nt s ->
  exists g', subgrid_add grid ou ov sub factor = Some g' /\ shape g' = [gu; gv] /\ forall x y, mem s [x; y] = elem g' [x; y].
Proof.
  intros A nt k gu gv su sv ou ov factor grid sub rows s H1 H2 (H3 & H3') H4 Sg Ss P St F.
  destruct (Prop_Subgrid.C29_add A grid sub gu gv su sv ou ov factor Sg Ss H1 H2 H3 H4) as (g' & E & S' & _). exists g'. split; [exact E|]. split; [exact S'|].
  intros x y. destruct (add_is_apply grid sub gu gv su sv ou ov factor g' Sg Ss H1 H2 H3 H4 E) as (_ & V). rewrite V.
  erewrite (C117_no_update_lost _ _ idx_eqb radd r0 idx_ok (Rcm (A := A)) false nt k (elem grid) _ s (sub_rows gu gv su sv ou ov sub factor)); [reflexivity| |exact St|exact F|].
  - intros _. now apply rows_separate.
  - unfold all_pieces, sub_rows. rewrite map_concat_rows. apply Permutation_map. now apply Permutation_sym.
Qed.
Print Assumptions C117_rows.

(** Without the critical section, two sub-grids that overlap can lose an addition: two threads add 1 to the same pixel, and it becomes 1. *)
Theorem C117_unlocked_refuted : exists (progs : Z -> list (@piece Z Z)) k s,
  steps Z.eqb Z.add false 2 k (start (fun _ => 0) progs) s /\ finished 2 s /\ mem s 0 = 1 /\ apply Z.eqb Z.add (concat (all_pieces 2 progs)) (fun _ => 0) 0 = 2.
Proof.
  exists (fun _ => [[(0, 1)]]). do 2 eexists. split; [|split; [|split]].
  - eapply steps_S; [eapply steps_S; [eapply steps_S; [eapply steps_S; [eapply steps_S; [eapply steps_S; [eapply steps_S; [eapply steps_S; [apply steps_0|]|]|]|]|]|]|]|].
    + eapply (s_enter _ _ false 2 _ _ _ 0); [lia|reflexivity|discriminate].
    + eapply (s_enter _ _ false 2 _ _ _ 1); [lia|reflexivity|discriminate].
    + eapply (s_load _ _ false 2 _ _ _ 0); [lia|reflexivity].
    + eapply (s_load _ _ false 2 _ _ _ 1); [lia|reflexivity].
    + eapply (s_store _ _ false 2 _ _ _ 0); [lia|reflexivity].
    + eapply (s_store _ _ false 2 _ _ _ 1); [lia|reflexivity].
    + eapply (s_leave _ _ false 2 _ _ _ 0); [lia|reflexivity].
    + eapply (s_leave _ _ false 2 _ _ _ 1); [lia|reflexivity].
  - intros t Ht. assert (t = 0 \/ t = 1) as [->| ->] by lia; reflexivity.
  - reflexivity.
  - reflexivity.
Qed.
Print Assumptions C117_unlocked_refuted.
(** Nor is a sub-grid larger than the grid safe with parallel rows: rows 0 and 1 of a 2 x 1 sub-grid on a 1 x 1 grid are the same pixel. *)
Theorem C117_large_refuted : ~ separate 2 (fun t => map (sub_row (A := Zring) 1 1 2 1 0 0 (mk_nd [2; 1] (fun _ => 1)) 1) [t]).
Proof. intro H. apply (H 0 1 [0; 0] 1 1); try lia; left; reflexivity. Qed.
Print Assumptions C117_large_refuted.

(** Two threads with two pieces each: an execution exists that finishes (in the critical section, and without it for separate indices) *)
Example C117_hyps : (forall i j : Z, (i =? j) = true <-> i = j) /\ cmonoid Z.add 0 /\ separate 2 (fun t : Z => [[(t, 1); (t, 2)]; [(t, 3)]]) /\
  exists k s, steps Z.eqb Z.add true 1 k (start (fun _ => 5) (fun _ => [[(0, 1)]])) s /\ finished 1 s /\ mem s 0 = 6.
Proof.
  split; [intros; apply Z.eqb_eq|]. split; [exact Zcm|]. split.
  - intros t u i x y _ _ N It Iu. apply N. cbn in It, Iu. destruct It as [E|[E|[E|[]]]], Iu as [E'|[E'|[E'|[]]]]; congruence.
  - do 2 eexists. split; [|split].
    + eapply steps_S; [eapply steps_S; [eapply steps_S; [eapply steps_S; [apply steps_0|]|]|]|].
      * eapply (s_enter _ _ true 1 _ _ _ 0); [lia|reflexivity|reflexivity].
      * eapply (s_load _ _ true 1 _ _ _ 0); [lia|reflexivity].
      * eapply (s_store _ _ true 1 _ _ _ 0); [lia|reflexivity].
      * eapply (s_leave _ _ true 1 _ _ _ 0); [lia|reflexivity].
    + intros t Ht. assert (t = 0) as -> by lia. reflexivity.
    + reflexivity.
Qed.
