(** C117: threads adding to the visibilities without a lock. *)
From Coq Require Import Lia Lqa Permutation QArith.
From Verif Require Import Base BaseFacts Sum CRing Clamp ClampSpec Select Prop_Clamp TaskPoolSpec SharedAdd SharedAddSpec SharedAddFacts SharedAddFacts2 Prop_SharedAdd.
Open Scope Z_scope.

(** A task (cell iu, iv, rows r0 to r1) adds only to visibilities [i, c] of its rows, and of the channels selected for its sub-grid (406-413): what degridding does with the
    channel ranges it is given *)
Definition task_adds {A} (uvw : nd Q) (f0 df d : Q) (s_w e_w s_uv e_uv : nd Z) (q : TaskPoolSpec.piece) (us : list (list Z * A)) : Prop :=
  let '(iu, iv, r0, r1) := q in exists so eo,
    clamp_uv uvw f0 df s_w e_w (cell_min d iu) (cell_max d iu) (cell_min d iv) (cell_max d iv) s_uv e_uv r0 r1 = Some (so, eo) /\
    forall idx x, In (idx, x) us -> exists i c, idx = [i; c] /\ r0 <= i < r1 /\ elem so [i] <= c < elem eo [i].
(** Two tasks are of different sub-grids or have no common row (C17: so are all tasks handed out) *)
Definition distinct (p q : TaskPoolSpec.piece) : Prop :=
  let '(iu, iv, r0, r1) := p in let '(iu', iv', r0', r1') := q in iu <> iu' \/ iv <> iv' \/ r1 <= r0' \/ r1' <= r0.

Lemma cells_apart rising x d i j : (0 < d)%Q -> in_range_directed rising x (cell_min d i) (cell_max d i) -> in_range_directed rising x (cell_min d j) (cell_max d j) -> i = j.
Proof.
  intros Hd A B. unfold in_range_directed, cell_min, cell_max in *.
  assert (L : forall i j, (inject_Z i * d - d / 2 < inject_Z (j + 1) * d - d / 2)%Q -> i <= j).
  { intros a b H. assert (K : (inject_Z a * d < inject_Z (b + 1) * d)%Q) by lra. apply Qmult_lt_r in K; [|exact Hd]. rewrite <- Zlt_Qlt in K. lia. }
  destruct A as [(R & A1 & A2)|(R & A1 & A2)], B as [(R' & B1 & B2)|(R' & B1 & B2)]; try contradiction; pose proof (L i j ltac:(lra)); pose proof (L j i ltac:(lra)); lia.
Qed.

(** Degridding: the threads take tasks of different sub-grids or rows and add to the visibilities without a lock.  Every execution that finishes leaves what the tasks one after
    another, in any order, would leave. *)
Theorem C117_degrid : forall (A : cring) (nt k : Z) (vis : list Z -> A) uvw f0 df d s_w e_w s_uv e_uv n (tasks : Z -> list TaskPoolSpec.piece) (adds : TaskPoolSpec.piece -> list (list Z * A))
    (s : state) (order : list (list (list Z * A))),
  (0 < d)%Q -> shape uvw = [n; 3] -> shape s_w = [n] -> shape e_w = [n] -> shape s_uv = [n] -> shape e_uv = [n] ->
  (forall t iu iv r0 r1, 0 <= t < nt -> In (iu, iv, r0, r1) (tasks t) -> 0 <= r0 <= r1 /\ r1 <= n /\ task_adds uvw f0 df d s_w e_w s_uv e_uv (iu, iv, r0, r1) (adds (iu, iv, r0, r1)) /\
     forall i, r0 <= i < r1 -> step_ok (elem uvw [i; 0]) f0 df (cell_min d iu) (cell_max d iu) /\ step_ok (elem uvw [i; 1]) f0 df (cell_min d iv) (cell_max d iv)) ->
  (forall t u p q, 0 <= t < nt -> 0 <= u < nt -> t <> u -> In p (tasks t) -> In q (tasks u) -> distinct p q) ->
  steps idx_eqb radd false nt k (start vis (fun t => map adds (tasks t))) s -> finished nt s -> Permutation order (map adds (concat (map tasks (zrange 0 nt)))) ->
  forall i c, mem s [i; c] = apply idx_eqb radd (concat order) vis [i; c].
Proof.
  intros A nt k vis uvw f0 df d s_w e_w s_uv e_uv n tasks adds s order Hd U1 U2 U3 U4 U5 T D St F P i c.
  apply (C117_no_update_lost _ _ idx_eqb radd r0 idx_ok (Rcm (A := A)) false nt k vis (fun t => map adds (tasks t)) s order); [|exact St|exact F|unfold all_pieces; rewrite map_concat_rows; exact P].
  intros _ t u idx x y Ht Hu N It Iu.
  assert (R : forall t x, 0 <= t < nt -> In (idx, x) (concat (map adds (tasks t))) -> exists iu iv r0 r1 ii cc, In (iu, iv, r0, r1) (tasks t) /\ idx = [ii; cc] /\ r0 <= ii < r1 /\
    in_range_directed (0 <= coord_step (elem uvw [ii; 0%Z]) df)%Q (coord (elem uvw [ii; 0]) f0 df cc) (cell_min d iu) (cell_max d iu) /\
    in_range_directed (0 <= coord_step (elem uvw [ii; 1%Z]) df)%Q (coord (elem uvw [ii; 1]) f0 df cc) (cell_min d iv) (cell_max d iv)).
  { clear -T U1 U2 U3 U4 U5. intros t x Ht It. apply in_concat in It. destruct It as (us & Iu & Ix). apply in_map_iff in Iu. destruct Iu as ([[[iu iv] r0] r1] & <- & Hq).
    destruct (T t iu iv r0 r1 Ht Hq) as (B1 & B2 & (so & eo & E & V) & SO). destruct (V idx x Ix) as (ii & cc & -> & Hi & Hc).
    destruct (C19_uv_exact uvw f0 df s_w e_w (cell_min d iu) (cell_max d iu) (cell_min d iv) (cell_max d iv) s_uv e_uv n r0 r1 U1 U2 U3 U4 U5 ltac:(lia) ltac:(lia) ltac:(lia) SO) as (so' & eo' & E' & _ & _ & X & _).
    rewrite E' in E. injection E as <- <-. destruct (X ii Hi) as (_ & Y). apply Y in Hc. destruct Hc as (_ & P1 & P2). exists iu, iv, r0, r1, ii, cc. auto. }
  destruct (R t x Ht It) as (iu & iv & a0 & a1 & ii & cc & Q1 & -> & Q2 & Q3 & Q4). destruct (R u y Hu Iu) as (iu' & iv' & b0 & b1 & ii' & cc' & Q1' & E & Q2' & Q3' & Q4'). injection E as <- <-.
  pose proof (D t u _ _ Ht Hu N Q1 Q1') as DD. cbn in DD. pose proof (cells_apart _ _ _ _ _ Hd Q3 Q3'). pose proof (cells_apart _ _ _ _ _ Hd Q4 Q4'). lia.
Qed.
Print Assumptions C117_degrid.

(** Two rows of coordinates 0 and two threads, with a task for each row of the sub-grid at the centre: each adds to the one channel of its row *)
Example C117_degrid_hyps : let uvw := mk_nd [2; 3] (fun _ => 0%Q) in let ch k := mk_nd [2] (fun _ => k) in
  let task t := (0, 0, t, t + 1) in
  (forall t, 0 <= t < 2 -> task_adds uvw C_0 C_0 1 (ch 0) (ch 1) (ch 0) (ch 0) (task t) [([t; 0], 7)]) /\ (forall t u, t <> u -> distinct (task t) (task u)).
Proof.
  cbv zeta. split.
  - intros t Ht. assert (t = 0 \/ t = 1) as [->| ->] by lia.
    + do 2 eexists. split; [vm_compute; reflexivity|]. intros idx x [E|[]]. injection E as <- <-. exists 0, 0. split; [reflexivity|]. split; [lia|]. cbn. lia.
    + do 2 eexists. split; [vm_compute; reflexivity|]. intros idx x [E|[]]. injection E as <- <-. exists 1, 0. split; [reflexivity|]. split; [lia|]. cbn. lia.
  - intros t u N. cbn. lia.
Qed.
