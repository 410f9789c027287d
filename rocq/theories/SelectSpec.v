(** Specification vocabulary for coordinate bounds and the selection per sub-grid. *)
From Verif Require Import Base Clamp ClampSpec Select.

(** [m] is the least / greatest element of the set [P]; None for an empty set. *)
Definition is_min (P : Q -> Prop) (m : option Q) : Prop :=
  match m with
  | None => forall x, ~ P x
  | Some m => (exists x, P x /\ (x == m)%Q) /\ forall x, P x -> (m <= x)%Q
  end.
Definition is_max (P : Q -> Prop) (m : option Q) : Prop :=
  match m with
  | None => forall x, ~ P x
  | Some m => (exists x, P x /\ (x == m)%Q) /\ forall x, P x -> (x <= m)%Q
  end.
(** Coordinates in dimension [j] of all selected channels of the rows below [k]. *)
Definition coords (uvw : nd Q) (f0 df : Q) (s_in e_in : nd Z) (j k : Z) (x : Q) : Prop :=
  exists i c, 0 <= i < k /\ elem s_in [i] <= c < elem e_in [i] /\ x = coord (elem uvw [i; j]) f0 df c.

(** Conditions on one row: cells resolve it and contain its coordinates. *)
Definition row_fits (u f0 df d : Q) (s e lo hi : Z) : Prop :=
  (forall i, lo <= i <= hi -> step_ok u f0 df (cell_min d i) (cell_max d i)) /\
  (forall c, s <= c < e -> in_range_directed (0 <= coord_step u df)%Q (coord u f0 df c) (cell_min d lo) (cell_max d hi)).

