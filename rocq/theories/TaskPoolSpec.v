(** What the pool should hand out: independent of threads and schedule. *)
From Verif Require Import Base TaskPool.

(** The row ranges a sub-grid is split into: (iu, iv, first row, end row). *)
Definition piece := (Z * Z * Z * Z)%type.
Definition piece_of (t : task) : piece := (tk_iu t, tk_iv t, tk_start t, tk_end t).

(** Number of pieces that contain row [r] of sub-grid (iu, iv). *)
Definition times_covered (l : list piece) (iu iv r : Z) : nat :=
  length (filter (fun p => match p with (a, b, s, e) =>
                    (a =? iu) && (b =? iv) && (s <=? r) && (r <? e) end) l).

(** All threads have left their loop. *)
Definition all_done (s : pool) : Prop := Forall (fun p => p = PDone) (p_pc s).

(** Tasks being worked on right now. *)
Definition in_work (s : pool) : list task :=
  flat_map (fun p => match p with PWork k => [k] | _ => [] end) (p_pc s).

Definition zsum (l : list Z) : Z := fold_right Z.add 0 l.
