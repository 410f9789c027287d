(** What timers should report, in terms of the history only (most recent call first). *)
From Verif Require Import Base Timer.

Fixpoint is_running (rev : list (Z * timer_op)) : bool :=
  match rev with
  | [] => false
  | (_, (TStart | TResume | TRestart)) :: _ => true
  | (_, (TPause | TReset)) :: _ => false
  | (_, TElapsed) :: older => is_running older
  end.

(** Time spent running, up to [until], since the last reset or start. *)
Fixpoint time_running (rev : list (Z * timer_op)) (until : Z) : Z :=
  match rev with
  | [] => 0
  | (_, TReset) :: _ => 0
  | (t, TStart) :: _ => until - t
  | (t, _) :: older => (if is_running rev then until - t else 0) + time_running older t
  end.

(** The current node after a history of pushes and pops (innermost name first). *)
Fixpoint path_of (rev : list (Z * tree_op)) : list Z :=
  match rev with
  | [] => []
  | (_, TPush n) :: older => n :: path_of older
  | (_, TPop) :: older => tl (path_of older)
  end.

(** [p] is the node [q] or one of its ancestors. *)
Definition encloses (p q : list Z) : bool := idx_eqb p (skipn (length q - length p) q).

(** Time, up to [until], during which node [p] enclosed the current node. *)
Fixpoint time_inside (p : list Z) (rev : list (Z * tree_op)) (until : Z) : Z :=
  match rev with
  | [] => 0
  | (t, _) :: older =>
      (if encloses p (path_of rev) then until - t else 0) + time_inside p older t
  end.
