(** What read-modify-write operations should do: each in one step, in some order. *)
From Coq Require Import Permutation.
From Verif Require Import Base GpuCas.
Open Scope Z_scope.
Section Spec.
Context {L V : Type} (leqb : L -> L -> bool).
(** The operation in one step *)
Definition act (o : rmw L V) (x : V) : V := if go o x then next o x else x.
(** The operations in the order of the list, seen from location [l] *)
Definition in_order (ops : list (rmw L V)) (l : L) (x : V) : V := fold_left (fun x o => if leqb (at_ o) l then act o x else x) ops x.
(** The final memory is that of all the operations, each done exactly once, in some order *)
Definition one_at_a_time (ops : list (rmw L V)) (m m' : L -> V) : Prop := exists ord, Permutation ord ops /\ forall l, m' l = in_order ord l (m l).
End Spec.
