(** What threads that add to a shared array should compute. *)
From Verif Require Import Base SharedAdd.

(** The additions done one after another *)
Definition apply {I A} (eqb : I -> I -> bool) (add : A -> A -> A) (us : list (I * A)) (M : I -> A) : I -> A :=
  fold_left (fun M u => put eqb M (fst u) (add (M (fst u)) (snd u))) us M.
(** All pieces of the [n] threads *)
Definition all_pieces {I A} (n : Z) (progs : Z -> list (@piece I A)) : list (@piece I A) := concat (map progs (zrange 0 n)).
(** No index is touched by two threads *)
Definition separate {I A} (n : Z) (progs : Z -> list (@piece I A)) : Prop :=
  forall t u i x y, 0 <= t < n -> 0 <= u < n -> t <> u -> In (i, x) (concat (progs t)) -> In (i, y) (concat (progs u)) -> False.
(** Steps all pieces need: two for each addition, and two for entering and leaving each piece *)
Definition work {I A} (l : list (@piece I A)) : Z := fold_right (fun p k => 2 * Z.of_nat (length p) + 2 + k) 0 l.
