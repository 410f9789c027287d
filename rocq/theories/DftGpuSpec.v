(** Sizes of visibilities that fit in a grid of threads, 128 x 2 x 2 threads per block. *)
From Verif Require Import Base Mem DftSpec.
Open Scope Z_scope.
(** Nothing is empty, and no more than 65535 blocks of two channels and of two times *)
Definition fits_grid (vis : mem) : Prop := 1 <= size vis 1 /\ 1 <= size vis 2 <= 131070 /\ 1 <= size vis 0 <= 131070.
