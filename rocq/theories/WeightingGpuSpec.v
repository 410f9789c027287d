(** Sizes that the kernels for weighting, which compute in int, can handle. *)
From Coq Require Import QArith.
From Verif Require Import Base Mem WeightingSpec.
Open Scope Z_scope.
(** No array has more than 2^31 elements, and no coordinate a cell outside of the range of int. *)
Definition int_sized (nt nb nc np gs : Z) (uvw freq : nd Q) (max : Q) : Prop :=
  nt <= 2147483647 /\ nb <= 2147483647 /\ nc <= 2147483647 /\ 1 <= np <= 2147483647 /\ gs <= 2147483647 /\
  nt * nb * 3 <= 2147483648 /\ nt * nb * nc * np <= 2147483648 /\ gs * gs * np <= 2147483648 /\
  forall t b c, 0 <= t < nt -> 0 <= b < nb -> 0 <= c < nc -> cell_u nb gs uvw freq max t b c <= 2147483647 /\ cell_v nb gs uvw freq max t b c <= 2147483647.
(** All arrays are in GPU memory. *)
Definition all_gpu (ms : list mem) : Prop := Forall (fun m => m_loc m = MEM_GPU) ms.
