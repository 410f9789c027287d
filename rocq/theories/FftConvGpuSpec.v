(** Specification vocabulary for the convolution on the GPU *)
From Verif Require Import Base Mem FftConv.
Open Scope Z_scope.
(** [m]: an n x n matrix of complex numbers of type [ty] in GPU memory *)
Definition gpu_square (m : option mem) (ty n : Z) : Prop :=
  match m with Some m => m_type m = ty /\ m_loc m = MEM_GPU /\ m_shape m = [n; n] /\ m_num_dims m = 2 /\ m_data m <> None | None => False end.
(** [P] is the least power of 2 that is not less than n1 + n2 - 1. *)
Definition padded_size (n1 n2 P : Z) : Prop := (exists k, 0 <= k /\ P = 2 ^ k) /\ n1 + n2 - 1 <= P /\ forall k, 0 <= k -> n1 + n2 - 1 <= 2 ^ k -> P <= 2 ^ k.
