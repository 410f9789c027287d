(** Vocabulary for the dipole pattern on the GPU *)
From Verif Require Import Base Mem SphericalWave.
Open Scope Z_scope.

(** The smallest multiple of 256 that is not below n *)
Definition rounded_up (n : Z) : Z := 256 * ((n + 255) / 256).
(** Directions in GPU memory, and an output of a supported type *)
Definition ready (theta phi beam : mem) : Prop :=
  m_loc theta = MEM_GPU /\ m_loc phi = MEM_GPU /\ is_complex (Some beam) = true /\ (m_type beam = MEM_COMPLEX_FLOAT \/ m_type beam = MEM_COMPLEX_DOUBLE).
