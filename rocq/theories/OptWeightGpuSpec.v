(** Specification vocabulary for optimised weighting on the GPU *)
From Verif Require Import Base Mem Checks QNum Tiled OptWeightGpu.
Open Scope Z_scope.

(** [bits] are the bits of a double whose value is [q] (zero, or a normal number: sign, 11 bits of exponent, 52 bits of fraction; IEEE 754). *)
Definition double_bits (bits : Z) (q : Q) : Prop :=
  (bits = 0 /\ (q == 0)%Q) \/
  exists (s e m : Z), (s = 0 \/ s = 1) /\ -1022 <= e <= 1023 /\ 2 ^ 52 <= m < 2 ^ 53 /\
    bits = s * 2 ^ 63 + (e + 1023) * 2 ^ 52 + (m - 2 ^ 52) /\ (q == inject_Z ((-1) ^ s * m) * Qpower 2 (e - 52))%Q.

(** A C-contiguous array in GPU memory *)
Definition array (m : option mem) (ty : Z) (sh : list Z) : Prop :=
  match m with Some m => m_type m = ty /\ m_loc m = MEM_GPU /\ m_contig m = true /\ m_shape m = sh /\ m_num_dims m = Z.of_nat (length sh) /\ m_data m <> None | None => False end.
(** The arguments that the checks accept: visibilities, coordinates and weights of matching sizes, and GPU memory for the rest *)
Definition accepted (uvw freqs vis weights : option mem) (others : list (option mem)) (nt nb nc np : Z) : Prop :=
  array vis MEM_COMPLEX_DOUBLE [nt; nb; nc; np] /\ array uvw MEM_DOUBLE [nt; nb; 3] /\ array weights MEM_DOUBLE [nt; nb; nc; np] /\ mtype freqs = MEM_DOUBLE /\
  (np = 1 \/ np = 4) /\ Forall (fun m => location m = MEM_GPU) others.
(** The number of tiles of 32 x 16 pixels *)
Definition tiles_of (grid_size : Z) : Z := ((grid_size + 31) / 32) * ((grid_size + 15) / 16).
