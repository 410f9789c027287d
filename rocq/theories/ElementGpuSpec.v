(** Vocabulary for the operations on single elements of arrays in GPU memory. *)
From Coq Require Import Reals.
From Verif Require Import Base Mem Cplx GridUtils.
Open Scope Z_scope.

(** Arrays for which the grid of blocks of [ty] (and [tz]) threads in the second (and third) dimension exists: CUDA limits the number of blocks to 65535 there *)
Definition fits (ty n m : Z) : Prop := 1 <= n /\ 1 <= m <= 65535 * ty.
Definition fits3 (ty tz n m l : Z) : Prop := 1 <= n /\ 1 <= m <= 65535 * ty /\ 1 <= l <= 65535 * tz.
(** Types whose elements can be set *)
Definition element_type (ty : Z) : Prop := ty = MEM_COMPLEX_DOUBLE \/ ty = MEM_COMPLEX_FLOAT \/ ty = MEM_DOUBLE \/ ty = MEM_FLOAT \/ ty = MEM_INT.
Definition float_type (ty : Z) : Prop := ty = MEM_COMPLEX_DOUBLE \/ ty = MEM_COMPLEX_FLOAT \/ ty = MEM_DOUBLE \/ ty = MEM_FLOAT.
(** The call ended with [st'] and [r]: either every element of the array was changed as [val] says and no other memory, or an error was reported and nothing was changed. *)
Definition changed (x r : nd C) (val : list Z -> C -> C) : Prop := shape r = shape x /\ forall idx, elem r idx = if in_shape (shape x) idx then val idx (elem x idx) else elem x idx.
Definition all_or_nothing (ok : Prop) (x : nd C) (val : list Z -> C -> C) (st' : error) (r : nd C) : Prop :=
  (ok -> st' = SUCCESS /\ changed x r val) /\ (~ ok -> st' = ERR_RUNTIME /\ r = x).
(** Arrays for which the grid of threads of sdp_fft_phase exists: rows and columns get their own shape of blocks *)
Definition phase_fits (n m : Z) : Prop := 1 <= n /\ 1 <= m /\ (n = 1 -> m <= 16776960) /\ (n <> 1 -> m <= 524280).
(** [m] describes [n] elements in contiguous GPU memory, of the type [ty]. *)
Definition contiguous (m : option mem) (ty n : Z) : Prop :=
  match m with Some m => m_type m = ty /\ m_loc m = MEM_GPU /\ m_contig m = true /\ m_data m <> None /\ m_num_elements m = n | None => False end.
(** The factor of the correction of w-stacking for pixel (i, j) of a facet of n x m pixels *)
Definition w_factor (image_size : Z) (theta w_step hu hv : R) (n m off_l off_m w_offset : Z) (inverse : bool) (i j : Z) : C :=
  let l := (IZR (i - n / 2 + off_l) * theta / IZR image_size)%R in
  let mm := (IZR (j - m / 2 + off_m) * theta / IZR image_size)%R in
  let phase := (2 * PI * w_step * lm_to_n l mm hu hv * IZR w_offset)%R in
  cis (if inverse then phase else - phase)%R.
(** The factor of the correction for the gridding kernel *)
Definition pswf_factor (image_size : Z) (theta hu hv : R) (pswf : nd R) (pn : R -> R) (n m off_l off_m i j : Z) : R :=
  let l := (IZR (i - n / 2 + off_l) * theta / IZR image_size)%R in
  let mm := (IZR (j - m / 2 + off_m) * theta / IZR image_size)%R in
  (1 / (elem pswf [(i - n / 2 + off_l + image_size / 2)%Z] * elem pswf [(j - m / 2 + off_m + image_size / 2)%Z] * pn (lm_to_n l mm hu hv)))%R.
