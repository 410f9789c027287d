(** Vocabulary for calls of the gridder utilities on arrays in GPU memory. *)
From Verif Require Import Base Mem Cplx GridUtils.
Open Scope Z_scope.

(** [m] describes the array [x], in GPU memory, whose elements have the type [ty]. *)
Definition described {A} (m : option mem) (ty : Z) (x : nd A) : Prop :=
  match m with Some m => m_type m = ty /\ m_loc m = MEM_GPU /\ m_shape m = shape x /\ m_num_dims m = Z.of_nat (length (shape x)) | None => False end.
Definition writeable (m : option mem) : Prop := match m with Some m => m_ro m = false /\ m_data m <> None | None => False end.
(** Types of numbers *)
Definition complex_type (ty : Z) : Prop := ty = MEM_COMPLEX_DOUBLE \/ ty = MEM_COMPLEX_FLOAT.
Definition real_type (ty : Z) : Prop := ty = MEM_DOUBLE \/ ty = MEM_FLOAT.
(** Images of n x m pixels whose every side fits in int, and for which the grid of 16 x 16 blocks of threads exists *)
Definition side (n : Z) : Prop := 0 <= n <= 2147483647.
Definition fits16 (n m : Z) : Prop := 1 <= n /\ 1 <= m <= 1048560.
(** The number that an element of an array of type [ty] stands for *)
Definition number (ty : Z) (v : C) : C := if (ty =? MEM_COMPLEX_DOUBLE) || (ty =? MEM_COMPLEX_FLOAT) then v else RtoC (re v).
(** The power of the optional second array at a pixel *)
Definition factor (in2 : option mem) (in2_d : nd C) (e i j : Z) : C := match in2 with Some _ => Cpowz (elem in2_d [i; j]) e | None => C1 end.
(** An optional input *)
Definition optional {A} (m : option mem) (ty : Z) (sh : list Z) (x : nd A) : Prop := m <> None -> described m ty x /\ shape x = sh.
