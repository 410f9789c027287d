(** Specification vocabulary for the memory properties (no code modelled here). *)
From Verif Require Import Base Mem.

(** Reference count after a history, starting from [r]. *)
Fixpoint balance (r : Z) (ops : list ref_op) : Z :=
  match ops with
  | [] => r
  | Inc :: ops' => balance (r + 1) ops'
  | Free :: ops' => balance (r - 1) ops'
  end.

(** A handle as produced by the library: one stride per dimension, a supported
    type, and strides that are whole numbers of elements. *)
Definition mem_wf (m : mem) : Prop :=
  length (m_shape m) = length (m_stride m) /\
  m_num_dims m = Z.of_nat (length (m_shape m)) /\ 0 < type_size (m_type m) /\
  Forall (fun s => s mod type_size (m_type m) = 0) (m_stride m).

(** Element-wise sum of two index vectors. *)
Fixpoint add_idx (a b : list Z) : list Z :=
  match a, b with x :: a', y :: b' => x + y :: add_idx a' b' | _, _ => [] end.

(** The requested block lies inside the source: every offset is in range, and in the
    trailing (kept) dimensions offset + size does not exceed the source size. *)
Definition slice_fits (offs ssh sh : list Z) : Prop :=
  length offs = length sh /\ (length ssh <= length sh)%nat /\
  (forall k, (k < length sh)%nat -> 0 <= nth k offs 0 < nth k sh 0) /\
  (forall k, (k < length ssh)%nat ->
     nth (length sh - length ssh + k) offs 0 + nth k ssh 0 <= nth (length sh - length ssh + k) sh 0).

(** Bytes of element [idx] of [m]. *)
Definition elem_byte (m : mem) (idx : list Z) (b o : Z) : Prop :=
  exists p, elem_ptr m idx = Some p /\ fst p = b /\ snd p <= o < snd p + type_size (m_type m).

(** Types that sdp_mem_set_value accepts. *)
Definition supported_fill (ty : Z) : Prop :=
  ty = MEM_COMPLEX_DOUBLE \/ ty = MEM_COMPLEX_FLOAT \/ ty = MEM_DOUBLE \/ ty = MEM_FLOAT \/ ty = MEM_INT.

