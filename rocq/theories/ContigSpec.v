(** Where the elements of an array with arbitrary strides are. *)
From Verif Require Import Base Mem.
Open Scope Z_scope.

(** An array made by the public constructor over existing memory, with default or explicit strides *)
Definition wrapped (m : mem) : Prop :=
  exists data ty loc sh stride st, 0 < type_size ty /\ sh <> [] /\ m = fst (create_wrapper data ty loc sh stride st).
(** Position of an element, in elements from the data pointer, according to the strides *)
Definition strided_pos (m : mem) (idx : list Z) : Z :=
  fold_right Z.add 0 (map (fun si => fst si / type_size (m_type m) * snd si) (combine (m_stride m) idx)).
(** Position of an element in a row-major array of the given shape *)
Fixpoint row_major (sh idx : list Z) : Z :=
  match sh, idx with _ :: sh', i :: idx' => i * product sh' + row_major sh' idx' | _, _ => 0 end.
(** The library may treat the memory as a row-major array. *)
Definition flat_ok (m : mem) : Prop := forall idx, length idx = length (m_shape m) -> strided_pos m idx = row_major (m_shape m) idx.
