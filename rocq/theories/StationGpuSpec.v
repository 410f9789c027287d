(** Vocabulary for the station beam on the GPU *)
From Verif Require Import Base Cplx Mem SphericalWave.
Open Scope Z_scope.

(** An array object in GPU memory, or an empty one *)
Definition on_gpu (m : option mem) : Prop := match m with Some m => m_loc m = MEM_GPU \/ m_type m = MEM_VOID | None => False end.
Definition all_on_gpu (l : list (option mem)) : Prop := forall m, In m l -> on_gpu m.
(** The types of the arguments that are supported *)
Definition beam_types (w x bi b out : option mem) (data_idx : option (nd Z)) (data : option (nd C)) : Prop :=
  is_complex w = true /\ (data <> None -> is_complex b = true) /\ (data_idx <> None -> mtype bi = MEM_INT) /\ is_complex out = true /\ (mtype x = MEM_FLOAT \/ mtype x = MEM_DOUBLE).
(** One polarisation, or four *)
Definition beam_pols (out : option mem) : Z := if is_complex4 out then 4 else 1.
