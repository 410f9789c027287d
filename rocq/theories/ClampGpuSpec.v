(** Vocabulary for the selection of channels in GPU memory. *)
From Verif Require Import Base Mem GridUtilsGpuSpec.
Open Scope Z_scope.

(** The rows of [n] that are asked for: negative limits mean all of them. *)
Definition asked (start_row end_row n i : Z) : Prop := 0 <= i < n /\ (start_row < 0 \/ end_row < 0 \/ start_row <= i < end_row).
(** The contents of the input arrays: arrays of their own, or ([inp] = None) the outputs themselves. *)
Definition input1 (inp : option (nd Z * nd Z)) (so_d : nd Z) : nd Z := match inp with Some (si, _) => si | None => so_d end.
Definition input2 (inp : option (nd Z * nd Z)) (eo_d : nd Z) : nd Z := match inp with Some (_, ei) => ei | None => eo_d end.
(** [m] describes a vector of [n] integers in GPU memory *)
Definition ints (m : option mem) (x : nd Z) (n : Z) : Prop := described m MEM_INT x /\ shape x = [n].
