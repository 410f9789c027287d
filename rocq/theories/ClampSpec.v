(** Specification vocabulary for channel selection. *)
From Verif Require Import Base Clamp.

(** Coordinate of channel [c], in wavelengths: u (f0 + c df) / c_light. *)
Definition coord (u f0 df : Q) (c : Z) : Q := (u * (f0 + inject_Z c * df) / C_0)%Q.
(** Coordinate step from one channel to the next. *)
Definition coord_step (u df : Q) : Q := (u * df / C_0)%Q.

(** The step is big enough, relative to the distance to the range, for the channel
    computation to be used (the code's guard against integer overflow). *)
Definition step_resolved (u f0 df mn mx : Q) : Prop :=
  (Qabs (mn - coord u f0 df 0) < Qabs (coord_step u df) * (2147483645 # 1))%Q /\
  (Qabs (mx - coord u f0 df 0) < Qabs (coord_step u df) * (2147483645 # 1))%Q.

(** Rows for which the selection is exact: the step is zero or resolved. *)
Definition step_ok (u f0 df mn mx : Q) : Prop :=
  (coord_step u df == 0)%Q \/ step_resolved u f0 df mn mx.

(** Half-open membership, closed at the minimum for a constant or rising coordinate and at
    the maximum for a falling one. *)
Definition in_range_directed (rising : Prop) (x mn mx : Q) : Prop :=
  (rising /\ (mn <= x)%Q /\ (x < mx)%Q) \/ (~ rising /\ (mn < x)%Q /\ (x <= mx)%Q).

(** Half-open membership as documented: minimum inclusive, maximum exclusive. *)
Definition in_range (x mn mx : Q) : Prop := (mn <= x)%Q /\ (x < mx)%Q.

Definition selected (r : Z * Z) (c : Z) : Prop := fst r <= c < snd r.

(** Number of channels in a range. *)
Definition channels (r : Z * Z) : Z := snd r - fst r.
