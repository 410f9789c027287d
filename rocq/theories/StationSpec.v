(** Station beams and dipole patterns *)
From Verif Require Import Base Sum CRing Cplx.
Open Scope Z_scope.

Section Beam.
Context (num_in : Z) (w : Z -> C) (x y z : Z -> R) (wavenumber X Y Zd : R) (response : Z -> C) (norm : R).
(** norm times the sum over the elements of weight * e^{i k (x X + y Y + z Z)} * response *)
Definition beam_sum : C :=
  Cmul (RtoC norm) (sum Cadd C0 0 num_in (fun i => Cmul (Cmul (w i) (cis (wavenumber * (x i * X + y i * Y + z i * Zd)))) (response i))).
End Beam.

(** The polarisations that are evaluated *)
Definition evaluated (pol : Z) (eval_x eval_y : bool) (p : Z) : bool :=
  if pol =? 1 then p =? 0 else if (p =? 0) || (p =? 1) then eval_x else ((p =? 2) || (p =? 3)) && eval_y.

(** The response of element i in direction number j, polarisation p: 1 without an element-beam array *)
Definition beam_index (idx : option (nd Z)) (i : Z) : Z := match idx with Some d => elem d [i] | None => i end.
Definition beam_response (pol num_points : Z) (idx : option (nd Z)) (data : option (nd C)) (i j p : Z) : C :=
  match data with Some d => elem d [pol * (beam_index idx i * num_points + j) + p] | None => C1 end.
Definition direction_z (z : option (nd R)) (j : Z) : R := match z with Some z => elem z [j] | None => 0%R end.

(** Cosine of the angle between direction (theta, phi) and the dipole (the x axis) *)
Definition axis_cosine (theta phi : R) : R := (sin theta * cos phi)%R.

(** One-dimensional array of at least n elements *)
Definition at_least {A} (a : nd A) (n : Z) : Prop := exists m, shape a = [m] /\ n <= m.

(** Arrays large enough for the call, and 32-bit indices *)
Definition beam_sizes (pol num_in off_pts num_out off_output : Z) (weights : nd C) (x_in y_in z_in x_out y_out : nd R) (z_out : option (nd R)) (idx : option (nd Z))
    (data : option (nd C)) (output : nd C) : Prop :=
  0 <= num_in /\ 0 <= off_pts /\ 0 <= num_out /\ 0 <= off_output /\ at_least weights num_in /\ at_least x_in num_in /\ at_least y_in num_in /\ at_least z_in num_in /\
  at_least x_out (off_pts + num_out) /\ at_least y_out (off_pts + num_out) /\ (forall z, z_out = Some z -> at_least z (off_pts + num_out)) /\
  (forall d, idx = Some d -> at_least d num_in) /\ at_least output (pol * (off_output + num_out)) /\
  (forall d, data = Some d -> forall i, 0 <= i < num_in -> 0 <= beam_index idx i /\ at_least d (pol * ((beam_index idx i + 1) * num_out)) /\
     pol * ((beam_index idx i + 1) * num_out) <= 2147483647) /\
  off_pts + num_out <= 2147483647 /\ pol * (off_output + num_out) <= 2147483647.
