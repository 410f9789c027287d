(** Directions on the sky, baselines and the frame of a phase centre. *)
From Coq Require Import Reals.
From Verif Require Import Base Mem Cplx Sets DftSpec.
Open Scope R_scope.

Record vec := V { vx : R; vy : R; vz : R }.
Definition inner (a b : vec) : R := vx a * vx b + vy a * vy b + vz a * vz b.
Definition length2 (a : vec) : R := inner a a.
Definition combine3 (x : R) (a : vec) (y : R) (b : vec) (z : R) (c : vec) : vec :=
  V (x * vx a + y * vx b + z * vx c) (x * vy a + y * vy b + z * vy c) (x * vz a + y * vz b + z * vz c).

(** Unit vectors of the frame of the phase centre (ra, dec): east, north and towards the source *)
Definition east (ra dec : R) : vec := V (- sin ra) (cos ra) 0.
Definition north (ra dec : R) : vec := V (- sin dec * cos ra) (- sin dec * sin ra) (cos dec).
Definition towards (ra dec : R) : vec := V (cos dec * cos ra) (cos dec * sin ra) (sin dec).

(** The baseline whose coordinates (u, v, w) in the frame of (ra, dec) are those of [q] *)
Definition baseline_of (ra dec : R) (q : vec) : vec :=
  combine3 (vx q) (east ra dec) (vy q) (north ra dec) (vz q) (towards ra dec).
(** Its coordinates in a frame *)
Definition coords_in (ra dec : R) (b : vec) : vec := V (inner b (east ra dec)) (inner b (north ra dec)) (inner b (towards ra dec)).

(** Row i of a table of coordinates *)
Definition row (uvw : nd R) (i : Z) : vec := V (elem uvw [3 * i + 0]%Z) (elem uvw [3 * i + 1]%Z) (elem uvw [3 * i + 2]%Z).

(** Contents of an array described by [m] *)
Definition contents {A} (m : mem) (x : nd A) : Prop :=
  shape x = [product (m_shape m)] /\ Forall (fun n => (0 <= n)%Z) (m_shape m).
(** Number of baselines (times x baselines) of a table of coordinates *)
Definition rows (m : mem) : Z := nth 0 (m_shape m) 0%Z * nth 1 (m_shape m) 0%Z.
