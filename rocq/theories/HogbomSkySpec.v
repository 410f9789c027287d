(** Vocabulary for the restored image of CLEAN. *)
From Coq Require Import Reals.
From Verif Require Import Base Sum CRing Hogbom.
Open Scope Z_scope.

(** An elliptical Gaussian with peak 1 and the standard deviations sx and sy along axes that are rotated by theta *)
Definition gaussian (sx sy theta X Y : R) : R :=
  exp (- ((X * cos theta + Y * sin theta) ^ 2 / (2 * sx ^ 2) + (Y * cos theta - X * sin theta) ^ 2 / (2 * sy ^ 2))).
(** The CLEAN beam that cbeam_details describes (the angle in degrees), X, Y pixels away from its centre *)
Definition beam (details : nd R) (X Y : Z) : R := gaussian (elem details [0]) (elem details [1]) (PI * elem details [2] / 180) (IZR X) (IZR Y).
(** The pixels of an array of s x s pixels around its centre, for even s *)
Definition in_beam (s X Y : Z) : bool := (- (s / 2) <=? X) && (X <? s / 2) && (- (s / 2) <=? Y) && (Y <? s / 2).
(** Sum of the beams of all components of an n x n image at the pixel (i, j), if a component at (p, q) has its beam centred at (p + d, q + d) *)
Definition beams (d n s : Z) (details : nd R) (comp : Z -> R) (i j : Z) : R :=
  sum Rplus 0%R 0 n (fun p => sum Rplus 0%R 0 n (fun q =>
    (comp (p * n + q)%Z * (if in_beam s (i - (p + d)) (j - (q + d)) then beam details (i - (p + d)) (j - (q + d)) else 0))%R)).
(** cbeam_details asks for a beam of s x s pixels *)
Definition describes (details : nd R) (s : Z) : Prop := shape details = [4] /\ elem details [0] <> 0%R /\ elem details [1] <> 0%R /\ elem details [3] = IZR s.
