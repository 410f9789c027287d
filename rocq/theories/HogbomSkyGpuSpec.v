(** Vocabulary for the restored image of CLEAN on the GPU. *)
From Coq Require Import Reals.
From Verif Require Import Base Sum CRing HogbomSkySpec.
Open Scope Z_scope.

(** The pixels of an array of s x s pixels around the pixel (s / 2, s / 2), for even or odd s *)
Definition in_frame (s X Y : Z) : bool := (0 <=? X + s / 2) && (X + s / 2 <? s) && (0 <=? Y + s / 2) && (Y + s / 2 <? s).
(** Sum of the beams of all components of an n x n image at the pixel (i, j), if a component at (p, q) has its beam, cut to s x s pixels, centred at (p + d, q + d) *)
Definition framed_beams (d n s : Z) (details : nd R) (comp : Z -> R) (i j : Z) : R :=
  sum Rplus 0%R 0 n (fun p => sum Rplus 0%R 0 n (fun q =>
    (comp (p * n + q)%Z * (if in_frame s (i - (p + d)) (j - (q + d)) then beam details (i - (p + d)) (j - (q + d)) else 0))%R)).
