(** Specification vocabulary for lists of sources made from images. *)
From Verif Require Import Base Sum CRing Cplx GridUtils Flmn.
Open Scope Z_scope.

(** Coordinate of pixel [i] of [size] across a field of view [theta]; zero at pixel size/2. *)
Definition pixel_coord (i size : Z) (theta : R) : R := (IZR (i - size / 2) * theta / IZR size)%R.

(** Entry [k] of the source list describes pixel (il, im) with the given flux. *)
Definition source_is (flux lmn : nd R) (theta hu hv : R) (n m k il im : Z) (f : R) : Prop :=
  elem flux [k] = f /\ elem lmn [k; 0] = pixel_coord il n theta /\ elem lmn [k; 1] = pixel_coord im m theta /\
  elem lmn [k; 2] = lm_to_n (pixel_coord il n theta) (pixel_coord im m theta) hu hv.

(** 1 for a non-zero pixel; their number in row [x], before pixel (il, im) in row-major order,
    and in the whole n x m image. *)
Notation zs := (sum Z.add 0).
Definition nz (image : nd C) (x y : Z) : Z := if nonzero (elem image [x; y]) then 1 else 0.
Definition rowsum image m x := zs 0 m (nz image x).
Definition rank image m il im := zs 0 il (rowsum image m) + zs 0 im (nz image il).
Definition total image n m := zs 0 n (rowsum image m).
