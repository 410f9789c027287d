(** Specification vocabulary for the w-towers drivers. *)
From Verif Require Import Base CRing Cplx Clamp ClampSpec QNum FftSpec WTower WTowerSpec.
Open Scope Z_scope.

(** Sub-grid plane seen by degridding at distance [z] (in w-steps): the centred forward transform of
    the image with the w-phase exp(-i z phi) applied. *)
Definition w_subgrid (S : Z) (phi : Z -> Z -> R) (img : Z -> Z -> C) (z : Z) (k l : Z) : C :=
  centred2 false S S (fun x y => Cmul (img x y) (cis (- (IZR z * phi x y)))) k l.

(** The pattern of the plan is a unit phasor in every pixel, with phase [phi]. *)
Definition pattern_ok (S : Z) (pattern : nd C) (phi : Z -> Z -> R) : Prop :=
  shape pattern = [S; S] /\ forall x y, 0 <= x < S -> 0 <= y < S -> elem pattern [x; y] = cis (phi x y).

(** Hermitian product of two images. *)
Definition herm2 (n m : Z) (a b : Z -> Z -> C) : C := total2 (A := Cring) n m (fun i j => Cmul (a i j) (Cconj (b i j))).

(** Rows and channel width used by the drivers: a negative row bound selects all [n] rows, and a
    zero channel width is replaced by 10 Hz. *)
Definition rows_used (n s e r0 r1 : Z) : Prop :=
  (s < 0 \/ e < 0 -> r0 = 0 /\ r1 = n) /\ (0 <= s -> 0 <= e -> r0 = s /\ r1 = e).
Definition width_used (df df' : Q) : Prop := ((df == 0)%Q -> df' = (10 # 1)%Q) /\ (~ (df == 0)%Q -> df' = df).
