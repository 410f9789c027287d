(** What the choice of gridding parameters should satisfy *)
From Coq Require Import QArith Qround.
From Verif Require Import Base GoodSizeSpec EsParams.
Open Scope Z_scope.

Definition max_support (double : bool) : Z := if double then 16 else 8.
(** A kernel of the table that meets the request *)
Definition acceptable (epsilon : Q) (double : bool) (r : row) : Prop :=
  In r KernelDB /\ k_support r <= max_support double /\ (k_epsilon r <= epsilon)%Q /\ (k_corr r <= 10)%Q.
(** The last, most accurate kernel of the table, used when no other one fits *)
Definition last_row : row := mk_row 16 (200 # 100) (50563492 # 10000000000000000000000) (22621631913 # 10000000000) (842695 # 100000).
Definition candidate (epsilon : Q) (double : bool) (r : row) : Prop := acceptable epsilon double r \/ r = last_row.
(** Grid size for an image: twice the least number without prime factors above 11 that is greater than half the oversampled image size *)
Definition grid_size_for (image_size : Z) (r : row) (g : Z) : Prop := exists h, least_smooth (Qfloor (inject_Z image_size * k_os r * (1 # 2)) + 1) h /\ g = 2 * h.
