(** What degridding with user-supplied kernels should compute. *)
From Coq Require Import QArith.
From Verif Require Import Base Mem MemSpec CRing QNum Clamp Sum Sets.
Open Scope Z_scope.

(** A position on an oversampled grid, in steps of 1/os: grid point and fraction with  point - fraction / os = size / 2 + k / os. *)
Definition point (size os k : Z) : Z := size / 2 + (k + os - 1) / os.
Definition fraction (os k : Z) : Z := (- k) mod os.
(** Coordinate i (0: u, 1: v, 2: w) of a visibility in wavelengths *)
Definition wavelengths (nb : Z) (uvw : nd Q) (f0 df : Q) (t b c i : Z) : Q := ((f0 + inject_Z c * df) / C_0 * elem uvw [pos3 nb 3 t b i])%Q.

Section Spec.
(** [rnd]: rounding to the nearest integer *)
Context (rnd : Q -> Z) {A : cring} (conj : A -> A) (ks wks xs ys zs nt nb nc np os osw : Z) (grid : nd A) (uvw : nd Q) (uvk wk : nd A) (theta wstep f0 df : Q) (conjugate : bool).
Notation coord := (wavelengths nb uvw f0 df).
(** Positions in steps of the oversampled kernels *)
Definition steps_x (t b c : Z) : Z := rnd (theta * coord t b c 0%Z * inject_Z os).
Definition steps_y (t b c : Z) : Z := rnd (theta * coord t b c 1%Z * inject_Z os).
Definition steps_z (t b c : Z) : Z := rnd ((1 + coord t b c 2%Z / wstep) * inject_Z osw).
(** Grid points; both axes are centred at x_size / 2. *)
Definition gx (t b c : Z) : Z := point xs os (steps_x t b c).
Definition gy (t b c : Z) : Z := point xs os (steps_y t b c).
(** The support of the kernel is inside the grid. *)
Definition inside (t b c : Z) : bool :=
  (ks / 2 <? gx t b c) && (gx t b c <? xs - ks / 2) && (ks / 2 <? gy t b c) && (gy t b c <? ys - ks / 2).
(** Value of kernel row f at x; value of the grid *)
Definition kernel (k : nd A) (size f x : Z) : A := elem k [size * f + x].
Definition grid_value (c z y x p : Z) : A := elem grid [np * (xs * (ys * (zs * c + z) + y) + x) + p].
(** Kernel-weighted sum of the grid around the visibility *)
Definition interpolate (t b c p : Z) : A :=
  rsum 0 wks (fun z => kernel wk wks (fraction osw (steps_z t b c)) z *
    rsum 0 ks (fun y => kernel uvk ks (fraction os (steps_y t b c)) y *
      rsum 0 ks (fun x => kernel uvk ks (fraction os (steps_x t b c)) x *
        grid_value c z (gy t b c + y - ks / 2)%Z (gx t b c + x - ks / 2)%Z p)))%cr.
Definition degridded (t b c p : Z) : A := if conjugate then conj (interpolate t b c p) else interpolate t b c p.
Definition vis_at (vis : nd A) (t b c p : Z) : A := elem vis [pos4 nb nc np t b c p].

Definition in_int (z : Z) : Prop := -2147483648 <= z <= 2147483647.
(** Positions that int variables can hold and that are not below the first step of the w kernel *)
Definition positions_ok : Prop := forall t b c, 0 <= t < nt -> 0 <= b < nb -> 0 <= c < nc ->
  (forall k, k = steps_x t b c \/ k = steps_y t b c -> in_int k /\ in_int (k + (xs / 2 + 1) * os - 1)) /\
  in_int (steps_z t b c) /\ in_int (steps_z t b c + osw) /\ 1 - osw <= steps_z t b c.

(** Geometry: kernels of at least one row that are not deeper than the grid, sizes below 2^31 *)
Record geometry : Prop := mk_geometry {
  g_sizes : 0 <= nt /\ 0 <= nb /\ 0 <= nc /\ 0 <= np /\ 0 <= xs /\ 0 <= ys /\ 0 <= ks;
  g_os : 1 <= os /\ 1 <= osw; g_depth : 0 <= wks <= zs; g_step : ~ (wstep == 0)%Q;
  g_int : 2 * ks * os <= 2147483647 /\ wks * osw <= 2147483647 /\ ks <= 2147483647 /\ wks <= 2147483647 /\ os <= 2147483647 /\ osw <= 2147483647 }.
End Spec.

(** Arrays with their contents.  Kernels have one row per oversampling step. *)
Record fits {A : Type} (grid uvw uv_kernel w_kernel vis : mem) (grid_d : nd A) (uvw_d : nd Q) (uvk_d wk_d vis_d : nd A) (ks wks nt nb nc np os osw : Z) : Prop := mk_fits {
  f_wf : mem_wf grid /\ mem_wf uvw /\ mem_wf uv_kernel /\ mem_wf w_kernel /\ mem_wf vis;
  f_vis : m_shape vis = [nt; nb; nc; np]; f_uvk : m_shape uv_kernel = [os; ks]; f_wk : m_shape w_kernel = [osw; wks];
  f_grid_d : shape grid_d = [product (m_shape grid)]; f_uvw_d : shape uvw_d = [product (m_shape uvw)];
  f_uvk_d : shape uvk_d = [os * ks]; f_wk_d : shape wk_d = [osw * wks]; f_vis_d : shape vis_d = [nt * nb * nc * np] }.
