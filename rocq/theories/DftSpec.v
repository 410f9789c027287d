(** What the point-source DFT should compute. *)
From Coq Require Import Reals.
From Verif Require Import Base Mem Cplx FftSpec Sets.
Open Scope Z_scope.

(** Component i of direction (l, m, n) of source s *)
Definition direction (dirs : nd R) (s i : Z) : R := elem dirs [3 * s + i].
(** Flux of source s in channel c and polarisation p *)
Definition flux_of (nchan npol : Z) (flux : nd C) (s c p : Z) : C := elem flux [pos3 nchan npol s c p].
(** l u + m v + n w *)
Definition dot3 (dirs : nd R) (s : Z) (u v w : R) : R :=
  (direction dirs s 0 * u + direction dirs s 1 * v + direction dirs s 2 * w)%R.

(** Measurement equation with (u, v, w) in wavelengths, per channel *)
Definition vis00 (ncomp npol nchan nbase : Z) (dirs : nd R) (flux : nd C) (uvw : nd R) (t b c p : Z) : C :=
  let coord i := elem uvw [pos4 nbase nchan 3 t b c i] in
  csum 0 ncomp (fun s => Cmul (cis (- (2 * PI * dot3 dirs s (coord 0%Z) (coord 1%Z) (coord 2%Z)))) (flux_of nchan npol flux s c p)).

(** Measurement equation with (u, v, w) in metres and the frequency of the channel *)
Definition vis01 (ncomp npol nchan nbase : Z) (dirs : nd R) (flux : nd C) (uvw : nd R) (f0 df : R) (t b c p : Z) : C :=
  let coord i := elem uvw [pos3 nbase 3 t b i] in
  let wavelength := (299792458 / (f0 + IZR c * df))%R in
  csum 0 ncomp (fun s => Cmul (cis (- (2 * PI * (dot3 dirs s (coord 0%Z) (coord 1%Z) (coord 2%Z) / wavelength)))) (flux_of nchan npol flux s c p)).

(** Contents [x] of an array described by [m], small enough for int positions *)
Definition holds {A} (m : mem) (x : nd A) : Prop :=
  shape x = [product (m_shape m)] /\ Forall (fun n => 0 <= n <= 2147483647) (m_shape m) /\ product (m_shape m) <= 2147483648.
(** Every element of the result is what [val] says. *)
Definition every_vis (m : mem) (r : nd C) (val : Z -> Z -> Z -> Z -> C) : Prop :=
  exists nt nb nc np, m_shape m = [nt; nb; nc; np] /\ shape r = [nt * nb * nc * np] /\
    forall t b c p, 0 <= t < nt -> 0 <= b < nb -> 0 <= c < nc -> 0 <= p < np -> elem r [pos4 nb nc np t b c p] = val t b c p.
Definition size (m : mem) (k : nat) : Z := nth k (m_shape m) 0.
