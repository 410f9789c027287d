(** Specification vocabulary for Fourier transforms. *)
From Verif Require Import Base Sum CRing Cplx.
Open Scope Z_scope.

Definition csum (lo hi : Z) (f : Z -> C) : C := sum Cadd C0 lo hi f.
(** exp(-+ 2 pi i m / n), minus for the forward transform *)
Definition root (inverse : bool) (n m : Z) : C := cis ((if inverse then 2 * PI else -2 * PI) * (IZR m / IZR n)).
(** The discrete Fourier transform of x(0), ..., x(n-1) *)
Definition DFT (inverse : bool) (n : Z) (x : Z -> C) (k : Z) : C := csum 0 n (fun s => Cmul (root inverse n (k * s)) (x s)).
Definition DFT2 (inverse : bool) (n m : Z) (x : Z -> Z -> C) (k l : Z) : C :=
  csum 0 n (fun s => csum 0 m (fun t => Cmul (Cmul (root inverse n (k * s)) (root inverse m (l * t))) (x s t))).
(** The transform with the origin at the centre of the array in both domains. *)
Definition centred2 (inverse : bool) (n m : Z) (x : Z -> Z -> C) (k l : Z) : C :=
  csum 0 n (fun s => csum 0 m (fun t =>
    Cmul (Cmul (root inverse n ((k - n / 2) * (s - n / 2))) (root inverse m ((l - m / 2) * (t - m / 2)))) (x s t))).
(** (-1)^m *)
Definition sign (m : Z) : R := if Z.even m then 1%R else (-1)%R.
Definition centred (inverse : bool) (n : Z) (x : Z -> C) (k : Z) : C :=
  csum 0 n (fun s => Cmul (root inverse n ((k - n / 2) * (s - n / 2))) (x s)).
(** A plan made with is_forward = 1 is forward, any other is inverse. *)
Definition inverse_of (is_forward : Z) : bool := negb (is_forward =? 1).
(** The factor of the optional normalisation *)
Definition norm_scale (norm : bool) (n m : Z) : R := if norm then (/ IZR (n * m))%R else 1%R.
