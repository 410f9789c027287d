(** Specification vocabulary for CLEAN.  Images of n x n pixels are flat arrays, pixel (i, j) at
    n * i + j; the PSF has 2n x 2n pixels with its centre at (n, n). *)
From Verif Require Import Base Sum CRing Hogbom.
Open Scope Z_scope.

(** (comp convolved with psf) at pixel (i, j). *)
Definition convolved (n : Z) (comp psf : nd Qc) (i j : Z) : Qc :=
  sum Qcplus 0%Qc 0 n (fun x => sum Qcplus 0%Qc 0 n (fun y =>
    (elem comp [(n * x + y)%Z] * elem psf [(2 * n * (n - x + i) + (n - y + j))%Z])%Qc)).

(** [k] is the first pixel with the greatest value among pixels 0 .. size-1. *)
Definition first_peak (size : Z) (a : nd Qc) (k : Z) : Prop :=
  0 <= k < size /\ (forall i, 0 <= i < size -> (elem a [i] <= elem a [k])%Qc) /\
  (forall i, 0 <= i < k -> (elem a [i] < elem a [k])%Qc).

(** One minor cycle: [gain] times the first peak, found at (x, y) and not below the threshold, is
    added to the components, and that multiple of the PSF centred at (x, y) is subtracted. *)
Definition minor_cycle (n : Z) (psf : nd Qc) (gain threshold : Qc) (s s' : nd Qc * nd Qc) : Prop :=
  exists x y, 0 <= x < n /\ 0 <= y < n /\ first_peak (n * n) (snd s) (n * x + y) /\
    let peak := elem (snd s) [n * x + y] in
    (threshold <= peak)%Qc /\
    (forall k, 0 <= k < n * n -> elem (fst s') [k] =
       (elem (fst s) [k] + (if (k =? n * x + y)%Z then gain * peak else 0))%Qc) /\
    (forall i j, 0 <= i < n -> 0 <= j < n -> elem (snd s') [n * i + j] =
       (elem (snd s) [(n * i + j)%Z] - gain * peak * elem psf [(2 * n * (n - x + i) + (n - y + j))%Z])%Qc).

(** [k] minor cycles. *)
Inductive cycles (n : Z) (psf : nd Qc) (gain threshold : Qc) : nat -> nd Qc * nd Qc -> nd Qc * nd Qc -> Prop :=
| cycles_0 s : cycles n psf gain threshold 0 s s
| cycles_S k s s1 s2 : minor_cycle n psf gain threshold s s1 -> cycles n psf gain threshold k s1 s2 ->
    cycles n psf gain threshold (S k) s s2.

(** The residual is the dirty image minus the components convolved with the PSF. *)
Definition consistent n psf (dirty : nd Qc) (s : nd Qc * nd Qc) : Prop :=
  forall i j, 0 <= i < n -> 0 <= j < n -> elem (snd s) [n * i + j] = (elem dirty [(n * i + j)%Z] - convolved n (fst s) psf i j)%Qc.
