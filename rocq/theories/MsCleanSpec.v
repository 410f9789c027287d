(** Specification vocabulary for multi-scale CLEAN.  Images are n x n; the residual of scale s is at
    flat offsets n*n*s + n*i + j, PSFs and kernels have p x p pixels. *)
From Verif Require Import Base Sum CRing Hogbom.
Open Scope Z_scope.

Definition img (n : Z) (a : nd Qc) (s i j : Z) : Qc := elem a [n * (n * s + i) + j].
Definition img2 (ns p : Z) (a : nd Qc) (s q i j : Z) : Qc := elem a [p * (p * (ns * s + q) + i) + j].

(** (x, y) is the brightest pixel of an image, [v] its value; or no pixel is positive, v = 0 and
    (x, y) = (0, 0). *)
Definition positive_peak (n : Z) (f : Z -> Z -> Qc) (v : Qc) (x y : Z) : Prop :=
  0 <= x < n /\ 0 <= y < n /\ (0 <= v)%Qc /\ (forall i j, 0 <= i < n -> 0 <= j < n -> (f i j <= v)%Qc) /\
  (v = f x y \/ v = 0%Qc /\ x = 0 /\ y = 0).

(** The greatest value of a PSF, or 0. *)
Definition psf_peak (p : Z) (f : Z -> Z -> Qc) (c : Qc) : Prop :=
  (0 <= c)%Qc /\ (forall i j, 0 <= i < p -> 0 <= j < p -> (f i j <= c)%Qc) /\
  (c = 0%Qc \/ exists i j, 0 <= i < p /\ 0 <= j < p /\ c = f i j).

(** The component chosen from residuals [res]: scale m, pixel (x, y), weight v: among the peaks of
    all scales divided by the peak of the PSF of that scale, the greatest. *)
Definition choice (ns n p : Z) (spsf res : nd Qc) (v : Qc) (m x y : Z) : Prop :=
  0 <= m < ns /\ 0 <= x < n /\ 0 <= y < n /\
  exists c pk xs ys, (forall s, 0 <= s < ns -> psf_peak p (img2 ns p spsf s s) (c s)) /\
    (forall s, 0 <= s < ns -> positive_peak n (img n res s) (pk s) (xs s) (ys s)) /\
    (forall s, 0 <= s < ns -> (pk s / c s <= v)%Qc) /\
    (v = (pk m / c m)%Qc \/ v = 0%Qc /\ m = 0) /\ x = xs m /\ y = ys m.

(** One cycle: gain * v times the kernel of scale m centred at (x, y) is added to the components, and
    gain * v times the PSF of scales (s, m) centred there is subtracted from the residual of every scale s. *)
Definition ms_cycle (ns n p : Z) (kern spsf : nd Qc) (gain threshold : Qc) (st st' : nd Qc * nd Qc) : Prop :=
  exists v m x y, choice ns n p spsf (snd st) v m x y /\ (threshold <= img n (snd st) m x y)%Qc /\
    (forall i j, 0 <= i < n -> 0 <= j < n ->
       img n (fst st') 0 i j = (img n (fst st) 0 i j + gain * v * img p kern m (n - x + i) (n - y + j))%Qc) /\
    (forall s i j, 0 <= s < ns -> 0 <= i < n -> 0 <= j < n ->
       img n (snd st') s i j = (img n (snd st) s i j - gain * v * img2 ns p spsf s m (n - x + i) (n - y + j))%Qc).

Inductive ms_cycles (ns n p : Z) (kern spsf : nd Qc) (gain threshold : Qc) : nat -> nd Qc * nd Qc -> nd Qc * nd Qc -> Prop :=
| ms_cycles_0 s : ms_cycles ns n p kern spsf gain threshold 0 s s
| ms_cycles_S k s s1 s2 : ms_cycle ns n p kern spsf gain threshold s s1 ->
    ms_cycles ns n p kern spsf gain threshold k s1 s2 -> ms_cycles ns n p kern spsf gain threshold (S k) s s2.

(** Components found so far as a list of (weight, scale, x, y): model and residuals they explain. *)
Definition model_of (n p : Z) (kern : nd Qc) (l : list (Qc * Z * Z * Z)) (i j : Z) : Qc :=
  fold_right (fun '(a, m, x, y) t => (a * img p kern m (n - x + i)%Z (n - y + j)%Z + t)%Qc) 0%Qc l.
Definition explained (ns n p : Z) (spsf : nd Qc) (l : list (Qc * Z * Z * Z)) (s i j : Z) : Qc :=
  fold_right (fun '(a, m, x, y) t => (a * img2 ns p spsf s m (n - x + i)%Z (n - y + j)%Z + t)%Qc) 0%Qc l.
