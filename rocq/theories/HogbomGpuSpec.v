(** Specification vocabulary for CLEAN on the GPU *)
From Verif Require Import Base Hogbom HogbomSpec HogbomGpu.
Open Scope Z_scope.

(** The memory there is, for an image of n x n pixels: see sdp_hogbom_clean.cpp 380-419 for the sizes of the arrays *)
Definition valid (n : Z) (l : loc) : Prop :=
  match l with
  | Res i | Model i => 0 <= i < n * n
  | Psf i => 0 <= i < (2 * n) * (2 * n)
  | MaxV i | MaxI i => 0 <= i < (n * n + 255) / 256
  | ShV b t | ShI b t => 0 <= t < 256
  | Reached => True
  end.
(** Memory [m'] names pixel [k] as the peak of the residual of [m], with its value, and nothing else has changed in global memory *)
Definition peak_at (n : Z) (m : loc -> val) (k : Z) : Prop := 0 <= k < n * n /\ forall i, 0 <= i < n * n -> (num (m (Res i)) <= num (m (Res k)))%Qc.
Definition names (m' : loc -> val) (k : Z) (v : Qc) : Prop := int (m' (MaxI 0)) = k /\ num (m' (MaxV 0)) = v.
Definition only_max (m m' : loc -> val) : Prop := forall l, (forall i, l <> MaxV i /\ l <> MaxI i) -> shared l = false -> m' l = m l.
(** An image in memory *)
Definition image (m : loc -> val) : nd Qc := mk_nd [] (fun idx => num (m (Res (nth0 idx 0)))).
Definition psf_of (m : loc -> val) : nd Qc := mk_nd [] (fun idx => num (m (Psf (nth0 idx 0)))).
(** Components found since memory [m] *)
Definition added (m m' : loc -> val) : nd Qc := mk_nd [] (fun idx => (num (m' (Model (nth0 idx 0))) - num (m (Model (nth0 idx 0))))%Qc).
(** One cycle at pixel [k] of an n x n image *)
Definition gpu_cycle (n : Z) (gain threshold : Qc) (m m' : loc -> val) : Prop :=
  exists x y, 0 <= x < n /\ 0 <= y < n /\ peak_at n m (n * x + y) /\
    let peak := num (m (Res (n * x + y))) in
    (threshold < peak)%Qc /\
    (forall k, 0 <= k < n * n -> num (m' (Model k)) = (num (m (Model k)) + (if (k =? n * x + y)%Z then gain * peak else 0))%Qc) /\
    (forall i j, 0 <= i < n -> 0 <= j < n -> num (m' (Res (n * i + j))) =
       (num (m (Res (n * i + j))) - gain * peak * num (m (Psf (2 * n * (n - x + i) + (n - y + j))%Z)))%Qc) /\
    (forall k, 0 <= k < (2 * n) * (2 * n) -> m' (Psf k) = m (Psf k)).
Inductive gpu_cycles (n : Z) (gain threshold : Qc) : nat -> (loc -> val) -> (loc -> val) -> Prop :=
| gpu_0 m m' : (forall l, (forall i, l <> MaxV i /\ l <> MaxI i) -> shared l = false -> l <> Reached -> m' l = m l) -> gpu_cycles n gain threshold 0 m m'
| gpu_S k m m1 m2 : gpu_cycle n gain threshold m m1 -> gpu_cycles n gain threshold k m1 m2 -> gpu_cycles n gain threshold (S k) m m2.
