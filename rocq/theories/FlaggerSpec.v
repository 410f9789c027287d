(** What the flagger flags, as a function of the magnitudes m t c of one baseline and polarisation. *)
From Coq Require Import QArith Permutation.
From Verif Require Import Base Mem Flagger.
Open Scope Z_scope.

(** Magnitude of the visibility of time t, baseline b, channel c and polarisation p, and its position in the array *)
Definition at_ (nb nc np b p t c : Z) : Z := ((t * nb + b) * nc + c) * np + p.
Definition magnitude {V : Type} {A : num} (mag : V -> A) (vis : nd V) (nb nc np b p t c : Z) : A := mag (elem vis [at_ nb nc np b p t c]).

Section Spec.
Context {A : num} (alpha thr_mag thr_var thr_broad : A) (step window wmh nt nc : Z) (m : Z -> Z -> A).
Notation mid l := (nth ((length l + 1) / 2) l (nq 0)).

(** The middle element of the sorted list, and of the sorted distances from a centre *)
Definition median_of (l : list A) : A := mid (nsort l).
Definition deviation_of (l : list A) (centre : A) : A := median_of (map (fun x => nabs (nsub x centre)) (nsort l)).

(** Number of samples of the spectrum; samples at time t; their median and deviation *)
Definition nsamp : Z := nc / step.
Definition samples_at (t : Z) : list A := map (fun s => m t (s * step)) (zrange 0 nsamp).
Definition med (t : Z) : A := median_of (samples_at t).
Definition dev (t : Z) : A := deviation_of (samples_at t) (med t).

(** Broadband detection: the median stands out of the recent medians *)
Definition history (t : Z) : list A := map (fun k => med (t - k)) (zrange 0 (Z.min (t + 1) wmh)).
Definition broadband (t : Z) : bool :=
  beyond (modified_zscore (median_of (history t)) (deviation_of (history t) (median_of (history t))) (med t)) thr_broad && negb (t =? 0).

(** Detection on magnitudes *)
Definition detect_mag (t c : Z) : bool := beyond (modified_zscore (med t) (dev t) (m t c)) thr_mag || broadband t.

(** Detection on changes: a score averaged over time, from the second time sample on *)
Fixpoint score_nat (t : nat) (c : Z) : A :=
  let rate t := nabs (nsub (m (t - 1) c) (m t c)) in
  match t with
  | O => nq 0
  | S O => rate 1
  | S t' => nadd (nmul alpha (rate (Z.of_nat t))) (nmul (nsub (nq 1) alpha) (score_nat t' c))
  end.
Definition score (t c : Z) : A := score_nat (Z.to_nat t) c.
Definition scores_at (t : Z) : list A := map (fun s => nabs (score t (s * step))) (zrange 0 nsamp).
(** The deviation of the scores is taken from the median of the magnitudes, 292-295. *)
Definition detect_change (t c : Z) : bool :=
  beyond (modified_zscore (median_of (scores_at t)) (deviation_of (scores_at t) (med t)) (nabs (score t c))) thr_var.

(** A change between t - 1 and t is a detection at both times. *)
Definition detected (t c : Z) : Prop :=
  detect_mag t c = true \/ (0 < t /\ detect_change t c = true) \/ (t + 1 < nt /\ detect_change (t + 1) c = true).
(** A channel is flagged when it, or a channel at most [window] channels away, is detected, except that channel 0 is not flagged for its
    neighbours. *)
Definition flagged (t c : Z) : Prop := exists d, 0 <= d < nc /\ detected t d /\ (c = d \/ (Z.abs (c - d) <= window /\ c <> 0)).
End Spec.

(** Sorting keeps the number of elements. *)
Definition sort_keeps (A : num) : Prop := forall l : list A, length (nsort l) = length l.
(** Every baseline is processed by one thread. *)
Definition each_once (sched : list (nat * Z)) (nb : Z) : Prop := Permutation (map snd sched) (zrange 0 nb).
(** Arrays of shape [nt][nb][nc][np] and settings for which the statistics are defined *)
Record setting {V} (vis flags : mem) (vis_d : nd V) (flags_d : nd Z) (step wmh nt nb nc np : Z) : Prop := mk_setting {
  s_vis : m_shape vis = [nt; nb; nc; np]; s_flags : m_shape flags = [nt; nb; nc; np];
  s_vis_d : shape vis_d = [nt * nb * nc * np]; s_flags_d : shape flags_d = [nt * nb * nc * np];
  s_nt : 0 <= nt; s_np : 0 <= np; s_step : 1 <= step; s_samples : 2 <= nc / step; s_history : 2 <= wmh }.
