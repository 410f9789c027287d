(** Vocabulary for the w-stacking drivers. *)
From Coq Require Import Permutation.
From Verif Require Import Base CRing Cplx QNum WTower WTowerSpec WTowerDrv WTowerDrvSpec Prop_WTowerDrv WStack.
Open Scope Z_scope.

(** A usable set-up: even sizes, the tables of the correction for the image, real kernels with even w-support, work areas of the right size *)
Definition setup_ok (s : wstack) : Prop :=
  let N := s_image_size s in let n := subgrid_size (s_plan s) in
  plan_ok (s_plan s) /\ (forall idx, im (elem (uv_kernel (s_plan s)) idx) = 0%R) /\ (forall idx, im (elem (w_kernel (s_plan s)) idx) = 0%R) /\ w_support (s_plan s) mod 2 = 0 /\
  0 < N /\ N mod 2 = 0 /\ N * N <= 2147483647 /\ n * n <= 2147483647 /\ shape (s_pswf s) = [N] /\ (exists T, shape (s_temp s) = [T] /\ N * N <= T).
(** A task that can be processed on the w-plane at [w_offset]: what both drivers of the w-towers require of their inputs (C69) *)
Definition task_ok (s : wstack) (n m w_offset : Z) (t : task) : Prop :=
  exists phi df' r0 r1 first last,
    inputs_ok (s_plan s) (s_pattern s) (s_sub_temp s) phi (t_iu t * s_eff s) (t_iv t * s_eff s) w_offset (s_freq0 s) (s_dfreq s) df' (s_uvw s) (t_start t) (t_end t) n m (t_row0 t) (t_row1 t) r0 r1 first last.
Definition planes_ok (s : wstack) (n m : Z) (planes : list (Z * list task)) : Prop := forall p, In p planes -> forall t, In t (snd p) -> task_ok s n m (fst p) t.
(** The same w-planes with the same tasks, taken in another order by the threads *)
Definition reordered (planes planes' : list (Z * list task)) : Prop := Forall2 (fun p p' => fst p = fst p' /\ Permutation (snd p) (snd p')) planes planes'.
(** Scratch arrays of the right shapes *)
Definition scratch_ok (s : wstack) (subgrid w_image subgrids : nd C) : Prop :=
  let n := subgrid_size (s_plan s) in shape subgrid = [n; n] /\ shape w_image = [n; n] /\ shape subgrids = [w_support (s_plan s); n; n].
