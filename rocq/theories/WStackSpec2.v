(** The prediction of the w-stacking driver. *)
From Coq Require Import Qreals.
From Verif Require Import Base CRing Cplx QNum FftSpec GridUtils SubgridSpec WTower WTowerSpec WTowerDrv WTowerDrvSpec Prop_WTowerDrv WStack.
Open Scope Z_scope.

(** Direction cosine of column or row [x] of the image, and the n of a pixel (with the shear) *)
Definition cosine (s : wstack) (x : Z) : R := (IZR (x - s_image_size s / 2) * Q2R (theta (s_plan s)) / IZR (s_image_size s))%R.
Definition n_of (s : wstack) (x y : Z) : R := lm_to_n (cosine s x) (cosine s y) (s_shear_u s) (s_shear_v s).
(** The image divided by the taper of the kernels, moved to the w-plane at [w] steps: exp(-2 pi i w w_step n) *)
Definition moved (s : wstack) (image : nd C) (w x y : Z) : C :=
  Cmul (Cmul (elem image [x; y]) (RtoC (/ (elem (s_pswf s) [x] * elem (s_pswf s) [y] * s_pswf_n s (n_of s x y))))) (cis (- (2 * PI * (IZR w * Q2R (w_step (s_plan s))) * n_of s x y))).
(** The image of a sub-grid: the transform of the moved image around the centre of the sub-grid (periodic), transformed back *)
Definition subgrid_image (s : wstack) (image : nd C) (w : Z) (t : task) (x y : Z) : C :=
  let N := s_image_size s in let S := subgrid_size (s_plan s) in
  Cmul (RtoC (/ IZR (S * S))) (centred2 true S S (fun k l => centred2 false N N (moved s image w) (pixel N S (t_iu t * s_eff s) k) (pixel N S (t_iv t * s_eff s) l)) x y).
(** What a task at plane [w] predicts for visibility (i, c): nothing for rows that are not its own, otherwise for each plane p of the w-tower on which the visibility is processed (C69)
    the interpolation of the transforms of its sub-grid image at the distances p - w_support / 2 + a *)
Definition predicted (s : wstack) (n m : Z) (image : nd C) (w : Z) (t : task) (i c : Z) (z : C) : Prop :=
  let plan := s_plan s in let S := subgrid_size plan in let ou := t_iu t * s_eff s in let ov := t_iv t * s_eff s in
  exists phi df' r0 r1 first last (proc : Z -> bool),
    inputs_ok plan (s_pattern s) (s_sub_temp s) phi ou ov w (s_freq0 s) (s_dfreq s) df' (s_uvw s) (t_start t) (t_end t) n m (t_row0 t) (t_row1 t) r0 r1 first last /\
    (forall p, proc p = true <-> processed plan p ou ov w (s_freq0 s) df' (s_uvw s) (t_start t) (t_end t) i c) /\
    (~ r0 <= i < r1 -> z = C0) /\
    (r0 <= i < r1 -> z = csum first (last + 1) (fun p => if proc p then
       let xu := pos plan (elem (s_uvw s) [i; 0]) (s_freq0 s) df' c ou in
       let xv := pos plan (elem (s_uvw s) [i; 1]) (s_freq0 s) df' c ov in
       let xw := wpos plan (elem (s_uvw s) [i; 2]) (s_freq0 s) df' c p w in
       interp plan (corner plan xu) (krow plan xu) (corner plan xv) (krow plan xv) (wrow plan xw)
         (fun a k l => w_subgrid S phi (subgrid_image s image w t) (p - w_support plan / 2 + a) k l)
       else C0)).
