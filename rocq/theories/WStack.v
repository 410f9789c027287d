(** Model of the w-stacking drivers with w-towers of grid_data/sdp_grid_wstack_wtower.cpp (CPU): w-planes, tasks, corrections, whole-grid and sub-grid transforms, in
    exact complex arithmetic, for complex images.  A task is processed as one step: tasks that run at the same time add to different visibilities (C17, C62), and
    the addition of a sub-grid to the grid is a critical section (697-701).  The selection of tasks and their channel ranges is in Select.v and TaskPool.v; here they
    are arguments, in the order in which the threads take them. *)
From Coq Require Import Qreals.
From Verif Require Import Base CRing Cplx QNum Fft GridUtils Subgrid WTower WTowerDrv.
Open Scope Z_scope.

(** What is fixed during a call: the kernels of create (299-310), the pattern of the plan, the sizes (image_size is that of the grid; eff_sg_size 314, 570), the
    factors of the correction (grid_correct.cpp 18-75: the prolate function and the function of n for the w kernel), and work areas of the FFT plans *)
Record wstack := mk_wstack {
  s_plan : wplan Cring; s_pattern : nd C; s_image_size : Z; s_eff : Z; s_shear_u : R; s_shear_v : R; s_pswf : nd R; s_pswf_n : R -> R;
  s_freq0 : Q; s_dfreq : Q; s_uvw : nd Q; s_temp : nd C; s_sub_temp : nd C }.
(** A task with work to do: sub-grid (iu, iv), the channel ranges sdp_gridder_clamp_channels_uv selects, and its rows *)
Record task := mk_task { t_iu : Z; t_iv : Z; t_start : nd Z; t_end : nd Z; t_row0 : Z; t_row1 : Z }.

(** sdp_gridder_wtower_uvw_degrid_correct (wtower_uvw.cpp 912-933; [inverse] = false) and sdp_gridder_wtower_uvw_grid_correct (1126-1147; true), complex facet *)
Definition wtower_correct (inverse : bool) (s : wstack) (facet : nd C) (off_l off_m w_offset : Z) : option (nd C) :=
  let p := s_plan s in
  let* facet := grid_corr_pswf (s_image_size s) (Q2R (theta p)) (s_shear_u s) (s_shear_v s) (s_pswf s) (s_pswf_n s) facet off_l off_m in
  grid_corr_w_stack (s_image_size s) (Q2R (theta p)) (Q2R (w_step p)) (s_shear_u s) (s_shear_v s) facet off_l off_m w_offset inverse.
(** sdp_fft_exec_shift with the outcome of an error being no outcome *)
Definition shifted_fft (is_forward : Z) (normalise : bool) (d temp : nd C) : option (nd C) :=
  let* (e, r) := fft_exec_shift 2 is_forward normalise d temp in if failed e then None else Some r.
Fixpoint each {S T} (l : list T) (f : T -> S -> option S) (s : S) : option S :=
  match l with [] => Some s | x :: l => let* s := f x s in each l f s end.
Definition square (n : Z) : nd C := mk_nd [n; n] (fun _ => C0).

(** A task of degridding, 432-450.  The sub-grid and the scratch arrays are written before they are read. *)
Definition degrid_task (s : wstack) (w_offset : Z) (grid subgrid w_image subgrids : nd C) (t : task) (vis : nd C) : option (nd C) :=
  let off_u := t_iu t * s_eff s in let off_v := t_iv t * s_eff s in
  let* subgrid := subgrid_cut_out (A := Cring) grid off_u off_v subgrid in
  let* subgrid := shifted_fft 0 true subgrid (s_sub_temp s) in
  degrid_driver (s_plan s) (s_pattern s) subgrid off_u off_v w_offset (s_freq0 s) (s_dfreq s) (s_uvw s) (t_start t) (t_end t) vis (t_row0 t) (t_row1 t) w_image subgrids (s_sub_temp s).
(** A w-plane of degridding with visibilities, 369-452: [w_offset] is iw * w_tower_height, converted to int *)
Definition degrid_plane (s : wstack) (image subgrid w_image subgrids : nd C) (p : Z * list task) (vis : nd C) : option (nd C) :=
  let* grid := accum_scale_array (square (s_image_size s)) image None 0 in
  let* grid := wtower_correct false s grid 0 0 (fst p) in
  let* grid := shifted_fft 1 false grid (s_temp s) in
  each (snd p) (degrid_task s (fst p) grid subgrid w_image subgrids) vis.
(** sdp_grid_wstack_wtower_degrid_all, 218-472, after its checks, for arrays of num_rows x num_chan visibilities, with the planes that have visibilities (362-367) *)
Definition degrid_all (s : wstack) (image subgrid w_image subgrids : nd C) (planes : list (Z * list task)) (vis : nd C) : option (nd C) :=
  each planes (degrid_plane s image subgrid w_image subgrids) (mk_nd (shape vis) (fun _ => C0)).

(** A task of gridding, 683-701; sg_factor 572 *)
Definition grid_task (s : wstack) (w_offset : Z) (vis : nd C) (t : task) (grid : nd C) : option (nd C) :=
  let n := subgrid_size (s_plan s) in
  let off_u := t_iu t * s_eff s in let off_v := t_iv t * s_eff s in
  let* subgrid := grid_driver (s_plan s) (s_pattern s) vis (s_uvw s) (t_start t) (t_end t) (s_freq0 s) (s_dfreq s) (square n) off_u off_v w_offset (t_row0 t) (t_row1 t) (s_sub_temp s) in
  let* subgrid := shifted_fft 1 false subgrid (s_sub_temp s) in
  let sg_factor := RtoC ((IZR (s_image_size s) / IZR n) ^ 2) in
  subgrid_add (A := Cring) grid (- t_iu t * s_eff s) (- t_iv t * s_eff s) subgrid sg_factor.
(** A w-plane of gridding with visibilities, 627-722 *)
Definition grid_plane (s : wstack) (vis : nd C) (p : Z * list task) (image : nd C) : option (nd C) :=
  let* grid := each (snd p) (grid_task s (fst p) vis) (square (s_image_size s)) in
  let* grid := shifted_fft 0 true grid (s_temp s) in
  let* grid := wtower_correct true s grid 0 0 (fst p) in
  accum_scale_array image grid None 0.
(** sdp_grid_wstack_wtower_grid_all, 475-734, after its checks *)
Definition grid_all (s : wstack) (vis : nd C) (planes : list (Z * list task)) (image : nd C) : option (nd C) :=
  each planes (grid_plane s vis) (mk_nd (shape image) (fun _ => C0)).
