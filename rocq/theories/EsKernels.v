(** Model of the device code grid_data/sdp_gridder_uvw_es_fft_kernels.cu.  Exact real arithmetic in place of float and double; int arithmetic with
    overflow undefined; None stands for undefined behaviour.  Each kernel gives, for a thread, the list of operations on the array it writes. *)
From Verif Require Import Base Clamp Cplx Legendre Gpu.
Open Scope Z_scope.

(** KERNEL_SUPPORT_BOUND, 7 *)
Definition KERNEL_SUPPORT_BOUND := 16.
Definition floorZ (x : R) : Z := Int_part x.
Definition ceilZ (x : R) : Z := - Int_part (- x).
(** Conversions between int and uint32_t *)
Definition u32 (z : Z) : Z := z mod 4294967296.
Definition s32 (z : Z) : Z := let u := u32 z in if u <? 2147483648 then u else u - 4294967296.

(** conv_corr, 68-87.  The tables have QUADRATURE_SUPPORT_BOUND elements. *)
Definition conv_corr (support : Z) (k : R) (qk qn qw : nd R) : option R :=
  let p := ceilZ (IZR 3 / IZR 2 * IZR support + 2)%R in
  let* c := for_ 0 p (fun i c => let* a := rd qk [i] in let* x := rd qn [i] in let* w := rd qw [i] in Some (c + a * cos (PI * k * IZR support * x) * w)%R) 0%R in
  Some (c * IZR support)%R.

(** exp_semicircle, 97-102 *)
Definition exp_semicircle (beta x : R) : R := let xx := (x * x)%R in if Rltb 1 xx then 0%R else exp (beta * (sqrt (1 - xx) - 1)).

(** phase_shift, 110-124.  (For l^2 + m^2 >= 1 the code makes infinities or NaNs, which the real functions here do not have.) *)
Definition phase_shift (w l m signage : R) : C :=
  let sos := (l * l + m * m)%R in
  let nm1 := (- sos / (sqrt (1 - sos) + 1))%R in
  let x := (2 * PI * w * nm1)%R in
  let xn := (1 / (nm1 + 1))%R in
  (cos (signage * x) * xn, sin (signage * x) * xn)%R.

(** Arguments of the (de)gridding kernels, 128-150 and 279-302; [wstack]: the kernel is the 3d one *)
Record es_args := mk_es { num_vis_rows : Z; num_vis_chan : Z; grid_size : Z; grid_start_w : Z; num_w_grids_subset : Z; support : Z;
  beta : R; uv_scale : R; w_scale : R; min_plane_w : R; wstack : bool }.

(** Where a visibility goes: the sign of the coordinates, the position, and the cells it reaches *)
Record place := mk_place { flip : R; pos_u : R; pos_v : R; pos_w : R; u_min : Z; u_max : Z; v_min : Z; v_max : Z; w_min : Z; w_max : Z }.

Section Gridding.
Context (P : es_args).

(** 153-155, 305-307: int i_vis, computed before the range check *)
Definition vis_index (t : Z * Z) : option Z := let* a := to_int (num_vis_chan P * snd t) in to_int (fst t + a).
(** 157-158, 309-310 *)
Definition out_of_range (t : Z * Z) : bool := (fst t >=? num_vis_chan P) || (snd t >=? num_vis_rows P).

(** 161-162 and 178-194; 2d: 313-314 and 330-346 with flip = 1 and pos_w = 0.  min of an int and a uint32_t (192-194) compares them as unsigned. *)
Definition get_place (uvw freq : nd R) (t : Z * Z) : option place :=
  let* u := rd uvw [snd t; 0] in let* v := rd uvw [snd t; 1] in let* w := rd uvw [snd t; 2] in
  let* f := rd freq [fst t] in
  let fl := if wstack P then (if Rltb w 0 then (-1)%R else 1%R) else 1%R in
  let inv_wavelength := (fl * f / 299792458)%R in
  let half_support := (IZR (support P) / 2)%R in
  let grid_min_uv := cdiv (- grid_size P) 2 in
  let grid_max_uv := cdiv (grid_size P - 1) 2 in
  let pu := (u * inv_wavelength * uv_scale P)%R in
  let pv := (v * inv_wavelength * uv_scale P)%R in
  let pw := if wstack P then ((w * inv_wavelength - min_plane_w P) * w_scale P)%R else 0%R in
  let* ulo := to_int (ceilZ (pu - half_support)) in let* uhi := to_int (floorZ (pu + half_support)) in
  let* vlo := to_int (ceilZ (pv - half_support)) in let* vhi := to_int (floorZ (pv + half_support)) in
  let* wlo := to_int (ceilZ (pw - half_support)) in let* whi := to_int (floorZ (pw + half_support)) in
  Some (mk_place fl pu pv pw (Z.max ulo grid_min_uv) (Z.min uhi grid_max_uv) (Z.max vlo grid_min_uv) (Z.min vhi grid_max_uv)
          (Z.max wlo (grid_start_w P)) (s32 (Z.min (u32 whi) (u32 (grid_start_w P + num_w_grids_subset P - 1))))).

(** 195-201, 347-353 *)
Definition no_overlap (L : place) : bool := (w_min L >? w_max L) || (u_min L >? u_max L) || (v_min L >? v_max L).

(** 204-219, 356-372: the kernel along one axis, in a local array that is not initialised *)
Definition kernel_table (pos : R) (lo hi : Z) : option (nd (option R)) :=
  let inv_half_support := (1 / (IZR (support P) / 2))%R in
  for_ lo (hi + 1) (fun g k => wr k [g - lo] (Some (exp_semicircle (beta P) ((IZR g - pos) * inv_half_support)))) (mk_nd [KERNEL_SUPPORT_BOUND] (fun _ => None)).
Definition look_up (k : nd (option R)) (i : Z) : option R := let* v := rd k [i] in v.

(** 221-246, 374-399: visit every cell reached, with its offset in the stack and the value of the kernel *)
Definition visit {S} (L : place) (f : Z -> R -> S -> option S) (s : S) : option S :=
  let inv_half_support := (1 / (IZR (support P) / 2))%R in
  let* kernel_u := kernel_table (pos_u L) (u_min L) (u_max L) in
  let* kernel_v := kernel_table (pos_v L) (v_min L) (v_max L) in
  let origin_offset_uv := cdiv (grid_size P) 2 in
  for_ (w_min L) (w_max L + 1) (fun grid_w s =>
    let kernel_w := exp_semicircle (beta P) ((IZR grid_w - pos_w L) * inv_half_support) in
    let* g2 := to_int (grid_size P * grid_size P) in
    let grid_offset_w := (grid_w - grid_start_w P) * g2 in
    for_ (u_min L) (u_max L + 1) (fun grid_u s =>
      for_ (v_min L) (v_max L + 1) (fun grid_v s =>
        let* ku := look_up kernel_u (grid_u - u_min L) in
        let* kv := look_up kernel_v (grid_v - v_min L) in
        let value := (ku * kv * kernel_w)%R in
        let value := if Z.odd (grid_u + grid_v) then (- value)%R else value in
        f (grid_offset_w + (grid_u + origin_offset_uv) * grid_size P + (grid_v + origin_offset_uv)) value s) s) s) s.

(** The kernel with solving = true, 127-276 and 278-423: the operations on the grid stack, whose locations are the two parts (false: x, true: y) of its
    [cells] elements. *)
Definition gridding (vis : nd C) (weight uvw freq : nd R) (cells : Z) (t : Z * Z) : option (list (op (Z * bool) R)) :=
  let* i_vis := vis_index t in
  if out_of_range t then Some [] else
  let* L := get_place uvw freq t in
  let* v := rd vis [i_vis] in let* wt := rd weight [i_vis] in
  let x := (re v * wt)%R in let y := (im v * wt * flip L)%R in
  if no_overlap L then Some [] else
  visit L (fun o k s => if (0 <=? o) && (o <? cells) then Some (s ++ [Add (o, false) (x * k)%R; Add (o, true) (y * k)%R]) else None) [].

(** The kernel with solving = false: the operations on the visibilities ([nvis] elements) *)
Definition degridding (grid : nd C) (nvis : Z) (uvw freq : nd R) (t : Z * Z) : option (list (op (Z * bool) R)) :=
  let* i_vis := vis_index t in
  if out_of_range t then Some [] else
  let* L := get_place uvw freq t in
  if no_overlap L then Some [] else
  let* a := visit L (fun o k (s : C) => let* g := rd grid [o] in Some (re s + re g * k, im s + im g * k)%R) C0 in
  if (0 <=? i_vis) && (i_vis <? nvis) then
    Some [Update (i_vis, false) (fun x => x + re a)%R; Update (i_vis, true) (fun y => y + im a * flip L)%R] else None.
End Gridding.

(** c + sj * (j * s) + si * i in int arithmetic *)
Definition lin (c sj j s si i : Z) : option Z := let* a := to_int (j * s) in let* b := to_int (c + sj * a) in to_int (b + si * i).
(** An index of an array with n elements *)
Definition within (n i : Z) : option Z := if (0 <=? i) && (i <? n) then Some i else None.
(** l and m are [i] and [j] pixels; 460-471 and 584-595 *)
Definition get_shift (do_wstacking : bool) (grid_coord_w i j : Z) (pixel_size inv_w_scale min_plane_w signage : R) : C :=
  if do_wstacking then phase_shift (IZR grid_coord_w * inv_w_scale + min_plane_w)%R (pixel_size * IZR i)%R (pixel_size * IZR j)%R signage else C1.
(** The index of the centre pixel, 448-450, 518-520 and others *)
Definition centre (n : Z) : option Z := let o := n / 2 in let* a := to_int (o * n) in to_int (a + o).
(** 473-476, 596-599: the index of the centre of a plane of the stack *)
Definition plane_centre (n plane : Z) : option Z := let* c := centre n in let* a := to_int (plane * s32 (u32 (n * n))) in to_int (a + c).

Section Image.
Context (image_size grid_size grid_start_w num_w_grids_subset : Z) (pixel_size inv_w_scale min_plane_w : R) (perform_shift_fft do_wstacking : bool).

(** apply_w_screen_and_sum, 430-545; the operations on the dirty image ([pixels] elements) *)
Definition apply_w_screen_and_sum (stack : nd C) (pixels : Z) (t : Z * Z) : option (list (op Z R)) :=
  let (i, j) := t in
  let h := image_size / 2 in
  if negb ((i <=? h) && (j <=? h)) then Some [] else
  let* s := for_ grid_start_w (grid_start_w + num_w_grids_subset) (fun gw '(pp, pn, np, nn) =>
    let shift := get_shift do_wstacking gw i j pixel_size inv_w_scale min_plane_w (-1) in
    let* c := plane_centre grid_size (gw - grid_start_w) in
    let get sj si := let* k := lin c sj j grid_size si i in let* v := rd stack [k] in Some (re v * re shift - im v * im shift)%R in
    let* a := get 1 1 in let* b := get (-1) 1 in let* d := get 1 (-1) in let* e := get (-1) (-1) in
    Some (pp + a, pn + b, np + d, nn + e)%R) (0, 0, 0, 0)%R in
  let neg x := if perform_shift_fft && Z.odd (i + j) then (- x)%R else x in
  let '(pp, pn, np, nn) := s in
  let* c := centre image_size in
  let add (b : bool) sj si (x : R) := if b then let* k := lin c sj j image_size si i in let* k := within pixels k in
                                 Some [Update k (fun old => old + neg x)%R] else Some [] in
  let* o1 := add ((i <? h) && (j <? h)) 1 1 pp in
  let* o2 := add ((i >? 0) && (j <? h)) 1 (-1) np in
  let* o3 := add ((j >? 0) && (i <? h)) (-1) 1 pn in
  let* o4 := add ((i >? 0) && (j >? 0)) (-1) (-1) nn in
  Some (o1 ++ o2 ++ o3 ++ o4).

(** reverse_w_screen_to_stack, 552-662; the operations on the stack ([cells] elements) *)
Definition reverse_w_screen_to_stack (image : nd R) (cells : Z) (t : Z * Z) : option (list (op Z C)) :=
  let (i, j) := t in
  let h := image_size / 2 in
  if negb ((i <=? h) && (j <=? h)) then Some [] else
  let* c := centre image_size in
  let get (b : bool) sj si := if b then let* k := lin c sj j image_size si i in rd image [k] else Some 0%R in
  let* pp := get ((j <? h) && (i <? h)) 1 1 in
  let* np := get (j <? h) 1 (-1) in
  let* pn := get (i <? h) (-1) 1 in
  let* nn := get true (-1) (-1) in
  let neg x := if perform_shift_fft && Z.odd (i + j) then (- x)%R else x in
  for_ grid_start_w (grid_start_w + num_w_grids_subset) (fun gw ops =>
    let shift := get_shift do_wstacking gw i j pixel_size inv_w_scale min_plane_w 1 in
    let* c := plane_centre grid_size (gw - grid_start_w) in
    let store (b : bool) sj si (x : R) := if b then let* k := lin c sj j grid_size si i in let* k := within cells k in
                                     Some [Update k (fun _ => (re shift * neg x, im shift * neg x)%R)] else Some [] in
    let* o1 := store ((i <? h) && (j <? h)) 1 1 pp in
    let* o2 := store ((j >? 0) && (i <? h)) (-1) 1 pn in
    let* o3 := store ((i >? 0) && (j <? h)) 1 (-1) np in
    let* o4 := store ((i >? 0) && (j >? 0)) (-1) (-1) nn in
    Some (ops ++ o1 ++ o2 ++ o3 ++ o4)) [].

(** conv_corr_and_scaling, 674-765; the operations on the dirty image ([pixels] elements).  (The branches of [solving] are equal.) *)
Definition conv_corr_and_scaling (support : Z) (conv_corr_norm_factor : R) (conv_corr_kernel qk qn qw : nd R) (pixels : Z) (t : Z * Z) : option (list (op Z R)) :=
  let (i, j) := t in
  let h := image_size / 2 in
  if negb ((i <=? h) && (j <=? h)) then Some [] else
  let l := (pixel_size * IZR i)%R in let m := (pixel_size * IZR j)%R in
  let n := (sqrt (1 - l * l - m * m) - 1)%R in
  let* l_conv := rd conv_corr_kernel [i] in let* m_conv := rd conv_corr_kernel [j] in
  let* n_conv := conv_corr support (n * inv_w_scale)%R qk qn qw in
  let n_conv := (n_conv * (conv_corr_norm_factor * conv_corr_norm_factor))%R in
  let correction := if do_wstacking then (l_conv * m_conv * n_conv)%R else (l_conv * m_conv * conv_corr_norm_factor * conv_corr_norm_factor)%R in
  let correction := (1 / correction)%R in
  let* c := centre image_size in
  let scale (b : bool) sj si := if b then let* k := lin c sj j image_size si i in let* k := within pixels k in
                             Some [Update k (fun old => old * correction)%R] else Some [] in
  let* o1 := scale ((i <? h) && (j <? h)) 1 1 in
  let* o2 := scale ((i >? 0) && (j <? h)) 1 (-1) in
  let* o3 := scale ((j >? 0) && (i <? h)) (-1) 1 in
  let* o4 := scale ((i >? 0) && (j >? 0)) (-1) (-1) in
  Some (o1 ++ o2 ++ o3 ++ o4).
End Image.
