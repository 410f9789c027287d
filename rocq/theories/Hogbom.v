(** Model of the CPU code of clean/sdp_hogbom_clean.cpp up to the end of the CLEAN loop, in exact
    rational arithmetic.  Images are flat C-contiguous arrays as in the code.  Not modelled: the
    final convolution with the CLEAN beam (sdp_fft_convolution, see FftConv.v) and the precision
    conversions. *)
From Verif Require Import Base CRing Checks.
From Coq Require Export Qcanon.
Open Scope Z_scope.

Definition Qc_ring : cring := mk_cring Qc 0%Qc 1%Qc Qcplus Qcmult Qcminus Qcopp Qcrt.
Definition Qcltb (a b : Qc) : bool := if Qclt_le_dec a b then true else false.

(** Lines 186-197: index of the maximum. *)
Definition find_max (size : Z) (residual : nd Qc) : option (Qc * Z) :=
  let* h := rd residual [0] in
  for_ 0 size (fun i st =>
    let* r := rd residual [i] in
    Some (if Qcltb (fst st) r then (r, i) else st)) (h, 0).

(** Lines 215-238: subtraction of the shifted PSF; x = psf_x_start + i, y = psf_y_start + j. *)
Definition subtract (dim psf_dim : Z) (psf : nd Qc) (v : Qc) (mx my : Z) (residual : nd Qc) : option (nd Qc) :=
  let psf_x_start := dim - mx in let psf_y_start := dim - my in
  for_ 0 dim (fun i => for_ 0 dim (fun j res =>
    let i_psf := psf_dim * (psf_x_start + i) + (psf_y_start + j) in
    let i_res := dim * i + j in
    let* r := rd res [i_res] in
    let* p := rd psf [i_psf] in
    wr res [i_res] (r - v * p)%Qc)) residual.

(** Lines 183-240; [left] is cycle_limit - cur_cycle; state (components, residual). *)
Fixpoint clean_loop (left : nat) (dim psf_dim : Z) (psf : nd Qc) (gain threshold : Qc)
    (st : nd Qc * nd Qc) : option (nd Qc * nd Qc) :=
  match left with
  | O => Some st
  | S k =>
      let (comp, residual) := st in
      let* (highest_value, idx) := find_max (dim * dim) residual in
      let* r := rd residual [idx] in
      if Qcltb r threshold then Some st else
      let mx := cdiv idx dim in let my := cmod idx dim in
      let* c := rd comp [idx] in
      let* comp := wr comp [idx] (c + gain * highest_value)%Qc in
      let* residual := subtract dim psf_dim psf (gain * highest_value)%Qc mx my residual in
      clean_loop k dim psf_dim psf gain threshold (comp, residual)
  end.

(** Checks of sdp_hogbom_clean 748-858 on shapes and scalars (read-only, location and type checks
    not modelled); [shapes] of dirty_img, psf, cbeam_details, clean_model, residual, skymodel. *)
Definition nth0 (l : list Z) (k : nat) := nth k l 0.
Definition hogbom_checks (dirty psf cbeam model residual sky : list Z) (gain : Qc) (cycle_limit : Z) : error :=
  let d := nth0 dirty 0 in
  if negb (nth0 model 0 =? d) then ERR_RUNTIME else
  if negb (nth0 residual 0 =? d) then ERR_RUNTIME else
  if negb (nth0 sky 0 =? d) then ERR_RUNTIME else
  if negb (nth0 cbeam 0 =? 4) then ERR_RUNTIME else
  if negb (d =? nth0 dirty 1) then ERR_RUNTIME else
  if negb (nth0 psf 0 =? nth0 psf 1) then ERR_RUNTIME else
  if negb (nth0 psf 0 =? d * 2) then ERR_RUNTIME else
  if cycle_limit <? 1 then ERR_RUNTIME else
  if Qcltb 0 gain then SUCCESS else ERR_RUNTIME.

Definition size_of (sh : list Z) : Z := fold_right Z.mul 1 sh.

(** The call with CPU arrays, 860-899: the dirty image is copied to the residual (an out-of-range
    copy is undefined), components start at zero.  Arrays are given as shape and flat content. *)
Definition hogbom (dirty_sh psf_sh cbeam_sh model_sh residual_sh sky_sh : list Z) (dirty psf : Z -> Qc)
    (gain threshold : Qc) (cycle_limit : Z) : option (error * (nd Qc * nd Qc)) :=
  let blank := mk_nd [size_of residual_sh] (fun _ => 0%Qc) in
  let e := hogbom_checks dirty_sh psf_sh cbeam_sh model_sh residual_sh sky_sh gain cycle_limit in
  if failed e then Some (e, (blank, blank)) else
  let d := nth0 dirty_sh 0 in
  let dirty_a := mk_nd [size_of dirty_sh] (fun idx => dirty (nth0 idx 0)) in
  let* residual := for_ 0 (d * d) (fun i r => let* x := rd dirty_a [i] in wr r [i] x) blank in
  let comp := mk_nd [d * d] (fun _ => 0%Qc) in
  let psf_a := mk_nd [size_of psf_sh] (fun idx => psf (nth0 idx 0)) in
  let* st := clean_loop (Z.to_nat cycle_limit) d (nth0 psf_sh 0) psf_a gain threshold (comp, residual) in
  Some (SUCCESS, st).
