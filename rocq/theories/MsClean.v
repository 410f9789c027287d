(** Model of the CPU code of clean/sdp_ms_clean_cornwell.cpp around and including the CLEAN loop,
    in exact rational arithmetic.  Arrays are flat and C-contiguous as in the code.  The loop works
    on complex arrays but only multiplies them by real numbers and compares real parts, so the real
    parts evolve on their own: those are modelled.  The scaled PSFs, the scaled residuals and the
    scale kernels (results of sdp_fft_convolution and of exp, lines 401-516) are inputs of the
    model; the final convolution (704-754) is not modelled. *)
From Verif Require Import Base CRing Checks Hogbom.
Open Scope Z_scope.

(** Lines 24-27: index macros (the slowest dimension is not used by them). *)
Definition INDEX_2D (n1 i2 i1 : Z) := n1 * i2 + i1.
Definition INDEX_3D (n2 n1 i3 i2 i1 : Z) := n1 * (n2 * i3 + i2) + i1.
Definition INDEX_4D (n3 n2 n1 i4 i3 i2 i1 : Z) := n1 * (n2 * (n3 * i4 + i3) + i2) + i1.

(** Lines 518-550: coupling matrix, the greatest value of each scaled PSF (at least 0). *)
Definition coupling (ns p : Z) (spsf : nd Qc) : option (nd Qc) :=
  for_ 0 ns (fun s => for_ 0 ns (fun q cm =>
    let* m := for_ 0 p (fun x => for_ 0 p (fun y m =>
      let* v := rd spsf [INDEX_4D ns p p s q x y] in
      Some (if Qcltb m v then v else m))) 0%Qc in
    wr cm [INDEX_2D ns s q] m)) (mk_nd [ns * ns] (fun _ => 0%Qc)).

(** Lines 562-593: peak of every scale; peak_per_scale, x_per_scale and y_per_scale are kept as one
    array of triples (index_per_scale is never read). *)
Definition scale_peak (n : Z) (sres : nd Qc) (i : Z) : option (Qc * Z * Z) :=
  for_ 0 n (fun x => for_ 0 n (fun y st =>
    let* v := rd sres [INDEX_3D n n i x y] in
    Some (if Qcltb (fst (fst st)) v then (v, x, y) else st))) (0%Qc, 0, 0).
Definition scale_peaks (ns n : Z) (sres : nd Qc) : option (nd (Qc * Z * Z)) :=
  for_ 0 ns (fun i pk => let* t := scale_peak n sres i in wr pk [i] t) (mk_nd [ns] (fun _ => (0%Qc, 0, 0))).

(** Lines 595-611: division by the coupling, then the overall peak (max_scaled_biased, max_scale).
    Division by a zero coupling gives infinity or NaN in the code and 0 here. *)
Definition best_scale (ns : Z) (cm : nd Qc) (pk : nd (Qc * Z * Z)) : option (Qc * Z) :=
  for_ 0 ns (fun i st =>
    let* t := rd pk [i] in
    let* c := rd cm [INDEX_2D ns i i] in
    let b := (fst (fst t) / c)%Qc in
    Some (if Qcltb (fst st) b then (b, i) else st)) (0%Qc, 0).

(** Lines 630-660: add the kernel of the chosen scale to the components. *)
Definition add_kernel (n p : Z) (kern : nd Qc) (v : Qc) (ms mx my : Z) (comp : nd Qc) : option (nd Qc) :=
  let x0 := n - mx in let y0 := n - my in
  for_ 0 n (fun i => for_ 0 n (fun j c =>
    let* a := rd c [INDEX_2D n i j] in
    let* k := rd kern [INDEX_3D p p ms (x0 + i) (y0 + j)] in
    wr c [INDEX_2D n i j] (a + v * k)%Qc)) comp.

(** Lines 662-700: subtract the scaled PSFs from the residuals of all scales. *)
Definition cross_subtract (ns n p : Z) (spsf : nd Qc) (v : Qc) (ms mx my : Z) (sres : nd Qc) : option (nd Qc) :=
  let x0 := n - mx in let y0 := n - my in
  for_ 0 ns (fun s => for_ 0 n (fun i => for_ 0 n (fun j r =>
    let* a := rd r [INDEX_3D n n s i j] in
    let* k := rd spsf [INDEX_4D ns p p s ms (x0 + i) (y0 + j)] in
    wr r [INDEX_3D n n s i j] (a - v * k)%Qc))) sres.

(** Lines 558-702; [left] is cycle_limit - cur_cycle; state (components, scaled residuals). *)
Fixpoint ms_loop (left : nat) (ns n p : Z) (kern spsf cm : nd Qc) (gain threshold : Qc)
    (st : nd Qc * nd Qc) : option (nd Qc * nd Qc) :=
  match left with
  | O => Some st
  | S k =>
      let (comp, sres) := st in
      let* pk := scale_peaks ns n sres in
      let* (biased, ms) := best_scale ns cm pk in
      let* t := rd pk [ms] in
      let mx := snd (fst t) in let my := snd t in
      let* r := rd sres [INDEX_3D n n ms mx my] in
      if Qcltb r threshold then Some st else
      let* comp := add_kernel n p kern (gain * biased)%Qc ms mx my comp in
      let* sres := cross_subtract ns n p spsf (gain * biased)%Qc ms mx my sres in
      ms_loop k ns n p kern spsf cm gain threshold (comp, sres)
  end.

(** Checks of sdp_ms_clean_cornwell 837-871 on shapes (read-only, location and type checks not modelled). *)
Definition ms_checks (dirty cbeam model residual sky : list Z) : error :=
  let d := nth0 dirty 0 in
  if negb (nth0 model 0 =? d) then ERR_RUNTIME else
  if negb (nth0 residual 0 =? d) then ERR_RUNTIME else
  if negb (nth0 sky 0 =? d) then ERR_RUNTIME else
  if negb (nth0 cbeam 0 =? 4) then ERR_RUNTIME else SUCCESS.

(** The call, 873-925 and 394-556.  [kern_f], [spsf_f] and [sres_f] are the contents of the scale
    kernels, scaled PSFs and scaled residuals. *)
Definition ms_clean (dirty_sh psf_sh cbeam_sh scales_sh model_sh residual_sh sky_sh : list Z)
    (dirty psf kern_f spsf_f sres_f : Z -> Qc) (gain threshold : Qc) (cycle_limit : Z)
    : option (error * (nd Qc * nd Qc)) :=
  let blank := mk_nd [size_of residual_sh] (fun _ => 0%Qc) in
  let e := ms_checks dirty_sh cbeam_sh model_sh residual_sh sky_sh in
  if failed e then Some (e, (blank, blank)) else
  let n := nth0 dirty_sh 0 in let p := nth0 psf_sh 0 in let ns := nth0 scales_sh 0 in
  let arr k f := mk_nd [k] (fun idx => f (nth0 idx 0) : Qc) in
  let* residual := for_ 0 (n * n) (fun i r => let* x := rd (arr (size_of dirty_sh) dirty) [i] in wr r [i] x) blank in
  let* psf_c := for_ 0 (p * p) (fun i r => let* x := rd (arr (size_of psf_sh) psf) [i] in wr r [i] x) (arr (p * p) (fun _ => 0%Qc)) in
  let spsf := arr (ns * ns * p * p) spsf_f in
  let* cm := coupling ns p spsf in
  let* st := ms_loop (Z.to_nat cycle_limit) ns n p (arr (ns * p * p) kern_f) spsf cm gain threshold
    (arr (n * n) (fun _ => 0%Qc), arr (ns * n * n) sres_f) in
  Some (SUCCESS, st).
