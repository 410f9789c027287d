(** Model of the restored image of clean/sdp_hogbom_clean.cu and sdp_hogbom_clean.cpp 588-738 for arrays in GPU memory, in exact arithmetic, on flat arrays as in the code.
    The minor cycles before it are modelled in HogbomGpu.v.  Memory can be allocated; the arrays are real and in GPU memory, so that sdp_mem_gpu_buffer succeeds. *)
From Coq Require Import String Reals.
From Verif Require Import Base Mem CRing Cplx Gpu GpuLaunch GpuView PhaseRotateGpu HogbomSky FftConvGpu.
Open Scope Z_scope.

(** Storing an element of a real array; None: there is no such element *)
Definition update_real (sh : list Z) (i : Z) (f : R -> R) : option (list (op (list Z) R)) := if in_shape sh [i] then Some [Update [i] f] else None.
(** create_copy_complex, .cu 630-673 *)
Definition complex_thread (x : nd R) (sh : list Z) (size : Z) (id : Z * Z * Z) : option (list (op (list Z) C)) :=
  let '(t, _, _) := id in let i := u32 t in
  if i <? size then let* v := rd x [i] in store sh i (RtoC v) else Some [].
(** create_copy_real, .cu 12-55 *)
Definition real_thread (x : nd C) (sh : list Z) (size : Z) (id : Z * Z * Z) : option (list (op (list Z) R)) :=
  let '(t, _, _) := id in let i := u32 t in
  if i <? size then let* v := rd x [i] in update_real sh i (fun _ => re v) else Some [].
(** add_residual, .cu 611-629 *)
Definition residual_thread (x : nd R) (sh : list Z) (size : Z) (id : Z * Z * Z) : option (list (op (list Z) R)) :=
  let '(t, _, _) := id in let i := u32 t in
  if i <? size then let* v := rd x [i] in update_real sh i (fun o => (o + v)%R) else Some [].
(** The 64-bit size of the beam, passed to a kernel with a 16-bit parameter: the low 16 bits *)
Definition int16 (z : Z) : Z := (z + 32768) mod 65536 - 32768.
(** create_cbeam, .cu 58-174.  A zero width is a division by zero (with an arbitrary value here). *)
Definition beam_thread (sigma_x sigma_y degrees : R) (dim : Z) (sh : list Z) (id : Z * Z * Z) : option (list (op (list Z) C)) :=
  let '(t, _, _) := id in
  let x0 := cdiv dim 2 in let y0 := cdiv dim 2 in
  let theta := (PI / 180 * degrees)%R in
  let a := (cos theta ^ 2 / (2 * sigma_x ^ 2) + sin theta ^ 2 / (2 * sigma_y ^ 2))%R in
  let b := (sin (2 * theta) / (4 * sigma_x ^ 2) - sin (2 * theta) / (4 * sigma_y ^ 2))%R in
  let c := (sin theta ^ 2 / (2 * sigma_x ^ 2) + cos theta ^ 2 / (2 * sigma_y ^ 2))%R in
  let i := u32 t in
  let size := dim * dim in
  if i <? size then
    let x := cdiv i dim in let y := cmod i dim in
    let component := (1 * exp (- (a * IZR (x - x0) ^ 2 + 2 * b * IZR (x - x0) * IZR (y - y0) + c * IZR (y - y0) ^ 2)))%R in
    store sh i (RtoC component)
  else Some [].
(** sdp_mem_create, with a complex type, in GPU memory (cpp 349-366, 655-660), of n x n elements *)
Definition complex_square (ty n : Z) : option mem :=
  Some (mk_mem ty MEM_GPU true true false 2 (n * n) 1 [n; n] [n * type_size ty; type_size ty] (Some (0, 0))).
(** Launching a kernel for one of the two precisions *)
Definition sky_launch {A} (base : string) (double : bool) (suffix_d suffix_f : string) (n : Z) (body : Z * Z * Z -> option (list (op (list Z) A))) (st : error) (x : nd A) (st' : error) (x' : nd A) : Prop :=
  launch_view (fun a _ => a) (Some (base ++ if double then suffix_d else suffix_f)%string) (blocks_of n 256, 1, 1) (256, 1, 1) body st x st' x'.
(** cpp 588-738: [comp] the contents of clean_model and [residual] of the residual image after the minor cycles, [sky] of skymodel before the call, [n] the side of the
    image.  A negative size of the beam is not modelled (no outcome). *)
Definition gpu_restore (double : bool) (details : nd R) (n : Z) (comp residual sky : nd R) (st st' : error) (sky' : nd R) : Prop :=
  match rd details [0], rd details [1], rd details [2], rd details [3] with
  | Some sigma_x, Some sigma_y, Some degrees, Some size =>
      let s := truncated size in let ty := if double then MEM_COMPLEX_DOUBLE else MEM_COMPLEX_FLOAT in
      let zeros n := mk_nd [n * n] (fun _ => C0) in
      if s <? 0 then False else
      exists st1 cc st2 cb st3 conv st4 sky1,
        sky_launch "create_copy_complex" double "<double, cuDoubleComplex>" "<float, cuFloatComplex>" (n * n) (complex_thread comp [n * n] (n * n)) st (zeros n) st1 cc /\
        sky_launch "create_cbeam" double "<double, cuDoubleComplex>" "<float, cuFloatComplex>" (s * s) (beam_thread sigma_x sigma_y degrees (int16 s) [s * s]) st1 (zeros s) st2 cb /\
        gpu_fft_convolution (complex_square ty n) (complex_square ty s) (complex_square ty n) cc cb (zeros n) st2 st3 conv /\
        sky_launch "create_copy_real" double "<cuDoubleComplex, double>" "<cuFloatComplex, float>" (n * n) (real_thread conv (shape sky) (n * n)) st3 sky st4 sky1 /\
        sky_launch "add_residual" double "<double>" "<float>" (n * n) (residual_thread residual (shape sky) (n * n)) st4 sky1 st' sky'
  | _, _, _, _ => False
  end.
