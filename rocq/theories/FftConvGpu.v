(** Model of sdp_fft_convolution on arrays in GPU memory: numeric_functions/sdp_fft_convolution.cu and sdp_fft_convolution.cpp 246-641, in exact complex
    arithmetic, on flat arrays as in the code.  Memory can be allocated, and cuFFT computes the discrete Fourier transform (sdp_fft.cpp 365-460). *)
From Coq Require Import String.
From Verif Require Import Base Mem CRing Cplx Fft FftSpec FftConv Gpu GpuLaunch GpuView PhaseRotateGpu.
From Verif Require WeightingGpu.
Import WeightingGpu(gpu_buffer).
Open Scope Z_scope.

(** Storing an element of an array of the given shape; None: there is no such element *)
Definition store (sh : list Z) (i : Z) (v : C) : option (list (op (list Z) C)) := if in_shape sh [i] then Some [Update [i] (fun _ => v)] else None.
(** pad_2D_gpu, .cu 10-30 *)
Definition pad_thread (data : nd C) (sh : list Z) (rows cols pad_rows pad_cols padded_cols : Z) (id : Z * Z * Z) : option (list (op (list Z) C)) :=
  let '(x, y, _) := id in
  let i := u32 x in let j := u32 y in
  if (i <? rows) && (j <? cols) then
    let* v := rd data [i * cols + j] in store sh ((i + pad_rows) * padded_cols + (j + pad_cols)) v
  else Some [].
(** complex_multiply, .cu 45-75 *)
Definition multiply_thread (in1 in2 : nd C) (sh : list Z) (size : Z) (id : Z * Z * Z) : option (list (op (list Z) C)) :=
  let '(x, _, _) := id in
  let i := u32 x in
  if i <? size then let* a := rd in1 [i] in let* b := rd in2 [i] in store sh i (Cmul a b) else Some [].
(** fft_normalise_gpu, .cu 89-122 *)
Definition normalise_thread (sh : list Z) (size : Z) (id : Z * Z * Z) : option (list (op (list Z) C)) :=
  let '(x, _, _) := id in
  let i := u32 x in
  if i <? size then (if in_shape sh [i] then Some [Update [i] (fun v => Cdiv v (RtoC (IZR size)))] else None) else Some [].
(** fft_shift_2D_gpu, .cu 128-157 *)
Definition shift_thread (data : nd C) (sh : list Z) (rows cols half_rows half_cols : Z) (id : Z * Z * Z) : option (list (op (list Z) C)) :=
  let '(x, y, _) := id in
  let i := u32 x in let j := u32 y in
  if (i <? half_rows) && (j <? half_cols) then
    let* a := rd data [(i + half_rows) * cols + j + half_cols] in let* o1 := store sh (i * cols + j) a in
    let* b := rd data [i * cols + j + half_cols] in let* o2 := store sh ((i + half_rows) * cols + j) b in
    let* c := rd data [i * cols + j] in let* o3 := store sh ((i + half_rows) * cols + j + half_cols) c in
    let* d := rd data [(i + half_rows) * cols + j] in let* o4 := store sh (i * cols + j + half_cols) d in
    Some (o1 ++ o2 ++ o3 ++ o4)
  else Some [].
(** remove_padding_2D_gpu, .cu 162-183 *)
Definition remove_thread (padded : nd C) (sh : list Z) (cols pad_rows pad_cols original_rows original_cols : Z) (id : Z * Z * Z) : option (list (op (list Z) C)) :=
  let '(x, y, _) := id in
  let i := u32 x in let j := u32 y in
  if (i <? original_rows) && (j <? original_cols) then
    let* v := rd padded [(i + (pad_rows - 1)) * cols + (j + (pad_cols - 1))] in store sh (i * original_cols + j) v
  else Some [].

(** cufftExecZ2Z or cufftExecC2C with a plan for one transform of P x P elements; nothing happens after an error *)
Definition cufft (inverse : bool) (P : Z) (st : error) (x : nd C) : nd C :=
  if failed st then x else
  mk_nd (shape x) (fun idx => let t := hd 0 idx in if (0 <=? t) && (t <? P * P) then DFT2 inverse P P (fun i j => elem x [i * P + j]) (t / P) (t mod P) else elem x idx).
(** Launching one of the kernels for the type of the data *)
Definition conv_launch (name : string) (ty : Z) (blocks threads : dim3) (body : Z * Z * Z -> option (list (op (list Z) C))) (st : error) (x : nd C) (st' : error) (x' : nd C) : Prop :=
  let suffix := (if Z.eqb ty MEM_COMPLEX_DOUBLE then "<cuDoubleComplex>" else "<cuFloatComplex>")%string in
  launch_view (fun a _ => a) (Some (name ++ suffix)%string) blocks threads body st x st' x'.
(** sdp_fft_convolution_gpu, .cpp 246-541.  None: the loop for the padded size does not end. *)
Definition gpu_convolution (in1 in2 out : option mem) (n1 n2 ty : Z) (a b o : nd C) (st st' : error) (o' : nd C) : Prop :=
  match pad_pow2 (S (Z.to_nat (n1 + n2))) (n1 + n2 - 1) with
  | None => False
  | Some P =>
      let zero := mk_nd [P * P] (fun _ => C0) in
      let e1 := cdiv (P - n1) 2 in let e2 := cdiv (P - n2) 2 in let half := cdiv P 2 in
      exists st1 p1 st2 p2 st3 m3 st4 m4 st5 m5,
        conv_launch "pad_2D_gpu" ty (blocks_of n1 32, blocks_of n1 32, 1) (32, 32, 1) (pad_thread a [P * P] n1 n1 e1 e1 P) (gpu_buffer in1 st) zero st1 p1 /\
        conv_launch "pad_2D_gpu" ty (blocks_of n2 32, blocks_of n2 32, 1) (32, 32, 1) (pad_thread b [P * P] n2 n2 e2 e2 P) (gpu_buffer in2 st1) zero st2 p2 /\
        conv_launch "complex_multiply" ty (blocks_of (P * P) 256, 1, 1) (256, 1, 1) (multiply_thread (cufft false P st2 p1) (cufft false P st2 p2) [P * P] (P * P)) st2 zero st3 m3 /\
        conv_launch "fft_normalise_gpu" ty (blocks_of (P * P) 256, 1, 1) (256, 1, 1) (normalise_thread [P * P] (P * P)) st3 (cufft true P st3 m3) st4 m4 /\
        conv_launch "fft_shift_2D_gpu" ty (blocks_of half 32, blocks_of half 32, 1) (32, 32, 1) (shift_thread m4 [P * P] P P half half) st4 zero st5 m5 /\
        conv_launch "remove_padding_2D_gpu" ty (blocks_of n1 32, blocks_of n1 32, 1) (32, 32, 1) (remove_thread m5 (shape o) P e1 e1 n1 n1) (gpu_buffer out st5) o st' o'
  end.
(** sdp_fft_convolution, .cpp 544-641, for inputs in GPU memory; [a], [b], [o]: the contents, by rows *)
Definition gpu_fft_convolution (in1 in2 out : option mem) (a b o : nd C) (st st' : error) (o' : nd C) : Prop :=
  if failed st then st' = st /\ o' = o else
  if is_read_only out then st' = ERR_RUNTIME /\ o' = o else
  if negb (location in1 =? location out) then st' = ERR_MEM_LOCATION /\ o' = o else
  if negb (mtype in1 =? mtype out) then st' = ERR_DATA_TYPE /\ o' = o else
  if negb (is_complex in1) then st' = ERR_DATA_TYPE /\ o' = o else
  if negb (shape_dim in1 0 =? shape_dim in1 1) then st' = ERR_DATA_TYPE /\ o' = o else
  if negb (shape_dim in2 0 =? shape_dim in2 1) then st' = ERR_DATA_TYPE /\ o' = o else
  gpu_convolution in1 in2 out (shape_dim in1 0) (shape_dim in2 0) (mtype in1) a b o st st' o'.
