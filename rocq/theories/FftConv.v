(** Model of numeric_functions/sdp_fft_convolution.cpp (CPU path) in exact complex arithmetic, on flat
    arrays as in the code. *)
From Verif Require Import Base CRing Cplx Fft.
Open Scope Z_scope.

(** sdp_fft_shift_2d 21-55 *)
Definition swap_at (d : nd C) (i j : Z) : option (nd C) :=
  let* tmp := rd d [i] in let* x := rd d [j] in let* d := wr d [i] x in wr d [j] tmp.
Definition fft_shift_2d (data : nd C) (rows cols : Z) : option (nd C) :=
  let half_rows := cdiv rows 2 in
  let half_cols := cdiv cols 2 in
  let* data := for_ 0 half_rows (fun i => for_ 0 cols (fun j d =>
    swap_at d (i * cols + j) ((i + half_rows) * cols + j))) data in
  for_ 0 rows (fun i => for_ 0 half_cols (fun j d => swap_at d (i * cols + j) (i * cols + j + half_cols))) data.

(** sdp_pad_2d 58-80 *)
Definition pad_2d (data padded : nd C) (rows cols pad_rows pad_cols : Z) : option (nd C) :=
  let padded_cols := cols + 2 * pad_cols in
  for_ 0 rows (fun i => for_ 0 cols (fun j p =>
    let* x := rd data [i * cols + j] in wr p [(i + pad_rows) * padded_cols + (j + pad_cols)] x)) padded.

(** sdp_remove_padding_2d 83-107 *)
Definition remove_padding_2d (padded data : nd C) (rows cols pad_rows pad_cols : Z) : option (nd C) :=
  let original_rows := rows - 2 * pad_rows in
  let original_cols := cols - 2 * pad_cols in
  for_ 0 original_rows (fun i => for_ 0 original_cols (fun j d =>
    let* x := rd padded [(i + (pad_rows - 1)) * cols + (j + (pad_cols - 1))] in
    wr d [i * original_cols + j] x)) data.

(** sdp_fft_normalise 110-123 *)
Definition fft_normalise (a : nd C) (size : Z) : option (nd C) :=
  for_ 0 size (fun i a => let* x := rd a [i] in wr a [i] (Cdiv x (RtoC (IZR size)))) a.

(** the loop making the padded size a power of two 139-146 *)
Fixpoint pad_pow2 (fuel : nat) (p : Z) : option Z :=
  match fuel with O => None | S k => if Z.land p (p - 1) =? 0 then Some p else pad_pow2 k (p + 1) end.

(** sdp_fft_convolution_cpu 126-238: the output array; [out] and the inputs are flat arrays *)
Definition fft_convolution (in1 in2 : nd C) (in1_dim in2_dim : Z) (out : nd C) : option (nd C) :=
  let* pad_dim := pad_pow2 (S (Z.to_nat (in1_dim + in2_dim))) (in1_dim + in2_dim - 1) in
  let pad_size := pad_dim * pad_dim in
  let zero := mk_nd [pad_size] (fun _ => C0) in
  let extra_in1 := cdiv (pad_dim - in1_dim) 2 in
  let* a := pad_2d in1 zero in1_dim in1_dim extra_in1 extra_in1 in
  let extra_in2 := cdiv (pad_dim - in2_dim) 2 in
  let* b := pad_2d in2 zero in2_dim in2_dim extra_in2 extra_in2 in
  let* (_, (a, _)) := fft_exec [pad_dim; pad_dim] [pad_dim; pad_dim] 2 1 a a zero in
  let* (_, (b, _)) := fft_exec [pad_dim; pad_dim] [pad_dim; pad_dim] 2 1 b b zero in
  let* m := for_ 0 pad_size (fun i m => let* x := rd a [i] in let* y := rd b [i] in wr m [i] (Cmul x y)) zero in
  let* (_, (m, _)) := fft_exec [pad_dim; pad_dim] [pad_dim; pad_dim] 2 0 m m zero in
  let* m := fft_normalise m pad_size in
  let* m := fft_shift_2d m pad_dim pad_dim in
  remove_padding_2d m out pad_dim pad_dim extra_in1 extra_in1.
