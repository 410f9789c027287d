(** Model of the native (fallback) transforms of fourier_transforms/sdp_fft.cpp in exact complex
    arithmetic.  Data are flat arrays, as in the code; int overflow is not modelled.  The
    "omp parallel for" loops work on different rows and are run in order.  The CUDA, MKL and
    pocketfft branches are not modelled. *)
From Verif Require Import Base CRing Cplx.
Open Scope Z_scope.

(** is_power_of_two 43-59: returns (cnt, bits) of the loop; [fuel] bounds its iterations (n halves). *)
Fixpoint bit_loop (fuel : nat) (n cnt bits : Z) : Z * Z :=
  match fuel with
  | O => (cnt, bits)
  | S k => if n >? 0 then bit_loop k (Z.shiftr n 1) (if Z.land n 1 =? 1 then cnt + 1 else cnt) (bits + 1) else (cnt, bits)
  end.
Definition is_power_of_two (n : Z) : bool * Z :=
  let '(cnt, bits) := bit_loop (S (Z.to_nat n)) n 0 (-1) in (cnt =? 1, bits).

(** get_twiddle_value 62-80 *)
Definition twiddle (n m : Z) (inverse : bool) : C :=
  let division := (IZR m / IZR n)%R in
  if inverse then cis (2 * PI * division) else cis (-2 * PI * division).

(** perform_cpu_fft_power_of_two_inplace 86-129 on the n elements from [base]; state (input, temp).
    The eight lines computing even and odd parts are a + t b and a - t b written out. *)
Definition fft_stage (base n r pot pot1 : Z) (inverse : bool) (st : nd C * nd C) : option (nd C * nd C) :=
  let nhalf := Z.shiftr n 1 in
  let* temp := for_ 0 nhalf (fun s temp =>
    let j := Z.shiftr s (r - 1) in
    let k := Z.land s (pot1 - 1) in
    let twid := twiddle pot k inverse in
    let* b := rd (fst st) [base + (j * pot1 + k + nhalf)] in
    let* a := rd (fst st) [base + (j * pot1 + k)] in
    let* temp := wr temp [base + (j * pot + k)] (Cadd a (Cmul twid b)) in
    wr temp [base + (j * pot + k + pot1)] (Csub a (Cmul twid b))) (snd st) in
  let* input := for_ 0 n (fun i inp => let* x := rd temp [base + i] in wr inp [base + i] x) (fst st) in
  Some (input, temp).
Definition fft_pow2 (base n bits : Z) (inverse : bool) (st : nd C * nd C) : option (nd C * nd C) :=
  let* (_, st) := for_ 1 (bits + 1) (fun r s =>
    let '(pot, st) := s in
    let pot1 := pot in
    let pot := 2 * pot in
    let* st := fft_stage base n r pot pot1 inverse st in
    Some (pot, st)) (1, st) in
  Some st.

(** perform_cpu_dft_general 132-155 and the memcpy at 184 *)
Definition dft_general (base n : Z) (inverse : bool) (st : nd C * nd C) : option (nd C * nd C) :=
  let* temp := for_ 0 n (fun i temp =>
    let* s := for_ 0 n (fun s acc =>
      let* x := rd (fst st) [base + s] in Some (Cadd acc (Cmul (twiddle n (i * s) inverse) x))) C0 in
    wr temp [base + i] s) (snd st) in
  let* input := for_ 0 n (fun i inp => let* x := rd temp [base + i] in wr inp [base + i] x) (fst st) in
  Some (input, temp).

(** sdp_1d_fft_inplace 158-187 on the arrays from [pos] *)
Definition fft_1d_inplace (pos num_x batch_size : Z) (inverse : bool) (st : nd C * nd C) : option (nd C * nd C) :=
  let (ispow2, bits) := is_power_of_two num_x in
  for_ 0 batch_size (fun f st =>
    if ispow2 then fft_pow2 (pos + f * num_x) num_x bits inverse st
    else dft_general (pos + f * num_x) num_x inverse st) st.

(** memcpy 200-203, 263-266 of an out-of-place transform *)
Definition copy_all (n : Z) (src dst : nd C) : option (nd C) :=
  for_ 0 n (fun i d => let* x := rd src [i] in wr d [i] x) dst.
Definition swap_pair {A B} (p : A * B) : B * A := (snd p, fst p).

(** sdp_1d_fft 190-205: returns (output, temp) *)
Definition fft_1d (num_x batch_size : Z) (inverse : bool) (input output temp : nd C) : option (nd C * nd C) :=
  let* output := copy_all (num_x * batch_size) input output in
  fft_1d_inplace 0 num_x batch_size inverse (output, temp).

(** sdp_transpose_simple 209-223 *)
Definition transpose (pos num_x num_y : Z) (out inp : nd C) : option (nd C) :=
  for_ 0 num_y (fun i => for_ 0 num_x (fun j out =>
    let* x := rd inp [pos + (i * num_x + j)] in wr out [pos + (j * num_y + i)] x)) out.

(** sdp_2d_fft_inplace 227-248: (input, temp) *)
Definition fft_2d_inplace (num_x num_y batch_size : Z) (inverse : bool) (st : nd C * nd C) : option (nd C * nd C) :=
  for_ 0 batch_size (fun f st =>
    let pos := num_x * num_y * f in
    let* temp := transpose pos num_y num_x (snd st) (fst st) in
    let* (temp, input) := fft_1d_inplace pos num_x num_y inverse (temp, fst st) in
    let* input := transpose pos num_x num_y input temp in
    fft_1d_inplace pos num_y num_x inverse (input, temp)) st.

(** sdp_2d_fft 252-268 *)
Definition fft_2d (num_x num_y batch_size : Z) (inverse : bool) (input output temp : nd C) : option (nd C * nd C) :=
  let* output := copy_all (num_x * num_y * batch_size) input output in
  fft_2d_inplace num_x num_y batch_size inverse (output, temp).

(** sdp_fft_create_native 679-733, sdp_fft_exec_native 741-812 and the shape checks of check_params
    329-355 / sdp_fft_create 815-881: for contiguous complex arrays of one type on the CPU, of shapes
    [sh_in] and [sh_out] (each dimension of the input is compared with that of the output, which is
    zero when the output has fewer dimensions), and a plan for [nd_fft] dimensions made with the same
    arrays.  Returns the status and (output, temp). *)
Definition lastn (l : list Z) (k : nat) : Z := nth (length l - k) l 0.
Definition dims_match (a b : list Z) : bool := forallb (fun i => nth i a 0 =? nth i b 0) (seq 0 (length a)).
Definition fft_exec (sh_in sh_out : list Z) (nd_fft : Z) (is_forward : Z) (input output temp : nd C)
    : option (error * (nd C * nd C)) :=
  let rank := Z.of_nat (length sh_in) in
  if negb (dims_match sh_in sh_out) then Some (ERR_RUNTIME, (output, temp)) else
  if negb (nd_fft =? rank) && negb (nd_fft =? rank - 1) then Some (ERR_RUNTIME, (output, temp)) else
  let batch := if rank =? nd_fft then 1 else nth 0 sh_in 0 in
  let inverse := negb (is_forward =? 1) in
  if nd_fft =? 1 then let* st := fft_1d (lastn sh_in 1) batch inverse input output temp in Some (SUCCESS, st)
  else if nd_fft =? 2 then
    let* st := fft_2d (lastn sh_in 2) (lastn sh_in 1) batch inverse input output temp in Some (SUCCESS, st)
  else if nd_fft >? 2 then Some (ERR_DATA_TYPE, (output, temp)) else Some (SUCCESS, (output, temp)).

(** fft_norm 965-981 and fft_phase 1047-1062 on a 2-D array (any other rank is an error, and then
    the view has size zero).  The product of the sides, at 973, has the type int: None if it overflows *)
Definition int_times (a b : Z) : option Z := if a * b <=? 2147483647 then Some (a * b) else None.
Definition fft_norm (data : nd C) : option (nd C) :=
  let num_x := dim data 0 in let num_y := dim data 1 in
  let* pixels := int_times num_x num_y in
  let factor := (1 / IZR pixels)%R in
  for_ 0 num_x (fun ix => for_ 0 num_y (fun iy d =>
    let* x := rd d [ix; iy] in wr d [ix; iy] (Cmul x (RtoC factor)))) data.
Definition fft_phase (data : nd C) : option (nd C) :=
  let num_x := dim data 0 in let num_y := dim data 1 in
  for_ 0 num_x (fun ix => for_ 0 num_y (fun iy d =>
    let* x := rd d [ix; iy] in
    wr d [ix; iy] (Cmul x (RtoC (IZR (1 - Z.shiftl (Z.land (ix + iy) 1) 1)))))) data.

(** A contiguous 2-D array and the flat array of its data. *)
Definition flat2 (a : nd C) : nd C :=
  mk_nd [dim a 0 * dim a 1] (fun idx => let k := nth 0 idx 0 in elem a [k / dim a 1; k mod dim a 1]).
Definition unflat2 (sh : list Z) (a : nd C) : nd C :=
  mk_nd sh (fun idx => elem a [nth 0 idx 0 * nth 1 sh 0 + nth 1 idx 0]).

(** sdp_fft_exec_shift 924-936 on a 2-D array with a plan for 1 or 2 dimensions *)
Definition fft_exec_shift (nd_fft is_forward : Z) (norm : bool) (data temp : nd C) : option (error * nd C) :=
  let* d := fft_phase data in
  let* (e, (o, _)) := fft_exec (shape data) (shape data) nd_fft is_forward (flat2 d) (flat2 d) temp in
  let d := unflat2 (shape data) o in
  if failed e then Some (e, d) else
  let* d := fft_phase d in
  if norm then let* d := fft_norm d in Some (SUCCESS, d) else Some (SUCCESS, d).
