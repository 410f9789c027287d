(** C43: convolution by FFT. *)
From Verif Require Import Base Cplx FftConv FftConvSpec FftConvFacts2.
Open Scope Z_scope.

(** C43.  The claim for all sizes is refuted below; this is the part that holds.  For even sizes the
    call stays inside all arrays, writes exactly the first n1 n1 elements of the output, and they are
    the central n1 x n1 part of the full linear convolution (the offset is that of numpy's 'same' mode).
    Missing: odd sizes, where it is false. *)
Theorem C43_even_partial n1 n2 in1 in2 out M1 M2 M : 0 < n1 -> 0 < n2 -> Z.even n1 = true -> Z.even n2 = true ->
  shape in1 = [M1] -> shape in2 = [M2] -> shape out = [M] -> n1 * n1 <= M1 -> n2 * n2 <= M2 -> n1 * n1 <= M ->
  exists out', fft_convolution in1 in2 n1 n2 out = Some out' /\ shape out' = [M] /\
    (forall i j, 0 <= i < n1 -> 0 <= j < n1 ->
       elem out' [i * n1 + j] = full_conv in1 n1 in2 n2 (i + (n2 - 1) / 2) (j + (n2 - 1) / 2)) /\
    (forall t, t < 0 \/ n1 * n1 <= t -> elem out' [t] = elem out [t]).
Proof. exact (even_lemma n1 n2 in1 in2 out M1 M2 M). Qed.
Print Assumptions C43_even_partial.
Example C43_hyps : Z.even 4 = true /\ Z.even 6 = true /\ shape (delta 16 3) = [16] /\ 4 * 4 <= 16 /\ shape (delta 36 1) = [36] /\ 6 * 6 <= 36.
Proof. repeat split; lia. Qed.

(** An odd first input of any size always makes the call access memory outside the arrays, when the
    output has the size of the input (or anything less than a row and column more). *)
Theorem C43_odd_refuted n1 n2 in1 in2 out M : 0 < n1 -> 0 < n2 -> Z.odd n1 = true ->
  shape out = [M] -> M < (n1 + 1) * (n1 + 1) -> fft_convolution in1 in2 n1 n2 out = None.
Proof. exact (odd_lemma n1 n2 in1 in2 out M). Qed.
Print Assumptions C43_odd_refuted.
Example C43_odd_hyps : Z.odd 5 = true /\ shape (delta 25 0) = [25] /\ 25 < (5 + 1) * (5 + 1).
Proof. repeat split; lia. Qed.

(** With an odd second input the values are wrong: a unit impulse convolved with a 3 x 3 kernel whose
    only non-zero element is the centre should give 1 at the impulse, and gives 0. *)
Theorem C43_odd_kernel_refuted : exists in1 in2 out out',
  shape in1 = [2 * 2] /\ shape in2 = [3 * 3] /\ shape out = [2 * 2] /\
  fft_convolution in1 in2 2 3 out = Some out' /\
  elem out' [0] = C0 /\ full_conv in1 2 in2 3 (0 + (3 - 1) / 2) (0 + (3 - 1) / 2) = C1.
Proof.
  destruct odd_kernel_lemma as (out' & E & V). exists (delta 4 0), (delta 9 4), (delta 4 0), out'.
  repeat split; auto. exact odd_kernel_expected.
Qed.
Print Assumptions C43_odd_kernel_refuted.
