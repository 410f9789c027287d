(** C37-C40: Fourier transforms. *)
From Verif Require Import Base BaseFacts Sum CRing Cplx Fft FftSpec FftFacts FftFacts2 FftFacts3.
From Coq Require Import Lra Lia.
Open Scope Z_scope.

(** C37.  A transform of every length, and not only of powers of two, succeeds without touching
    memory outside the arrays and its output is the discrete Fourier transform of its input.
    The arrays hold at least the elements their shape says. *)
Theorem C37_one_dimension n is_forward input output temp N M T : 0 <= n -> n <= N -> n <= M -> n <= T ->
  shape input = [N] -> shape output = [M] -> shape temp = [T] ->
  exists o t, fft_exec [n] [n] 1 is_forward input output temp = Some (SUCCESS, (o, t)) /\ shape o = [M] /\ shape t = [T] /\
    (forall k, 0 <= k < n -> elem o [k] = DFT (inverse_of is_forward) n (fun s => elem input [s]) k) /\
    (forall k, ~ (0 <= k < n) -> elem o [k] = elem output [k]).
Proof. exact (exec_1d n is_forward input output temp N M T). Qed.
Print Assumptions C37_one_dimension.

Theorem C37_batch b n is_forward input output temp N M T : 0 <= n -> 0 <= b -> b * n <= N -> b * n <= M -> b * n <= T ->
  shape input = [N] -> shape output = [M] -> shape temp = [T] ->
  exists o t, fft_exec [b; n] [b; n] 1 is_forward input output temp = Some (SUCCESS, (o, t)) /\ shape o = [M] /\ shape t = [T] /\
    (forall f k, 0 <= f < b -> 0 <= k < n ->
       elem o [f * n + k] = DFT (inverse_of is_forward) n (fun s => elem input [f * n + s]) k) /\
    (forall k, ~ (0 <= k < b * n) -> elem o [k] = elem output [k]).
Proof. exact (exec_1d_batch b n is_forward input output temp N M T). Qed.
Print Assumptions C37_batch.

Theorem C37_two_dimensions n m is_forward input output temp N M T : 0 <= n -> 0 <= m -> n * m <= N -> n * m <= M -> n * m <= T ->
  shape input = [N] -> shape output = [M] -> shape temp = [T] ->
  exists o t, fft_exec [n; m] [n; m] 2 is_forward input output temp = Some (SUCCESS, (o, t)) /\ shape o = [M] /\ shape t = [T] /\
    (forall k l, 0 <= k < n -> 0 <= l < m ->
       elem o [k * m + l] = DFT2 (inverse_of is_forward) n m (fun s t => elem input [s * m + t]) k l) /\
    (forall k, ~ (0 <= k < n * m) -> elem o [k] = elem output [k]).
Proof. exact (exec_2d n m is_forward input output temp N M T). Qed.
Print Assumptions C37_two_dimensions.

Theorem C37_batch_two_dimensions b n m is_forward input output temp N M T : 0 <= b -> 0 <= n -> 0 <= m ->
  b * (n * m) <= N -> b * (n * m) <= M -> b * (n * m) <= T ->
  shape input = [N] -> shape output = [M] -> shape temp = [T] ->
  exists o t, fft_exec [b; n; m] [b; n; m] 2 is_forward input output temp = Some (SUCCESS, (o, t)) /\ shape o = [M] /\ shape t = [T] /\
    (forall f k l, 0 <= f < b -> 0 <= k < n -> 0 <= l < m -> elem o [f * (n * m) + (k * m + l)] =
       DFT2 (inverse_of is_forward) n m (fun s t => elem input [f * (n * m) + (s * m + t)]) k l) /\
    (forall k, ~ (0 <= k < b * (n * m)) -> elem o [k] = elem output [k]).
Proof. exact (exec_2d_batch b n m is_forward input output temp N M T). Qed.
Print Assumptions C37_batch_two_dimensions.

(** The radix-2 path is taken only for powers of two, with the right number of passes. *)
Theorem C37_power_of_two n bits : is_power_of_two n = (true, bits) -> 0 <= bits /\ n = 2 ^ bits.
Proof. exact (is_pow2_lemma n bits). Qed.
Print Assumptions C37_power_of_two.

(** Shapes that differ, a number of dimensions other than the rank or one less, and more than two
    dimensions are errors, and then nothing is written. *)
Theorem C37_rejects sh_in sh_out nd_fft is_forward input output temp :
  (exists i, (i < length sh_in)%nat /\ nth i sh_in 0 <> nth i sh_out 0) \/
  (nd_fft <> Z.of_nat (length sh_in) /\ nd_fft <> Z.of_nat (length sh_in) - 1) \/ nd_fft > 2 ->
  exists e, fft_exec sh_in sh_out nd_fft is_forward input output temp = Some (e, (output, temp)) /\ failed e = true.
Proof. exact (exec_reject sh_in sh_out nd_fft is_forward input output temp). Qed.
Print Assumptions C37_rejects.

Example C37_hyps : exists input output temp : nd C,
  0 <= 12 /\ 8 * 12 <= 96 /\ shape input = [96] /\ shape output = [96] /\ shape temp = [96] /\
  is_power_of_two 8 = (true, 3) /\ fst (is_power_of_two 12) = false /\ fst (is_power_of_two 0) = false /\
  elem input [1] <> elem input [2].
Proof.
  exists (mk_nd [96] (fun i => RtoC (IZR (nth 0 i 0)))), (mk_nd [96] (fun _ => C0)), (mk_nd [96] (fun _ => C0)).
  repeat split; try lia. cbn [elem nth]. unfold RtoC. intro H. injection H. lra.
Qed.
Example C37_reject_hyps : nth 1 [4; 4] 0 <> nth 1 [4; 8] 0 /\ 1 <> Z.of_nat (length [2; 2; 2]) - 1 /\ 3 > 2.
Proof. repeat split; cbn; lia. Qed.

(** C38.  A forward and then an inverse transform, or the other way round, multiply the data by the
    number of elements of the transform. *)
Theorem C38_one_dimension b n is_forward is_forward2 input output temp output2 N : 0 < n -> 0 <= b -> b * n = N ->
  inverse_of is_forward2 = negb (inverse_of is_forward) ->
  shape input = [N] -> shape output = [N] -> shape temp = [N] -> shape output2 = [N] ->
  exists o t o2 t2, fft_exec [b; n] [b; n] 1 is_forward input output temp = Some (SUCCESS, (o, t)) /\
    fft_exec [b; n] [b; n] 1 is_forward2 o output2 t = Some (SUCCESS, (o2, t2)) /\
    forall k, 0 <= k < N -> elem o2 [k] = Cmul (RtoC (IZR n)) (elem input [k]).
Proof.
  intros Hn Hb HN HI S1 S2 S3 S4.
  destruct (exec_1d_batch b n is_forward input output temp N N N) as (o & t & E & So & St & P & _); auto; try lia.
  destruct (exec_1d_batch b n is_forward2 o output2 t N N N) as (o2 & t2 & E2 & So2 & St2 & P2 & _); auto; try lia.
  exists o, t, o2, t2. split; [exact E|]. split; [exact E2|]. intros k Hk.
  pose proof (Z.div_mod k n ltac:(lia)) as DM. pose proof (Z.mod_pos_bound k n ltac:(lia)) as MB.
  assert (0 <= k / n < b) by nia. replace k with (k / n * n + k mod n) by lia.
  rewrite P2 by assumption. rewrite HI.
  rewrite (DFT_ext _ n _ (DFT (inverse_of is_forward) n (fun s => elem input [k / n * n + s]))) by (intros s Hs; now apply P).
  now apply DFT_inverse.
Qed.
Print Assumptions C38_one_dimension.

Theorem C38_two_dimensions b n m is_forward is_forward2 input output temp output2 N : 0 < n -> 0 < m -> 0 <= b -> b * (n * m) = N ->
  inverse_of is_forward2 = negb (inverse_of is_forward) ->
  shape input = [N] -> shape output = [N] -> shape temp = [N] -> shape output2 = [N] ->
  exists o t o2 t2, fft_exec [b; n; m] [b; n; m] 2 is_forward input output temp = Some (SUCCESS, (o, t)) /\
    fft_exec [b; n; m] [b; n; m] 2 is_forward2 o output2 t = Some (SUCCESS, (o2, t2)) /\
    forall k, 0 <= k < N -> elem o2 [k] = Cmul (RtoC (IZR (n * m))) (elem input [k]).
Proof.
  intros Hn Hm Hb HN HI S1 S2 S3 S4.
  destruct (exec_2d_batch b n m is_forward input output temp N N N) as (o & t & E & So & St & P & _); auto; try lia.
  destruct (exec_2d_batch b n m is_forward2 o output2 t N N N) as (o2 & t2 & E2 & So2 & St2 & P2 & _); auto; try lia.
  exists o, t, o2, t2. split; [exact E|]. split; [exact E2|]. intros k Hk.
  assert (PM : 0 < n * m) by nia.
  pose proof (Z.div_mod k (n * m) ltac:(lia)) as DM. pose proof (Z.mod_pos_bound k (n * m) ltac:(lia)) as MB.
  assert (0 <= k / (n * m) < b) by nia. set (f := k / (n * m)) in *. set (r := k mod (n * m)) in *. clearbody f r.
  pose proof (Z.div_mod r m ltac:(lia)) as DM2. pose proof (Z.mod_pos_bound r m ltac:(lia)) as MB2.
  assert (0 <= r / m < n) by nia.
  replace k with (f * (n * m) + (r / m * m + r mod m)) by lia.
  rewrite P2 by assumption. rewrite HI.
  rewrite (DFT2_ext _ n m _ (DFT2 (inverse_of is_forward) n m (fun s t => elem input [f * (n * m) + (s * m + t)])))
    by (intros s u Hs Hu; now apply P).
  now apply DFT2_inverse.
Qed.
Print Assumptions C38_two_dimensions.
Example C38_hyps : 0 < 6 /\ 2 * (3 * 4) = 24 /\ inverse_of 0 = negb (inverse_of 1) /\ inverse_of 1 = false.
Proof. repeat split; lia. Qed.

(** C39. *)
Theorem C39_phase d n m : shape d = [n; m] -> 0 <= n -> 0 <= m ->
  exists d', fft_phase d = Some d' /\ shape d' = [n; m] /\
    forall x y, 0 <= x < n -> 0 <= y < m -> elem d' [x; y] = Cmul (RtoC (sign (x + y))) (elem d [x; y]).
Proof. exact (phase_lemma d n m). Qed.
Print Assumptions C39_phase.

Theorem C39_phase_twice d n m : shape d = [n; m] -> 0 <= n -> 0 <= m ->
  exists d1 d2, fft_phase d = Some d1 /\ fft_phase d1 = Some d2 /\ nd_eq d2 d.
Proof.
  intros S Hn Hm. destruct (phase_lemma d n m S Hn Hm) as (d1 & E1 & S1 & P1).
  destruct (phase_lemma d1 n m S1 Hn Hm) as (d2 & E2 & S2 & P2).
  exists d1, d2. split; [exact E1|]. split; [exact E2|]. split; [congruence|].
  intros idx Hi. rewrite S2 in Hi. destruct idx as [|x [|y [|]]]; cbn in Hi; try discriminate; try lia.
  rewrite P2, P1 by lia. pose proof (sign_sqr (x + y)) as Q. generalize dependent (sign (x + y)). intros q Q.
  transitivity (Cmul (RtoC (q * q)) (elem d [x; y])); [csolve|]. rewrite Q. csolve.
Qed.
Print Assumptions C39_phase_twice.

Theorem C39_norm d n m : shape d = [n; m] -> 0 <= n -> 0 <= m -> n * m <= 2147483647 ->
  exists d', fft_norm d = Some d' /\ shape d' = [n; m] /\
    forall x y, 0 <= x < n -> 0 <= y < m -> elem d' [x; y] = Cmul (RtoC (/ IZR (n * m))) (elem d [x; y]).
Proof. exact (norm_lemma d n m). Qed.
Print Assumptions C39_norm.
(** With 2^31 elements or more the count, computed as int, overflows: undefined behaviour. *)
Theorem C39_norm_large_refuted d n m : shape d = [n; m] -> 2147483647 < n * m -> fft_norm d = None.
Proof. intros S H. unfold fft_norm, dim, int_times. rewrite S. cbn [nth]. replace (n * m <=? 2147483647) with false by (symmetry; now apply Z.leb_gt). reflexivity. Qed.
Print Assumptions C39_norm_large_refuted.
Example C39_hyps : exists d : nd C, shape d = [3; 4] /\ elem d [2; 1] <> C0 /\ sign 3 = (-1)%R /\ sign 4 = 1%R.
Proof. exists (mk_nd [3; 4] (fun _ => C1)). repeat split. cbn. apply C1_neq_C0. Qed.

(** C40.  With even sizes the shifted transform is the centred one, up to the sign (-1)^((nx+ny)/2);
    the sign is positive for square arrays. *)
Theorem C40_square is_forward norm d temp n T : shape d = [2 * n; 2 * n] -> 0 < n -> shape temp = [T] -> 2 * n * (2 * n) <= T -> (norm = true -> 2 * n * (2 * n) <= 2147483647) ->
  exists r, fft_exec_shift 2 is_forward norm d temp = Some (SUCCESS, r) /\ shape r = [2 * n; 2 * n] /\
    forall k l, 0 <= k < 2 * n -> 0 <= l < 2 * n -> elem r [k; l] =
      Cmul (RtoC (norm_scale norm (2 * n) (2 * n)))
        (centred2 (inverse_of is_forward) (2 * n) (2 * n) (fun s t => elem d [s; t]) k l).
Proof.
  intros S Hn ST HT Pn. destruct (shift_2d is_forward norm d temp n n T) as (r & E & Sr & P); auto.
  exists r. split; [exact E|]. split; [exact Sr|]. intros k l Hk Hl. rewrite P by assumption.
  do 2 f_equal. replace (n + n) with (2 * n) by lia. unfold sign. rewrite Z.even_mul. cbn [Z.even orb]. ring.
Qed.
Print Assumptions C40_square.

Theorem C40_partial is_forward norm d temp n m T :
  shape d = [2 * n; 2 * m] -> 0 < n -> 0 < m -> shape temp = [T] -> 2 * n * (2 * m) <= T -> (norm = true -> 2 * n * (2 * m) <= 2147483647) ->
  exists r, fft_exec_shift 2 is_forward norm d temp = Some (SUCCESS, r) /\ shape r = [2 * n; 2 * m] /\
    forall k l, 0 <= k < 2 * n -> 0 <= l < 2 * m -> elem r [k; l] =
      Cmul (RtoC (sign (n + m) * norm_scale norm (2 * n) (2 * m)))
        (centred2 (inverse_of is_forward) (2 * n) (2 * m) (fun s t => elem d [s; t]) k l).
Proof. exact (shift_2d is_forward norm d temp n m T). Qed.
Print Assumptions C40_partial.

(** A plan for one dimension applied to the rows of a matrix *)
Theorem C40_rows_partial is_forward norm d temp n m T :
  shape d = [n; 2 * m] -> 0 < n -> 0 < m -> shape temp = [T] -> n * (2 * m) <= T -> (norm = true -> n * (2 * m) <= 2147483647) ->
  exists r, fft_exec_shift 1 is_forward norm d temp = Some (SUCCESS, r) /\ shape r = [n; 2 * m] /\
    forall k l, 0 <= k < n -> 0 <= l < 2 * m -> elem r [k; l] =
      Cmul (RtoC (sign m * norm_scale norm n (2 * m)))
        (centred (inverse_of is_forward) (2 * m) (fun t => elem d [k; t]) l).
Proof. exact (shift_1d is_forward norm d temp n m T). Qed.
Print Assumptions C40_rows_partial.

(** A point source at the centre of a 2 x 4 array gives -1 everywhere instead of 1. *)
Definition delta24 : nd C := mk_nd [2; 4] (fun i => if idx_eqb i [1; 2] then C1 else C0).
Theorem C40_sign_refuted : exists d temp r, shape d = [2; 4] /\ shape temp = [8] /\
  fft_exec_shift 2 1 false d temp = Some (SUCCESS, r) /\ 
  elem r [0; 0] <> centred2 false 2 4 (fun s t => elem d [s; t]) 0 0 /\ elem r [0; 0] = Copp C1.
Proof.
  exists delta24, (mk_nd [8] (fun _ => C0)).
  destruct (shift_2d 1 false delta24 (mk_nd [8] (fun _ => C0)) 1 2 8) as (r & E & S & P); [reflexivity|lia|lia|reflexivity|lia|discriminate|].
  exists r. split; [reflexivity|]. split; [reflexivity|]. split; [exact E|].
  specialize (P 0 0 ltac:(lia) ltac:(lia)).
  assert (CE : centred2 false 2 4 (fun s t => elem delta24 [s; t]) 0 0 = C1).
  { unfold centred2. rewrite (csum_one 0 2 1); [|lia|].
    - rewrite (csum_one 0 4 2); [|lia|].
      + change (elem delta24 [1; 2]) with C1. change ((0 - 2 / 2) * (1 - 2 / 2)) with 0. change ((0 - 4 / 2) * (2 - 4 / 2)) with 0.
        rewrite !W_0. csolve.
      + intros i Hi NE. unfold delta24. cbn [elem]. rewrite idx_eqb_neq by congruence. csolve.
    - intros i Hi NE. rewrite (csum_ext _ _ _ (fun _ => C0)).
      + rewrite csum_const by lia. csolve.
      + intros j Hj. unfold delta24. cbn [elem]. rewrite idx_eqb_neq by congruence. csolve. }
  change (2 * 1) with 2 in P. change (2 * 2) with 4 in P. change (inverse_of 1) with false in P. rewrite CE in P.
  change (sign (1 + 2)) with (-1)%R in P. unfold norm_scale in P.
  rewrite CE, P. split.
  - intro K. injection K. lra.
  - csolve.
Qed.
Print Assumptions C40_sign_refuted.
Example C40_hyps : exists d temp : nd C, shape d = [2 * 2; 2 * 3] /\ shape temp = [24] /\ 2 * 2 * (2 * 3) <= 24 /\ elem d [1; 1] <> C0.
Proof. exists (mk_nd [4; 6] (fun _ => C1)), (mk_nd [24] (fun _ => C0)). repeat split; try lia. cbn. apply C1_neq_C0. Qed.
