(** C112: the 'same'-mode convolution of arrays in GPU memory is the linear convolution, for even and odd sizes. *)
From Coq Require Import String Lia.
From Verif Require Import Base BaseFacts Mem Sum CRing Cplx Fft FftSpec FftConv FftConvSpec FftConvFacts FftConvFacts2 FftConvGpu FftConvGpuSpec FftConvGpuFacts FftConvGpuFacts2.
Open Scope Z_scope.

Definition complex_type (ty : Z) : Prop := ty = MEM_COMPLEX_FLOAT \/ ty = MEM_COMPLEX_DOUBLE.

(** Every call ends, in every schedule of its six kernels with success and element (i, j) of the output, stored by rows, is the element
    (i + (n2-1)/2, j + (n2-1)/2) of the linear convolution; elements beyond n1 x n1 of a larger output keep their values.  Sizes: the padded size is at least n1 + 2,
    as always for n2 >= 3 (otherwise see C112_edge_refuted and C112_unit_refuted), and at most 2^15. *)
Theorem C112_same_partial : forall in1 in2 out ty n1 n2 N P M1 M2 M (a b o : nd C),
  complex_type ty -> gpu_square in1 ty n1 -> gpu_square in2 ty n2 -> gpu_square out ty N -> is_read_only out = false ->
  1 <= n1 -> 1 <= n2 -> padded_size n1 n2 P -> 3 <= n2 \/ n1 + 2 <= P -> P <= 32768 ->
  shape a = [M1] -> shape b = [M2] -> shape o = [M] -> n1 * n1 <= M1 -> n2 * n2 <= M2 -> n1 * n1 <= M ->
  (exists st' o', gpu_fft_convolution in1 in2 out a b o SUCCESS st' o') /\
  forall st' o', gpu_fft_convolution in1 in2 out a b o SUCCESS st' o' ->
    st' = SUCCESS /\ shape o' = [M] /\
    (forall i j, 0 <= i < n1 -> 0 <= j < n1 -> elem o' [i * n1 + j] = full_conv a n1 b n2 (i + (n2 - 1) / 2) (j + (n2 - 1) / 2)) /\
    (forall t, t < 0 \/ n1 * n1 <= t -> elem o' [t] = elem o [t]).
Proof.
  intros until o. intros T G1 G2 G3 W H1 H2 HP HE HB Sa Sb So Ha Hb HM. assert (HE' : n1 + 2 <= P) by (destruct HP as (_ & L & _); lia). split.
  - destruct (full_exists in1 in2 out ty n1 n2 N P M1 M2 M a b o) as (st' & o' & H); try assumption. exists st', o'. now apply (call_convolution in1 in2 out ty n1 n2 N).
  - intros st' o' H. apply (call_convolution in1 in2 out ty n1 n2 N) in H; try assumption. now apply (full_result in1 in2 out ty n1 n2 N P M1 M2 M a b o).
Qed.
Print Assumptions C112_same_partial.

(** For even sizes the result is the one of the CPU on the same arrays. *)
Theorem C112_cpu : forall in1 in2 out ty n1 n2 N P M1 M2 M (a b o : nd C),
  complex_type ty -> gpu_square in1 ty n1 -> gpu_square in2 ty n2 -> gpu_square out ty N -> is_read_only out = false ->
  1 <= n1 -> 1 <= n2 -> Z.even n1 = true -> Z.even n2 = true -> padded_size n1 n2 P -> n1 + 2 <= P -> P <= 32768 ->
  shape a = [M1] -> shape b = [M2] -> shape o = [M] -> n1 * n1 <= M1 -> n2 * n2 <= M2 -> n1 * n1 <= M ->
  exists out_cpu, fft_convolution a b n1 n2 o = Some out_cpu /\
  forall st' o', gpu_fft_convolution in1 in2 out a b o SUCCESS st' o' -> st' = SUCCESS /\ shape o' = shape out_cpu /\ forall t, elem o' [t] = elem out_cpu [t].
Proof.
  intros until o. intros T G1 G2 G3 W H1 H2 V1 V2 HP HE HB Sa Sb So Ha Hb HM.
  destruct (even_lemma n1 n2 a b o M1 M2 M) as (c & E & S & V & F); try assumption; try lia. exists c. split; [exact E|]. intros st' o' H.
  destruct (C112_same_partial in1 in2 out ty n1 n2 N P M1 M2 M a b o) as (_ & R); try assumption; [now right|]. destruct (R st' o' H) as (-> & S' & V' & F'). split; [reflexivity|]. split; [congruence|].
  intro t. destruct (Z_lt_le_dec t 0); [rewrite F, F' by lia; reflexivity|]. destruct (Z_lt_le_dec t (n1 * n1)) as [L|L]; [|rewrite F, F' by lia; reflexivity].
  pose proof (Z.div_mod t n1 ltac:(lia)) as D. pose proof (Z.mod_pos_bound t n1 ltac:(lia)) as B. set (i := t / n1) in *. set (j := t mod n1) in *. clearbody i j.
  assert (0 <= i < n1) by nia. replace t with (i * n1 + j) by lia. rewrite V, V' by assumption. reflexivity.
Qed.
Print Assumptions C112_cpu.

(** Refuted: a kernel of one or two rows can be used for every image.  If n1 + n2 - 1 or one more is a power of 2 and less than n1 + 2, the last kernel reads memory
    before its array: the call has no outcome. *)
Theorem C112_edge_refuted : forall in1 in2 out ty n1 n2 N P M1 M2 (a b o : nd C) st' o',
  complex_type ty -> gpu_square in1 ty n1 -> gpu_square in2 ty n2 -> gpu_square out ty N -> is_read_only out = false ->
  1 <= n1 -> 1 <= n2 -> padded_size n1 n2 P -> 2 <= P < n1 + 2 -> P <= 32768 -> shape a = [M1] -> shape b = [M2] -> n1 * n1 <= M1 -> n2 * n2 <= M2 ->
  ~ gpu_fft_convolution in1 in2 out a b o SUCCESS st' o'.
Proof.
  intros until o'. intros T G1 G2 G3 W H1 H2 HP HE HB Sa Sb Ha Hb H. apply (call_convolution in1 in2 out ty n1 n2 N) in H; try assumption.
  now apply (edge in1 in2 out ty n1 n2 N P M1 M2 a b o) in H.
Qed.
Print Assumptions C112_edge_refuted.

(** Refuted: the product of two single numbers can be computed.  The kernel that exchanges the quadrants is launched with no blocks: an error, and nothing is stored. *)
Theorem C112_unit_refuted : forall in1 in2 out ty N M1 M2 (a b o : nd C) st' o',
  complex_type ty -> gpu_square in1 ty 1 -> gpu_square in2 ty 1 -> gpu_square out ty N -> is_read_only out = false -> shape a = [M1] -> shape b = [M2] -> 1 <= M1 -> 1 <= M2 ->
  (gpu_fft_convolution in1 in2 out a b o SUCCESS st' o' <-> st' = ERR_RUNTIME /\ o' = o).
Proof.
  intros until o'. intros T G1 G2 G3 W Sa Sb Ha Hb. rewrite (call_convolution in1 in2 out ty 1 1 N) by assumption.
  apply (unit_result in1 in2 out ty 1 1 N 1 M1 M2 a b o); try assumption; try lia.
  split; [exists 0; split; [lia|reflexivity]|]. split; [lia|]. intros k Hk _. pose proof (Z.pow_pos_nonneg 2 k ltac:(lia) Hk). lia.
Qed.
Print Assumptions C112_unit_refuted.

(** Refuted: the size of the output is checked.  If it has fewer elements than the first input, memory after it is overwritten: the call has no outcome. *)
Theorem C112_output_refuted : forall in1 in2 out ty n1 n2 N P M1 M2 M (a b o : nd C) st' o',
  complex_type ty -> gpu_square in1 ty n1 -> gpu_square in2 ty n2 -> gpu_square out ty N -> is_read_only out = false ->
  1 <= n1 -> 1 <= n2 -> padded_size n1 n2 P -> n1 + 2 <= P -> P <= 32768 -> shape a = [M1] -> shape b = [M2] -> shape o = [M] -> n1 * n1 <= M1 -> n2 * n2 <= M2 -> M < n1 * n1 ->
  ~ gpu_fft_convolution in1 in2 out a b o SUCCESS st' o'.
Proof.
  intros until o'. intros T G1 G2 G3 W H1 H2 HP HE HB Sa Sb So Ha Hb HM H. apply (call_convolution in1 in2 out ty n1 n2 N) in H; try assumption.
  now apply (small_output in1 in2 out ty n1 n2 N P M1 M2 M a b o) in H.
Qed.
Print Assumptions C112_output_refuted.

(** Arguments that are refused, the first reason that applies deciding, and nothing is stored; nothing happens after an earlier error. *)
Theorem C112_refused : forall in1 in2 out (a b o : nd C) st st' o', gpu_fft_convolution in1 in2 out a b o st st' o' ->
  (st <> SUCCESS -> st' = st /\ o' = o) /\
  (st = SUCCESS ->
    (is_read_only out = true -> st' = ERR_RUNTIME /\ o' = o) /\
    (is_read_only out = false -> location in1 <> location out -> st' = ERR_MEM_LOCATION /\ o' = o) /\
    (is_read_only out = false -> location in1 = location out ->
       (mtype in1 <> mtype out \/ is_complex in1 = false \/ shape_dim in1 0 <> shape_dim in1 1 \/ shape_dim in2 0 <> shape_dim in2 1) -> st' = ERR_DATA_TYPE /\ o' = o)).
Proof.
  intros until o'. unfold gpu_fft_convolution. intro H. split.
  - intro N. destruct st; try congruence; exact H.
  - intros ->. cbn [failed] in H. split; [intro E; rewrite E in H; exact H|]. split.
    + intros E L. rewrite E in H. apply Z.eqb_neq in L. rewrite L in H. exact H.
    + intros E L K. rewrite E, L, Z.eqb_refl in H. cbn [negb] in H.
      destruct (mtype in1 =? mtype out) eqn:B1; cbn [negb] in H; [|exact H]. destruct (is_complex in1); cbn [negb] in H; [|exact H].
      destruct (shape_dim in1 0 =? shape_dim in1 1) eqn:B2; cbn [negb] in H; [|exact H]. destruct (shape_dim in2 0 =? shape_dim in2 1) eqn:B3; cbn [negb] in H; [|exact H].
      apply Z.eqb_eq in B1, B2, B3. destruct K as [K|[K|[K|K]]]; congruence.
Qed.
Print Assumptions C112_refused.

(** Cases for the hypotheses: a 5 x 5 image and a 3 x 3 kernel, padded to 8; a 7 x 7 image and a 2 x 2 kernel, padded to 8 as well *)
Definition gpu_matrix (n : Z) : option mem := Some (mk_mem MEM_COMPLEX_DOUBLE MEM_GPU true true false 2 (n * n) 1 [n; n] [] (Some (0, 0))).
Example C112_hyps : complex_type MEM_COMPLEX_DOUBLE /\ gpu_square (gpu_matrix 5) MEM_COMPLEX_DOUBLE 5 /\ gpu_square (gpu_matrix 3) MEM_COMPLEX_DOUBLE 3 /\ is_read_only (gpu_matrix 5) = false /\
  padded_size 5 3 8 /\ 5 + 2 <= 8 /\ padded_size 7 2 8 /\ 2 <= 8 < 7 + 2 /\ padded_size 4 4 8 /\ 4 + 2 <= 8 /\ is_read_only None = true.
Proof.
  assert (X : forall m, 4 < m <= 8 -> (exists k, 0 <= k /\ 8 = 2 ^ k) /\ m <= 8 /\ forall k, 0 <= k -> m <= 2 ^ k -> 8 <= 2 ^ k).
  { intros m Hm. split; [exists 3; split; [lia|reflexivity]|]. split; [lia|]. intros k Hk L. change 8 with (2 ^ 3). apply Z.pow_le_mono_r; [lia|]. destruct (Z_lt_le_dec k 3) as [K|K]; [|exact K].
    pose proof (Z.pow_le_mono_r 2 k 2 ltac:(lia) ltac:(lia)) as B. change (2 ^ 2) with 4 in B. lia. }
  split; [right; reflexivity|]. split; [repeat split; discriminate|]. split; [repeat split; discriminate|]. split; [reflexivity|]. split; [exact (X 7 ltac:(lia))|]. split; [lia|]. split; [exact (X 8 ltac:(lia))|]. split; [lia|].
  split; [exact (X 7 ltac:(lia))|]. split; [lia|reflexivity].
Qed.
