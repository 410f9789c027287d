(** Property theorems C32, C33, C63-C65: grid correction, array utilities, direct Fourier
    transforms and source lists of the gridder (exact complex arithmetic). *)
From Verif Require Import Base Sum CRing Cplx Loops Clamp GridUtils GridUtilsSpec GridUtilsFacts Flmn FlmnSpec FlmnFacts.
From Coq Require Import Lra.
Open Scope Z_scope.

(** ** C32 *)
Theorem C32_w_stack_invertible : forall image_size theta w_step hu hv facet off_l off_m w_offset b n m,
  shape facet = [n; m] -> 0 <= n -> 0 <= m ->
  exists f1 f2, grid_corr_w_stack image_size theta w_step hu hv facet off_l off_m w_offset b = Some f1 /\
    grid_corr_w_stack image_size theta w_step hu hv f1 off_l off_m w_offset (negb b) = Some f2 /\ nd_eq f2 facet.
Proof. exact w_stack_inverse. Qed.
Print Assumptions C32_w_stack_invertible.

(** The correction multiplies each pixel by a unit phasor e^{+-2 pi i w_step w_offset n(l, m)} with
    (l, m) the sky position of the pixel. *)
Theorem C32_w_stack_phase : forall image_size theta w_step hu hv facet off_l off_m w_offset inverse n m,
  shape facet = [n; m] -> 0 <= n -> 0 <= m ->
  exists f', grid_corr_w_stack image_size theta w_step hu hv facet off_l off_m w_offset inverse = Some f' /\
    shape f' = [n; m] /\
    (forall i j, 0 <= i < n -> 0 <= j < m ->
      let l := (IZR (i - n / 2 + off_l) * theta / IZR image_size)%R in
      let mm := (IZR (j - m / 2 + off_m) * theta / IZR image_size)%R in
      let phase := (2 * PI * w_step * lm_to_n l mm hu hv * IZR w_offset)%R in
      elem f' [i; j] = Cmul (elem facet [i; j]) (cis (if inverse then phase else - phase)%R)) /\
    (forall idx, in_shape [n; m] idx = false -> elem f' idx = elem facet idx).
Proof. exact w_stack_lemma. Qed.
Print Assumptions C32_w_stack_phase.

(** The PSWF correction reads its table in bounds when the facet lies inside the image. *)
Theorem C32_pswf : forall image_size theta hu hv pswf pn facet off_l off_m n m,
  shape facet = [n; m] -> 0 <= n -> 0 <= m -> shape pswf = [image_size] -> 0 <= image_size ->
  0 <= image_size / 2 - n / 2 + off_l -> image_size / 2 - n / 2 + off_l + n <= image_size ->
  0 <= image_size / 2 - m / 2 + off_m -> image_size / 2 - m / 2 + off_m + m <= image_size ->
  exists f', grid_corr_pswf image_size theta hu hv pswf pn facet off_l off_m = Some f' /\
    shape f' = [n; m] /\
    (forall i j, 0 <= i < n -> 0 <= j < m -> elem f' [i; j] =
       Cmul (elem facet [i; j]) (RtoC (1 / (elem pswf [(i - n / 2 + off_l + image_size / 2)%Z] *
          elem pswf [(j - m / 2 + off_m + image_size / 2)%Z] *
          pn (lm_to_n (IZR (i - n / 2 + off_l) * theta / IZR image_size) (IZR (j - m / 2 + off_m) * theta / IZR image_size) hu hv))))) /\
    (forall idx, in_shape [n; m] idx = false -> elem f' idx = elem facet idx).
Proof. exact pswf_lemma. Qed.
Print Assumptions C32_pswf.

Example C32_hyps : let f : nd C := mk_nd [2; 3] (fun _ => C1) in let p : nd R := mk_nd [8] (fun _ => 1%R) in
  shape f = [2; 3] /\ shape p = [8] /\ 0 <= 8 / 2 - 2 / 2 + 1 /\ 8 / 2 - 2 / 2 + 1 + 2 <= 8 /\
  0 <= 8 / 2 - 3 / 2 + (-2) /\ 8 / 2 - 3 / 2 + (-2) + 3 <= 8.
Proof. cbn. repeat split; lia. Qed.

(** ** C33 *)
Theorem C33_scale_inv : forall out in1 in2 e n m,
  shape out = [n; m] -> shape in1 = [n; m] -> shape in2 = [n; m] -> 0 <= n -> 0 <= m ->
  exists o, scale_inv_array out in1 in2 e = Some o /\ shape o = [n; m] /\
    forall i j, 0 <= i < n -> 0 <= j < m -> elem o [i; j] = Cdiv (elem in1 [i; j]) (Cpowz (elem in2 [i; j]) e).
Proof. exact scale_inv_lemma. Qed.
Print Assumptions C33_scale_inv.

Theorem C33_accum_scale : forall out in1 in2 e n m,
  shape out = [n; m] -> shape in1 = [n; m] -> (forall b, in2 = Some b -> shape b = [n; m]) -> 0 <= n -> 0 <= m ->
  exists o, accum_scale_array out in1 in2 e = Some o /\ shape o = [n; m] /\
    forall i j, 0 <= i < n -> 0 <= j < m ->
      elem o [i; j] = Cadd (elem out [i; j]) (Cmul (elem in1 [i; j])
        (match in2 with None => C1 | Some b => Cpowz (elem b [i; j]) e end)).
Proof. exact accum_lemma. Qed.
Print Assumptions C33_accum_scale.

Theorem C33_residual : forall a b out n m,
  shape a = [n; m] -> shape b = [n; m] -> shape out = [n; m] -> 0 <= n -> 0 <= m ->
  exists o, residual a b out = Some (SUCCESS, o) /\ shape o = [n; m] /\
    forall i j, 0 <= i < n -> 0 <= j < m -> elem o [i; j] = Csub (elem a [i; j]) (elem b [i; j]).
Proof. exact residual_lemma. Qed.
Print Assumptions C33_residual.
Theorem C33_residual_mismatch : forall a b out,
  shape a <> shape b \/ shape a <> shape out \/ length (shape a) <> 2%nat ->
  residual a b out = Some (ERR_INVALID_ARGUMENT, out).
Proof. exact residual_mismatch. Qed.
Print Assumptions C33_residual_mismatch.
Theorem C33_rms : forall a b n m,
  shape a = [n; m] -> shape b = [n; m] -> 0 <= n -> 0 <= m ->
  rms_sum a b = Some (SUCCESS, sum Rplus 0%R 0 n (fun i => sum Rplus 0%R 0 m (fun j =>
    Cnorm2 (Csub (elem a [i; j]) (elem b [i; j]))))).
Proof. exact rms_lemma. Qed.
Print Assumptions C33_rms.

Theorem C33_sum_diff : forall a b n r0 r1, shape a = [n] -> shape b = [n] -> 0 <= n ->
  (r0 < 0 \/ r1 < 0) \/ (0 <= r0 /\ 0 <= r1 <= n) ->
  sum_diff a b r0 r1 =
    let lo := if (r0 <? 0) || (r1 <? 0) then 0 else r0 in
    let hi := if (r0 <? 0) || (r1 <? 0) then n else r1 in
    Some (SUCCESS, sum Z.add 0 lo hi (fun i => elem a [i]) - sum Z.add 0 lo hi (fun i => elem b [i])).
Proof. exact sum_diff_lemma. Qed.
Print Assumptions C33_sum_diff.

(** Refuted: an input smaller than the output, and a row range longer than the arrays, are not
    reported but read out of bounds. *)
Theorem C33_scale_inv_shape_unchecked_refuted :
  scale_inv_array (mk_nd [1; 2] (fun _ => C1)) (mk_nd [1; 1] (fun _ => C1)) (mk_nd [1; 2] (fun _ => C1)) 1 = None.
Proof. reflexivity. Qed.
Print Assumptions C33_scale_inv_shape_unchecked_refuted.
Theorem C33_sum_diff_rows_unchecked_refuted :
  sum_diff (mk_nd [2] (fun _ => 5)) (mk_nd [2] (fun _ => 3)) 0 3 = None.
Proof. reflexivity. Qed.
Print Assumptions C33_sum_diff_rows_unchecked_refuted.

Example C33_hyps : sum_diff (mk_nd [2] (fun i => 5 + nth 0 i 0)) (mk_nd [2] (fun _ => 3)) (-1) 7 = Some (SUCCESS, 5).
Proof. reflexivity. Qed.

(** ** C63: direct Fourier transforms *)
Theorem C63_predict : forall uvw chs flux lmn su sv sw theta w_step f0 df vis n nc ns,
  shape uvw = [n; 3] -> shape lmn = [ns; 3] -> shape flux = [ns] -> shape vis = [n; nc] -> chs_shape chs n ->
  0 <= n -> 0 <= nc -> 0 <= ns ->
  exists v, gridder_dft uvw chs flux lmn su sv sw theta w_step f0 df vis = Some v /\ shape v = [n; nc] /\
    (forall i c, 0 <= i < n -> 0 <= c < nc -> elem v [i; c] = Cadd (elem vis [i; c])
      (if row_on chs i then predicted uvw lmn f0 df (offsets theta w_step su sv sw) flux ns i c else C0)).
Proof. exact dft_lemma. Qed.
Print Assumptions C63_predict.

Theorem C63_image : forall uvw vis chs lmn taper su sv sw theta w_step f0 df image n nc sz,
  shape uvw = [n; 3] -> shape lmn = [sz * sz; 3] -> shape image = [sz; sz] -> shape vis = [n; nc] -> chs_shape chs n ->
  taper_shape taper sz -> 0 <= n -> 0 <= nc -> 0 <= sz ->
  exists im', gridder_idft uvw vis chs lmn taper su sv sw theta w_step f0 df image = Some im' /\ shape im' = [sz; sz] /\
    (forall il im, 0 <= il < sz -> 0 <= im < sz -> elem im' [il; im] = Cadd (elem image [il; im])
      (Cmul (imaged uvw lmn f0 df (offsets theta w_step su sv sw) vis chs n nc (il * sz + im)) (RtoC (taper_value taper il im)))).
Proof. exact idft_lemma. Qed.
Print Assumptions C63_image.

(** <predict(flux), vis> = <flux, image(vis)>. *)
Theorem C63_adjoint : forall uvw lmn f0 df off flux vis chs n nc ns,
  Csum 0 n (fun i => if row_on chs i then Csum 0 nc (fun c =>
    Cmul (Cconj (predicted uvw lmn f0 df off flux ns i c)) (elem vis [i; c])) else C0)
  = Csum 0 ns (fun s => Cmul (Cconj (elem flux [s])) (imaged uvw lmn f0 df off vis chs n nc s)).
Proof. exact dft_adjoint. Qed.
Print Assumptions C63_adjoint.

Definition ex_row : nd R := mk_nd [1; 3] (fun _ => 0%R).
Definition ex_vis : nd C := mk_nd [1; 2] (fun _ => C0).
Definition ex_flux : nd C := mk_nd [1] (fun _ => C1).
Definition ex_ch (k : Z) : nd Z := mk_nd [1] (fun _ => k).
Example C63_hyps : shape ex_row = [1; 3] /\ shape ex_flux = [1] /\ shape ex_vis = [1; 2] /\
  chs_shape (Some (ex_ch 0, ex_ch 1)) 1 /\ row_on (Some (ex_ch 0, ex_ch 1)) 0 = true.
Proof. repeat split. Qed.

(** ** C64, refuted: with channels [0, 1) selected out of two, channel 1 is predicted too. *)
Theorem C64_channels_outside_selection_refuted :
  exists v, gridder_dft ex_row (Some (ex_ch 0, ex_ch 1)) ex_flux ex_row 0 0 0 1 1 100 1 ex_vis = Some v /\
    elem ex_vis [0; 1] = C0 /\ elem v [0; 1] = C1 /\ C0 <> C1.
Proof.
  destruct (dft_lemma ex_row (Some (ex_ch 0, ex_ch 1)) ex_flux ex_row 0 0 0 1 1 100 1 ex_vis 1 2 1) as (v & E & _ & P);
    try reflexivity; try lia; [cbn; auto|].
  exists v. split; [exact E|]. split; [reflexivity|]. split.
  - rewrite P by lia. cbn [row_on ex_ch elem]. change (0 <? 1) with true. cbn iota.
    unfold predicted. rewrite (sum_one _ _ Ccm 0 1 0) by (intros; lia).
    match goal with |- context [cis ?x] => replace x with 0%R end.
    + rewrite cis_0. cbn [elem ex_vis ex_flux]. csolve.
    + unfold source_turns. cbn [elem ex_row]. lra.
  - intro H. assert (X : re C0 = re C1) by now rewrite <- H. cbn in X. lra.
Qed.
Print Assumptions C64_channels_outside_selection_refuted.

(** What does hold: rows without any selected channel are left alone. *)
Theorem C64_rows_partial : forall uvw chs flux lmn su sv sw theta w_step f0 df vis n nc ns v,
  shape uvw = [n; 3] -> shape lmn = [ns; 3] -> shape flux = [ns] -> shape vis = [n; nc] -> chs_shape chs n ->
  0 <= n -> 0 <= nc -> 0 <= ns ->
  gridder_dft uvw chs flux lmn su sv sw theta w_step f0 df vis = Some v ->
  forall i c, 0 <= i < n -> 0 <= c < nc -> row_on chs i = false -> elem v [i; c] = elem vis [i; c].
Proof.
  intros uvw chs flux lmn su sv sw theta w_step f0 df vis n nc ns v S1 S2 S3 S4 S5 H1 H2 H3 E i c Hi Hc N.
  destruct (dft_lemma uvw chs flux lmn su sv sw theta w_step f0 df vis n nc ns) as (v' & E' & _ & P); auto.
  rewrite E in E'. injection E' as <-. rewrite P, N by auto. apply Cadd_0_r.
Qed.
Print Assumptions C64_rows_partial.

(** C65: a pixel counts as non-zero exactly when it differs from 0 + 0i. *)
Theorem C65_nonzero : forall z : C, nonzero z = true <-> z <> C0.
Proof.
  intros [x y]. unfold nonzero. cbn [re im fst snd]. destruct (Req_EM_T x 0) as [-> |N]; [destruct (Req_EM_T y 0) as [-> |N]|];
    split; intro H; try reflexivity; try discriminate; try (exfalso; now apply H); intro E; injection E; intros; contradiction.
Qed.
Print Assumptions C65_nonzero.

(** ** C65: source lists.  [total] is the number of non-zero pixels, [rank] the number of
    non-zero pixels before (x, y) in row-major order. *)
Theorem C65_count : forall image n, shape image = [n; n] ->
  count_nonzero image = Some (sum Z.add 0 0 n (fun x => sum Z.add 0 0 n (fun y =>
    if nonzero (elem image [x; y]) then 1 else 0))).
Proof. exact count_lemma. Qed.
Print Assumptions C65_count.

Theorem C65_list : forall image theta hu hv taper flux lmn n m,
  shape image = [n; m] -> 0 <= n -> 0 <= m -> (forall t, taper = Some t -> shape t = [Z.max n m]) ->
  shape flux = [total image n m] -> shape lmn = [total image n m; 3] ->
  exists flux' lmn', image_to_flmn image theta hu hv taper flux lmn = Some (flux', lmn', total image n m) /\
    shape flux' = shape flux /\ shape lmn' = shape lmn /\
    (forall x y, 0 <= x < n -> 0 <= y < m -> nonzero (elem image [x; y]) = true ->
      0 <= rank image m x y < total image n m /\
      source_is flux' lmn' theta hu hv n m (rank image m x y) x y (re (elem image [x; y]) * taper_value taper x y)%R) /\
    (forall k, 0 <= k < total image n m -> exists x y, 0 <= x < n /\ 0 <= y < m /\
      nonzero (elem image [x; y]) = true /\ rank image m x y = k).
Proof.
  intros image theta hu hv taper flux lmn n m S Hn Hm T S1 S2.
  destruct (flmn_lemma image theta hu hv taper flux lmn n m S Hn Hm T S1 S2) as (f' & l' & E & A & B & P).
  exists f', l'. split; [exact E|]. split; [exact A|]. split; [exact B|]. split.
  - intros x y Hx Hy N. split; [now apply rank_total|now apply P].
  - intros k Hk. now apply rank_onto.
Qed.
Print Assumptions C65_list.

(** Different pixels get different entries. *)
Theorem C65_rank_injective : forall image m x y x' y',
  0 <= x -> 0 <= y < m -> 0 <= x' -> 0 <= y' < m ->
  nonzero (elem image [x; y]) = true -> nonzero (elem image [x'; y']) = true ->
  rank image m x y = rank image m x' y' -> x = x' /\ y = y'.
Proof.
  intros image m x y x' y' Hx Hy Hx' Hy' N N' E.
  destruct (Z.lt_trichotomy x x') as [L|[L|L]].
  - pose proof (rank_before image m x' y' x y Hx Hy ltac:(lia) ltac:(left; lia) N). lia.
  - subst x'. destruct (Z.lt_trichotomy y y') as [K|[K|K]]; [|auto|].
    + pose proof (rank_before image m x y' x y Hx Hy ltac:(lia) ltac:(right; lia) N). lia.
    + pose proof (rank_before image m x y x y' Hx Hy' ltac:(lia) ltac:(right; lia) N'). lia.
  - pose proof (rank_before image m x y x' y' Hx' Hy' ltac:(lia) ltac:(left; lia) N'). lia.
Qed.
Print Assumptions C65_rank_injective.

(** Refuted for images that are not square: pixels outside the image are read (2 x 1), and for a
    1 x 2 image the second pixel is not counted. *)
Theorem C65_not_square_refuted :
  count_nonzero (mk_nd [2; 1] (fun _ => C1)) = None /\
  count_nonzero (mk_nd [1; 2] (fun _ => C1)) = Some 1 /\
  sum Z.add 0 0 1 (fun x => sum Z.add 0 0 2 (fun y => if nonzero C1 then 1 else 0)) = 2.
Proof.
  assert (N : nonzero C1 = true).
  { unfold nonzero. cbn [re C1 fst RtoC]. destruct (Req_EM_T 1 0) as [H|H]; [lra|reflexivity]. }
  split; [|split].
  - unfold count_nonzero, dim. cbn [shape nth]. unfold for_. cbn [Z.sub Z.to_nat Pos.to_nat for_nat]. reflexivity.
  - unfold count_nonzero, dim. cbn [shape nth]. unfold for_. change (Z.to_nat (1 - 0)) with 1%nat. cbn [for_nat].
    unfold rd. cbn [shape elem in_shape]. change ((0 <=? 0) && (0 <? 1) && ((0 <=? 0) && (0 <? 2) && true)) with true.
    cbn [bind]. rewrite N. reflexivity.
  - rewrite N. reflexivity.
Qed.
Print Assumptions C65_not_square_refuted.

Example C65_hyps : exists image : nd C, shape image = [2; 2] /\ total image 2 2 = 2.
Proof.
  exists (mk_nd [2; 2] (fun idx => if idx_eqb idx [0; 1] then C1 else if idx_eqb idx [1; 0] then C1 else C0)).
  split; [reflexivity|]. unfold total, sum.
  assert (N : nonzero C1 = true).
  { unfold nonzero. cbn [re C1 fst RtoC]. destruct (Req_EM_T 1 0) as [H|H]; [lra|reflexivity]. }
  assert (N0 : nonzero C0 = false).
  { unfold nonzero. cbn. destruct (Req_EM_T 0 0) as [H|H]; [reflexivity|lra]. }
  unfold rowsum, sum, nz. change (zrange 0 2) with [0; 1]. cbn [fold_right map elem].
  cbn [idx_eqb Z.eqb andb Pos.eqb]. rewrite N, N0. reflexivity.
Qed.
