(** C44, C45, C46, C68: SwiFTly. *)
From Verif Require Import Base Sum CRing Cplx FftSpec Swiftly SwiftlySpec SwiftlyFacts SwiftlyFacts2 SwiftlyFacts3 SwiftlyFacts4 SwiftlyFacts5 SwiftlyFacts6 SwiftlyFacts7 SwiftlyFacts8 FftFacts.
From Coq Require Import Lra Lia.
Open Scope Z_scope.

Lemma csum_none46 lo hi f : (forall i, lo <= i < hi -> f i = C0) -> csum lo hi f = C0.
Proof. intro H. rewrite (csum_ext lo hi f (fun _ => Cmul C0 C0)); [rewrite <- csum_mul_l; unfold Cmul, C0; cbn; f_equal; ring|]. intros i Hi. rewrite (H i Hi). unfold Cmul, C0; cbn; f_equal; ring. Qed.

Lemma small_valid : valid small_sw.
Proof. repeat split; try (vm_compute; reflexivity); cbn; try lia; [exists 2|exists 2|exists 4|exists 4|exists 4]; reflexivity. Qed.

(** Creation accepts exactly the good sizes; the handle is valid, Fn is every (image/xM)-th value of the
    window through its centre, and Fb is the reciprocal of the window except at the border element 0. *)
Theorem C44_create image yN xM pswf : shape pswf = [yN] ->
  (good_sizes image yN xM -> exists sw, create image yN xM pswf = Some (SUCCESS, Some sw) /\
     image_size sw = image /\ yN_size sw = yN /\ xM_size sw = xM /\ valid sw /\
     (forall i, 0 <= i < contrib_size sw -> elem (tab_Fn sw) [i] = elem pswf [(yN / 2) mod (image / xM) + i * (image / xM)]) /\
     (forall i, 0 < i < yN -> elem (tab_Fb sw) [i] = (/ elem pswf [i])%R) /\ elem (tab_Fb sw) [0] = elem pswf [0]) /\
  (~ good_sizes image yN xM -> create image yN xM pswf = Some (ERR_INVALID_ARGUMENT, None)).
Proof. intro S. split; intro G; [exact (create_ok image yN xM pswf G S)|exact (create_bad image yN xM pswf G)]. Qed.
Print Assumptions C44_create.
Example C44_create_hyps : good_sizes 16 8 8 /\ ~ good_sizes 16 6 8.
Proof. split; [exact (proj1 small_valid)|]. intros (_ & _ & _ & _ & (q & E) & _). lia. Qed.

(** prepare_facet: element x of the facet is at coordinate facet_offset - size/2 + x of the padded facet
    (modulo yN), multiplied by Fb at the same distance from the centre; then the inverse transform. *)
Theorem C44_prepare_facet sw fct out off n0 size : valid sw -> 0 <= n0 -> 0 < size <= yN_size sw ->
  shape fct = [n0; size] -> shape out = [n0; yN_size sw] ->
  exists out', prepare_facet sw fct out off = Some (SUCCESS, out') /\ shape out' = [n0; yN_size sw] /\
    forall i k, 0 <= i < n0 -> 0 <= k < yN_size sw ->
      elem out' [i; k] = Cmul (RtoC (1 / IZR (yN_size sw))) (csum 0 size (fun x =>
        Cmul (root true (yN_size sw) (k * (off - size / 2 + x)))
             (Cmul (elem fct [i; x]) (Fb sw (yN_size sw / 2 - size / 2 + x))))).
Proof. exact (prepare_facet_lemma sw fct out off n0 size). Qed.
Print Assumptions C44_prepare_facet.

(** extract_from_facet: the window of contrib_size elements from window_start, modulo yN; then the
    forward transform with the window elements at their own coordinates. *)
Theorem C44_extract_from_facet sw fct out off n0 : valid sw -> 0 <= n0 ->
  shape fct = [n0; yN_size sw] -> shape out = [n0; contrib_size sw] ->
  exists out', extract_from_facet sw fct out off = Some (SUCCESS, out') /\ shape out' = [n0; contrib_size sw] /\
    forall i k, 0 <= i < n0 -> 0 <= k < contrib_size sw ->
      elem out' [i; k] = csum 0 (contrib_size sw) (fun x =>
        Cmul (root false (contrib_size sw) (k * (window_start sw off + x))) (elem fct [i; (window_start sw off + x) mod yN_size sw])).
Proof. exact (extract_from_facet_lemma sw fct out off n0). Qed.
Print Assumptions C44_extract_from_facet.

(** add_to_facet: adds to exactly the elements of that window, each from the element of the contribution
    at the same coordinate modulo contrib_size. *)
Theorem C44_add_to_facet sw contrib fct off n0 : valid sw -> 0 <= n0 ->
  shape contrib = [n0; contrib_size sw] -> shape fct = [n0; yN_size sw] ->
  exists fct', add_to_facet sw contrib fct off = Some (SUCCESS, fct') /\ shape fct' = [n0; yN_size sw] /\
    forall i j, 0 <= i < n0 -> 0 <= j < yN_size sw ->
      elem fct' [i; j] = Cadd (elem fct [i; j])
        (let x := (j - window_start sw off) mod yN_size sw in
         if x <? contrib_size sw then elem contrib [i; (window_start sw off + x) mod contrib_size sw] else C0).
Proof. exact (add_to_facet_lemma sw contrib fct off n0). Qed.
Print Assumptions C44_add_to_facet.

(** add_to_subgrid, any offset: adds Fn(x) times the contribution to the window of contrib_size elements
    centred at xM/2 + f, modulo xM, where f is the facet offset modulo the image size in units of
    image/xM. *)
Theorem C44_add_to_subgrid sw contrib out off n0 f : valid sw -> 0 <= n0 ->
  shape contrib = [n0; contrib_size sw] -> shape out = [n0; xM_size sw] ->
  f = (off mod image_size sw) / (image_size sw / xM_size sw) ->
  exists out', add_to_subgrid sw contrib out off = Some (SUCCESS, out') /\ shape out' = [n0; xM_size sw] /\
    forall i j, 0 <= i < n0 -> 0 <= j < xM_size sw ->
      elem out' [i; j] = Cadd (elem out [i; j])
        (let x := (j - (xM_size sw / 2 - contrib_size sw / 2 + f)) mod xM_size sw in
         if x <? contrib_size sw then Cmul (Fn sw x) (elem contrib [i; (x + f + contrib_size sw / 2) mod contrib_size sw]) else C0).
Proof. exact (add_to_subgrid_lemma sw contrib out off n0 f). Qed.
Print Assumptions C44_add_to_subgrid.

(** extract_from_subgrid.  Missing: facet offsets below - contrib_size/2 (in units of image/xM), for
    which it is refuted below. *)
Theorem C44_extract_from_subgrid_partial sw sg contrib off n0 f : valid sw -> 0 <= n0 ->
  shape sg = [n0; xM_size sw] -> shape contrib = [n0; contrib_size sw] ->
  f = Z.quot off (image_size sw / xM_size sw) -> 0 <= f + contrib_size sw / 2 ->
  exists out, extract_from_subgrid sw sg contrib off = Some (SUCCESS, out) /\ shape out = [n0; contrib_size sw] /\
    forall i k, 0 <= i < n0 -> 0 <= k < contrib_size sw ->
      elem out [i; k] = Cmul (RtoC (1 / IZR (contrib_size sw))) (csum 0 (contrib_size sw) (fun x =>
        Cmul (root true (contrib_size sw) (k * (x + (f + contrib_size sw / 2))))
             (Cmul (elem sg [i; (x + (xM_size sw / 2 - contrib_size sw / 2 + f)) mod xM_size sw]) (Fn sw x)))).
Proof. exact (extract_from_subgrid_lemma sw sg contrib off n0 f). Qed.
Print Assumptions C44_extract_from_subgrid_partial.

(** finish_facet *)
Theorem C44_finish_facet sw pfct fct off n0 size : valid sw -> 0 <= n0 -> 0 < size <= yN_size sw ->
  shape pfct = [n0; yN_size sw] -> shape fct = [n0; size] ->
  exists pf' fct', finish_facet sw pfct fct off = Some (SUCCESS, (pf', fct')) /\ shape fct' = [n0; size] /\
    forall i x, 0 <= i < n0 -> 0 <= x < size ->
      elem fct' [i; x] = Cmul (csum 0 (yN_size sw) (fun k => Cmul (root false (yN_size sw) (k * (off - size / 2 + x))) (elem pfct [i; k])))
                              (Fb sw (yN_size sw / 2 - size / 2 + x)).
Proof. exact (finish_facet_lemma sw pfct fct off n0 size). Qed.
Print Assumptions C44_finish_facet.
Example C44_hyps : valid small_sw /\ contrib_size small_sw = 4 /\ window_start small_sw (-6) = -5 /\ 0 < 5 <= yN_size small_sw.
Proof. split; [exact small_valid|]. repeat split; vm_compute; congruence. Qed.

(** Refuted: extract_from_subgrid, every facet offset that is too negative (there is no check) uses a
    negative index. *)
Theorem C44_extract_negative_refuted sw sg contrib off n0 f : valid sw -> 0 < n0 ->
  shape sg = [n0; xM_size sw] -> shape contrib = [n0; contrib_size sw] ->
  f = Z.quot off (image_size sw / xM_size sw) -> f + contrib_size sw / 2 < 0 -> 2 <= contrib_size sw ->
  extract_from_subgrid sw sg contrib off = None.
Proof. exact (extract_negative sw sg contrib off n0 f). Qed.
Print Assumptions C44_extract_negative_refuted.
Example C44_negative_hyps : valid small_sw /\ Z.quot (-8) (image_size small_sw / xM_size small_sw) + contrib_size small_sw / 2 < 0 /\ 2 <= contrib_size small_sw.
Proof. split; [exact small_valid|]. split; vm_compute; congruence. Qed.

(** Refuted: a facet of width 0 is accepted, and the whole-row branch reads outside it. *)
Theorem C44_empty_facet_refuted sw fct out off n0 : valid sw -> 0 < n0 ->
  shape fct = [n0; 0] -> shape out = [n0; yN_size sw] -> prepare_facet sw fct out off = None.
Proof. exact (prepare_facet_width0 sw fct out off n0). Qed.
Print Assumptions C44_empty_facet_refuted.

(** C45: the two-dimensional variants place the elements as the one-dimensional ones do along each axis.
    Missing: the offsets refuted below. *)
Theorem C45_add_2d_partial sw contrib out off0 off1 f0 f1 : valid sw ->
  shape contrib = [contrib_size sw; contrib_size sw] -> shape out = [xM_size sw; xM_size sw] ->
  f0 = Z.quot off0 (image_size sw / xM_size sw) -> f1 = Z.quot off1 (image_size sw / xM_size sw) ->
  0 <= f0 + contrib_size sw / 2 -> 0 <= f1 + contrib_size sw / 2 ->
  exists out', add_to_subgrid_2d sw contrib out off0 off1 = Some (SUCCESS, out') /\ shape out' = [xM_size sw; xM_size sw] /\
    forall i j, 0 <= i < xM_size sw -> 0 <= j < xM_size sw ->
      elem out' [i; j] = Cadd (elem out [i; j])
        (let x := (i - (xM_size sw / 2 - contrib_size sw / 2 + f0)) mod xM_size sw in
         let y := (j - (xM_size sw / 2 - contrib_size sw / 2 + f1)) mod xM_size sw in
         if (x <? contrib_size sw) && (y <? contrib_size sw)
         then Cmul (Cmul (Fn sw x) (Fn sw y)) (elem contrib [(x + f0 + contrib_size sw / 2) mod contrib_size sw; (y + f1 + contrib_size sw / 2) mod contrib_size sw])
         else C0).
Proof. exact (add_2d_lemma sw contrib out off0 off1 f0 f1). Qed.
Print Assumptions C45_add_2d_partial.

Theorem C45_extract_2d_partial sw sg contrib off0 off1 f0 f1 : valid sw ->
  shape sg = [xM_size sw; xM_size sw] -> shape contrib = [contrib_size sw; contrib_size sw] ->
  f0 = Z.quot off0 (image_size sw / xM_size sw) -> f1 = Z.quot off1 (image_size sw / xM_size sw) ->
  0 <= f0 + contrib_size sw / 2 -> 0 <= f1 + contrib_size sw / 2 ->
  exists out, extract_from_subgrid_2d sw sg contrib off0 off1 = Some (SUCCESS, out) /\ shape out = [contrib_size sw; contrib_size sw] /\
    forall k l, 0 <= k < contrib_size sw -> 0 <= l < contrib_size sw ->
      elem out [k; l] = Cmul (RtoC (1 / IZR (contrib_size sw) / IZR (contrib_size sw)))
        (csum 0 (contrib_size sw) (fun x => csum 0 (contrib_size sw) (fun y =>
          Cmul (Cmul (root true (contrib_size sw) (k * (x + (f0 + contrib_size sw / 2)))) (root true (contrib_size sw) (l * (y + (f1 + contrib_size sw / 2)))))
            (Cmul (Cmul (Fn sw x) (Fn sw y))
               (elem sg [(x + (xM_size sw / 2 - contrib_size sw / 2 + f0)) mod xM_size sw; (y + (xM_size sw / 2 - contrib_size sw / 2 + f1)) mod xM_size sw]))))).
Proof. exact (extract_2d_lemma sw sg contrib off0 off1 f0 f1). Qed.
Print Assumptions C45_extract_2d_partial.
Example C45_hyps : valid small_sw /\ 0 <= Z.quot (-3) (image_size small_sw / xM_size small_sw) + contrib_size small_sw / 2.
Proof. split; [exact small_valid|]. vm_compute; congruence. Qed.

(** Refuted: for every facet offset that is too negative, where the one-dimensional add_to_subgrid
    works (C44_add_to_subgrid), the two-dimensional variants use a negative index. *)
Theorem C45_add_2d_negative_refuted sw contrib out off0 off1 f0 f1 : valid sw ->
  shape contrib = [contrib_size sw; contrib_size sw] -> shape out = [xM_size sw; xM_size sw] ->
  f0 = Z.quot off0 (image_size sw / xM_size sw) -> f1 = Z.quot off1 (image_size sw / xM_size sw) ->
  f0 + contrib_size sw / 2 < 0 \/ f1 + contrib_size sw / 2 < 0 -> 2 <= contrib_size sw ->
  add_to_subgrid_2d sw contrib out off0 off1 = None.
Proof. exact (add_2d_negative sw contrib out off0 off1 f0 f1). Qed.
Print Assumptions C45_add_2d_negative_refuted.
Theorem C45_extract_2d_negative_refuted sw sg contrib off0 off1 f0 f1 : valid sw ->
  shape sg = [xM_size sw; xM_size sw] -> shape contrib = [contrib_size sw; contrib_size sw] ->
  f0 = Z.quot off0 (image_size sw / xM_size sw) -> f1 = Z.quot off1 (image_size sw / xM_size sw) ->
  f0 + contrib_size sw / 2 < 0 \/ f1 + contrib_size sw / 2 < 0 -> 2 <= contrib_size sw ->
  extract_from_subgrid_2d sw sg contrib off0 off1 = None.
Proof. exact (extract_2d_negative sw sg contrib off0 off1 f0 f1). Qed.
Print Assumptions C45_extract_2d_negative_refuted.

(** C46: subgrid-to-facet (extract_from_subgrid, add_to_facet, finish_facet) is the adjoint of
    facet-to-subgrid (prepare_facet, extract_from_facet, add_to_subgrid) times image/xM, for every
    facet, subgrid and offset: < f , backward s > = image/xM < forward f , s >.  The facet offset is a
    multiple of image/xM or non-negative, and not so negative that C44_extract_negative_refuted applies. *)
Theorem C46_adjoint_partial sw fct prep ext contrib2 img fct2 foff soff n0 size : valid sw -> 0 <= n0 -> 0 < size <= yN_size sw ->
  shape fct = [n0; size] -> shape img = [n0; xM_size sw] -> shape prep = [n0; yN_size sw] -> shape ext = [n0; contrib_size sw] ->
  shape contrib2 = [n0; contrib_size sw] -> shape fct2 = [n0; size] ->
  0 <= foff \/ (image_size sw / xM_size sw | foff) ->
  0 <= Z.quot foff (image_size sw / xM_size sw) + contrib_size sw / 2 ->
  exists p e a c q fb r,
    prepare_facet sw fct prep foff = Some (SUCCESS, p) /\
    extract_from_facet sw p ext soff = Some (SUCCESS, e) /\
    add_to_subgrid sw e (zeros n0 (xM_size sw)) foff = Some (SUCCESS, a) /\
    extract_from_subgrid sw img contrib2 foff = Some (SUCCESS, c) /\
    add_to_facet sw c (zeros n0 (yN_size sw)) soff = Some (SUCCESS, q) /\
    finish_facet sw q fct2 foff = Some (SUCCESS, (fb, r)) /\
    forall i, 0 <= i < n0 ->
      cdot size (fun x => elem fct [i; x]) (fun x => elem r [i; x]) =
      Cmul (RtoC (IZR (image_size sw) / IZR (xM_size sw))) (cdot (xM_size sw) (fun j => elem a [i; j]) (fun j => elem img [i; j])).
Proof. exact (adjoint_lemma sw fct prep ext contrib2 img fct2 foff soff n0 size). Qed.
Print Assumptions C46_adjoint_partial.
Example C46_hyps : valid small_sw /\ (image_size small_sw / xM_size small_sw | -4) /\ 0 <= Z.quot (-4) (image_size small_sw / xM_size small_sw) + contrib_size small_sw / 2.
Proof. split; [exact small_valid|]. split; [exists (-2); reflexivity|vm_compute; congruence]. Qed.

(** Refuted for every facet offset that C46_adjoint_partial excludes and C44_extract_negative_refuted does
    not: the offset is negative and not a multiple of image/xM, and a contribution is smaller than a
    subgrid.  add_to_subgrid wraps the offset into the image before dividing (which rounds down) and
    extract_from_subgrid rounds the quotient towards 0.  The forward step adds the (non-zero) first element of the
    window to the element j of the subgrid, while the backward step does not read that element: from the
    subgrid that is one at j and zero elsewhere it extracts nothing.  So the inner product
    < forward e , s > is not zero and every < e , backward s > is. *)
Theorem C46_negative_refuted sw e contrib off : valid sw -> contrib_size sw < xM_size sw ->
  off < 0 -> ~ (image_size sw / xM_size sw | off) -> 0 <= Z.quot off (image_size sw / xM_size sw) + contrib_size sw / 2 ->
  shape e = [1; contrib_size sw] -> shape contrib = [1; contrib_size sw] ->
  (forall x, 0 <= x < contrib_size sw -> elem e [0; x] <> C0) -> 0 < contrib_size sw -> elem (tab_Fn sw) [0] <> 0%R ->
  exists j a c, 0 <= j < xM_size sw /\
    let s := mk_nd [1; xM_size sw] (fun idx => match idx with [_; y] => if y =? j then C1 else C0 | _ => C0 end) in
    add_to_subgrid sw e (zeros 1 (xM_size sw)) off = Some (SUCCESS, a) /\
    extract_from_subgrid sw s contrib off = Some (SUCCESS, c) /\
    cdot (xM_size sw) (fun y => elem a [0; y]) (fun y => elem s [0; y]) <> C0 /\
    forall k, 0 <= k < contrib_size sw -> elem c [0; k] = C0.
Proof.
  intros V Hm Ho Nd Hz Se Sc He Hp HF.
  pose proof V as (G & _ & _). destruct G as (Gi & Gy & Gx & (q & Eq) & _).
  set (X := xM_size sw) in *. set (m := contrib_size sw) in *. set (d := image_size sw / X) in *.
  assert (Ed : d = q) by (unfold d; rewrite Eq; apply Z.div_mul; lia).
  assert (Eim : image_size sw = X * d) by (rewrite Ed, Eq; lia).
  assert (Hd : 0 < d) by nia. set (f := Z.quot off d) in *.
  assert (Er : off / d = f - 1).
  { pose proof (Z.quot_rem' off d) as Q. fold f in Q. assert (B : - d < Z.rem off d <= 0) by (pose proof (Z.rem_opp_l off d ltac:(lia)); pose proof (Z.rem_bound_pos (- off) d ltac:(lia) ltac:(lia)); lia).
    destruct (Z.eq_dec (Z.rem off d) 0) as [Z0|Z0]; [exfalso; apply Nd; exists f; lia|].
    symmetry. apply (Z.div_unique off d (f - 1) (Z.rem off d + d)); [left; lia|lia]. }
  assert (Ef : (off mod image_size sw) / d = (f - 1) mod X).
  { rewrite Eim, (Z.mul_comm X d), Z.rem_mul_r, Er by lia. rewrite (Z.mul_comm d), Z.div_add by lia.
    rewrite Z.div_small; [reflexivity|]. apply Z.mod_pos_bound. exact Hd. }
  set (j := (X / 2 - m / 2 + (f - 1)) mod X). assert (Hj : 0 <= j < X) by (apply Z.mod_pos_bound; lia).
  set (s := mk_nd [1; X] (fun idx => match idx with [_; y] => if y =? j then C1 else C0 | _ => C0 end)).
  destruct (C44_add_to_subgrid sw e (zeros 1 X) off 1 ((f - 1) mod X) V ltac:(lia) Se eq_refl (eq_sym Ef)) as (a & Ha & Sa & Va).
  destruct (C44_extract_from_subgrid_partial sw s contrib off 1 f V ltac:(lia) eq_refl Sc eq_refl Hz) as (c & Hc & Sc' & Vc).
  exists j, a, c. split; [exact Hj|]. cbv zeta. fold s. split; [exact Ha|]. split; [exact Hc|]. split.
  - unfold cdot. rewrite (csum_one 0 X j); [|exact Hj|].
    + rewrite Va by (fold X; lia). fold X m. unfold s. cbn [elem zeros]. rewrite Z.eqb_refl.
      replace ((j - (X / 2 - m / 2 + (f - 1) mod X)) mod X) with 0.
      * cbv zeta. replace (0 <? m) with true by (symmetry; apply Z.ltb_lt; lia).
        specialize (He ((0 + (f - 1) mod X + m / 2) mod m) (Z.mod_pos_bound _ m ltac:(lia))).
        set (z := elem e [0; (0 + (f - 1) mod X + m / 2) mod m]) in *. unfold Fn. intro N. apply He.
        destruct z as (zr, zi). unfold Cconj, Cmul, Cadd, RtoC, C1, C0 in *. cbn in *.
        injection N as N1 N2. set (t := elem (tab_Fn sw) [0]) in *.
        f_equal; apply (Rmult_eq_reg_l t); auto; nra.
      * unfold j. symmetry. rewrite Zminus_mod_idemp_l.
        replace (X / 2 - m / 2 + (f - 1) - (X / 2 - m / 2 + (f - 1) mod X)) with ((f - 1) - (f - 1) mod X) by ring.
        rewrite Zminus_mod_idemp_r, Z.sub_diag. apply Z.mod_0_l. lia.
    + intros y Hy Ny. unfold s. cbn [elem]. replace (y =? j) with false by (symmetry; apply Z.eqb_neq; exact Ny).
      unfold Cmul, C0; cbn; f_equal; ring.
  - intros k Hk. rewrite Vc by (fold m; lia). fold X m. rewrite csum_none46; [unfold Cmul, RtoC, C0; cbn; f_equal; ring|].
    intros x Hx. unfold s. cbn [elem]. replace ((x + (X / 2 - m / 2 + f)) mod X =? j) with false.
    + unfold Cmul, C0; cbn; f_equal; ring.
    + symmetry. apply Z.eqb_neq. unfold j. intro N.
      assert (D : (x + 1) mod X = 0).
      { replace (x + 1) with ((x + (X / 2 - m / 2 + f)) - (X / 2 - m / 2 + (f - 1))) by ring.
        rewrite Zminus_mod, N, Z.sub_diag. apply Z.mod_0_l. lia. }
      rewrite Z.mod_small in D; lia.
Qed.
Print Assumptions C46_negative_refuted.
Example C46_negative_hyps : valid small_sw /\ contrib_size small_sw < xM_size small_sw /\ ~ (image_size small_sw / xM_size small_sw | -3) /\
  0 <= Z.quot (-3) (image_size small_sw / xM_size small_sw) + contrib_size small_sw / 2 /\ elem (tab_Fn small_sw) [0] <> 0%R.
Proof.
  split; [exact small_valid|]. split; [reflexivity|]. split; [|split; [vm_compute; congruence|cbn; lra]].
  intros (q & E). change (image_size small_sw / xM_size small_sw) with 2 in E. lia.
Qed.

(** C68: what finishing computes, and that the cropping version is its centre *)
Theorem C68_finish_inplace sw sg off n0 : valid sw -> 0 <= n0 -> shape sg = [n0; xM_size sw] ->
  exists sg', finish_subgrid_inplace sw sg off = Some (SUCCESS, sg') /\ shape sg' = [n0; xM_size sw] /\
    forall i k, 0 <= i < n0 -> 0 <= k < xM_size sw -> elem sg' [i; k] = finished (xM_size sw) off (fun q => elem sg [i; q]) k.
Proof. exact (finish_inplace_lemma sw sg off n0). Qed.
Print Assumptions C68_finish_inplace.
Theorem C68_finish_is_crop sw img sg off n0 xA : valid sw -> 0 <= n0 -> 0 <= xA <= xM_size sw ->
  shape img = [n0; xM_size sw] -> shape sg = [n0; xA] ->
  exists r s, finish_subgrid_inplace sw img off = Some (SUCCESS, r) /\ finish_subgrid sw img sg off = Some (SUCCESS, s) /\
    forall i k, 0 <= i < n0 -> 0 <= k < xA -> elem s [i; k] = elem r [i; k - xA / 2 + xM_size sw / 2].
Proof. exact (finish_crop sw img sg off n0 xA). Qed.
Print Assumptions C68_finish_is_crop.
Theorem C68_finish_2d sw sg off0 off1 : valid sw -> shape sg = [xM_size sw; xM_size sw] ->
  exists sg', finish_subgrid_inplace_2d sw sg (xM_size sw) 1 off0 off1 = Some (SUCCESS, sg') /\ shape sg' = [xM_size sw; xM_size sw] /\
    forall k l, 0 <= k < xM_size sw -> 0 <= l < xM_size sw ->
      elem sg' [k; l] = finished2 (xM_size sw) off0 off1 (fun p q => elem sg [p; q]) k l.
Proof. intros V S. exact (finish_2d_gen sw sg (xM_size sw) 1 off0 off1 false V S eq_refl). Qed.
Print Assumptions C68_finish_2d.

(** Preparing a finished subgrid gives back the subgrid when off + xM/2 is even (in two dimensions:
    when the sum of the offsets is even), and its negative otherwise.  Missing: the odd case, refuted
    below. *)
Theorem C68_round_trip_partial sw sg off n0 : valid sw -> 0 <= n0 -> shape sg = [n0; xM_size sw] -> Z.even (off + xM_size sw / 2) = true ->
  exists f p, finish_subgrid_inplace sw sg off = Some (SUCCESS, f) /\ prepare_subgrid_inplace sw f off = Some (SUCCESS, p) /\
    shape p = [n0; xM_size sw] /\
    forall i q, 0 <= i < n0 -> 0 <= q < xM_size sw -> elem p [i; q] = elem sg [i; q].
Proof.
  intros V Hn S E. destruct (inplace_round_trip sw sg off n0 V Hn S) as (f & p & Ef & Ep & Sp & Vp). exists f, p. repeat (split; [assumption|]).
  intros i q Hi Hq. rewrite Vp by assumption. unfold sign. rewrite E. generalize (elem sg [i; q]). csolve.
Qed.
Print Assumptions C68_round_trip_partial.
Theorem C68_round_trip_2d_partial sw sg off0 off1 : valid sw -> shape sg = [xM_size sw; xM_size sw] -> Z.even (off0 + off1) = true ->
  exists f p, finish_subgrid_inplace_2d sw sg (xM_size sw) 1 off0 off1 = Some (SUCCESS, f) /\ prepare_subgrid_inplace_2d sw f off0 off1 = Some (SUCCESS, p) /\
    shape p = [xM_size sw; xM_size sw] /\
    forall i q, 0 <= i < xM_size sw -> 0 <= q < xM_size sw -> elem p [i; q] = elem sg [i; q].
Proof.
  intros V S E. destruct (inplace_2d_round_trip sw sg off0 off1 V S) as (f & p & Ef & Ep & Sp & Vp). exists f, p. repeat (split; [assumption|]).
  intros i q Hi Hq. rewrite Vp by assumption. unfold sign. rewrite E. generalize (elem sg [i; q]). csolve.
Qed.
Print Assumptions C68_round_trip_2d_partial.
Example C68_hyps : valid small_sw /\ Z.even (-6 + xM_size small_sw / 2) = true /\ Z.even (3 + -7) = true.
Proof. split; [exact small_valid|]. split; reflexivity. Qed.

(** Refuted: for every odd off + xM/2 the result is minus the subgrid. *)
Theorem C68_sign_refuted sw sg off n0 : valid sw -> 0 <= n0 -> shape sg = [n0; xM_size sw] -> Z.even (off + xM_size sw / 2) = false ->
  exists f p, finish_subgrid_inplace sw sg off = Some (SUCCESS, f) /\ prepare_subgrid_inplace sw f off = Some (SUCCESS, p) /\
    forall i q, 0 <= i < n0 -> 0 <= q < xM_size sw -> elem p [i; q] = Copp (elem sg [i; q]).
Proof.
  intros V Hn S E. destruct (inplace_round_trip sw sg off n0 V Hn S) as (f & p & Ef & Ep & Sp & Vp). exists f, p. repeat (split; [assumption|]).
  intros i q Hi Hq. rewrite Vp by assumption. unfold sign. rewrite E. generalize (elem sg [i; q]). csolve.
Qed.
Print Assumptions C68_sign_refuted.
Theorem C68_sign_2d_refuted sw sg off0 off1 : valid sw -> shape sg = [xM_size sw; xM_size sw] -> Z.even (off0 + off1) = false ->
  exists f p, finish_subgrid_inplace_2d sw sg (xM_size sw) 1 off0 off1 = Some (SUCCESS, f) /\ prepare_subgrid_inplace_2d sw f off0 off1 = Some (SUCCESS, p) /\
    forall i q, 0 <= i < xM_size sw -> 0 <= q < xM_size sw -> elem p [i; q] = Copp (elem sg [i; q]).
Proof.
  intros V S E. destruct (inplace_2d_round_trip sw sg off0 off1 V S) as (f & p & Ef & Ep & Sp & Vp). exists f, p. repeat (split; [assumption|]).
  intros i q Hi Hq. rewrite Vp by assumption. unfold sign. rewrite E. generalize (elem sg [i; q]). csolve.
Qed.
Print Assumptions C68_sign_2d_refuted.

(** Refuted: the two-dimensional function on a column-major array (a transposed view) gives the
    transpose of the result for the swapped offsets. *)
Theorem C68_strides_refuted sw sg off0 off1 : valid sw -> shape sg = [xM_size sw; xM_size sw] ->
  exists sg', finish_subgrid_inplace_2d sw sg 1 (xM_size sw) off0 off1 = Some (SUCCESS, sg') /\ shape sg' = [xM_size sw; xM_size sw] /\
    forall k l, 0 <= k < xM_size sw -> 0 <= l < xM_size sw ->
      elem sg' [k; l] = finished2 (xM_size sw) off1 off0 (fun p q => elem sg [p; q]) l k.
Proof. intros V S. exact (finish_2d_gen sw sg 1 (xM_size sw) off0 off1 true V S eq_refl). Qed.
Print Assumptions C68_strides_refuted.
