(** Proofs about the gridder utilities. *)
From Verif Require Import Base BaseFacts Sum CRing Loops Cplx Clamp GridUtils GridUtilsSpec.
From Coq Require Import Lra.
Open Scope Z_scope.

Ltac rds := repeat (rewrite rd_some by (cbn [upd shape]; try match goal with H : shape _ = _ |- _ => idtac end;
   first [ match goal with H : shape ?a = _ |- in_shape (shape ?a) _ = true => rewrite H; first [apply in_shape_1|apply in_shape_2|apply in_shape_3]; lia end ]); cbn [bind]).
Ltac wrs := rewrite wr_some by (match goal with H : shape ?a = _ |- in_shape (shape ?a) _ = true => rewrite H; first [apply in_shape_1|apply in_shape_2|apply in_shape_3]; lia end).

Lemma Cpowz_0 z : Cpowz z 0 = C1. Proof. reflexivity. Qed.
Lemma Cpowz_1 z : Cpowz z 1 = z.
Proof. unfold Cpowz. cbn [Z.geb Z.compare Z.to_nat Pos.to_nat]. change (Pos.to_nat 1) with 1%nat. cbn. csolve. Qed.

Lemma scale_inv_lemma out in1 in2 e n m :
  shape out = [n; m] -> shape in1 = [n; m] -> shape in2 = [n; m] -> 0 <= n -> 0 <= m ->
  exists o, scale_inv_array out in1 in2 e = Some o /\ shape o = [n; m] /\
    forall i j, 0 <= i < n -> 0 <= j < m -> elem o [i; j] = Cdiv (elem in1 [i; j]) (Cpowz (elem in2 [i; j]) e).
Proof.
  intros S1 S2 S3 Hn Hm. unfold scale_inv_array, dim. rewrite S1. cbn [nth].
  destruct (Z.eqb_spec e 1) as [->|N].
  - match goal with |- context [for_ 0 n (fun i => for_ 0 m (@?f i)) out] =>
      destruct (for_set2 n m (fun i j _ => Cdiv (elem in1 [i; j]) (elem in2 [i; j])) f 0 n 0 m out) as (o & E & S' & P & _) end; auto; try lia.
    + intros i j st Hi Hj Ss. rds. wrs. reflexivity.
    + exists o. split; [exact E|]. split; [exact S'|]. intros i j Hi Hj. rewrite P by auto. now rewrite Cpowz_1.
  - match goal with |- context [for_ 0 n (fun i => for_ 0 m (@?f i)) out] =>
      destruct (for_set2 n m (fun i j _ => Cdiv (elem in1 [i; j]) (Cpowz (elem in2 [i; j]) e)) f 0 n 0 m out) as (o & E & S' & P & _) end; auto; try lia.
    + intros i j st Hi Hj Ss. rds. wrs. reflexivity.
    + exists o. auto.
Qed.

Definition scale_of (in2 : option (nd C)) (e : Z) (ix : list Z) : C :=
  match in2 with None => C1 | Some b => Cpowz (elem b ix) e end.

Lemma accum_lemma out in1 in2 e n m :
  shape out = [n; m] -> shape in1 = [n; m] -> (forall b, in2 = Some b -> shape b = [n; m]) -> 0 <= n -> 0 <= m ->
  exists o, accum_scale_array out in1 in2 e = Some o /\ shape o = [n; m] /\
    forall i j, 0 <= i < n -> 0 <= j < m ->
      elem o [i; j] = Cadd (elem out [i; j]) (Cmul (elem in1 [i; j]) (scale_of in2 e [i; j])).
Proof.
  intros S1 S2 S3 Hn Hm. unfold accum_scale_array, dim. rewrite S1. cbn [nth].
  assert (G : exists o, for_ 0 n (fun i => for_ 0 m (fun j out => let* o := rd out [i; j] in let* a := rd in1 [i; j] in
      wr out [i; j] (Cadd o a))) out = Some o /\ shape o = [n; m] /\
     forall i j, 0 <= i < n -> 0 <= j < m -> elem o [i; j] = Cadd (elem out [i; j]) (Cmul (elem in1 [i; j]) C1)).
  { match goal with |- context [for_ 0 n (fun i => for_ 0 m (@?f i)) out] =>
      destruct (for_set2 n m (fun i j x => Cadd x (elem in1 [i; j])) f 0 n 0 m out) as (o & E & S' & P & _) end; auto; try lia.
    - intros i j st Hi Hj Ss. rds. wrs. reflexivity.
    - exists o. split; [exact E|]. split; [exact S'|]. intros i j Hi Hj. rewrite P by auto. ring. }
  destruct in2 as [b|]; [|exact G]. specialize (S3 b eq_refl). cbn [scale_of].
  destruct (Z.eqb_spec e 0) as [->|N0]; [exact G|]. clear G.
  destruct (Z.eqb_spec e 1) as [->|N].
  - match goal with |- context [for_ 0 n (fun i => for_ 0 m (@?f i)) out] =>
      destruct (for_set2 n m (fun i j x => Cadd x (Cmul (elem in1 [i; j]) (elem b [i; j]))) f 0 n 0 m out) as (o & E & S' & P & _) end; auto; try lia.
    + intros i j st Hi Hj Ss. rds. wrs. reflexivity.
    + exists o. split; [exact E|]. split; [exact S'|]. intros i j Hi Hj. rewrite P by auto. now rewrite Cpowz_1.
  - match goal with |- context [for_ 0 n (fun i => for_ 0 m (@?f i)) out] =>
      destruct (for_set2 n m (fun i j x => Cadd x (Cmul (elem in1 [i; j]) (Cpowz (elem b [i; j]) e))) f 0 n 0 m out) as (o & E & S' & P & _) end; auto; try lia.
    + intros i j st Hi Hj Ss. rds. wrs. reflexivity.
    + exists o. auto.
Qed.

Lemma residual_lemma a b out n m :
  shape a = [n; m] -> shape b = [n; m] -> shape out = [n; m] -> 0 <= n -> 0 <= m ->
  exists o, residual a b out = Some (SUCCESS, o) /\ shape o = [n; m] /\
    forall i j, 0 <= i < n -> 0 <= j < m -> elem o [i; j] = Csub (elem a [i; j]) (elem b [i; j]).
Proof.
  intros S1 S2 S3 Hn Hm. unfold residual, same_2d, dim. rewrite S1, S2, S3. cbn [length Nat.eqb andb nth].
  rewrite !Z.eqb_refl. cbn [andb negb].
  match goal with |- context [for_ 0 n (fun i => for_ 0 m (@?f i)) out] =>
      destruct (for_set2 n m (fun i j _ => Csub (elem a [i; j]) (elem b [i; j])) f 0 n 0 m out) as (o & E & S' & P & _) end; auto; try lia.
  - intros i j st Hi Hj Ss. rds. wrs. reflexivity.
  - exists o. rewrite E. cbn [bind]. auto.
Qed.

Lemma residual_mismatch a b out : shape a <> shape b \/ shape a <> shape out \/ length (shape a) <> 2%nat ->
  residual a b out = Some (ERR_INVALID_ARGUMENT, out).
Proof.
  intro H. unfold residual. destruct (same_2d (shape a) (shape b) && same_2d (shape a) (shape out)) eqn:E; [|reflexivity].
  exfalso. apply andb_true_iff in E. destruct E as [E1 E2]. unfold same_2d in *.
  destruct (shape a) as [|x [|y [|]]]; try discriminate.
  destruct (shape b) as [|x1 [|y1 [|]]]; try discriminate.
  destruct (shape out) as [|x2 [|y2 [|]]]; try discriminate. cbn in *.
  assert (x = x1 /\ y = y1 /\ x = x2 /\ y = y2) as (-> & -> & -> & ->) by lia. tauto.
Qed.

Lemma rms_lemma a b n m :
  shape a = [n; m] -> shape b = [n; m] -> 0 <= n -> 0 <= m ->
  rms_sum a b = Some (SUCCESS, sum Rplus 0%R 0 n (fun i => sum Rplus 0%R 0 m (fun j => Cnorm2 (Csub (elem a [i; j]) (elem b [i; j]))))).
Proof.
  intros S1 S2 Hn Hm. unfold rms_sum, same_2d, dim. rewrite S1, S2. cbn [length Nat.eqb andb nth].
  rewrite !Z.eqb_refl. cbn [andb negb].
  rewrite (for_ext 0 n _ (fun i acc => Some (acc + sum Rplus 0%R 0 m (fun j => Cnorm2 (Csub (elem a [i; j]) (elem b [i; j]))))%R)).
  - rewrite (for_sum Rplus 0%R (Rcm (A := Rring))). cbn [bind]. do 2 f_equal. apply Rplus_0_l.
  - intros i acc Hi.
    rewrite (for_ext 0 m _ (fun j acc => Some (acc + Cnorm2 (Csub (elem a [i; j]) (elem b [i; j])))%R)).
    + apply (for_sum Rplus 0%R (Rcm (A := Rring))).
    + intros j x Hj. rds. reflexivity.
Qed.

Notation zs := (sum Z.add 0).
Lemma sum_diff_rows_lemma a b n r0 r1 : shape a = [n] -> shape b = [n] -> 0 <= r0 -> r1 <= n ->
  sum_diff_rows a b r0 r1 = Some (zs r0 r1 (fun i => elem a [i] - elem b [i])).
Proof.
  intros S1 S2 H0 H1. unfold sum_diff_rows.
  rewrite (for_ext r0 r1 _ (fun i acc => Some (acc + (elem a [i] - elem b [i])))).
  - rewrite (for_sum _ _ Zcm). reflexivity.
  - intros i acc Hi. rds. reflexivity.
Qed.

Lemma zs_sub lo hi f g : zs lo hi (fun i => f i - g i) = zs lo hi f - zs lo hi g.
Proof. apply (rsum_sub (A := Zring)). Qed.

Lemma sum_diff_lemma a b n r0 r1 : shape a = [n] -> shape b = [n] -> 0 <= n ->
  (r0 < 0 \/ r1 < 0) \/ (0 <= r0 /\ 0 <= r1 <= n) ->
  sum_diff a b r0 r1 =
    let lo := if (r0 <? 0) || (r1 <? 0) then 0 else r0 in
    let hi := if (r0 <? 0) || (r1 <? 0) then n else r1 in
    Some (SUCCESS, zs lo hi (fun i => elem a [i]) - zs lo hi (fun i => elem b [i])).
Proof.
  intros S1 S2 Hn H. unfold sum_diff, dim. rewrite S1, S2. cbn [nth]. rewrite Z.eqb_refl. cbn [negb].
  destruct ((r0 <? 0) || (r1 <? 0)) eqn:E; cbn zeta.
  - rewrite (sum_diff_rows_lemma a b n) by (auto; lia). cbn [bind]. now rewrite zs_sub.
  - rewrite (sum_diff_rows_lemma a b n) by (auto; lia). cbn [bind]. now rewrite zs_sub.
Qed.

(** *** Grid correction *)
Definition w_phase image_size theta w_step hu hv num_l num_m off_l off_m w_offset il im : R :=
  (2 * PI * w_step * lm_to_n (IZR (il - num_l / 2 + off_l) * theta / IZR image_size)
     (IZR (im - num_m / 2 + off_m) * theta / IZR image_size) hu hv * IZR w_offset)%R.

Lemma cdiv2' x : 0 <= x -> cdiv x 2 = x / 2.
Proof. intro H. unfold cdiv. apply Z.quot_div_nonneg; lia. Qed.

Lemma Cdiv_cis ph : Cdiv C1 (cis ph) = cis (- ph).
Proof.
  transitivity (Cmul (Cdiv C1 (cis ph)) (Cmul (cis ph) (cis (- ph)))).
  - rewrite cis_inv. csolve.
  - field. apply cis_nz.
Qed.

Lemma w_stack_lemma image_size theta w_step hu hv facet off_l off_m w_offset inverse n m :
  shape facet = [n; m] -> 0 <= n -> 0 <= m -> 
  exists f', grid_corr_w_stack image_size theta w_step hu hv facet off_l off_m w_offset inverse = Some f' /\
    shape f' = [n; m] /\
    (forall i j, 0 <= i < n -> 0 <= j < m -> elem f' [i; j] =
       Cmul (elem facet [i; j]) (cis (if inverse then w_phase image_size theta w_step hu hv n m off_l off_m w_offset i j
         else - w_phase image_size theta w_step hu hv n m off_l off_m w_offset i j)%R)) /\
    (forall idx, in_shape [n; m] idx = false -> elem f' idx = elem facet idx).
Proof.
  intros S Hn Hm. unfold grid_corr_w_stack, dim. rewrite S. cbn [nth].
  destruct (Z.eqb_spec w_offset 0) as [->|N].
  - exists facet. split; [reflexivity|]. split; [exact S|]. split; [|auto]. intros i j Hi Hj. unfold w_phase.
    rewrite Rmult_0_r. replace (if inverse then 0 else - 0)%R with 0%R by (destruct inverse; ring). rewrite cis_0. csolve.
  - match goal with |- context [for_ 0 n (fun i => for_ 0 m (@?f i)) facet] =>
      destruct (for_set2 n m (fun i j x => Cmul x (cis (if inverse then w_phase image_size theta w_step hu hv n m off_l off_m w_offset i j
         else - w_phase image_size theta w_step hu hv n m off_l off_m w_offset i j)%R)) f 0 n 0 m facet) as (o & E & S' & P & Q) end; auto; try lia.
    + intros i j st Hi Hj Ss. rds. wrs. rewrite !cdiv2' by lia. fold (w_phase image_size theta w_step hu hv n m off_l off_m w_offset i j).
      set (ph := w_phase image_size theta w_step hu hv n m off_l off_m w_offset i j).
      unfold w_phase in ph. fold ph. fold (cis ph).
      do 3 f_equal. destruct inverse; [reflexivity|].
      apply Cdiv_cis.
    + exists o. split; [exact E|]. split; [exact S'|]. split; [exact P|].
      intros idx H. apply Q. intros i j Hi Hj ->. assert (in_shape [n; m] [i; j] = true) by (apply in_shape_2; lia). congruence.
Qed.

Lemma w_stack_inverse image_size theta w_step hu hv facet off_l off_m w_offset b n m :
  shape facet = [n; m] -> 0 <= n -> 0 <= m ->
  exists f1 f2, grid_corr_w_stack image_size theta w_step hu hv facet off_l off_m w_offset b = Some f1 /\
    grid_corr_w_stack image_size theta w_step hu hv f1 off_l off_m w_offset (negb b) = Some f2 /\ nd_eq f2 facet.
Proof.
  intros S Hn Hm.
  destruct (w_stack_lemma image_size theta w_step hu hv facet off_l off_m w_offset b n m S Hn Hm) as (f1 & E1 & S1 & P1 & _).
  destruct (w_stack_lemma image_size theta w_step hu hv f1 off_l off_m w_offset (negb b) n m S1 Hn Hm) as (f2 & E2 & S2 & P2 & _).
  exists f1, f2. split; [exact E1|]. split; [exact E2|]. split; [congruence|].
  intros idx H. rewrite S2 in H. destruct idx as [|i [|j [|]]]; cbn in H; try discriminate; try lia.
  rewrite P2, P1 by lia. set (ph := w_phase _ _ _ _ _ _ _ _ _ _ _ _).
  destruct b; cbn [negb].
  - transitivity (Cmul (elem facet [i; j]) (Cmul (cis ph) (cis (- ph)))); [ring|]. rewrite cis_inv. csolve.
  - transitivity (Cmul (elem facet [i; j]) (Cmul (cis ph) (cis (- ph)))); [ring|]. rewrite cis_inv. csolve.
Qed.

Lemma pswf_lemma image_size theta hu hv pswf pn facet off_l off_m n m :
  shape facet = [n; m] -> 0 <= n -> 0 <= m -> shape pswf = [image_size] -> 0 <= image_size ->
  0 <= image_size / 2 - n / 2 + off_l -> image_size / 2 - n / 2 + off_l + n <= image_size ->
  0 <= image_size / 2 - m / 2 + off_m -> image_size / 2 - m / 2 + off_m + m <= image_size ->
  exists f', grid_corr_pswf image_size theta hu hv pswf pn facet off_l off_m = Some f' /\
    shape f' = [n; m] /\
    (forall i j, 0 <= i < n -> 0 <= j < m -> elem f' [i; j] =
       Cmul (elem facet [i; j]) (RtoC (1 / (elem pswf [(i - n / 2 + off_l + image_size / 2)%Z] *
          elem pswf [(j - m / 2 + off_m + image_size / 2)%Z] *
          pn (lm_to_n (IZR (i - n / 2 + off_l) * theta / IZR image_size) (IZR (j - m / 2 + off_m) * theta / IZR image_size) hu hv))))) /\
    (forall idx, in_shape [n; m] idx = false -> elem f' idx = elem facet idx).
Proof.
  intros S Hn Hm Sp Hi0 L1 L2 M1 M2. unfold grid_corr_pswf, dim. rewrite S. cbn [nth].
  rewrite !cdiv2' by lia.
  set (T := fun i j x => Cmul x (RtoC (1 / (elem pswf [(i - n / 2 + off_l + image_size / 2)%Z] *
          elem pswf [(j - m / 2 + off_m + image_size / 2)%Z] *
          pn (lm_to_n (IZR (i - n / 2 + off_l) * theta / IZR image_size) (IZR (j - m / 2 + off_m) * theta / IZR image_size) hu hv))))).
  pose (body := fun i j f => let* pswf_m := rd pswf [j - m / 2 + off_m + image_size / 2] in
     let* x := rd f [i; j] in wr f [i; j] (Cmul x (RtoC (1 / (elem pswf [(i - n / 2 + off_l + image_size / 2)%Z] * pswf_m * pn (lm_to_n (IZR (i - n / 2 + off_l) * theta / IZR image_size) (IZR (j - m / 2 + off_m) * theta / IZR image_size) hu hv)))))).
  destruct (for_set2 n m T body 0 n 0 m facet) as (o & E & S' & P & Q); auto; try lia.
  - intros i j st Hi Hj Ss. unfold body. rds. wrs. reflexivity.
  - exists o. split.
    + rewrite <- E. apply for_ext. intros i st Hi. rds. reflexivity.
    + split; [exact S'|]. split; [exact P|].
      intros idx H. apply Q. intros i j Hi Hj ->. assert (in_shape [n; m] [i; j] = true) by (apply in_shape_2; lia). congruence.
Qed.

(** *** Direct transforms *)
Lemma turns_lemma uvw lmn f0 df off i c s n ns :
  shape uvw = [n; 3] -> shape lmn = [ns; 3] -> 0 <= i < n -> 0 <= s < ns ->
  turns uvw lmn f0 df off i c s = Some (source_turns uvw lmn f0 df off i c s).
Proof.
  intros S1 S2 Hi Hs. unfold turns, source_turns, inv_wave. destruct off as [[du dv] dw]. rds. reflexivity.
Qed.

Lemma skipped_lemma chs i n : chs_shape chs n -> 0 <= i < n -> row_skipped chs i = Some (negb (row_on chs i)).
Proof.
  unfold chs_shape, row_skipped, row_on. destruct chs as [[s e]|]; [|reflexivity]. intros [S1 S2] Hi. rds.
  f_equal. lia.
Qed.

Lemma Ccm : cmonoid Cadd C0. Proof. apply (Rcm (A := Cring)). Qed.
Lemma for_csum lo hi f a : for_ lo hi (fun i acc => Some (Cadd acc (f i))) a = Some (Cadd a (Csum lo hi f)).
Proof. apply (for_sum _ _ Ccm). Qed.
Lemma Cadd_0_l x : Cadd C0 x = x. Proof. csolve. Qed.
Lemma Cadd_0_r x : Cadd x C0 = x. Proof. csolve. Qed.

Lemma dft_lemma uvw chs flux lmn su sv sw theta w_step f0 df vis n nc ns :
  shape uvw = [n; 3] -> shape lmn = [ns; 3] -> shape flux = [ns] -> shape vis = [n; nc] -> chs_shape chs n ->
  0 <= n -> 0 <= nc -> 0 <= ns ->
  exists v, gridder_dft uvw chs flux lmn su sv sw theta w_step f0 df vis = Some v /\ shape v = [n; nc] /\
    (forall i c, 0 <= i < n -> 0 <= c < nc -> elem v [i; c] = Cadd (elem vis [i; c])
      (if row_on chs i then predicted uvw lmn f0 df (offsets theta w_step su sv sw) flux ns i c else C0)).
Proof.
  intros S1 S2 S3 S4 SC Hn Hc Hs. unfold gridder_dft, dim. rewrite S1, S3, S4. cbn [nth].
  set (off := offsets theta w_step su sv sw).
  destruct (for_own [n; nc] (fun i idx => in_row i 0 nc idx && row_on chs i)
    (fun idx x => Cadd x (predicted uvw lmn f0 df off flux ns (nth 0 idx 0) (nth 1 idx 0)))
    (fun i vis => let* skip := row_skipped chs i in if skip then Some vis else
       for_ 0 nc (fun c vis => let* local := for_ 0 ns (fun s acc =>
          let* t := turns uvw lmn f0 df off i c s in let* f := rd flux [s] in
          Some (Cadd acc (Cmul f (cis (-2 * PI * t)%R)))) C0 in
          let* v := rd vis [i; c] in wr vis [i; c] (Cadd v local)) vis) 0 n vis) as (v & E & S' & P & Q); auto.
  - intros i st Hi Ss. rewrite (skipped_lemma chs i n SC Hi). cbn [bind]. destruct (row_on chs i); cbn [negb].
    + destruct (for_row n nc i (fun c x => Cadd x (predicted uvw lmn f0 df off flux ns i c))
        (fun c vis => let* local := for_ 0 ns (fun s acc =>
          let* t := turns uvw lmn f0 df off i c s in let* f := rd flux [s] in
          Some (Cadd acc (Cmul f (cis (-2 * PI * t)%R)))) C0 in
          let* v := rd vis [i; c] in wr vis [i; c] (Cadd v local)) 0 nc st) as (st' & E & S' & P); auto; try lia.
      * intros c s1 Hc1 Hs1.
        rewrite (for_ext 0 ns _ (fun s acc => Some (Cadd acc (Cmul (elem flux [s]) (cis (-2 * PI * source_turns uvw lmn f0 df off i c s)%R))))).
        2:{ intros s acc Hs2. rewrite (turns_lemma uvw lmn f0 df off i c s n ns) by auto. cbn [bind]. rds. reflexivity. }
        rewrite for_csum. cbn [bind]. rewrite Cadd_0_l. rds. wrs. reflexivity.
      * exists st'. split; [exact E|]. split; [exact S'|]. intro idx. rewrite P, andb_true_r.
        destruct (in_row i 0 nc idx) eqn:K; [|reflexivity]. unfold in_row in K. destruct idx as [|x [|y [|]]]; try discriminate.
        cbn [nth]. now replace x with i by lia.
    + exists st. split; [reflexivity|]. split; [exact Ss|]. intro idx. now rewrite andb_false_r.
  - intros i j idx _ _ A1 A2. unfold in_row in *. destruct idx as [|x [|y [|]]]; try discriminate. lia.
  - exists v. split; [exact E|]. split; [exact S'|]. intros i c Hi Hc1. destruct (row_on chs i) eqn:R.
    + rewrite (P i [i; c]); auto. rewrite R. unfold in_row. lia.
    + rewrite Cadd_0_r. apply Q. intros j Hj. unfold in_row. destruct (Z.eqb_spec i j) as [<-|]; [rewrite R; apply andb_false_r|reflexivity].
Qed.

Lemma idft_lemma uvw vis chs lmn taper su sv sw theta w_step f0 df image n nc sz :
  shape uvw = [n; 3] -> shape lmn = [sz * sz; 3] -> shape image = [sz; sz] -> shape vis = [n; nc] -> chs_shape chs n ->
  taper_shape taper sz -> 0 <= n -> 0 <= nc -> 0 <= sz ->
  exists im', gridder_idft uvw vis chs lmn taper su sv sw theta w_step f0 df image = Some im' /\ shape im' = [sz; sz] /\
    (forall il im, 0 <= il < sz -> 0 <= im < sz -> elem im' [il; im] = Cadd (elem image [il; im])
      (Cmul (imaged uvw lmn f0 df (offsets theta w_step su sv sw) vis chs n nc (il * sz + im)) (RtoC (taper_value taper il im)))).
Proof.
  intros S1 S2 S3 S4 SC ST Hn Hc Hs. unfold gridder_idft, dim. rewrite S1, S3, S4. cbn [nth].
  set (off := offsets theta w_step su sv sw).
  match goal with |- context [for_ 0 sz (fun i => for_ 0 sz (@?f i)) image] =>
    destruct (for_set2 sz sz (fun il im x => Cadd x (Cmul (imaged uvw lmn f0 df off vis chs n nc (il * sz + im)) (RtoC (taper_value taper il im))))
      f 0 sz 0 sz image) as (o & E & S' & P & Q) end; auto; try lia.
  - intros il im st Hi Hj Ss.
    assert (0 <= il * sz + im < sz * sz) by nia.
    rewrite (for_ext 0 n _ (fun i acc => Some (Cadd acc (if row_on chs i then
      Csum 0 nc (fun c => Cmul (elem vis [i; c]) (cis (2 * PI * source_turns uvw lmn f0 df off i c (il * sz + im))%R))
      else C0)))).
    2:{ intros i acc Hi1. rewrite (skipped_lemma chs i n SC Hi1). cbn [bind]. destruct (row_on chs i); cbn [negb].
        - rewrite (for_ext 0 nc _ (fun c acc => Some (Cadd acc (Cmul (elem vis [i; c]) (cis (2 * PI * source_turns uvw lmn f0 df off i c (il * sz + im))%R))))).
          + apply for_csum.
          + intros c acc' Hc'. rewrite (turns_lemma uvw lmn f0 df off i c _ n (sz * sz)) by auto. cbn [bind]. rds. reflexivity.
        - now rewrite Cadd_0_r. }
    rewrite for_csum. cbn [bind]. rewrite Cadd_0_l.
    assert (TV : (match taper with None => Some 1%R | Some t => let* a := rd t [il] in let* b := rd t [im] in Some (a * b)%R end)
       = Some (taper_value taper il im)).
    { destruct taper as [t|]; [|reflexivity]. cbn in ST. rds. reflexivity. }
    rewrite TV. cbn [bind]. rds. wrs. reflexivity.
  - exists o. auto.
Qed.

Lemma Cconj_mul a b : Cconj (Cmul a b) = Cmul (Cconj a) (Cconj b). Proof. csolve. Qed.
Lemma Cconj_sum lo hi f : Cconj (Csum lo hi f) = Csum lo hi (fun i => Cconj (f i)).
Proof. unfold sum. induction (zrange lo hi) as [|x l IH]; cbn; [csolve|]. rewrite <- IH. csolve. Qed.

Lemma dft_adjoint uvw lmn f0 df off flux vis chs n nc ns :
  Csum 0 n (fun i => if row_on chs i then Csum 0 nc (fun c => Cmul (Cconj (predicted uvw lmn f0 df off flux ns i c)) (elem vis [i; c])) else C0)
  = Csum 0 ns (fun s => Cmul (Cconj (elem flux [s])) (imaged uvw lmn f0 df off vis chs n nc s)).
Proof.
  unfold imaged, predicted.
  transitivity (Csum 0 n (fun i => Csum 0 ns (fun s => if row_on chs i then Csum 0 nc (fun c =>
     Cmul (Cconj (elem flux [s])) (Cmul (elem vis [i; c]) (cis (2 * PI * source_turns uvw lmn f0 df off i c s)%R))) else C0))).
  - apply sum_ext. intros i Hi. destruct (row_on chs i).
    + rewrite <- (sum_swap _ _ Ccm). apply sum_ext. intros c Hc. rewrite Cconj_sum.
      rewrite (rsum_mul_r (A := Cring)). apply sum_ext. intros s Hs. cbn [rmul Cring].
      rewrite Cconj_mul, <- cis_neg.
      replace (- (-2 * PI * source_turns uvw lmn f0 df off i c s))%R with (2 * PI * source_turns uvw lmn f0 df off i c s)%R by ring.
      ring.
    + now rewrite (sum_unit _ _ Ccm).
  - rewrite (sum_swap _ _ Ccm). apply sum_ext. intros s Hs. rewrite (rsum_mul_l (A := Cring)). apply sum_ext. intros i Hi.
    cbn [rmul Cring]. destruct (row_on chs i); [|csolve]. rewrite (rsum_mul_l (A := Cring)). reflexivity.
Qed.
