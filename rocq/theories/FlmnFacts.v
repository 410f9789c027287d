(** Proofs about image_to_flmn. *)
From Verif Require Import Base BaseFacts Sum CRing Loops Cplx GridUtils GridUtilsSpec GridUtilsFacts Flmn FlmnSpec.
Open Scope Z_scope.

Lemma nz_range image x y : 0 <= nz image x y <= 1. Proof. unfold nz. destruct nonzero; lia. Qed.
Lemma zs_nonneg lo hi f : (forall i, lo <= i < hi -> 0 <= f i) -> 0 <= zs lo hi f.
Proof.
  intro H. destruct (Z.le_gt_cases hi lo); [now rewrite sum_empty|].
  assert (G : forall k, 0 <= k -> lo + k <= hi -> 0 <= zs lo (lo + k) f).
  { apply (natlike_ind (fun k => lo + k <= hi -> 0 <= zs lo (lo + k) f)).
    - intros. rewrite sum_empty; lia.
    - intros k Hk IH L. replace (lo + Z.succ k) with (lo + k + 1) by lia. rewrite (sum_snoc _ _ Zcm) by lia.
      specialize (H (lo + k) ltac:(lia)). lia. }
  replace hi with (lo + (hi - lo)) by lia. apply G; lia.
Qed.


Lemma rowsum_nonneg image m x : 0 <= rowsum image m x.
Proof. apply zs_nonneg. intros. apply nz_range. Qed.

Lemma rank_next image m il im : 0 <= im -> rank image m il (im + 1) = rank image m il im + nz image il im.
Proof. intro H. unfold rank. rewrite (sum_snoc _ _ Zcm) by lia. lia. Qed.
Lemma rank_row image m il : 0 <= il -> rank image m il m = rank image m (il + 1) 0.
Proof. intro H. unfold rank. rewrite (sum_snoc _ _ Zcm) by lia. rewrite (sum_empty _ _ 0 0) by lia. unfold rowsum. lia. Qed.

Lemma rank_le image m il im im' : 0 <= im -> im <= im' -> rank image m il im <= rank image m il im'.
Proof.
  intros H0 H. unfold rank. rewrite (sum_split _ _ Zcm 0 im im') by lia.
  assert (0 <= zs im im' (nz image il)) by (apply zs_nonneg; intros; apply nz_range). lia.
Qed.
Lemma rank_row_le image m il il' : 0 <= il -> il <= il' -> rank image m il 0 <= rank image m il' 0.
Proof.
  intros H0 H. unfold rank. rewrite (sum_split _ _ Zcm 0 il il') by lia. rewrite !(sum_empty _ _ 0 0) by lia.
  assert (0 <= zs il il' (rowsum image m)) by (apply zs_nonneg; intros; apply rowsum_nonneg). lia.
Qed.

Definition before il im x y := x < il \/ (x = il /\ y < im).
Lemma rank_before image m il im x y : 0 <= x -> 0 <= y < m -> 0 <= im -> before il im x y ->
  nonzero (elem image [x; y]) = true -> rank image m x y < rank image m il im.
Proof.
  intros Hx Hy Hi B N. assert (E : rank image m x (y + 1) = rank image m x y + 1).
  { rewrite rank_next by lia. unfold nz. now rewrite N. }
  destruct B as [L|[-> L]].
  - pose proof (rank_le image m x (y + 1) m ltac:(lia) ltac:(lia)).
    rewrite rank_row in H by lia. pose proof (rank_row_le image m (x + 1) il ltac:(lia) ltac:(lia)).
    pose proof (rank_le image m il 0 im ltac:(lia) ltac:(lia)). lia.
  - pose proof (rank_le image m il (y + 1) im ltac:(lia) ltac:(lia)). lia.
Qed.
Lemma rank_total image n m x y : 0 <= x < n -> 0 <= y < m -> nonzero (elem image [x; y]) = true ->
  0 <= rank image m x y < total image n m.
Proof.
  intros Hx Hy N. split.
  - pose proof (rank_le image m x 0 y ltac:(lia) ltac:(lia)). pose proof (rank_row_le image m 0 x ltac:(lia) ltac:(lia)).
    unfold rank at 1 in H0. rewrite !sum_empty in H0 by lia. lia.
  - pose proof (rank_before image m n 0 x y ltac:(lia) ltac:(lia) ltac:(lia) ltac:(left; lia) N).
    unfold rank at 2 in H. rewrite (sum_empty _ _ 0 0) in H by lia. unfold total. lia.
Qed.

Lemma count_lemma image n : shape image = [n; n] -> count_nonzero image = Some (total image n n).
Proof.
  intro S. unfold count_nonzero, dim, total. rewrite S. cbn [nth].
  rewrite (for_ext 0 n _ (fun il acc => Some (acc + rowsum image n il))).
  - rewrite (for_sum _ _ Zcm). reflexivity.
  - intros il acc Hi. rewrite (for_ext 0 n _ (fun im acc => Some (acc + nz image il im))).
    + apply (for_sum _ _ Zcm).
    + intros im a Hj. rds. unfold nz. destruct nonzero; f_equal; lia.
Qed.

Lemma pix_coord_eq i n theta : 0 <= n -> pix_coord i n theta = pixel_coord i n theta.
Proof. intro H. unfold pix_coord, pixel_coord. now rewrite cdiv2'. Qed.

Lemma flmn_put_lemma lmn k l m hu hv cnt : shape lmn = [cnt; 3] -> 0 <= k < cnt ->
  exists lmn', flmn_put lmn k l m hu hv = Some lmn' /\ shape lmn' = [cnt; 3] /\
    elem lmn' [k; 0] = l /\ elem lmn' [k; 1] = m /\ elem lmn' [k; 2] = lm_to_n l m hu hv /\
    forall k' j, k' <> k -> elem lmn' [k'; j] = elem lmn [k'; j].
Proof.
  intros S H. unfold flmn_put.
  rewrite wr_some by (rewrite S; apply in_shape_2; lia). cbn [bind].
  rewrite wr_some by (cbn [upd shape]; rewrite S; apply in_shape_2; lia). cbn [bind].
  rewrite wr_some by (cbn [upd shape]; rewrite S; apply in_shape_2; lia).
  eexists. split; [reflexivity|]. split; [exact S|].
  rewrite !elem_upd_other by (intro K; injection K; lia). rewrite !elem_upd_same.
  repeat split; auto; try (rewrite elem_upd_other by (intro K; injection K; lia); apply elem_upd_same).
  intros k' j N. rewrite !elem_upd_other; auto; intro K; injection K; lia.
Qed.

Lemma flmn_lemma image theta hu hv taper flux lmn n m :
  shape image = [n; m] -> 0 <= n -> 0 <= m -> (forall t, taper = Some t -> shape t = [Z.max n m]) ->
  shape flux = [total image n m] -> shape lmn = [total image n m; 3] ->
  exists flux' lmn', image_to_flmn image theta hu hv taper flux lmn = Some (flux', lmn', total image n m) /\
    shape flux' = shape flux /\ shape lmn' = shape lmn /\
    forall x y, 0 <= x < n -> 0 <= y < m -> nonzero (elem image [x; y]) = true ->
      source_is flux' lmn' theta hu hv n m (rank image m x y) x y (re (elem image [x; y]) * taper_value taper x y)%R.
Proof.
  intros S Hn Hm ST S1 S2. unfold image_to_flmn, dim. rewrite S. cbn [nth].
  set (cnt := total image n m) in *.
  pose (Inv := fun il im (st : nd R * nd R * Z) => let '(f, l, k) := st in
    shape f = [cnt] /\ shape l = [cnt; 3] /\ k = rank image m il im /\
    forall x y, 0 <= x < n -> 0 <= y < m -> before il im x y -> nonzero (elem image [x; y]) = true ->
      source_is f l theta hu hv n m (rank image m x y) x y (re (elem image [x; y]) * taper_value taper x y)%R).
  match goal with |- context [for_ 0 n ?b ?s] => destruct (for_inv (fun il st => Inv il 0 st) 0 n b s) as (st & E & P) end; [lia| | |].
  - unfold Inv. split; [exact S1|]. split; [exact S2|]. split; [unfold rank; now rewrite !sum_empty by lia|].
    intros x y Hx Hy B. unfold before in B. lia.
  - intros il st Hi HI.
    match goal with |- exists s', for_ 0 m ?b st = Some s' /\ _ => destruct (for_inv (fun im st => Inv il im st) 0 m b st) as (st' & E & P) end; [lia|exact HI| |].
    + intros im [[f l] k] Hj (F1 & F2 & F3 & F4). rewrite rd_some by (rewrite S; apply in_shape_2; lia). cbn [bind].
      destruct (nonzero (elem image [il; im])) eqn:N.
      * assert (TV : (match taper with None => Some 1%R | Some t => let* a := rd t [il] in let* b := rd t [im] in Some (a * b)%R end)
          = Some (taper_value taper il im)).
        { destruct taper as [t|]; [|reflexivity]. specialize (ST t eq_refl).
          rewrite rd_some by (rewrite ST; apply in_shape_1; lia). cbn [bind].
          rewrite rd_some by (rewrite ST; apply in_shape_1; lia). reflexivity. }
        rewrite TV. cbn [bind].
        pose proof (rank_total image n m il im Hi Hj N) as RT. fold cnt in RT.
        rewrite wr_some by (rewrite F1; apply in_shape_1; lia). cbn [bind].
        destruct (flmn_put_lemma l k (pix_coord il n theta) (pix_coord im m theta) hu hv cnt F2 ltac:(lia))
          as (l' & El & Sl & L0 & L1 & L2 & LO). rewrite El. cbn [bind].
        eexists. split; [reflexivity|]. unfold Inv. split; [exact F1|]. split; [exact Sl|].
        split; [rewrite rank_next by lia; unfold nz; rewrite N; lia|].
        intros x y Hx Hy B Nx. destruct (Z.eq_dec x il) as [->|Nxi]; [destruct (Z.eq_dec y im) as [->|Nyi]|].
        -- rewrite <- F3. unfold source_is. rewrite elem_upd_same, L0, L1, L2.
           rewrite !(pix_coord_eq _ n), !(pix_coord_eq _ m) by lia. auto.
        -- assert (B' : before il im il y) by (unfold before in *; lia).
           pose proof (rank_before image m il im il y ltac:(lia) ltac:(lia) ltac:(lia) B' Nx).
           destruct (F4 il y Hx Hy B' Nx) as (G0 & G1 & G2 & G3). unfold source_is.
           rewrite !LO by lia. rewrite elem_upd_other by (intro K; injection K; lia). auto.
        -- assert (B' : before il im x y) by (unfold before in *; lia).
           pose proof (rank_before image m il im x y ltac:(lia) ltac:(lia) ltac:(lia) B' Nx).
           destruct (F4 x y Hx Hy B' Nx) as (G0 & G1 & G2 & G3). unfold source_is.
           rewrite !LO by lia. rewrite elem_upd_other by (intro K; injection K; lia). auto.
      * eexists. split; [reflexivity|]. split; [exact F1|]. split; [exact F2|].
        split; [rewrite rank_next by lia; unfold nz; rewrite N; lia|].
        intros x y Hx Hy B Nx. apply F4; auto. unfold before in *.
        destruct B as [B|[-> B]]; [auto|]. right. split; [reflexivity|].
        assert (y <> im) by (intros ->; congruence). lia.
    + exists st'. split; [exact E|]. destruct st' as [[f l] k]. destruct P as (F1 & F2 & F3 & F4).
      split; [exact F1|]. split; [exact F2|]. split; [rewrite F3; apply rank_row; lia|].
      intros x y Hx Hy B. apply F4; auto. unfold before in *. lia.
  - destruct st as [[f l] k]. destruct P as (F1 & F2 & F3 & F4). exists f, l. rewrite E.
    replace k with cnt by (rewrite F3; unfold rank, cnt, total; rewrite (sum_empty _ _ 0 0) by lia; lia).
    split; [reflexivity|]. split; [congruence|]. split; [congruence|].
    intros x y Hx Hy. apply F4; auto. left. lia.
Qed.

(** Every list entry belongs to exactly one non-zero pixel. *)
Lemma rank_onto image n m k : 0 <= n -> 0 <= m -> 0 <= k < total image n m ->
  exists x y, 0 <= x < n /\ 0 <= y < m /\ nonzero (elem image [x; y]) = true /\ rank image m x y = k.
Proof.
  intros Hn Hm Hk.
  assert (ROW : exists x, 0 <= x < n /\ rank image m x 0 <= k < rank image m (x + 1) 0).
  { assert (G : forall j, 0 <= j -> j <= n -> k < rank image m j 0 -> exists x, 0 <= x < j /\ rank image m x 0 <= k < rank image m (x + 1) 0).
    { apply (natlike_ind (fun j => j <= n -> k < rank image m j 0 -> exists x, 0 <= x < j /\ rank image m x 0 <= k < rank image m (x + 1) 0)).
      - intros _ H. unfold rank in H. rewrite !sum_empty in H by lia. lia.
      - intros j Hj IH L H. destruct (Z.le_gt_cases (rank image m j 0) k) as [K|K].
        + exists j. replace (Z.succ j) with (j + 1) in H by lia. lia.
        + destruct (IH ltac:(lia) K) as (x & X1 & X2). exists x. lia. }
    apply (G n); try lia. unfold rank, total in *. rewrite (sum_empty _ _ 0 0) by lia. lia. }
  destruct ROW as (x & Hx & R1 & R2). rewrite <- rank_row in R2 by lia.
  assert (COL : exists y, 0 <= y < m /\ rank image m x y <= k < rank image m x (y + 1)).
  { assert (G : forall j, 0 <= j -> j <= m -> k < rank image m x j -> exists y, 0 <= y < j /\ rank image m x y <= k < rank image m x (y + 1)).
    { apply (natlike_ind (fun j => j <= m -> k < rank image m x j -> exists y, 0 <= y < j /\ rank image m x y <= k < rank image m x (y + 1))).
      - intros _ H. lia.
      - intros j Hj IH L H. destruct (Z.le_gt_cases (rank image m x j) k) as [K|K].
        + exists j. replace (Z.succ j) with (j + 1) in H by lia. lia.
        + destruct (IH ltac:(lia) K) as (y & X1 & X2). exists y. lia. }
    apply (G m); lia. }
  destruct COL as (y & Hy & R3 & R4). rewrite rank_next in R4 by lia.
  exists x, y. unfold nz in R4. destruct nonzero eqn:N; [|lia]. repeat split; auto; lia.
Qed.
