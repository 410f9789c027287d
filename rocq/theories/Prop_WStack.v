(** C116: the w-stacking drivers. *)
From Coq Require Import Lia Permutation Qreals.
From Verif Require Import Base BaseFacts Sum CRing Cplx Clamp ClampSpec Select QNum FftSpec FftFacts WTower WTowerSpec WTowerDrv WTowerDrvSpec WTowerDrvFacts Prop_WTowerDrv WStack WStackSpec WStackFacts WStackFacts2.
Open Scope Z_scope.

(** ** C116.  Gridding is the adjoint of degridding, whatever the order in which the threads of the two calls take the tasks: the Hermitian product of the dirty image
    with any image is that of the visibilities with the prediction from that image.  Nothing depends on the contents of the outputs and the scratch arrays. *)
Theorem C116_adjoint_partial s n m planes planes' image image0 vis vis0 subgrid w_image subgrids :
  let N := s_image_size s in
  setup_ok s -> planes_ok s n m planes -> reordered planes planes' -> scratch_ok s subgrid w_image subgrids ->
  shape image = [N; N] -> shape image0 = [N; N] -> shape vis = [n; m] -> shape vis0 = [n; m] ->
  exists image1 vis1, grid_all s vis planes image0 = Some image1 /\ degrid_all s image subgrid w_image subgrids planes' vis0 = Some vis1 /\
    shape image1 = [N; N] /\ shape vis1 = [n; m] /\
    herm2 N N (fun x y => elem image1 [x; y]) (fun x y => elem image [x; y]) = herm2 n m (fun i c => elem vis [i; c]) (fun i c => elem vis1 [i; c]).
Proof.
  intros N Ok P R Sc Si S0 Sv Sv0. unfold grid_all, degrid_all.
  destruct (grid_planes_ok s n m Ok vis Sv image planes P Si (mk_nd (shape image0) (fun _ => C0)) S0) as (i1 & E1 & S1 & H1).
  destruct (degrid_planes_ok s n m Ok vis Sv image subgrid w_image subgrids planes' (planes_ok_reordered s n m planes planes' R P) Si Sc (mk_nd (shape vis0) (fun _ => C0)) Sv0) as (v1 & E2 & S2 & H2).
  exists i1, v1. split; [exact E1|]. split; [exact E2|]. split; [exact S1|]. split; [exact S2|].
  rewrite (planes_reordered s vis image planes planes' R), <- H2 in H1. etransitivity; [etransitivity; [|exact H1]|]; apply herm2_ext; try reflexivity; intros i j _ _; unfold minus2, at2; cbn [elem].
  - generalize (elem i1 [i; j]). intro z. csolve.
  - generalize (elem v1 [i; j]). intro z. csolve.
Qed.
Print Assumptions C116_adjoint_partial.

Lemma herm2_point n m i j (b : Z -> Z -> C) : 0 <= i < n -> 0 <= j < m -> herm2 n m (fun x y => if idx_eqb [x; y] [i; j] then C1 else C0) b = Cconj (b i j).
Proof.
  intros Hi Hj. unfold herm2. rewrite total2_csum. rewrite (sum_one _ _ (Rcm (A := Cring)) 0 n i); [|exact Hi|].
  2:{ intros x Hx Nx. apply (sum_none _ _ (Rcm (A := Cring))). intros y Hy. rewrite idx_eqb_neq by (intro Q; injection Q as Q1 Q2; contradiction). cbv beta iota. generalize (b x y). intro z. cbn [r0 Cring]. csolve. }
  rewrite (sum_one _ _ (Rcm (A := Cring)) 0 m j); [|exact Hj|].
  2:{ intros y Hy Ny. rewrite idx_eqb_neq by (intro Q; injection Q as Q1; contradiction). cbv beta iota. generalize (b i y). intro z. cbn [r0 Cring]. csolve. }
  rewrite idx_eqb_refl. cbv beta iota. generalize (b i j). intro z. cbn [r0 Cring]. csolve.
Qed.
Lemma Cconj_inj a b : Cconj a = Cconj b -> a = b.
Proof. destruct a as (x, y), b as (u, v). unfold Cconj, re, im. cbn. intro H. injection H as H1 H2. apply (f_equal Ropp) in H2. rewrite !Ropp_involutive in H2. congruence. Qed.

(** The prediction does not depend on the order of the tasks, nor on what the output and the scratch arrays contained. *)
Theorem C116_degrid_order s n m planes planes' image subgrid w_image subgrids subgrid' w_image' subgrids' vis0 vis0' v v' :
  let N := s_image_size s in
  setup_ok s -> planes_ok s n m planes -> reordered planes planes' -> scratch_ok s subgrid w_image subgrids -> scratch_ok s subgrid' w_image' subgrids' ->
  shape image = [N; N] -> shape vis0 = [n; m] -> shape vis0' = [n; m] ->
  degrid_all s image subgrid w_image subgrids planes vis0 = Some v -> degrid_all s image subgrid' w_image' subgrids' planes' vis0' = Some v' ->
  forall i c, 0 <= i < n -> 0 <= c < m -> elem v' [i; c] = elem v [i; c].
Proof.
  intros N Ok P R Sc Sc' Si Sv Sv' E E' i c Hi Hc. set (w := mk_nd [n; m] (fun idx => if idx_eqb idx [i; c] then C1 else C0)).
  destruct (C116_adjoint_partial s n m planes planes image image w vis0 subgrid w_image subgrids Ok P) as (d & v1 & Ed & E1 & _ & _ & H1); try assumption; try reflexivity.
  { clear. induction planes as [|p l IH]; constructor; auto. }
  destruct (C116_adjoint_partial s n m planes planes' image image w vis0' subgrid' w_image' subgrids' Ok P) as (d' & v2 & Ed' & E2 & _ & _ & H2); try assumption; try reflexivity.
  rewrite E1 in E. rewrite E2 in E'. injection E as <-. injection E' as <-. rewrite Ed in Ed'. injection Ed' as <-. rewrite H1 in H2. unfold w in H2. cbn [elem] in H2. rewrite !herm2_point in H2 by assumption. now apply Cconj_inj in H2.
Qed.
Print Assumptions C116_degrid_order.
(** Neither does the dirty image. *)
Theorem C116_grid_order s n m planes planes' vis image0 image0' d d' :
  let N := s_image_size s in
  setup_ok s -> planes_ok s n m planes -> reordered planes planes' -> shape vis = [n; m] -> shape image0 = [N; N] -> shape image0' = [N; N] ->
  grid_all s vis planes image0 = Some d -> grid_all s vis planes' image0' = Some d' -> forall x y, 0 <= x < N -> 0 <= y < N -> elem d' [x; y] = elem d [x; y].
Proof.
  intros N Ok P R Sv S0 S0' E E' x y Hx Hy. set (w := mk_nd [N; N] (fun idx => if idx_eqb idx [x; y] then C1 else C0)).
  set (sc := mk_nd [subgrid_size (s_plan s); subgrid_size (s_plan s)] (fun _ => C0)). set (st := mk_nd [w_support (s_plan s); subgrid_size (s_plan s); subgrid_size (s_plan s)] (fun _ => C0)).
  assert (Sc : scratch_ok s sc sc st) by (repeat split).
  destruct (C116_adjoint_partial s n m planes planes' w image0 vis vis sc sc st Ok P R Sc) as (d1 & v1 & E1 & Ev & _ & _ & H1); try assumption; try reflexivity.
  destruct (C116_adjoint_partial s n m planes' planes' w image0' vis vis sc sc st Ok (planes_ok_reordered s n m planes planes' R P)) as (d2 & v2 & E2 & Ev2 & _ & _ & H2); try assumption; try reflexivity.
  { clear. induction planes' as [|p l IH]; constructor; auto. }
  rewrite E1 in E. rewrite E2 in E'. injection E as <-. injection E' as <-. rewrite Ev in Ev2. injection Ev2 as <-. rewrite <- H1 in H2. rewrite (herm2_sym _ _ _ (fun a b => elem w [a; b])), (herm2_sym _ _ (fun a b => elem d1 [a; b])) in H2. apply Cconj_inj in H2.
  unfold w in H2. cbn [elem] in H2. rewrite !herm2_point in H2 by assumption. now apply Cconj_inj in H2.
Qed.
Print Assumptions C116_grid_order.

(** An 8 x 8 image, the 4 x 4 sub-grids and the visibility of C69 *)
Example C116_hyps : let s := mk_wstack (ex_plan 2) (ex_const [4; 4] (cis (PI / 2))) 8 2 0%R 0%R (mk_nd [8] (fun _ => 1%R)) (fun _ => 1%R) C_0 C_0 ex_uvw (ex_const [64] C0) (ex_const [16] C0) in
  let t := mk_task 0 0 (ex_ch 0) (ex_ch 1) (-1) (-1) in
  setup_ok s /\ planes_ok s 1 1 [(0, [t])] /\ reordered [(0, [t; t])] [(0, [t; t])] /\ scratch_ok s (ex_const [4; 4] C0) (ex_const [4; 4] C0) (ex_const [2; 4; 4] C0).
Proof.
  cbv zeta. destruct (ex_inputs 2 ltac:(lia)) as (A & B). split; [|split; [|split]].
  - split; [exact A|]. split; [reflexivity|]. split; [reflexivity|]. split; [reflexivity|]. cbn. repeat split; try lia. exists 64. split; [reflexivity|lia].
  - intros p [<-|[]] t [<-|[]]. exists (fun _ _ => (PI / 2)%R), C_0, 0, 1, 0, 2. exact (conj A B).
  - constructor; [split; [reflexivity|apply Permutation_refl]|constructor].
  - repeat split.
Qed.
