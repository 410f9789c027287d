(** Property theorems C29-C31: cutting sub-grids out of a periodic grid, adding them to it and
    shifting a stack of them, for pixel values in any commutative ring.
    [pixel g s off i] = (i + g/2 - s/2 + off) mod g is the grid pixel of sub-grid pixel i. *)
From Verif Require Import Base Sum CRing Loops Subgrid SubgridSpec SubgridFacts.

(** ** C29: always in bounds (the result is [Some]), for every integer offset. *)
Theorem C29_cut_out : forall (A : cring) (grid sub : nd A) gu gv su sv ou ov,
  shape grid = [gu; gv] -> shape sub = [su; sv] -> 0 < gu -> 0 < gv -> 0 <= su -> 0 <= sv ->
  exists s', subgrid_cut_out grid ou ov sub = Some s' /\ shape s' = [su; sv] /\
    forall i j, 0 <= i < su -> 0 <= j < sv -> elem s' [i; j] = elem grid [pixel gu su ou i; pixel gv sv ov j].
Proof. intro. exact (@cut_lemma A). Qed.
Print Assumptions C29_cut_out.

(** Every grid pixel receives [factor] times the sum of the sub-grid pixels that wrap onto it. *)
Theorem C29_add : forall (A : cring) (grid sub : nd A) gu gv su sv ou ov factor,
  shape grid = [gu; gv] -> shape sub = [su; sv] -> 0 < gu -> 0 < gv -> 0 <= su -> 0 <= sv ->
  exists g', subgrid_add grid ou ov sub factor = Some g' /\ shape g' = [gu; gv] /\
    forall x y, elem g' [x; y] = (elem grid [x; y] +
      rsum 0 su (fun i => rsum 0 sv (fun j =>
        if (pixel gu su (- ou) i =? x) && (pixel gv sv (- ov) j =? y) then elem sub [i; j] * factor else r0)))%cr.
Proof.
  intros A grid sub gu gv su sv ou ov factor H H0 H1 H2 H3 H4.
  destruct (add_lemma grid sub gu gv su sv ou ov factor H H0 H1 H2 H3 H4) as (g' & E & S & P).
  exists g'. split; [exact E|]. split; [exact S|]. intros x y. rewrite P. unfold added, hit. cbn [idx_eqb].
  f_equal. apply rsum_ext. intros i Hi. apply rsum_ext. intros j Hj. now rewrite andb_true_r.
Qed.
Print Assumptions C29_add.

(** The pixels addressed exist and, for a sub-grid that fits the grid, are all different (so the
    parallel rows of the loop never touch the same pixel). *)
Theorem C29_pixel_in_range : forall g s off i, 0 < g -> 0 <= pixel g s off i < g.
Proof. exact pixel_range. Qed.
Print Assumptions C29_pixel_in_range.
Theorem C29_pixel_distinct : forall g s off i j, 0 < g -> s <= g -> 0 <= i < s -> 0 <= j < s ->
  pixel g s off i = pixel g s off j -> i = j.
Proof. exact pixel_inj. Qed.
Print Assumptions C29_pixel_distinct.

(** A 4 x 5 grid with pixel value 10 x + y; sub-grid 2 x 3, offset (-7, 11). *)
Definition ex_grid : nd Zring := mk_nd [4; 5] (fun idx => 10 * nth 0 idx 0 + nth 1 idx 0).
Definition ex_sub : nd Zring := mk_nd [2; 3] (fun idx => 100 * (1 + nth 0 idx 0 + nth 1 idx 0)).
Example C29_hyps : exists s', subgrid_cut_out ex_grid (-7) 11 ex_sub = Some s' /\
  map (fun i => map (fun j => elem s' [i; j]) [0; 1; 2]) [0; 1] = [[22; 23; 24]; [32; 33; 34]].
Proof. eexists. split; vm_compute; reflexivity. Qed.
(** With a grid of size 0 the wrapping loop does not end. *)
Example C29_empty_grid : forall x, x <> 0 -> wrap 0 x = None.
Proof. exact wrap_zero. Qed.

(** ** C30 *)
Theorem C30_adjoint : forall (A : cring) (grid sub : nd A) gu gv su sv ou ov c a,
  shape grid = [gu; gv] -> shape sub = [su; sv] -> 0 < gu -> 0 < gv -> 0 <= su -> 0 <= sv ->
  subgrid_cut_out grid ou ov sub = Some c ->
  subgrid_add (zeros [gu; gv]) (- ou) (- ov) sub r1 = Some a ->
  dot su sv c sub = dot gu gv grid a.
Proof. intro. exact (@adjoint_lemma A). Qed.
Print Assumptions C30_adjoint.

Theorem C30_cut_after_add : forall (A : cring) (grid sub out : nd A) gu gv su sv ou ov f,
  shape grid = [gu; gv] -> shape sub = [su; sv] -> shape out = [su; sv] ->
  0 <= su <= gu -> 0 <= sv <= gv -> 0 < gu -> 0 < gv ->
  exists g' b c, subgrid_add grid ou ov sub f = Some g' /\
    subgrid_cut_out grid (- ou) (- ov) out = Some b /\
    subgrid_cut_out g' (- ou) (- ov) out = Some c /\
    forall i j, 0 <= i < su -> 0 <= j < sv -> elem c [i; j] = (elem b [i; j] + elem sub [i; j] * f)%cr.
Proof. intro. exact (@roundtrip_lemma A). Qed.
Print Assumptions C30_cut_after_add.

(** The empty-grid form of the property. *)
Theorem C30_cut_after_add_empty : forall (A : cring) (sub out : nd A) gu gv su sv ou ov f,
  shape sub = [su; sv] -> shape out = [su; sv] -> 0 <= su <= gu -> 0 <= sv <= gv -> 0 < gu -> 0 < gv ->
  exists g' c, subgrid_add (zeros [gu; gv]) ou ov sub f = Some g' /\
    subgrid_cut_out g' (- ou) (- ov) out = Some c /\
    forall i j, 0 <= i < su -> 0 <= j < sv -> elem c [i; j] = (elem sub [i; j] * f)%cr.
Proof.
  intros A sub out gu gv su sv ou ov f S1 S2 H1 H2 G1 G2.
  destruct (roundtrip_lemma (zeros [gu; gv]) sub out gu gv su sv ou ov f) as (g' & b & c & E1 & E2 & E3 & P); auto.
  destruct (cut_lemma (zeros [gu; gv]) out gu gv su sv (- ou) (- ov)) as (b' & E4 & _ & P4); auto; try lia.
  rewrite E2 in E4. injection E4 as <-.
  exists g', c. split; [exact E1|]. split; [exact E3|]. intros i j Hi Hj. rewrite P, P4 by auto. cbn [zeros elem].
  apply (Radd_0_l (rth A)).
Qed.
Print Assumptions C30_cut_after_add_empty.

Theorem C30_outside_unchanged : forall (A : cring) (grid sub : nd A) gu gv su sv ou ov f g',
  shape grid = [gu; gv] -> shape sub = [su; sv] -> 0 < gu -> 0 < gv -> 0 <= su -> 0 <= sv ->
  subgrid_add grid ou ov sub f = Some g' ->
  forall x y, (forall i j, 0 <= i < su -> 0 <= j < sv -> ~ (x = pixel gu su (- ou) i /\ y = pixel gv sv (- ov) j)) ->
    elem g' [x; y] = elem grid [x; y].
Proof. intro. exact (@outside_lemma A). Qed.
Print Assumptions C30_outside_unchanged.

Example C30_hyps : exists c a, subgrid_cut_out ex_grid (-7) 11 ex_sub = Some c /\
  subgrid_add (zeros [4; 5]) (- -7) (- 11) ex_sub (@r1 Zring) = Some a /\
  dot 2 3 c ex_sub = 43900 /\ dot 4 5 ex_grid a = 43900.
Proof. do 2 eexists. repeat split; vm_compute; reflexivity. Qed.

(** ** C31 *)
Theorem C31_shift : forall (A : cring) (sg : nd A) w n,
  shape sg = [w; n; n] -> 0 <= w -> 0 <= n ->
  exists sg', shift_subgrids sg = Some sg' /\ shape sg' = [w; n; n] /\
    forall k j i, 0 <= k < w -> 0 <= j < n -> 0 <= i < n ->
      elem sg' [k; j; i] = elem sg [(if k =? w - 1 then k else k + 1); j; i].
Proof. intro. exact (@shift_lemma A). Qed.
Print Assumptions C31_shift.

Definition ex_stack : nd Zring := mk_nd [3; 2; 2] (fun idx => 100 * nth 0 idx 0 + 10 * nth 1 idx 0 + nth 2 idx 0).
Example C31_hyps : exists s', shift_subgrids ex_stack = Some s' /\
  map (fun k => elem s' [k; 1; 0]) [0; 1; 2] = [110; 210; 210].
Proof. eexists. split; vm_compute; reflexivity. Qed.
(** Square planes are needed: both inner loops run to the second dimension. *)
Example C31_not_square : shift_subgrids (mk_nd [2; 2; 1] (fun _ => 0) : nd Zring) = None.
Proof. reflexivity. Qed.
