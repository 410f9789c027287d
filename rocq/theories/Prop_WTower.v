(** C24, C25, C26: the w-towers gridder and degridder kernels. *)
From Coq Require Import Lia Reals.
From Verif Require Import Base CRing Cplx Clamp ClampSpec QNum WTower WTowerSpec WTowerFacts WTowerFacts2 WTowerFacts3 WTowerFacts4.
Open Scope Z_scope.

(** C24.  When every visibility of the rows that pass the bounds check is so far from the edge of
    the sub-grid that the kernel fits, both kernels complete without an access outside of an
    array.  (Missing: the bounds check does not establish this, see the refutations.) *)
Theorem C24_degrid_in_bounds_partial : forall (A : cring) (plan : wplan A) w_plane off_u off_v off_w f0 df
    start_row end_row uvws scs ecs n m sg vis,
  plan_ok plan -> rows_ok uvws scs ecs n m start_row end_row ->
  (forall i, start_row <= i < end_row -> row_safe plan w_plane off_u off_v off_w f0 df uvws scs ecs i) ->
  shape sg = [w_support plan; subgrid_size plan; subgrid_size plan] -> shape vis = [n; m] ->
  exists vis', degrid plan w_plane off_u off_v off_w f0 df start_row end_row uvws scs ecs sg vis = Some vis' /\ shape vis' = [n; m].
Proof.
  intros. edestruct (degrid_formula (A := A)) as (v & E & S & _); eauto.
Qed.
Print Assumptions C24_degrid_in_bounds_partial.

Theorem C24_grid_in_bounds_partial : forall (A : cring) (plan : wplan A) w_plane off_u off_v off_w f0 df
    start_row end_row uvws scs ecs n m vis sg,
  plan_ok plan -> rows_ok uvws scs ecs n m start_row end_row ->
  (forall i, start_row <= i < end_row -> row_safe plan w_plane off_u off_v off_w f0 df uvws scs ecs i) ->
  shape sg = [w_support plan; subgrid_size plan; subgrid_size plan] -> shape vis = [n; m] ->
  exists sg', grid plan w_plane off_u off_v off_w f0 df start_row end_row uvws scs ecs vis sg = Some sg' /\
    shape sg' = [w_support plan; subgrid_size plan; subgrid_size plan].
Proof.
  intros. edestruct (grid_formula (A := A)) as (v & p & E & S & _); eauto.
Qed.
Print Assumptions C24_grid_in_bounds_partial.

(** An 8 x 8 sub-grid, support 2, oversampling 2; with f0 = df = c the coordinate of channel c is
    (1 + c) times the coordinate in metres; one row, [nc] channels. *)
Definition ex_plan : wplan Zring := mk_wplan Zring 8 (1 # 1) (1 # 1) 2 2 2 2
  (mk_nd [6] (fun idx => nth 0 idx 0 + 1)) (mk_nd [6] (fun idx => 10 * nth 0 idx 0 + 1)).
Definition ex_uvw (u v w : Q) : nd Q := mk_nd [1; 3] (fun idx => nth (Z.to_nat (nth 1 idx 0)) [u; v; w] 0%Q).
Definition ex_ch (k : Z) : nd Z := mk_nd [1] (fun _ => k).
Definition ex_sg : nd Zring := mk_nd [2; 8; 8] (fun idx => nth 0 idx 0 + 3 * nth 1 idx 0 + 5 * nth 2 idx 0).
Definition ex_vis (nc : Z) : nd Zring := mk_nd [1; nc] (fun idx => 1 + nth 1 idx 0).

Lemma ex_plan_ok : plan_ok ex_plan.
Proof. repeat split; try reflexivity; cbn; lia. Qed.
Lemma ex_rows_ok u v w nc : 0 <= nc -> rows_ok (ex_uvw u v w) (ex_ch 0) (ex_ch nc) 1 nc 0 1.
Proof. intro. repeat split; cbn; auto; lia. Qed.

Ltac q_lt := vm_compute; reflexivity.
Example C24_hyps : plan_ok ex_plan /\ rows_ok (ex_uvw (1 # 2) (- 3 # 4) (1 # 8)) (ex_ch 0) (ex_ch 2) 1 2 0 1 /\
  (forall i, 0 <= i < 1 -> row_safe ex_plan 1 0 0 0 C_0 C_0 (ex_uvw (1 # 2) (- 3 # 4) (1 # 8)) (ex_ch 0) (ex_ch 2) i) /\
  processed ex_plan 1 0 0 0 C_0 C_0 (ex_uvw (1 # 2) (- 3 # 4) (1 # 8)) (ex_ch 0) (ex_ch 2) 0 1.
Proof.
  split; [apply ex_plan_ok|]. split; [apply ex_rows_ok; lia|].
  split.
  - intros i Hi. replace i with 0 by lia. split.
    + right. split; vm_compute; reflexivity.
    + intros _ c. match goal with |- context [plane_channels ?a ?b ?d ?e ?f ?g ?h ?i] => replace (plane_channels a b d e f g h i) with (0, 2) by (vm_compute; reflexivity) end. cbn [fst snd]. intro Hc.
      assert (c = 0 \/ c = 1) as [-> | ->] by lia; repeat split; vm_compute; intuition congruence.
  - split; [cbn; lia|]. split; [vm_compute; intuition congruence|]. repeat split; vm_compute; intuition congruence.
Qed.

(** The bounds check ignores the kernel support: a visibility at pixel (3, 3) of an 8 x 8
    sub-grid (the last accepted position) passes, but its kernel does not fit: the access to
    the last sub-grid of the stack is beyond the end of the array. *)
Theorem C24_support_ignored_refuted :
  exists (plan : wplan Zring) uvws scs ecs sg vis, let x := pos plan (elem uvws [0; 0]) C_0 C_0 0 0 in
    plan_ok plan /\ rows_ok uvws scs ecs 1 1 0 1 /\ shape sg = [w_support plan; subgrid_size plan; subgrid_size plan] /\ shape vis = [1; 1] /\
    step_ok (elem uvws [0; 2]) C_0 C_0 (inject_Z 0 * w_step plan)%Q (inject_Z 1 * w_step plan)%Q /\
    processed plan 1 0 0 0 C_0 C_0 uvws scs ecs 0 0 /\
    (exists a b d, 0 <= a < w_support plan /\ 0 <= b < support plan /\ 0 <= d < support plan /\
      (a * subgrid_size plan + (corner plan x + b)) * subgrid_size plan + (corner plan x + d) >=
      w_support plan * subgrid_size plan * subgrid_size plan) /\
    degrid plan 1 0 0 0 C_0 C_0 0 1 uvws scs ecs sg vis = None /\
    grid plan 1 0 0 0 C_0 C_0 0 1 uvws scs ecs vis sg = None.
Proof.
  exists ex_plan, (ex_uvw (3 # 1) (3 # 1) (1 # 8)), (ex_ch 0), (ex_ch 1), ex_sg, (ex_vis 1). cbv zeta.
  split; [apply ex_plan_ok|]. split; [apply ex_rows_ok; lia|]. split; [reflexivity|]. split; [reflexivity|].
  split; [right; split; vm_compute; reflexivity|].
  split; [split; [cbn; lia|]; split; [vm_compute; intuition congruence|repeat split; vm_compute; intuition congruence]|].
  split; [exists 1, 1, 1; repeat split; try (cbn; lia); vm_compute; intuition congruence|].
  split; vm_compute; reflexivity.
Qed.
Print Assumptions C24_support_ignored_refuted.

(** The bounds check tests the lower bound on the first and the upper bound on the last channel:
    for a negative coordinate, which falls with frequency, it misses the side that is left. *)
Theorem C24_falling_coordinate_refuted :
  exists (plan : wplan Zring) uvws scs ecs sg vis, let x := pos plan (elem uvws [0; 0]) C_0 C_0 4 0 in
    plan_ok plan /\ rows_ok uvws scs ecs 1 5 0 1 /\ shape sg = [w_support plan; subgrid_size plan; subgrid_size plan] /\ shape vis = [1; 5] /\
    step_ok (elem uvws [0; 2]) C_0 C_0 (inject_Z 0 * w_step plan)%Q (inject_Z 1 * w_step plan)%Q /\
    processed plan 1 0 0 0 C_0 C_0 uvws scs ecs 0 4 /\
    (x < - inject_Z (subgrid_size plan))%Q /\ corner plan x < 0 /\
    degrid plan 1 0 0 0 C_0 C_0 0 1 uvws scs ecs sg vis = None /\
    grid plan 1 0 0 0 C_0 C_0 0 1 uvws scs ecs vis sg = None.
Proof.
  exists ex_plan, (ex_uvw (-2 # 1) (0 # 1) (1 # 8)), (ex_ch 0), (ex_ch 5), ex_sg, (ex_vis 5). cbv zeta.
  split; [apply ex_plan_ok|]. split; [apply ex_rows_ok; lia|]. split; [reflexivity|]. split; [reflexivity|].
  split; [right; split; vm_compute; reflexivity|].
  split; [split; [cbn; lia|]; split; [vm_compute; intuition congruence|repeat split; vm_compute; intuition congruence]|].
  split; [vm_compute; reflexivity|]. split; [vm_compute; reflexivity|].
  split; vm_compute; reflexivity.
Qed.
Print Assumptions C24_falling_coordinate_refuted.

(** C25.  Whenever both kernels complete, gridding is the transpose of degridding: for all
    visibilities [vis] (gridded onto any [sg0]) and all sub-grids [sg] (degridded onto any
    [vis0]), over any commutative ring. *)
Theorem C25_adjoint : forall (A : cring) (plan : wplan A) w_plane off_u off_v off_w f0 df start_row end_row uvws scs ecs
    (vis vis0 vis1 sg sg0 sg1 : nd A) n m n0 n1 n2,
  shape vis0 = [n; m] -> shape sg0 = [n0; n1; n2] ->
  grid plan w_plane off_u off_v off_w f0 df start_row end_row uvws scs ecs vis sg0 = Some sg1 ->
  degrid plan w_plane off_u off_v off_w f0 df start_row end_row uvws scs ecs sg vis0 = Some vis1 ->
  total3 n0 n1 n2 (fun a x y => (elem sg1 [a; x; y] - elem sg0 [a; x; y]) * elem sg [a; x; y])%cr =
  total2 n m (fun i c => elem vis [i; c] * (elem vis1 [i; c] - elem vis0 [i; c]))%cr.
Proof.
  intros A plan w_plane off_u off_v off_w f0 df r0' r1' uvws scs ecs vis vis0 vis1 sg sg0 sg1 n m n0 n1 n2 Sv Ss Eg Ed.
  exact (adjoint_lemma (fun x => x) plan w_plane off_u off_v off_w f0 df r0' r1' uvws scs ecs vis vis0 vis1 sg sg0 sg1 n m n0 n1 n2
    (fun _ _ => eq_refl) (fun _ _ => eq_refl) eq_refl (fun _ => eq_refl) (fun _ => eq_refl) Sv Ss Eg Ed).
Qed.
Print Assumptions C25_adjoint.

(** The same for complex data with the Hermitian inner product: <G vis, sg> = <vis, D sg>.  The
    kernels are real. *)
Theorem C25_adjoint_hermitian : forall (plan : wplan Cring) w_plane off_u off_v off_w f0 df start_row end_row uvws scs ecs
    (vis vis0 vis1 sg sg0 sg1 : nd Cring) n m n0 n1 n2,
  (forall idx, im (elem (uv_kernel plan) idx) = 0%R) -> (forall idx, im (elem (w_kernel plan) idx) = 0%R) ->
  shape vis0 = [n; m] -> shape sg0 = [n0; n1; n2] ->
  grid plan w_plane off_u off_v off_w f0 df start_row end_row uvws scs ecs vis sg0 = Some sg1 ->
  degrid plan w_plane off_u off_v off_w f0 df start_row end_row uvws scs ecs sg vis0 = Some vis1 ->
  total3 n0 n1 n2 (fun a x y => (elem sg1 [a; x; y] - elem sg0 [a; x; y]) * Cconj (elem sg [a; x; y]))%cr =
  total2 n m (fun i c => elem vis [i; c] * Cconj (elem vis1 [i; c] - elem vis0 [i; c])%cr)%cr.
Proof.
  intros plan w_plane off_u off_v off_w f0 df r0' r1' uvws scs ecs vis vis0 vis1 sg sg0 sg1 n m n0 n1 n2 Ku Kw Sv Ss Eg Ed.
  apply (adjoint_lemma (A := Cring) Cconj plan w_plane off_u off_v off_w f0 df r0' r1' uvws scs ecs vis vis0 vis1 sg sg0 sg1 n m n0 n1 n2); try assumption.
  - cbn. csolve.
  - cbn. csolve.
  - cbn. csolve.
  - intro idx. specialize (Ku idx). destruct (elem (uv_kernel plan) idx) as [a b]. unfold Cconj, re, im in *. cbn [fst snd] in *. subst. now rewrite Ropp_0.
  - intro idx. specialize (Kw idx). destruct (elem (w_kernel plan) idx) as [a b]. unfold Cconj, re, im in *. cbn [fst snd] in *. subst. now rewrite Ropp_0.
Qed.
Print Assumptions C25_adjoint_hermitian.

(** What degridding computes: every processed visibility gets the interpolation of the sub-grids
    around its position, every other is left as it was. *)
Theorem C25_degrid_formula : forall (A : cring) (plan : wplan A) w_plane off_u off_v off_w f0 df
    start_row end_row uvws scs ecs n m,
  plan_ok plan -> rows_ok uvws scs ecs n m start_row end_row ->
  (forall i, start_row <= i < end_row -> row_safe plan w_plane off_u off_v off_w f0 df uvws scs ecs i) ->
  forall sg vis,
    shape sg = [w_support plan; subgrid_size plan; subgrid_size plan] -> shape vis = [n; m] ->
    exists vis', degrid plan w_plane off_u off_v off_w f0 df start_row end_row uvws scs ecs sg vis = Some vis' /\
      shape vis' = [n; m] /\
      forall i c, start_row <= i < end_row -> 0 <= c < m ->
        let xu := pos plan (elem uvws [i; 0]) f0 df c off_u in
        let xv := pos plan (elem uvws [i; 1]) f0 df c off_v in
        let xw := wpos plan (elem uvws [i; 2]) f0 df c w_plane off_w in
        (processed plan w_plane off_u off_v off_w f0 df uvws scs ecs i c ->
           elem vis' [i; c] = (elem vis [i; c] +
             interp plan (corner plan xu) (krow plan xu) (corner plan xv) (krow plan xv)
               (wrow plan xw) (fun a b d => elem sg [a; b; d]))%cr) /\
        (~ processed plan w_plane off_u off_v off_w f0 df uvws scs ecs i c -> elem vis' [i; c] = elem vis [i; c]).
Proof. exact @degrid_formula. Qed.
Print Assumptions C25_degrid_formula.

(** What gridding computes: to every pixel is added, for every processed visibility, its value
    times the weight with which degridding would use the pixel for it (the interpolation of the
    indicator of the pixel). *)
Theorem C25_grid_formula : forall (A : cring) (plan : wplan A) w_plane off_u off_v off_w f0 df
    start_row end_row uvws scs ecs n m,
  plan_ok plan -> rows_ok uvws scs ecs n m start_row end_row ->
  (forall i, start_row <= i < end_row -> row_safe plan w_plane off_u off_v off_w f0 df uvws scs ecs i) ->
  forall vis sg,
    shape sg = [w_support plan; subgrid_size plan; subgrid_size plan] -> shape vis = [n; m] ->
    exists sg' p, grid plan w_plane off_u off_v off_w f0 df start_row end_row uvws scs ecs vis sg = Some sg' /\
      shape sg' = [w_support plan; subgrid_size plan; subgrid_size plan] /\
      (forall i c, p i c = true <-> processed plan w_plane off_u off_v off_w f0 df uvws scs ecs i c) /\
      forall a x y, 0 <= a < w_support plan -> 0 <= x < subgrid_size plan -> 0 <= y < subgrid_size plan ->
        elem sg' [a; x; y] = (elem sg [a; x; y] +
          rsum start_row end_row (fun i => rsum 0 m (fun c => if p i c then
            let xu := pos plan (elem uvws [i; 0%Z]) f0 df c off_u in
            let xv := pos plan (elem uvws [i; 1%Z]) f0 df c off_v in
            let xw := wpos plan (elem uvws [i; 2%Z]) f0 df c w_plane off_w in
            elem vis [i; c] * interp plan (corner plan xu) (krow plan xu) (corner plan xv) (krow plan xv) (wrow plan xw)
              (fun a' x' y' => if (a' =? a)%Z && (x' =? x)%Z && (y' =? y)%Z then r1 else r0)
            else r0)))%cr.
Proof. exact @grid_formula. Qed.
Print Assumptions C25_grid_formula.

(** The kernel is placed to within half an oversampled pixel of the visibility: first pixel plus
    row fraction is its position (shifted by half the sub-grid and half the support). *)
Theorem C25_kernel_position : forall (A : cring) (plan : wplan A) x, 1 <= oversampling plan ->
  0 <= krow plan x < oversampling plan /\
  (Qabs (inject_Z (corner plan x - (subgrid_size plan / 2 - support plan / 2 + 1)) + inject_Z (krow plan x) / inject_Z (oversampling plan) - x)
     <= 1 / (2 * inject_Z (oversampling plan)))%Q.
Proof. exact @corner_near. Qed.
Print Assumptions C25_kernel_position.

(** Both kernels run on the example, and the two sides of C25 are not zero. *)
Example C25_hyps :
  match grid ex_plan 1 0 0 0 C_0 C_0 0 1 (ex_uvw (1 # 2) (- 3 # 4) (1 # 8)) (ex_ch 0) (ex_ch 2) (ex_vis 2) (mk_nd [2; 8; 8] (fun _ => 0)),
        degrid ex_plan 1 0 0 0 C_0 C_0 0 1 (ex_uvw (1 # 2) (- 3 # 4) (1 # 8)) (ex_ch 0) (ex_ch 2) ex_sg (mk_nd [1; 2] (fun _ => 0)) with
  | Some g, Some v => elem g [0; 4; 3] <> 0 /\ elem v [0; 0] * 1 + elem v [0; 1] * 2 <> 0
  | _, _ => False
  end.
Proof. vm_compute. split; discriminate. Qed.

(** C26.  Up to half an oversampling step below the upper plane, degridding uses the row of the
    w-kernel table nearest to the position between the planes. *)
Theorem C26_nearest_row_partial : forall (A : cring) (plan : wplan A) w_plane off_u off_v off_w f0 df
    start_row end_row uvws scs ecs n m sg vis,
  plan_ok plan -> rows_ok uvws scs ecs n m start_row end_row ->
  (forall i, start_row <= i < end_row -> row_safe plan w_plane off_u off_v off_w f0 df uvws scs ecs i) ->
  shape sg = [w_support plan; subgrid_size plan; subgrid_size plan] -> shape vis = [n; m] ->
  exists vis', degrid plan w_plane off_u off_v off_w f0 df start_row end_row uvws scs ecs sg vis = Some vis' /\
    forall i c, start_row <= i < end_row -> 0 <= c < m ->
      processed plan w_plane off_u off_v off_w f0 df uvws scs ecs i c ->
      let x := wpos plan (elem uvws [i; 2]) f0 df c w_plane off_w in
      let os := inject_Z (w_oversampling plan) in
      (0 <= x)%Q -> (x < 1 - 1 / (2 * os))%Q ->
      exists cu ru cv rv rw,
        elem vis' [i; c] = (elem vis [i; c] + interp plan cu ru cv rv rw (fun a b d => elem sg [a; b; d]))%cr /\
        0 <= rw <= w_oversampling plan /\
        forall r, 0 <= r <= w_oversampling plan -> (Qabs (inject_Z rw / os - x) <= Qabs (inject_Z r / os - x))%Q.
Proof.
  intros A plan w_plane off_u off_v off_w f0 df start_row end_row uvws scs ecs n m sg vis POK ROK SAFE Ss Sv.
  destruct (degrid_formula plan w_plane off_u off_v off_w f0 df start_row end_row uvws scs ecs n m POK ROK SAFE sg vis Ss Sv) as (v & E & _ & V).
  exists v. split; [exact E|]. intros i c Hi Hc P x os X0 X1.
  destruct (V i c Hi Hc) as [V1 _]. specialize (V1 P).
  eexists _, _, _, _, _. split; [exact V1|]. apply wrow_nearest; [|exact X0|exact X1].
  destruct POK as (_ & _ & _ & _ & _ & _ & P6 & _). lia.
Qed.
Print Assumptions C26_nearest_row_partial.

(** Nearer to the upper plane the code rounds to the last row of the table but then takes the
    remainder, and uses row 0, the farthest one. *)
Definition ex_plan1 : wplan Zring := mk_wplan Zring 8 (1 # 1) (1 # 1) 1 1 1 4
  (mk_nd [2] (fun idx => 1)) (mk_nd [5] (fun idx => nth 0 idx 0)).
Theorem C26_upper_plane_refuted :
  exists (plan : wplan Zring) uvws scs ecs sg vis vis', let x := wpos plan (elem uvws [0; 2]) C_0 C_0 0 1 0 in
    plan_ok plan /\ rows_ok uvws scs ecs 1 1 0 1 /\
    (forall i, 0 <= i < 1 -> row_safe plan 1 0 0 0 C_0 C_0 uvws scs ecs i) /\
    processed plan 1 0 0 0 C_0 C_0 uvws scs ecs 0 0 /\ (0 <= x < 1)%Q /\
    degrid plan 1 0 0 0 C_0 C_0 0 1 uvws scs ecs sg vis = Some vis' /\
    (* rows 0 and 4 of the w-kernel table hold 0 and 4; 4 is the nearest to x *)
    (forall idx, elem vis idx = 0 /\ elem sg idx = 1) /\ (forall r, elem (w_kernel plan) [r] = r) /\
    (forall r, 0 <= r <= 4 -> r <> 4 -> (Qabs (inject_Z 4 / inject_Z 4 - x) < Qabs (inject_Z r / inject_Z 4 - x))%Q) /\
    elem vis' [0; 0] = 0.
Proof.
  exists ex_plan1, (ex_uvw (0 # 1) (0 # 1) (19 # 20)), (ex_ch 0), (ex_ch 1), (mk_nd [1; 8; 8] (fun _ => 1)), (mk_nd [1; 1] (fun _ => 0)).
  destruct (degrid ex_plan1 1 0 0 0 C_0 C_0 0 1 (ex_uvw (0 # 1) (0 # 1) (19 # 20)) (ex_ch 0) (ex_ch 1) (mk_nd [1; 8; 8] (fun _ => 1)) (mk_nd [1; 1] (fun _ => 0))) as [v|] eqn:E;
    [|vm_compute in E; discriminate].
  exists v. cbv zeta.
  split; [repeat split; try reflexivity; cbn; lia|]. split; [apply ex_rows_ok; lia|].
  split.
  { intros i Hi. replace i with 0 by lia. split; [right; split; vm_compute; reflexivity|].
    intros _ c. match goal with |- context [plane_channels ?a ?b ?d ?e ?f ?g ?h ?i] => replace (plane_channels a b d e f g h i) with (0, 1) by (vm_compute; reflexivity) end. cbn [fst snd]. intro Hc.
    assert (c = 0) as -> by lia. repeat split; vm_compute; intuition congruence. }
  split; [split; [cbn; lia|]; split; [vm_compute; intuition congruence|repeat split; vm_compute; intuition congruence]|].
  split; [split; vm_compute; [discriminate|reflexivity]|].
  split; [reflexivity|].
  split; [intro; split; reflexivity|]. split; [intro; reflexivity|].
  split.
  { intros r Hr N. assert (r = 0 \/ r = 1 \/ r = 2 \/ r = 3) as [-> | [-> | [-> | ->]]] by lia; vm_compute; reflexivity. }
  change (match Some v with Some v => elem v [0; 0] = 0 | None => True end). rewrite <- E. vm_compute. reflexivity.
Qed.
Print Assumptions C26_upper_plane_refuted.
