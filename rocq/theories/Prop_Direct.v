(** C113: the direct gridder. *)
From Coq Require Import Lia Lra.
From Verif Require Import Base BaseFacts Mem Checks Sum CRing Cplx GridUtils GridUtilsSpec GridUtilsFacts Flmn FlmnSpec FlmnFacts Direct DirectSpec DirectFacts DirectFacts2 DirectFacts3.
Open Scope Z_scope.

(** ** C113.  Degridding from a sub-grid image that is not all zero adds to every visibility of a used row the sum over the pixels of the real part of the pixel times the taper
    times e^{-2 pi i turns}, and leaves the others alone. *)
Theorem C113_degrid : forall p image uvws start end_ vis image_d uvw_d start_d end_d vis_d su sv sw freq0 dfreq ty n nc,
  (0 < p_theta p)%R -> 0 <= p_subgrid_size p -> shape (p_pswf p) = [p_subgrid_size p] ->
  in_cpu image ty image_d -> shape image_d = [p_subgrid_size p; p_subgrid_size p] -> pixel_type ty ->
  in_cpu uvws MEM_DOUBLE uvw_d -> shape uvw_d = [n; 3] -> in_cpu vis MEM_COMPLEX_DOUBLE vis_d -> shape vis_d = [n; nc] -> 0 <= n -> 0 <= nc -> can_write vis ->
  ranges_ok start end_ start_d end_d n ->
  some_pixel (p_subgrid_size p) (as_type ty image_d) ->
  exists r, direct_degrid p image uvws start end_ vis image_d uvw_d start_d end_d vis_d su sv sw freq0 dfreq SUCCESS = Some (SUCCESS, r) /\ shape r = [n; nc] /\
    forall i c, 0 <= i < n -> 0 <= c < nc -> elem r [i; c] = Cadd (elem vis_d [i; c])
      (if row_used start end_ start_d end_d i
       then over_pixels (p_subgrid_size p) (fun x y => Cmul (RtoC (re (elem (as_type ty image_d) [x; y]) * taper_at p x y))
              (cis (-2 * PI * pixel_turns p (p_subgrid_size p) uvw_d su sv sw freq0 dfreq i c x y)%R))
       else C0).
Proof. intros. refine (degrid_result p image uvws start end_ vis image_d uvw_d start_d end_d vis_d su sv sw freq0 dfreq ty n nc _ _ _ _ _ _ _ _ _ _ _ _ _ _ _); try assumption. now apply some_total. Qed.
Print Assumptions C113_degrid.

(** With real pixels, of whatever type, that is the direct Fourier transform of the tapered image. *)
Theorem C113_real_partial : forall p image uvws start end_ vis image_d uvw_d start_d end_d vis_d su sv sw freq0 dfreq ty n nc,
  (0 < p_theta p)%R -> 0 <= p_subgrid_size p -> shape (p_pswf p) = [p_subgrid_size p] ->
  in_cpu image ty image_d -> shape image_d = [p_subgrid_size p; p_subgrid_size p] -> pixel_type ty ->
  in_cpu uvws MEM_DOUBLE uvw_d -> shape uvw_d = [n; 3] -> in_cpu vis MEM_COMPLEX_DOUBLE vis_d -> shape vis_d = [n; nc] -> 0 <= n -> 0 <= nc -> can_write vis ->
  ranges_ok start end_ start_d end_d n ->
  some_pixel (p_subgrid_size p) image_d -> (forall x y, im (elem image_d [x; y]) = 0%R) ->
  exists r, direct_degrid p image uvws start end_ vis image_d uvw_d start_d end_d vis_d su sv sw freq0 dfreq SUCCESS = Some (SUCCESS, r) /\ shape r = [n; nc] /\
    forall i c, 0 <= i < n -> 0 <= c < nc -> elem r [i; c] = Cadd (elem vis_d [i; c])
      (if row_used start end_ start_d end_d i
       then over_pixels (p_subgrid_size p) (fun x y => Cmul (Cmul (elem image_d [x; y]) (RtoC (taper_at p x y)))
              (cis (-2 * PI * pixel_turns p (p_subgrid_size p) uvw_d su sv sw freq0 dfreq i c x y)%R))
       else C0).
Proof.
  intros p image uvws start end_ vis image_d uvw_d start_d end_d vis_d su sv sw freq0 dfreq ty n nc Ht HS Sp Im Si Ty Iu Su Iv Sv Hn Hc Wv Rg Nz Re.
  assert (A : forall x y, elem (as_type ty image_d) [x; y] = elem image_d [x; y]).
  { intros x y. unfold as_type. cbn [elem]. destruct (is_complex_type ty); [reflexivity|]. specialize (Re x y). destruct (elem image_d [x; y]) as [a b]. cbn [im snd] in Re. subst b. reflexivity. }
  destruct (C113_degrid p image uvws start end_ vis image_d uvw_d start_d end_d vis_d su sv sw freq0 dfreq ty n nc) as (r & E & Sr & V); try assumption.
  { destruct Nz as (x & y & Hx & Hy & N). exists x, y. rewrite A. auto. }
  exists r. split; [exact E|]. split; [exact Sr|]. intros i c Hi Hj. rewrite V by assumption. f_equal. destruct (row_used start end_ start_d end_d i); [|reflexivity].
  unfold over_pixels. apply (sum_ext Cadd C0). intros x Hx. apply (sum_ext Cadd C0). intros y Hy. rewrite A. specialize (Re x y). destruct (elem image_d [x; y]) as [a b]. cbn [im snd] in Re. subst b. f_equal. unfold re. cbn [fst]. csolve.
Qed.
Print Assumptions C113_real_partial.

(** Gridding adds to every pixel the taper times the sum over the visibilities of the used rows times e^{2 pi i turns}. *)
Theorem C113_grid : forall p image uvws start end_ vis image_d uvw_d start_d end_d vis_d su sv sw freq0 dfreq n nc,
  (0 < p_theta p)%R -> 1 <= p_subgrid_size p -> shape (p_pswf p) = [p_subgrid_size p] ->
  in_cpu image MEM_COMPLEX_DOUBLE image_d -> shape image_d = [p_subgrid_size p; p_subgrid_size p] -> can_write image ->
  in_cpu uvws MEM_DOUBLE uvw_d -> shape uvw_d = [n; 3] -> in_cpu vis MEM_COMPLEX_DOUBLE vis_d -> shape vis_d = [n; nc] -> 0 <= n -> 0 <= nc ->
  ranges_ok start end_ start_d end_d n ->
  exists r, direct_grid p vis uvws start end_ image vis_d uvw_d start_d end_d image_d su sv sw freq0 dfreq SUCCESS = Some (SUCCESS, r) /\
    shape r = [p_subgrid_size p; p_subgrid_size p] /\
    forall x y, 0 <= x < p_subgrid_size p -> 0 <= y < p_subgrid_size p -> elem r [x; y] = Cadd (elem image_d [x; y])
      (Cmul (over_vis (row_used start end_ start_d end_d) n nc (fun i c => Cmul (elem vis_d [i; c])
              (cis (2 * PI * pixel_turns p (p_subgrid_size p) uvw_d su sv sw freq0 dfreq i c x y)%R)))
            (RtoC (taper_at p x y))).
Proof. intros. refine (grid_result p image uvws start end_ vis image_d uvw_d start_d end_d vis_d su sv sw freq0 dfreq n nc _ _ _ _ _ _ _ _ _ _ _ _ _); assumption. Qed.
Print Assumptions C113_grid.

(** Degridding and gridding into zero arrays are adjoint: the inner product of the visibilities predicted from a real image with any visibilities w is that of the image with
    the image gridded from w. *)
Theorem C113_adjoint : forall p image uvws start end_ vis image_d uvw_d start_d end_d vis_d su sv sw freq0 dfreq ty n nc image2 vis2 zero_d w_d r g,
  (0 < p_theta p)%R -> 1 <= p_subgrid_size p -> shape (p_pswf p) = [p_subgrid_size p] ->
  in_cpu image ty image_d -> shape image_d = [p_subgrid_size p; p_subgrid_size p] -> pixel_type ty ->
  in_cpu uvws MEM_DOUBLE uvw_d -> shape uvw_d = [n; 3] -> in_cpu vis MEM_COMPLEX_DOUBLE vis_d -> shape vis_d = [n; nc] -> 0 <= n -> 0 <= nc -> can_write vis ->
  ranges_ok start end_ start_d end_d n ->
  some_pixel (p_subgrid_size p) image_d -> (forall x y, im (elem image_d [x; y]) = 0%R) -> (forall i c, elem vis_d [i; c] = C0) ->
  in_cpu image2 MEM_COMPLEX_DOUBLE zero_d -> shape zero_d = [p_subgrid_size p; p_subgrid_size p] -> can_write image2 -> (forall x y, elem zero_d [x; y] = C0) ->
  in_cpu vis2 MEM_COMPLEX_DOUBLE w_d -> shape w_d = [n; nc] ->
  direct_degrid p image uvws start end_ vis image_d uvw_d start_d end_d vis_d su sv sw freq0 dfreq SUCCESS = Some (SUCCESS, r) ->
  direct_grid p vis2 uvws start end_ image2 w_d uvw_d start_d end_d zero_d su sv sw freq0 dfreq SUCCESS = Some (SUCCESS, g) ->
  inner n nc r w_d = inner (p_subgrid_size p) (p_subgrid_size p) image_d g.
Proof.
  intros p image uvws start end_ vis image_d uvw_d start_d end_d vis_d su sv sw freq0 dfreq ty n nc image2 vis2 zero_d w_d r g Ht HS Sp Im Si Ty Iu Su Iv Sv Hn Hc Wv Rg Nz Re Vz I2 S2 W2 Z2 Iw Sw E G.
  destruct (C113_real_partial p image uvws start end_ vis image_d uvw_d start_d end_d vis_d su sv sw freq0 dfreq ty n nc) as (r' & E' & _ & V); try assumption; [lia|].
  destruct (C113_grid p image2 uvws start end_ vis2 zero_d uvw_d start_d end_d w_d su sv sw freq0 dfreq n nc) as (g' & G' & _ & U); try assumption.
  rewrite E in E'. injection E' as <-. rewrite G in G'. injection G' as <-.
  set (T := fun i c x y => pixel_turns p (p_subgrid_size p) uvw_d su sv sw freq0 dfreq i c x y).
  set (a := fun x y => re (elem image_d [x; y])).
  assert (D : forall x y, elem image_d [x; y] = RtoC (a x y)). { intros x y. unfold a. specialize (Re x y). destruct (elem image_d [x; y]) as [q b]. cbn [im snd] in Re. subst b. reflexivity. }
  transitivity (over_vis (row_used start end_ start_d end_d) n nc (fun i c => Cmul (Cconj (over_pixels (p_subgrid_size p) (fun x y => Cmul (RtoC (a x y * taper_at p x y)) (cis (-2 * PI * T i c x y)%R)))) (elem w_d [i; c]))).
  - unfold inner, over_vis. apply (sum_ext Cadd C0). intros i Hi. destruct (row_used start end_ start_d end_d i) eqn:Us.
    + apply (sum_ext Cadd C0). intros c Hj. f_equal. f_equal. rewrite V, Vz, Us by assumption. rewrite (proj1 (conj (ltac:(csolve) : forall z, Cadd C0 z = z) I)).
      unfold over_pixels. apply (sum_ext Cadd C0). intros x Hx. apply (sum_ext Cadd C0). intros y Hy. rewrite D. f_equal. csolve.
    + apply (sum_none _ _ Ccm). intros c Hj. rewrite V, Vz, Us by assumption. csolve.
  - rewrite (adjoint_lemma _ _ _ _ a (taper_at p) T (fun i c => elem w_d [i; c])). unfold inner, over_pixels. apply (sum_ext Cadd C0). intros x Hx. apply (sum_ext Cadd C0). intros y Hy.
    rewrite U, Z2, D by assumption. unfold T. rewrite (proj1 (conj (ltac:(csolve) : forall z, Cadd C0 z = z) I)). f_equal. csolve.
Qed.
Print Assumptions C113_adjoint.

(** The corrections of a facet in the image divide every pixel by the taper; complex pixels are multiplied by the w phase as well, of opposite sign in the two directions. *)
Theorem C113_correct : forall inverse p pswf complex facet off_l off_m w_offset n m,
  shape facet = [n; m] -> 0 <= n -> 0 <= m -> 0 <= p_image_size p -> shape pswf = [p_image_size p] -> facet_in p n m off_l off_m ->
  exists r, direct_correct inverse p pswf complex facet off_l off_m w_offset = Some r /\ shape r = [n; m] /\
    forall i j, 0 <= i < n -> 0 <= j < m -> elem r [i; j] = Cmul (Cmul (elem facet [i; j]) (RtoC (/ facet_taper p pswf n m off_l off_m i j)))
      (if complex then cis (if inverse then facet_phase p n m off_l off_m w_offset i j else - facet_phase p n m off_l off_m w_offset i j)%R else C1).
Proof. exact correct_lemma. Qed.
Print Assumptions C113_correct.

(** The correction for degridding is the adjoint of the correction for gridding. *)
Theorem C113_correct_adjoint : forall p pswf complex a b a' b' off_l off_m w_offset n m,
  shape a = [n; m] -> shape b = [n; m] -> 0 <= n -> 0 <= m -> 0 <= p_image_size p -> shape pswf = [p_image_size p] -> facet_in p n m off_l off_m ->
  direct_correct false p pswf complex a off_l off_m w_offset = Some a' -> direct_correct true p pswf complex b off_l off_m w_offset = Some b' -> inner n m a' b = inner n m a b'.
Proof. intros p pswf complex a b a' b' off_l off_m w_offset n m. exact (correct_pair false p pswf complex a b a' b' off_l off_m w_offset n m). Qed.
Print Assumptions C113_correct_adjoint.

(** Refuted: an image without a non-zero pixel predicts zero.  The call fails instead. *)
Theorem C113_zero_refuted : forall p image uvws start end_ vis image_d uvw_d start_d end_d vis_d su sv sw freq0 dfreq ty,
  0 <= p_subgrid_size p -> in_cpu image ty image_d -> shape image_d = [p_subgrid_size p; p_subgrid_size p] -> pixel_type ty ->
  in_cpu uvws MEM_DOUBLE uvw_d -> in_cpu vis MEM_COMPLEX_DOUBLE vis_d -> no_pixel (p_subgrid_size p) (as_type ty image_d) ->
  direct_degrid p image uvws start end_ vis image_d uvw_d start_d end_d vis_d su sv sw freq0 dfreq SUCCESS = Some (ERR_INVALID_ARGUMENT, vis_d).
Proof.
  intros p image uvws start end_ vis image_d uvw_d start_d end_d vis_d su sv sw freq0 dfreq ty HS Im Si Ty Iu Iv Nz.
  apply (degrid_zero p image uvws start end_ vis image_d uvw_d start_d end_d vis_d su sv sw freq0 dfreq ty); try assumption. now apply no_total.
Qed.
Print Assumptions C113_zero_refuted.

(** Refuted: single precision coordinates, with which gridding works, can be used for degridding.  It always fails, whatever the types of the rest. *)
Theorem C113_single_refuted : forall p image uvws start end_ vis image_d uvw_d start_d end_d vis_d su sv sw freq0 dfreq st st' v,
  mtype uvws = MEM_FLOAT -> direct_degrid p image uvws start end_ vis image_d uvw_d start_d end_d vis_d su sv sw freq0 dfreq st = Some (st', v) -> failed st' = true /\ v = vis_d.
Proof.
  intros p image uvws start end_ vis image_d uvw_d start_d end_d vis_d su sv sw freq0 dfreq st st' v T. unfold direct_degrid.
  destruct (failed st) eqn:F; [intro E; injection E as <- <-; split; [exact F|reflexivity]|].
  destruct (count_pixels image image_d st) as [[st1 num]|]; [|discriminate]. cbn [bind]. cbv zeta.
  match goal with |- (let* r := ?M in _) = _ -> _ => destruct M as [[[s1 f1] l1]|] end; [|discriminate]. cbn [bind]. apply dft_single. rewrite scratch_mtype. exact T.
Qed.
Print Assumptions C113_single_refuted.

(** A plan for 1 x 1 sub-grids, and arrays for it *)
Definition ex_plan : plan := mk_plan 4 1 1 1 0 0 4 (mk_nd [1] (fun _ => 1%R)).
Definition ex_mem (ty : Z) (sh : list Z) : option mem := Some (mk_mem ty MEM_CPU true true false (Z.of_nat (length sh)) (fold_right Z.mul 1 sh) 1 sh [] (Some (7, 0))).
Definition one_vis : nd C := mk_nd [1; 1] (fun _ => C0).
Definition one_uvw : nd R := mk_nd [1; 3] (fun _ => 0%R).
Definition none_d : nd Z := mk_nd [] (fun _ => 0).
Lemma ex_in {A} ty sh (f : list Z -> A) : in_cpu (ex_mem ty sh) ty (mk_nd sh f).
Proof. cbn. repeat split. discriminate. Qed.

(** Refuted: complex sub-grid images, like those that gridding makes, are degridded as they are.  The imaginary parts are lost: from the pixel i nothing is predicted. *)
Theorem C113_complex_refuted : exists x r, shape x = [1; 1] /\
  direct_degrid ex_plan (ex_mem MEM_COMPLEX_DOUBLE [1; 1]) (ex_mem MEM_DOUBLE [1; 3]) None None (ex_mem MEM_COMPLEX_DOUBLE [1; 1]) x one_uvw none_d none_d one_vis 0 0 0 1 1 SUCCESS = Some (SUCCESS, r) /\
  elem r [0; 0] = C0 /\
  over_pixels 1 (fun a b => Cmul (Cmul (elem x [a; b]) (RtoC (taper_at ex_plan a b))) (cis (-2 * PI * pixel_turns ex_plan 1 one_uvw 0 0 0 1 1 0 0 a b)%R)) <> C0.
Proof.
  exists (mk_nd [1; 1] (fun _ => (0, 1)%R)).
  destruct (C113_degrid ex_plan (ex_mem MEM_COMPLEX_DOUBLE [1; 1]) (ex_mem MEM_DOUBLE [1; 3]) None None (ex_mem MEM_COMPLEX_DOUBLE [1; 1]) (mk_nd [1; 1] (fun _ => (0, 1)%R)) one_uvw none_d none_d one_vis 0 0 0 1 1 MEM_COMPLEX_DOUBLE 1 1) as (r & E & _ & V);
    try apply ex_in; try reflexivity; try lia; try (cbn; lra).
  { cbn. lia. } { right. left. reflexivity. } { left. left. reflexivity. }
  { exists 0, 0. cbn. repeat split; try lia. intro Q. injection Q as Q. lra. }
  exists r. split; [reflexivity|]. split; [exact E|]. split.
  - rewrite V by lia. cbn [row_used]. unfold over_pixels. cbn [p_subgrid_size ex_plan]. rewrite !(sum_one _ _ Ccm 0 1 0) by (intros; lia). cbn [as_type is_complex_type elem re fst].
    change (elem one_vis [0; 0]) with C0. match goal with |- context [cis ?z] => generalize (cis z) end. intro z. rewrite Rmult_0_l. csolve.
  - unfold over_pixels. rewrite !(sum_one _ _ Ccm 0 1 0) by (intros; lia). match goal with |- context [cis ?z] => pose proof (cis_nz z) as N; destruct (cis z) as [u v] end.
    unfold taper_at. cbn [elem p_pswf ex_plan]. intro Q. apply N. unfold Cmul, RtoC, C0 in *. cbn [re im fst snd] in *. injection Q as Q1 Q2. f_equal; lra.
Qed.
Print Assumptions C113_complex_refuted.

(** Refuted: a sub-grid image of another size than the plan's is refused.  Its pixels are tapered with elements past the end of the plan's taper. *)
Theorem C113_size_refuted : exists x, shape x = [2; 2] /\ p_subgrid_size ex_plan = 1 /\
  direct_degrid ex_plan (ex_mem MEM_DOUBLE [2; 2]) (ex_mem MEM_DOUBLE [1; 3]) None None (ex_mem MEM_COMPLEX_DOUBLE [1; 1]) x one_uvw none_d none_d one_vis 0 0 0 1 1 SUCCESS = None.
Proof.
  exists (mk_nd [2; 2] (fun i => match i with [_; 1] => C1 | _ => C0 end)). split; [reflexivity|]. split; [reflexivity|]. unfold direct_degrid. cbn [failed].
  set (x := mk_nd [2; 2] (fun i => match i with [_; 1] => C1 | _ => C0 end)).
  assert (N0 : nonzero C0 = false). { unfold nonzero. destruct (Req_EM_T (re C0) 0) as [A|A]; [|destruct A; reflexivity]. destruct (Req_EM_T (im C0) 0) as [B|B]; [reflexivity|destruct B; reflexivity]. }
  assert (N1 : nonzero (RtoC (re C1)) = true). { unfold nonzero. destruct (Req_EM_T (re (RtoC (re C1))) 0) as [A|A]; [cbn in A; lra|reflexivity]. }
  assert (C : count_pixels (ex_mem MEM_DOUBLE [2; 2]) x SUCCESS = Some (SUCCESS, total (as_type MEM_DOUBLE x) 2 2)).
  { unfold count_pixels. cbn [failed]. change (mtype (ex_mem MEM_DOUBLE [2; 2])) with MEM_DOUBLE. cbv zeta. change (is_complex_type MEM_DOUBLE || (MEM_DOUBLE =? MEM_DOUBLE) || (MEM_DOUBLE =? MEM_FLOAT)) with true. cbv iota.
    rewrite (view_const_pass _ _ x 2 (ex_in MEM_DOUBLE [2; 2] _)) by reflexivity. cbn [failed]. rewrite (count_lemma _ 2) by reflexivity. reflexivity. }
  rewrite C. cbn [bind]. set (num := total (as_type MEM_DOUBLE x) 2 2). assert (P : num <> 0).
  { apply some_total. exists 0, 1. repeat split; try lia. cbn. intro Q. injection Q as Q. lra. }
  unfold make_flmn. cbn [failed]. cbv zeta. change (mtype (ex_mem MEM_DOUBLE [2; 2])) with MEM_DOUBLE. change (mtype (ex_mem MEM_DOUBLE [1; 3])) with MEM_DOUBLE.
  change (location (ex_mem MEM_COMPLEX_DOUBLE [1; 1])) with MEM_CPU. change (mtype (scratch MEM_DOUBLE MEM_CPU [num; 3])) with MEM_DOUBLE.
  replace (match scratch MEM_DOUBLE MEM_CPU [num] with Some _ => mtype (scratch MEM_DOUBLE MEM_CPU [num]) | None => MEM_DOUBLE end) with MEM_DOUBLE by reflexivity.
  change (flmn_types MEM_DOUBLE MEM_DOUBLE MEM_DOUBLE) with true. cbv iota.
  rewrite (scratch_view MEM_DOUBLE MEM_CPU [num; 3] 2) by (try reflexivity; cbn [fold_right]; lia). rewrite (scratch_view_const MEM_DOUBLE MEM_CPU [p_subgrid_size ex_plan] 1) by reflexivity. cbn [failed].
  unfold scratch at 1. cbv zeta. rewrite (view_const_pass _ _ x 2 (ex_in MEM_DOUBLE [2; 2] _)) by reflexivity. fold (scratch MEM_DOUBLE MEM_CPU [num]).
  rewrite (scratch_view MEM_DOUBLE MEM_CPU [num] 1) by (try reflexivity; cbn [fold_right]; lia). cbn [failed].
  unfold image_to_flmn. change (dim (as_type MEM_DOUBLE x) 0) with 2. change (dim (as_type MEM_DOUBLE x) 1) with 2. unfold for_ at 1. change (Z.to_nat (2 - 0)) with 2%nat. cbn [for_nat].
  match goal with |- context [for_ 0 2 ?f ?s] => enough (Q : for_ 0 2 f s = None) by now rewrite Q end. unfold for_. change (Z.to_nat (2 - 0)) with 2%nat. cbn [for_nat]. change (rd (as_type MEM_DOUBLE x) [0; 0]) with (Some (RtoC (re C0))). cbn [bind].
  replace (nonzero (RtoC (re C0))) with false by (symmetry; exact N0). cbn [bind]. change (rd (as_type MEM_DOUBLE x) [0; 0 + 1]) with (Some (RtoC (re C1))). cbn [bind]. rewrite N1. reflexivity.
Qed.
Print Assumptions C113_size_refuted.

Example C113_hyps : (0 < p_theta ex_plan)%R /\ shape (p_pswf ex_plan) = [p_subgrid_size ex_plan] /\ in_cpu (ex_mem MEM_DOUBLE [1; 1]) MEM_DOUBLE (mk_nd [1; 1] (fun _ => C1)) /\
  pixel_type MEM_DOUBLE /\ in_cpu (ex_mem MEM_DOUBLE [1; 3]) MEM_DOUBLE one_uvw /\ in_cpu (ex_mem MEM_COMPLEX_DOUBLE [1; 1]) MEM_COMPLEX_DOUBLE one_vis /\ can_write (ex_mem MEM_COMPLEX_DOUBLE [1; 1]) /\
  ranges_ok (ex_mem MEM_INT [1]) (ex_mem MEM_INT [1]) (mk_nd [1] (fun _ => 0)) (mk_nd [1] (fun _ => 1)) 1 /\ row_used (ex_mem MEM_INT [1]) (ex_mem MEM_INT [1]) (mk_nd [1] (fun _ => 0)) (mk_nd [1] (fun _ => 1)) 0 = true /\
  some_pixel 1 (mk_nd [1; 1] (fun _ => C1)) /\ facet_in ex_plan 2 3 (-1) 0.
Proof.
  split; [cbn; lra|]. split; [reflexivity|]. split; [apply ex_in|]. split; [left; reflexivity|]. split; [apply ex_in|]. split; [apply ex_in|]. split; [reflexivity|].
  split; [right; repeat split; discriminate|]. split; [reflexivity|]. split; [exists 0, 0; cbn; repeat split; try lia; intro Q; injection Q as Q; lra|].
  unfold facet_in. cbn [p_image_size ex_plan]. change (4 / 2) with 2. change (2 / 2) with 1. change (3 / 2) with 1. lia.
Qed.
