(** Adjointness and schedules of the w-stacking drivers (proofs only). *)
From Coq Require Import Lia Lra Permutation Qreals.
From Verif Require Import Base BaseFacts Sum CRing Cplx Clamp QNum Fft FftSpec FftFacts FftFacts3 GridUtils GridUtilsSpec GridUtilsFacts Subgrid SubgridSpec SubgridFacts Prop_Subgrid
  WTower WTowerSpec WTowerDrv WTowerDrvSpec WTowerDrvFacts WTowerDrvFacts3 Prop_WTowerDrv WStack WStackSpec WStackFacts.
Open Scope Z_scope.

Definition minus2 (a b : nd C) : Z -> Z -> C := fun i j => Csub (elem a [i; j]) (elem b [i; j]).
Definition some {A} (o : option A) (d : A) : A := match o with Some x => x | None => d end.
Definition sumC (l : list C) : C := fold_right Cadd C0 l.
Lemma sumC_perm l l' : Permutation l l' -> sumC l = sumC l'.
Proof. induction 1; cbn [sumC fold_right]; [reflexivity| | |congruence]. - unfold sumC in IHPermutation. now rewrite IHPermutation. - generalize (fold_right Cadd C0 l). intro z. csolve. Qed.

Section Drivers.
Context (s : wstack) (n m : Z) (Ok : setup_ok s) (vis : nd C) (Sv : shape vis = [n; m]).
Notation N := (s_image_size s). Notation S := (subgrid_size (s_plan s)).
(** What a task contributes to the product of the visibilities with the prediction *)
Definition part (w : Z) (G : nd C) (t : task) : C :=
  let sub' := some (let* c := subgrid_cut_out (A := Cring) G (t_iu t * s_eff s) (t_iv t * s_eff s) (square S) in shifted_fft 0 true c (s_sub_temp s)) (square S) in
  let img := some (grid_driver (s_plan s) (s_pattern s) vis (s_uvw s) (t_start t) (t_end t) (s_freq0 s) (s_dfreq s) (square S) (t_iu t * s_eff s) (t_iv t * s_eff s) w (t_row0 t) (t_row1 t) (s_sub_temp s)) (square S) in
  herm2 S S (at2 img) (at2 sub').

Lemma sizes : 0 < N /\ N mod 2 = 0 /\ N * N <= 2147483647 /\ 0 < S /\ S mod 2 = 0 /\ S * S <= 2147483647.
Proof. destruct Ok as (P & _ & _ & _ & A & B & C & D & _). destruct P as (P1 & P2 & _). auto 10. Qed.

Lemma cut_any (G a b : nd C) ou ov x y : shape G = [N; N] -> shape a = [S; S] -> shape b = [S; S] -> subgrid_cut_out (A := Cring) G ou ov a = Some x -> subgrid_cut_out (A := Cring) G ou ov b = Some y ->
  forall i j, 0 <= i < S -> 0 <= j < S -> elem x [i; j] = elem y [i; j].
Proof.
  pose proof sizes as Z. intros SG Sa Sb X Y i j Hi Hj. destruct (cut_ok G a N S ou ov) as (x' & X' & _ & Vx); try tauto. destruct (cut_ok G b N S ou ov) as (y' & Y' & _ & Vy); try tauto.
  rewrite X' in X. rewrite Y' in Y. injection X as <-. injection Y as <-. now rewrite Vx, Vy.
Qed.

Lemma degrid_task_ok w G subgrid w_image subgrids t v0 : task_ok s n m w t -> shape G = [N; N] -> scratch_ok s subgrid w_image subgrids -> shape v0 = [n; m] ->
  exists v1, degrid_task s w G subgrid w_image subgrids t v0 = Some v1 /\ shape v1 = [n; m] /\ herm2 n m (at2 vis) (minus2 v1 v0) = part w G t.
Proof.
  pose proof sizes as (N1 & N2 & N3 & S1 & S2 & S3). intros T SG (A1 & A2 & A3) S0. pose proof Ok as (P & KU & KW & EV & _).
  destruct T as (phi & df' & r0 & r1 & first & last & I). pose proof I as (_ & _ & _ & _ & _ & _ & _ & T & ST & HT).
  unfold degrid_task, part. cbv zeta. set (ou := t_iu t * s_eff s) in *. set (ov := t_iv t * s_eff s) in *.
  destruct (cut_ok G subgrid N S ou ov) as (c & Ec & Sc & Vc); try assumption. rewrite Ec. cbn [bind].
  destruct (cut_ok G (square S) N S ou ov) as (c0 & Ec0 & Sc0 & Vc0); try assumption; [reflexivity|]. rewrite Ec0. cbn [bind].
  destruct (shifted_fft_ok 0 true c (s_sub_temp s) S T) as (d & Ed & Sd & Vd); try assumption. rewrite Ed. cbn [bind].
  destruct (shifted_fft_ok 0 true c0 (s_sub_temp s) S T) as (d0 & Ed0 & Sd0 & Vd0); try assumption. rewrite Ed0. cbn [some].
  destruct (C69_adjoint_partial (s_plan s) (s_pattern s) (s_sub_temp s) phi ou ov w (s_freq0 s) (s_dfreq s) df' (s_uvw s) (t_start t) (t_end t) n m (t_row0 t) (t_row1 t) r0 r1 first last
    d v0 vis w_image subgrids (square S) I KU KW Sd eq_refl A2 A3 Sv S0 EV) as (img & v1 & Eg & Ev & Si & S1' & H).
  exists v1. split; [exact Ev|]. split; [exact S1'|]. rewrite Eg. cbn [some]. unfold minus2, at2 at 1.
  rewrite <- H. apply herm2_ext; intros i j Hi Hj.
  - unfold square, at2. cbn [elem]. generalize (elem img [i; j]). intro z. csolve.
  - unfold at2. rewrite Vd, Vd0 by assumption. f_equal. apply centred2_ext. intros x y Hx Hy. unfold at2. now rewrite Vc, Vc0.
Qed.

Lemma grid_task_ok w G t g : task_ok s n m w t -> shape G = [N; N] -> shape g = [N; N] ->
  exists g', grid_task s w vis t g = Some g' /\ shape g' = [N; N] /\ Cmul (RtoC (/ IZR (N * N))) (herm2 N N (at2 g') (at2 G)) = Cadd (Cmul (RtoC (/ IZR (N * N))) (herm2 N N (at2 g) (at2 G))) (part w G t).
Proof.
  pose proof sizes as (N1 & N2 & N3 & S1 & S2 & S3). intros T SG Sg. pose proof Ok as (P & KU & KW & EV & _).
  destruct T as (phi & df' & r0 & r1 & first & last & I). pose proof I as (_ & _ & _ & _ & _ & _ & _ & T & ST & HT).
  unfold grid_task, part. cbv zeta. rewrite !Z.mul_opp_l. set (ou := t_iu t * s_eff s) in *. set (ov := t_iv t * s_eff s) in *.
  destruct (cut_ok G (square S) N S ou ov) as (c & Ec & Sc & Vc); try assumption; [reflexivity|]. rewrite Ec. cbn [bind].
  destruct (shifted_fft_ok 0 true c (s_sub_temp s) S T) as (d & Ed & Sd & Vd); try assumption. rewrite Ed. cbn [some].
  destruct (C69_adjoint_partial (s_plan s) (s_pattern s) (s_sub_temp s) phi ou ov w (s_freq0 s) (s_dfreq s) df' (s_uvw s) (t_start t) (t_end t) n m (t_row0 t) (t_row1 t) r0 r1 first last
    d vis vis (square S) (mk_nd [w_support (s_plan s); S; S] (fun _ => C0)) (square S) I KU KW Sd eq_refl eq_refl eq_refl Sv Sv EV) as (img & v1 & Eg & _ & Si & _ & _).
  rewrite Eg. cbn [bind some].
  destruct (shifted_fft_ok 1 false img (s_sub_temp s) S T) as (f & Ef & Sf & Vf); try assumption. rewrite Ef. cbn [bind].
  destruct (add_ok g f G N S ou ov (RtoC ((IZR N / IZR S) ^ 2))) as (g' & Ea & Sa & Ha); try assumption.
  exists g'. split; [exact Ea|]. split; [exact Sa|]. rewrite Ha. set (h0 := herm2 N N (at2 g) (at2 G)). 
  transitivity (Cadd (Cmul (RtoC (/ IZR (N * N))) h0) (Cmul (RtoC (/ IZR (S * S))) (herm2 S S (at2 f) (at2 c)))).
  { rewrite (herm2_ext S S (at2 f) (fun i j => elem G [pixel N S ou i; pixel N S ov j]) (at2 f) (at2 c)); [|reflexivity|intros i j Hi Hj; symmetry; now apply Vc].
    generalize h0 (herm2 S S (at2 f) (at2 c)). intros u v.
    assert (Q : (/ IZR (N * N) * (IZR N / IZR S) ^ 2 = / IZR (S * S))%R). { rewrite !mult_IZR. field. split; apply not_0_IZR; lia. }
    rewrite <- Q. csolve. }
  f_equal. rewrite (herm2_ext S S (at2 img) (at2 d) (at2 img) (fun i j => Cmul (RtoC (/ IZR (S * S))) (centred2 true S S (at2 c) i j))); [|reflexivity|].
  2:{ intros i j Hi Hj. unfold at2 at 1. rewrite Vd by assumption. reflexivity. }
  rewrite herm2_scale_r, <- centred2_adjoint'. f_equal. apply herm2_ext; [|reflexivity]. intros i j Hi Hj. unfold at2 at 1. rewrite Vf by assumption. unfold norm_scale, inverse_of. cbn [Z.eqb Pos.eqb negb]. generalize (centred2 false S S (at2 img) i j). intro z. csolve.
Qed.

(** *** All tasks of a w-plane *)
Lemma degrid_tasks_ok w G subgrid w_image subgrids ts : (forall t, In t ts -> task_ok s n m w t) -> shape G = [N; N] -> scratch_ok s subgrid w_image subgrids -> forall v0, shape v0 = [n; m] ->
  exists v1, each ts (degrid_task s w G subgrid w_image subgrids) v0 = Some v1 /\ shape v1 = [n; m] /\ herm2 n m (at2 vis) (minus2 v1 v0) = sumC (map (part w G) ts).
Proof.
  intros T SG A. induction ts as [|t ts IH]; intros v0 S0.
  - exists v0. split; [reflexivity|]. split; [exact S0|]. cbn. rewrite herm2_sym, herm2_zero; [csolve|]. intros i j _ _. unfold minus2. generalize (elem v0 [i; j]). intro z. csolve.
  - destruct (degrid_task_ok w G subgrid w_image subgrids t v0) as (v1 & E1 & S1 & H1); auto; [apply T; now left|].
    destruct (IH ltac:(intros; apply T; now right) v1 S1) as (v2 & E2 & S2 & H2).
    exists v2. cbn [each]. rewrite E1. cbn [bind]. split; [exact E2|]. split; [exact S2|]. cbn [map sumC fold_right]. fold (sumC (map (part w G) ts)). rewrite <- H1, <- H2.
    rewrite <- herm2_add_r. apply herm2_ext; [reflexivity|]. intros i j _ _. unfold minus2. generalize (elem v0 [i; j]) (elem v1 [i; j]) (elem v2 [i; j]). intros. csolve.
Qed.
Lemma grid_tasks_ok w G ts : (forall t, In t ts -> task_ok s n m w t) -> shape G = [N; N] -> forall g, shape g = [N; N] ->
  exists g', each ts (grid_task s w vis) g = Some g' /\ shape g' = [N; N] /\
    Cmul (RtoC (/ IZR (N * N))) (herm2 N N (at2 g') (at2 G)) = Cadd (Cmul (RtoC (/ IZR (N * N))) (herm2 N N (at2 g) (at2 G))) (sumC (map (part w G) ts)).
Proof.
  intros T SG. induction ts as [|t ts IH]; intros g Sg.
  - exists g. split; [reflexivity|]. split; [exact Sg|]. cbn. generalize (Cmul (RtoC (/ IZR (N * N))) (herm2 N N (at2 g) (at2 G))). intro z. csolve.
  - destruct (grid_task_ok w G t g) as (g1 & E1 & S1 & H1); auto; [apply T; now left|].
    destruct (IH ltac:(intros; apply T; now right) g1 S1) as (g2 & E2 & S2 & H2).
    exists g2. cbn [each]. rewrite E1. cbn [bind]. split; [exact E2|]. split; [exact S2|]. rewrite H2, H1. cbn [map sumC fold_right]. fold (sumC (map (part w G) ts)).
    generalize (Cmul (RtoC (/ IZR (N * N))) (herm2 N N (at2 g) (at2 G))) (part w G t) (sumC (map (part w G) ts)). intros. csolve.
Qed.

(** *** A w-plane *)
Definition grid_of (image : nd C) (w : Z) : nd C :=
  some (let* grid := accum_scale_array (square N) image None 0 in let* grid := wtower_correct false s grid 0 0 w in shifted_fft 1 false grid (s_temp s)) (square N).
Lemma grid_of_ok image w : shape image = [N; N] ->
  (let* grid := accum_scale_array (square N) image None 0 in let* grid := wtower_correct false s grid 0 0 w in shifted_fft 1 false grid (s_temp s)) = Some (grid_of image w) /\
  shape (grid_of image w) = [N; N] /\ exists c : Z -> Z -> C, (forall i j, 0 <= i < N -> 0 <= j < N -> c i j = Cmul (Cmul (elem image [i; j]) (RtoC (corr_scale s i j))) (cis (- corr_phase s w i j))) /\
  forall k l, 0 <= k < N -> 0 <= l < N -> elem (grid_of image w) [k; l] = centred2 false N N c k l.
Proof.
  pose proof sizes as (N1 & N2 & N3 & S1 & S2 & S3). pose proof Ok as (_ & _ & _ & _ & _ & _ & _ & _ & Sp & T & ST & HT). intro Si. unfold grid_of.
  destruct (accum_lemma (square N) image None 0 N N) as (g0 & E0 & S0 & V0); try assumption; try reflexivity; try lia; [discriminate|]. rewrite E0. cbn [bind].
  destruct (correct_ok false s g0 w) as (g1 & E1 & S1' & V1); try assumption. rewrite E1. cbn [bind].
  destruct (shifted_fft_ok 1 false g1 (s_temp s) N T) as (g2 & E2 & S2' & V2); try assumption. rewrite E2. cbn [some].
  split; [reflexivity|]. split; [exact S2'|]. exists (at2 g1). split.
  - intros i j Hi Hj. unfold at2. rewrite V1, V0 by assumption. cbn [scale_of].
    assert (Q : Cadd (elem (square N) [i; j]) (Cmul (elem image [i; j]) C1) = elem image [i; j]) by (unfold square; cbn [elem]; generalize (elem image [i; j]); intro z; csolve). rewrite Q. reflexivity.
  - intros k l Hk Hl. rewrite V2 by assumption. unfold norm_scale, inverse_of. cbn [Z.eqb Pos.eqb negb]. generalize (centred2 false N N (at2 g1) k l). intro z. csolve.
Qed.
Definition plane_part (image : nd C) (p : Z * list task) : C := sumC (map (part (fst p) (grid_of image (fst p))) (snd p)).

Lemma degrid_plane_ok image subgrid w_image subgrids p v0 : (forall t, In t (snd p) -> task_ok s n m (fst p) t) -> shape image = [N; N] -> scratch_ok s subgrid w_image subgrids -> shape v0 = [n; m] ->
  exists v1, degrid_plane s image subgrid w_image subgrids p v0 = Some v1 /\ shape v1 = [n; m] /\ herm2 n m (at2 vis) (minus2 v1 v0) = plane_part image p.
Proof.
  intros T Si A S0. destruct (grid_of_ok image (fst p) Si) as (E & SG & _).
  destruct (degrid_tasks_ok (fst p) (grid_of image (fst p)) subgrid w_image subgrids (snd p) T SG A v0 S0) as (v1 & E1 & S1 & H1). exists v1. split; [|auto].
  unfold degrid_plane. destruct (accum_scale_array (square N) image None 0) as [g0|]; [|discriminate]. cbn [bind] in E |- *. destruct (wtower_correct false s g0 0 0 (fst p)) as [g1|]; [|discriminate]. cbn [bind] in E |- *.
  rewrite E. cbn [bind]. exact E1.
Qed.
Lemma grid_plane_ok image p i0 : (forall t, In t (snd p) -> task_ok s n m (fst p) t) -> shape image = [N; N] -> shape i0 = [N; N] ->
  exists i1, grid_plane s vis p i0 = Some i1 /\ shape i1 = [N; N] /\ herm2 N N (minus2 i1 i0) (at2 image) = plane_part image p.
Proof.
  pose proof sizes as (N1 & N2 & N3 & S1 & S2 & S3). pose proof Ok as (_ & _ & _ & _ & _ & _ & _ & _ & Sp & T & ST & HT). intros TO Si S0.
  destruct (grid_of_ok image (fst p) Si) as (E & SG & c & Vc & VG).
  destruct (grid_tasks_ok (fst p) (grid_of image (fst p)) (snd p) TO SG (square N) eq_refl) as (g & Eg & Sg & Hg).
  unfold grid_plane. rewrite Eg. cbn [bind].
  destruct (shifted_fft_ok 0 true g (s_temp s) N T) as (f & Ef & Sf & Vf); try assumption. rewrite Ef. cbn [bind].
  destruct (correct_ok true s f (fst p)) as (k & Ek & Sk & Vk); try assumption. rewrite Ek. cbn [bind].
  destruct (accum_lemma i0 k None 0 N N) as (i1 & E1 & S1' & V1); try assumption; try lia; [discriminate|]. exists i1. split; [exact E1|]. split; [exact S1'|].
  transitivity (herm2 N N (at2 k) (at2 image)).
  { apply herm2_ext; [|reflexivity]. intros i j Hi Hj. unfold minus2, at2. rewrite V1 by assumption. cbn [scale_of]. generalize (elem i0 [i; j]) (elem k [i; j]). intros. csolve. }
  rewrite (correct_herm s (fst p) (at2 f) (at2 image) (at2 k) c).
  2:{ intros i j Hi Hj. unfold at2. now rewrite Vk. }
  2:{ intros i j Hi Hj. now rewrite Vc. }
  transitivity (Cmul (RtoC (/ IZR (N * N))) (herm2 N N (at2 g) (at2 (grid_of image (fst p))))).
  { rewrite (herm2_ext N N (at2 g) (at2 (grid_of image (fst p))) (at2 g) (centred2 false N N c)); [|reflexivity|exact VG].
    rewrite <- centred2_adjoint, <- herm2_scale. apply herm2_ext; [|reflexivity]. intros i j Hi Hj. unfold at2 at 1. rewrite Vf by assumption. reflexivity. }
  rewrite Hg, herm2_zero by reflexivity. unfold plane_part. generalize (sumC (map (part (fst p) (grid_of image (fst p))) (snd p))). intro z. csolve.
Qed.

(** *** The whole calls *)
Lemma degrid_planes_ok image subgrid w_image subgrids planes : planes_ok s n m planes -> shape image = [N; N] -> scratch_ok s subgrid w_image subgrids -> forall v0, shape v0 = [n; m] ->
  exists v1, each planes (degrid_plane s image subgrid w_image subgrids) v0 = Some v1 /\ shape v1 = [n; m] /\ herm2 n m (at2 vis) (minus2 v1 v0) = sumC (map (plane_part image) planes).
Proof.
  intros T Si A. induction planes as [|p ps IH]; intros v0 S0.
  - exists v0. split; [reflexivity|]. split; [exact S0|]. cbn. rewrite herm2_sym, herm2_zero; [csolve|]. intros i j _ _. unfold minus2. generalize (elem v0 [i; j]). intro z. csolve.
  - destruct (degrid_plane_ok image subgrid w_image subgrids p v0) as (v1 & E1 & S1 & H1); auto; [apply T; now left|].
    destruct (IH ltac:(intros q Hq; apply T; now right) v1 S1) as (v2 & E2 & S2 & H2).
    exists v2. cbn [each]. rewrite E1. cbn [bind]. split; [exact E2|]. split; [exact S2|]. cbn [map sumC fold_right]. fold (sumC (map (plane_part image) ps)). rewrite <- H1, <- H2.
    rewrite <- herm2_add_r. apply herm2_ext; [reflexivity|]. intros i j _ _. unfold minus2. generalize (elem v0 [i; j]) (elem v1 [i; j]) (elem v2 [i; j]). intros. csolve.
Qed.
Lemma grid_planes_ok image planes : planes_ok s n m planes -> shape image = [N; N] -> forall i0, shape i0 = [N; N] ->
  exists i1, each planes (grid_plane s vis) i0 = Some i1 /\ shape i1 = [N; N] /\ herm2 N N (minus2 i1 i0) (at2 image) = sumC (map (plane_part image) planes).
Proof.
  intros T Si. induction planes as [|p ps IH]; intros i0 S0.
  - exists i0. split; [reflexivity|]. split; [exact S0|]. cbn. apply herm2_zero. intros i j _ _. unfold minus2. generalize (elem i0 [i; j]). intro z. csolve.
  - destruct (grid_plane_ok image p i0) as (i1 & E1 & S1 & H1); auto; [apply T; now left|].
    destruct (IH ltac:(intros q Hq; apply T; now right) i1 S1) as (i2 & E2 & S2 & H2).
    exists i2. cbn [each]. rewrite E1. cbn [bind]. split; [exact E2|]. split; [exact S2|]. cbn [map sumC fold_right]. fold (sumC (map (plane_part image) ps)). rewrite <- H1, <- H2.
    rewrite <- herm2_add. apply herm2_ext; [|reflexivity]. intros i j _ _. unfold minus2. generalize (elem i0 [i; j]) (elem i1 [i; j]) (elem i2 [i; j]). intros. csolve.
Qed.
Lemma planes_reordered image planes planes' : reordered planes planes' -> sumC (map (plane_part image) planes) = sumC (map (plane_part image) planes').
Proof.
  induction 1 as [|[w ts] [w' ts'] ps ps' (E & P) _ IH]; [reflexivity|]. cbn [fst snd] in *. subst w'. cbn [map sumC fold_right]. fold (sumC (map (plane_part image) ps)) (sumC (map (plane_part image) ps')). rewrite IH. f_equal.
  unfold plane_part. cbn [fst snd]. apply sumC_perm, Permutation_map, P.
Qed.
Lemma planes_ok_reordered planes planes' : reordered planes planes' -> planes_ok s n m planes -> planes_ok s n m planes'.
Proof.
  intros R O p' Hp t Ht. induction R as [|p q ps ps' (E & P) _ IH]; [destruct Hp|]. destruct Hp as [<-|Hp].
  - rewrite <- E. apply (O p); [now left|]. eapply Permutation_in; [apply Permutation_sym, P|exact Ht].
  - apply IH; [|exact Hp]. intros x Hx. apply O. now right.
Qed.
End Drivers.
