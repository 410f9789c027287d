(** The value of the prediction of the w-stacking driver (proofs only). *)
From Coq Require Import Lia Lra Qreals.
From Verif Require Import Base BaseFacts Sum CRing Cplx Clamp QNum Fft FftSpec FftFacts FftFacts3 GridUtils GridUtilsSpec GridUtilsFacts Subgrid SubgridSpec SubgridFacts Prop_Subgrid
  WTower WTowerSpec WTowerFacts WTowerFacts2 WTowerFacts3 WTowerDrv WTowerDrvSpec WTowerDrvFacts WTowerDrvFacts2 WTowerDrvFacts3 Prop_WTowerDrv WStack WStackSpec WStackSpec2 WStackFacts WStackFacts2.
Open Scope Z_scope.

Lemma degrid_frame (plan : wplan Cring) w_plane off_u off_v off_w f0 df start_row end_row uvws scs ecs sg vis vis' : start_row <= end_row ->
  degrid plan w_plane off_u off_v off_w f0 df start_row end_row uvws scs ecs sg vis = Some vis' -> forall r c, ~ start_row <= r < end_row -> elem vis' [r; c] = elem vis [r; c].
Proof.
  intros Hr E r c N. rewrite degrid_skel in E. unfold skel in E. revert E. apply (for_inv_partial (fun _ v => elem v [r; c] = elem vis [r; c])); [exact Hr|reflexivity|].
  intros i v v' Hi P E.
  destruct (rd scs [i]) as [sc|]; [|discriminate]. cbn [bind] in E. destruct (rd ecs [i]) as [ec|]; [|discriminate]. cbn [bind] in E. destruct (sc >=? ec); [injection E as <-; exact P|].
  destruct (rd uvws [i; 0]) as [u0|]; [|discriminate]. cbn [bind] in E. destruct (rd uvws [i; 1]) as [u1|]; [|discriminate]. cbn [bind] in E. destruct (rd uvws [i; 2]) as [u2|]; [|discriminate]. cbn [bind] in E. cbv zeta in E.
  destruct (clamp_inline _ _ _ _ _ _ _) as [s1 e1]. destruct (s1 >=? e1) eqn:B; [injection E as <-; exact P|].
  match type of E with (if ?b then _ else _) = _ => destruct b end; [injection E as <-; exact P|].
  revert E. apply (for_inv_partial (fun _ v => elem v [r; c] = elem vis [r; c])); [lia|exact P|]. intros ch x x' _ Px E.
  destruct (to_int _) as [a1|]; [|discriminate]. cbn [bind] in E. destruct (to_int _) as [a2|]; [|discriminate]. cbn [bind] in E. destruct (to_int _) as [a3|]; [|discriminate]. cbn [bind] in E.
  apply degrid_act_partial in E. destruct E as [_ ->]. cbn [elem upd]. rewrite idx_eqb_neq; [exact Px|]. intro Q. injection Q as Q1 Q2. lia.
Qed.

Lemma degrid_driver_frame plan pattern image off_u off_v off_w f0 df uvws scs ecs vis start_row end_row w_image subgrids temp r0 r1 n k vis' : shape uvws = [n; k] -> rows_used n start_row end_row r0 r1 -> r0 <= r1 ->
  degrid_driver plan pattern image off_u off_v off_w f0 df uvws scs ecs vis start_row end_row w_image subgrids temp = Some vis' -> forall r c, ~ r0 <= r < r1 -> elem vis' [r; c] = elem vis [r; c].
Proof.
  intros Su Ru Hr E r c N. unfold degrid_driver in E. rewrite (driver_rows_used uvws n k start_row end_row r0 r1 Su Ru) in E.
  destruct (w_planes _ _ _ _ _ _ _) as [[first last]|]; [|discriminate]. cbn [bind] in E.
  destruct (scale_inv_array _ _ _ _) as [wi|]; [|discriminate]. cbn [bind] in E.
  match type of E with bind ?X _ = _ => destruct X as [[wi' sg]|]; [|discriminate] end. cbn [bind] in E.
  match type of E with bind ?X _ = _ => destruct X as [[[wi2 sg2] v]|] eqn:EL; [|discriminate] end. cbn [bind] in E. injection E as <-.
  destruct (Z.le_gt_cases first (last + 1)) as [L|L]; [|rewrite for_empty in EL by lia; injection EL as _ _ <-; reflexivity].
  revert EL. apply (for_inv_partial (fun _ st => elem (snd st) [r; c] = elem vis [r; c])); [exact L|reflexivity|].
  intros p [[a b] v1] st' _ P E. cbn [snd] in P.
  match type of E with bind ?X _ = _ => destruct X as [[a' b']|]; [|discriminate] end. cbn [bind] in E.
  match type of E with bind ?X _ = _ => destruct X as [v2|] eqn:ED; [|discriminate] end. cbn [bind] in E. injection E as <-. cbn [snd].
  etransitivity; [exact (degrid_frame plan p off_u off_v off_w f0 (driver_dfreq df) r0 r1 uvws scs ecs b' v1 v2 Hr ED r c N)|exact P].
Qed.

Lemma centred2_outside inv n m f g : (forall i j, 0 <= i < n -> 0 <= j < m -> f i j = g i j) -> forall k l, centred2 inv n m f k l = centred2 inv n m g k l.
Proof. intros H k l. now apply centred2_ext. Qed.

Section Predict.
Context (s : wstack) (n m : Z) (Ok : setup_ok s).
Notation N := (s_image_size s). Notation S := (subgrid_size (s_plan s)).
Lemma corr_is_moved image w i j : Cmul (Cmul (elem image [i; j]) (RtoC (corr_scale s i j))) (cis (- corr_phase s w i j)) = moved s image w i j.
Proof.
  unfold moved, corr_scale, corr_phase, n_of, cosine. rewrite !Z.add_0_r. replace (i - N / 2 + N / 2) with i by lia. replace (j - N / 2 + N / 2) with j by lia.
  set (nn := lm_to_n _ _ _ _). f_equal; [f_equal; f_equal; unfold Rdiv; ring|]. f_equal. ring.
Qed.

Lemma task_predicts image w subgrid w_image subgrids t v0 : task_ok s n m w t -> shape image = [N; N] -> scratch_ok s subgrid w_image subgrids -> shape v0 = [n; m] ->
  exists v1, degrid_task s w (grid_of s image w) subgrid w_image subgrids t v0 = Some v1 /\ shape v1 = [n; m] /\
    forall i c, 0 <= i < n -> 0 <= c < m -> exists z, predicted s n m image w t i c z /\ elem v1 [i; c] = Cadd (elem v0 [i; c]) z.
Proof.
  destruct (sizes s Ok) as (N1 & N2 & N3 & S1 & S2 & S3). intros T Si (A1 & A2 & A3) S0.
  destruct (grid_of_ok s Ok image w Si) as (_ & SG & cc & Vcc & VG).
  destruct T as (phi & df' & r0 & r1 & first & last & I). pose proof I as (_ & ROK & RU & _ & _ & _ & _ & T & ST & HT). destruct ROK as (Su & _ & _ & R0 & R1 & R2 & _).
  unfold degrid_task. cbv zeta. set (ou := t_iu t * s_eff s) in *. set (ov := t_iv t * s_eff s) in *.
  destruct (cut_ok (grid_of s image w) subgrid N S ou ov) as (c1 & Ec & Sc & Vc); try assumption. rewrite Ec. cbn [bind].
  destruct (shifted_fft_ok 0 true c1 (s_sub_temp s) S T) as (d & Ed & Sd & Vd); try assumption. rewrite Ed. cbn [bind].
  destruct (C69_degrid_driver (s_plan s) (s_pattern s) (s_sub_temp s) phi ou ov w (s_freq0 s) (s_dfreq s) df' (s_uvw s) (t_start t) (t_end t) n m (t_row0 t) (t_row1 t) r0 r1 first last
    d v0 w_image subgrids I Sd A2 A3 S0) as (proc & v1 & Ev & S1' & HP & V).
  exists v1. split; [exact Ev|]. split; [exact S1'|]. intros i c Hi Hc.
  assert (RD : {r0 <= i < r1} + {~ r0 <= i < r1}). { destruct (Z_le_dec r0 i); [|right; lia]. destruct (Z_lt_dec i r1); [left; lia|right; lia]. }
  destruct RD as [Hr|Hr].
  - eexists. split; [|apply V; assumption]. exists phi, df', r0, r1, first, last, (fun p => proc p i c). split; [exact I|]. split; [intro p; apply HP|]. split; [intro Q; contradiction|]. intros _.
    apply csum_ext. intros p Hp. destruct (proc p i c); [|reflexivity]. cbv zeta. fold ou ov. unfold interp.
    apply (rsum_ext (A := Cring)); intros a Ha. f_equal. apply (rsum_ext (A := Cring)); intros b Hb. f_equal. apply (rsum_ext (A := Cring)); intros e He. f_equal.
    unfold w_subgrid. apply centred2_outside. intros x y Hx Hy. f_equal. rewrite Vd by assumption. unfold subgrid_image. fold ou ov.
    replace (norm_scale true S S) with (/ IZR (S * S))%R by reflexivity. f_equal. apply centred2_outside. intros k l Hk Hl. unfold at2. rewrite Vc by assumption.
    rewrite VG by (apply pixel_range; lia). apply centred2_outside. intros x' y' Hx' Hy'. rewrite Vcc by assumption. apply corr_is_moved.
  - exists C0. split.
    + exists phi, df', r0, r1, first, last, (fun p => proc p i c). split; [exact I|]. split; [intro p; apply HP|]. split; [reflexivity|]. intro Q; contradiction.
    + rewrite (degrid_driver_frame _ _ _ _ _ _ _ _ _ _ _ _ _ _ _ _ _ r0 r1 n 3 v1 Su RU R1 Ev i c Hr). generalize (elem v0 [i; c]). intro z. csolve.
Qed.

Lemma sumC_app a b : sumC (a ++ b) = Cadd (sumC a) (sumC b).
Proof.
  induction a as [|x a IH].
  - change (sumC b = Cadd C0 (sumC b)). generalize (sumC b). intro z. csolve.
  - change (Cadd x (sumC (a ++ b)) = Cadd (Cadd x (sumC a)) (sumC b)). rewrite IH. generalize (sumC a) (sumC b). intros. csolve.
Qed.

Lemma tasks_predict image w subgrid w_image subgrids ts : (forall t, In t ts -> task_ok s n m w t) -> shape image = [N; N] -> scratch_ok s subgrid w_image subgrids -> forall v0, shape v0 = [n; m] ->
  exists v1, each ts (degrid_task s w (grid_of s image w) subgrid w_image subgrids) v0 = Some v1 /\ shape v1 = [n; m] /\
    forall i c, 0 <= i < n -> 0 <= c < m -> exists zs, Forall2 (fun t z => predicted s n m image w t i c z) ts zs /\ elem v1 [i; c] = Cadd (elem v0 [i; c]) (sumC zs).
Proof.
  intros T Si A. induction ts as [|t ts IH]; intros v0 S0.
  - exists v0. split; [reflexivity|]. split; [exact S0|]. intros i c _ _. exists []. split; [constructor|]. cbn. generalize (elem v0 [i; c]). intro z. csolve.
  - destruct (task_predicts image w subgrid w_image subgrids t v0) as (v1 & E1 & S1 & H1); auto; [apply T; now left|].
    destruct (IH ltac:(intros; apply T; now right) v1 S1) as (v2 & E2 & S2 & H2).
    exists v2. cbn [each]. rewrite E1. cbn [bind]. split; [exact E2|]. split; [exact S2|]. intros i c Hi Hc.
    destruct (H1 i c Hi Hc) as (z & P & Q). destruct (H2 i c Hi Hc) as (zs & P2 & Q2). exists (z :: zs). split; [constructor; assumption|]. rewrite Q2, Q. cbn [sumC fold_right]. fold (sumC zs).
    generalize (elem v0 [i; c]) (sumC zs). intros. csolve.
Qed.
Lemma plane_predicts image subgrid w_image subgrids p v0 : (forall t, In t (snd p) -> task_ok s n m (fst p) t) -> shape image = [N; N] -> scratch_ok s subgrid w_image subgrids -> shape v0 = [n; m] ->
  exists v1, degrid_plane s image subgrid w_image subgrids p v0 = Some v1 /\ shape v1 = [n; m] /\
    forall i c, 0 <= i < n -> 0 <= c < m -> exists zs, Forall2 (fun t z => predicted s n m image (fst p) t i c z) (snd p) zs /\ elem v1 [i; c] = Cadd (elem v0 [i; c]) (sumC zs).
Proof.
  intros T Si A S0. destruct (grid_of_ok s Ok image (fst p) Si) as (E & SG & _).
  destruct (tasks_predict image (fst p) subgrid w_image subgrids (snd p) T Si A v0 S0) as (v1 & E1 & S1 & H1). exists v1. split; [|auto].
  unfold degrid_plane. destruct (accum_scale_array (square N) image None 0) as [g0|]; [|discriminate]. cbn [bind] in E |- *. destruct (wtower_correct false s g0 0 0 (fst p)) as [g1|]; [|discriminate]. cbn [bind] in E |- *.
  rewrite E. cbn [bind]. exact E1.
Qed.
Lemma planes_predict image subgrid w_image subgrids planes : planes_ok s n m planes -> shape image = [N; N] -> scratch_ok s subgrid w_image subgrids -> forall v0, shape v0 = [n; m] ->
  exists v1, each planes (degrid_plane s image subgrid w_image subgrids) v0 = Some v1 /\ shape v1 = [n; m] /\
    forall i c, 0 <= i < n -> 0 <= c < m -> exists zss, Forall2 (fun p zs => Forall2 (fun t z => predicted s n m image (fst p) t i c z) (snd p) zs) planes zss /\ elem v1 [i; c] = Cadd (elem v0 [i; c]) (sumC (concat zss)).
Proof.
  intros T Si A. induction planes as [|p ps IH]; intros v0 S0.
  - exists v0. split; [reflexivity|]. split; [exact S0|]. intros i c _ _. exists []. split; [constructor|]. cbn. generalize (elem v0 [i; c]). intro z. csolve.
  - destruct (plane_predicts image subgrid w_image subgrids p v0) as (v1 & E1 & S1 & H1); auto; [apply T; now left|].
    destruct (IH ltac:(intros q Hq; apply T; now right) v1 S1) as (v2 & E2 & S2 & H2).
    exists v2. cbn [each]. rewrite E1. cbn [bind]. split; [exact E2|]. split; [exact S2|]. intros i c Hi Hc.
    destruct (H1 i c Hi Hc) as (zs & P & Q). destruct (H2 i c Hi Hc) as (zss & P2 & Q2). exists (zs :: zss). split; [constructor; assumption|]. rewrite Q2, Q. cbn [concat]. rewrite sumC_app.
    generalize (elem v0 [i; c]) (sumC zs) (sumC (concat zss)). intros. csolve.
Qed.
End Predict.
