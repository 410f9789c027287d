(** The transform of the gridding kernel is positive over the image *)
From Coq Require Import Reals Lia Lra QArith Qreals Qround.
From Verif Require Import Base BaseFacts Sum Clamp Cplx Legendre EsKernels EsKernelsSpec EsKernelsFacts EsScreenFacts2 EsParams EsParamsSpec EsParamsFacts EsPipe EsPipeSpec EsPlan EsPlanSpec EsPlanFacts EsPlanFacts2 EsPlanFacts3
  LegendreBounds CosQ CosZ QuadratureCells QuadratureFacts2 CorrectionCells CorrectionFacts CorrectionTables.
Open Scope Z_scope.

Section Walk.
Context (f : R -> R) (val : Z -> Z) (F0 C : R) (t L n n1 n2 : Z) (HL : (C / 128 * (1048576 * 65536) <= IZR L)%R) (Ht : (F0 * (1048576 * 65536) <= IZR t)%R)
  (Hval : forall j, 0 <= j <= n -> (IZR (val j) <= f (IZR j / 4) * (1048576 * 65536))%R)
  (Chord : forall a b x, (a <= x <= b)%R -> (a < b)%R -> ((b - x) * f a + (x - a) * f b - (b - a) * (b - a) / 8 * (b - a) * C <= (b - a) * f x)%R).
Lemma walk_sound m : forall j, 0 <= j -> walk m val t L n n1 n2 j (val j) = true -> forall x, (IZR j <= 4 * x <= IZR n)%R -> (IZR j < IZR n)%R -> (F0 <= 175 * f x)%R.
Proof.
  induction m as [|m IH]; intros j Hj W x Hx Hn.
  - cbn [walk] in W. apply Z.leb_le in W. apply IZR_le in W. lra.
  - cbn [walk] in W. destruct (Z.leb_spec n j) as [Le|_]; [apply IZR_le in Le; lra|]. cbv zeta in W. set (h := if j + 4 <=? n1 then 4 else if j + 2 <=? n2 then 2 else 1) in W.
    assert (Hh : 1 <= h) by (unfold h; destruct (j + 4 <=? n1); [|destruct (j + 2 <=? n2)]; lia). clearbody h.
    apply andb_prop in W. destruct W as [W W4]. apply andb_prop in W. destruct W as [W W3]. apply andb_prop in W. destruct W as [W1 W2]. apply Z.leb_le in W1, W2, W3.
    pose proof (Hval j ltac:(lia)) as Va. pose proof (Hval (j + h) ltac:(lia)) as Vb. rewrite plus_IZR in Vb.
    destruct (Rle_or_lt (4 * x) (IZR (j + h))) as [Lx|Lx].
    + rewrite plus_IZR in Lx. assert (H1 : (1 <= IZR h)%R) by (apply IZR_le; exact Hh). pose proof (Chord (IZR j / 4) ((IZR j + IZR h) / 4) x ltac:(lra) ltac:(lra)) as Ch.
      replace ((IZR j + IZR h) / 4 - IZR j / 4)%R with (IZR h / 4)%R in Ch by field. set (fa := f (IZR j / 4)%R) in *. set (fb := f ((IZR j + IZR h) / 4)%R) in *.
      apply IZR_le in W2, W3. unfold ratio in W2, W3. rewrite mult_IZR, minus_IZR, !mult_IZR in W2, W3. set (H := IZR h) in *. assert (HH : (1 <= H * H)%R) by nra.
      assert (E : (C * (H * H) / 128 * (1048576 * 65536) <= IZR L * (H * H))%R). { replace (C * (H * H) / 128 * (1048576 * 65536))%R with (C / 128 * (1048576 * 65536) * (H * H))%R by field. apply Rmult_le_compat_r; lra. }
      assert (Ga : (F0 <= 175 * (fa - C * (H * H) / 128))%R) by lra. assert (Gb : (F0 <= 175 * (fb - C * (H * H) / 128))%R) by lra.
      set (u := ((IZR j + H) / 4 - x)%R) in *. set (v := (x - IZR j / 4)%R) in *. assert (U : (0 <= u)%R) by (unfold u; lra). assert (V : (0 <= v)%R) by (unfold v; lra). assert (UV : (u + v = H / 4)%R) by (unfold u, v; lra).
      apply (Rmult_le_compat_l u) in Ga; [|exact U]. apply (Rmult_le_compat_l v) in Gb; [|exact V].
      set (K := (C * (H * H) / 128)%R) in *. assert (S1 : ((u + v) * F0 <= 175 * (u * fa + v * fb) - 175 * K * (u + v))%R) by lra. rewrite UV in S1.
      replace (H / 4 * (H / 4) / 8 * (H / 4) * C)%R with (K * (H / 4))%R in Ch by (unfold K; field). apply Rmult_le_reg_l with (H / 4)%R; [lra|]. lra.
    + apply (IH (j + h) ltac:(lia) W4 x); lra.
Qed.
End Walk.

Section Row.
Context (s : Z) (r : row) (l : list (R * R)) (Hs : 4 <= s <= 16) (Es : k_support r = s).
Notation nds := (nodes_of s).
Notation A := (angles (hint s) (map first_angle nds)).
Notation beta := (Q2R (k_beta r) * IZR s)%R.
Context (O : forallb node_ok nds = true) (F : forallb (first_ok (Z.of_nat (hint s))) nds = true) (HJ : Z.of_nat (hint s) <= 512) (An : forallb (forallb angle_ok) A = true)
  (K : row_ok nds (map (map out) A) r = true) (N : Forall2 near24 (coarse (points_of s)) l).

Lemma nodes_near : Forall2 near_node nds l.
Proof.
  revert O N. unfold nodes_of. clear. generalize (coarse (points_of s)). intro cs. revert l. induction cs as [|c cs IH]; intros l O N; inversion N as [|? e ? l' Nc N']; subst; [constructor|].
  cbn [map forallb] in *. apply andb_prop in O. destruct O as [O1 O2]. constructor; [now apply node_ok_near|now apply IH].
Qed.
Lemma row_cos j : (j < hint s)%nat -> Forall2 (fun c e => IZR c <= cos (INR j / 4 * fst e) * 65536)%R (nth j (map (map out) A) []) l.
Proof.
  intro Hj. change (@nil Z) with (map out []). rewrite map_nth, angles_nth, !map_map by exact Hj. pose proof nodes_near as Nn. assert (Aa : forall i, (i < hint s)%nat -> forall nd, In nd nds -> angle_ok (Nat.iter i next_angle (first_angle nd)) = true).
  { intros i Hi nd Hn. rewrite forallb_forall in An. specialize (An (nth i A []) ltac:(apply nth_In; rewrite angles_length; exact Hi)). rewrite angles_nth, map_map, forallb_forall in An by exact Hi. apply An. apply in_map_iff. exists nd. auto. }
  rewrite forallb_forall in F. clear An K N O. revert Nn F Aa. generalize nds as ns. intros ns Nn F Aa. induction Nn as [|nd e ns l' Nd Nn IH]; cbn [map]; constructor.
  - apply (cos_low_ok (hint s) nd e Nd); [apply F; now left|exact HJ| |exact Hj]. intros i Hi. apply Aa; [exact Hi|now left].
  - apply IH; [intros x Hx; apply F; now right|intros i Hi x Hx; apply Aa; [exact Hi|now right]].
Qed.
Lemma row_bound th : (0 <= th <= IZR (steps r) / 4)%R -> (wsum beta (fun _ => 1) l <= 175 * wsum beta (fun x => cos (th * x)) l)%R.
Proof.
  intro Ht. unfold row_ok in K. cbv zeta in K. rewrite Es in K. set (bn := Qnum (k_beta r)) in *. set (bd := Z.pos (Qden (k_beta r))) in *. set (B := bn * s * 16384 / bd) in *. set (al := map (amp B) nds) in *.
  apply andb_prop in K. destruct K as [K1 K4]. apply andb_prop in K1. destruct K1 as [K1 K3]. apply andb_prop in K1. destruct K1 as [K1 K2]. apply Z.leb_le in K1. apply Z.ltb_lt in K2, K3. rewrite map_length, angles_length in K3.
  assert (Hd : 0 < bd) by reflexivity. assert (B0 : 0 <= B) by (apply Z.div_pos; nia). assert (Pd : (0 < IZR bd)%R) by (apply IZR_lt; exact Hd).
  assert (Bb : (IZR B <= beta * 16384 <= IZR B + 1)%R).
  { assert (Eb : (beta * 16384 * IZR bd = IZR (bn * s * 16384))%R) by (unfold Q2R; fold bn bd; rewrite !mult_IZR; field; lra). pose proof (div_lo (bn * s * 16384) bd Hd) as D1. pose proof (div_hi (bn * s * 16384) bd Hd) as D2. fold B in D1, D2. rewrite <- Eb in D1, D2.
    split; apply Rmult_le_reg_r with (IZR bd); assumption. }
  pose proof nodes_near as Nn. pose proof (amps_ok B beta B0 Bb nds l Nn) as Fa. fold al in Fa.
  assert (P : forall e, In e l -> (0 <= weight beta e /\ 0 <= fst e)%R).
  { clear - Fa Nn. revert Fa Nn. generalize al. generalize nds. induction l as [|e l' IH]; intros cs0 al0 F N e' [] ; inversion F as [|a ? al' ? [[X1 X2] _] F']; subst; inversion N as [|[[[c w] dl] dh] ? cs' ? ((_ & _ & Xr) & _) N']; subst.
    - split; lra.
    - eapply IH; eassumption. }
  set (n := steps r) in *. assert (Hn : 1 <= n). { unfold n, steps. rewrite Es. pose proof (Z.div_pos (31416 * s) 10000). lia. }
  refine (walk_sound (fun t => wsum beta (fun x => cos (t * x)) l) (fun j => dot al (nth (Z.to_nat j) (map (map out) A) [])) (wsum beta (fun _ => 1%R) l) (wsum beta (fun x => x * x)%R l) (total al * 65536) (Z.shiftr (curve al nds) 23 + 1) n (n * 3 / 4) (n * 9 / 10) _ _ _ _ (Z.to_nat n) 0 ltac:(lia) K4 th _ _).
  - pose proof (curve_ok beta nds al l Nn Fa) as Cu. pose proof (shift_hi (curve al nds) 23 ltac:(lia)) as D. change (2 ^ 23) with 8388608 in D. rewrite plus_IZR. lra.
  - pose proof (total_ok beta al l Fa) as T. rewrite mult_IZR. lra.
  - intros j Hj. replace (IZR j) with (INR (Z.to_nat j)) by (rewrite INR_IZR_INZ, Z2Nat.id by lia; reflexivity). apply (dot_ok beta (INR (Z.to_nat j) / 4)); [exact Fa|]. apply row_cos. lia.
  - intros a b x Hx Hab. apply (wsum_chord beta a b x l P Hx Hab).
  - lra.
  - apply IZR_lt. lia.
Qed.
End Row.

Lemma wsum_rsumf beta f x w p : wsum beta f (map (fun i => (x i, w i)) (zrange 0 p)) = rsumf 0 p (fun i => (w i * exp (beta * (sqrt (1 - x i * x i) - 1)) * f (x i))%R).
Proof. unfold wsum, rsumf, sum. generalize (zrange 0 p). intro z. induction z as [|i z IH]; [reflexivity|]. cbn [map fold_right fst snd]. now rewrite IH. Qed.

Lemma wsum_ext beta f g l : (forall x, f x = g x) -> wsum beta f l = wsum beta g l.
Proof. intro H. unfold wsum. induction l as [|e l IH]; [reflexivity|]. cbn [fold_right]. now rewrite IH, H. Qed.
Lemma row_checked r : In r KernelDB -> let s := k_support r in let A := angles (hint s) (map first_angle (nodes_of s)) in
  (forallb node_ok (nodes_of s) = true /\ forallb (first_ok (Z.of_nat (hint s))) (nodes_of s) = true /\ Z.of_nat (hint s) <= 512) /\ forallb (forallb angle_ok) A = true /\ row_ok (nodes_of s) (map (map out) A) r = true.
Proof.
  intro I. destruct (fine r I) as (F & _). pose proof supports_ok as S0. rewrite forallb_forall in S0. specialize (S0 (k_support r)).
  assert (E : In (k_support r) [4; 5; 6; 7; 8; 9; 10; 11; 12; 13; 14; 15; 16]).
  { assert (E : k_support r = 4 \/ k_support r = 5 \/ k_support r = 6 \/ k_support r = 7 \/ k_support r = 8 \/ k_support r = 9 \/ k_support r = 10 \/ k_support r = 11 \/ k_support r = 12 \/ k_support r = 13 \/ k_support r = 14 \/ k_support r = 15 \/ k_support r = 16) by lia.
    repeat (destruct E as [-> | E]; [cbn; tauto|]). rewrite E. cbn. tauto. }
  specialize (S0 E). unfold support_ok in S0. cbv zeta in S0 |- *. apply andb_prop in S0. destruct S0 as [A K]. apply andb_prop in A. destruct A as [A A3]. apply andb_prop in A. destruct A as [A1 A2]. apply Z.leb_le in A3. apply andb_prop in K. destruct K as [K1 K2].
  split; [auto|]. split; [exact K1|]. rewrite forallb_forall in K2. apply K2. apply filter_In. split; [exact I|]. apply Z.eqb_refl.
Qed.
Lemma pi_below : (PI <= 31416 / 10000 * (9999999 / 10000000))%R.
Proof. pose proof pi41 as [_ H]. lra. Qed.
(** The range that was checked *)
Definition reach (r : row) : R := Rmax (1 / (2 * Q2R (k_os r))) (1 / 4 * (1 + 1 / 10 ^ 13)).
Lemma reach_steps r k : (0 < k_os r)%Q -> 0 <= k_support r -> (0 <= k <= reach r)%R -> (0 <= PI * k * IZR (k_support r) <= IZR (steps r) / 4)%R.
Proof.
  intros Ho Hs [K0 K1]. pose proof pi_below as Pb. pose proof PI_RGT_0 as Pp. apply IZR_le in Hs. split; [apply Rmult_le_pos; [apply Rmult_le_pos; lra|exact Hs]|].
  set (s := IZR (k_support r)) in *. unfold reach, Rmax in K1. destruct (Rle_dec _ _) as [_|_].
  - assert (G : (31416 * s <= IZR (steps r) * 10000)%R).
    { eapply Rle_trans; [|apply Rmult_le_compat_r; [lra|]; apply IZR_le; apply Z.le_max_r]. pose proof (div_hi (31416 * k_support r) 10000 ltac:(lia)) as D. rewrite mult_IZR in D. rewrite plus_IZR. exact D. }
    assert (M : (PI * k <= 31416 / 10000 * (9999999 / 10000000) * (1 / 4 * (1 + 1 / 10 ^ 13)))%R) by (apply Rmult_le_compat; lra). apply (Rmult_le_compat_r s) in M; [|exact Hs]. cbn [pow] in M. lra.
  - destruct (k_os r) as [on od] eqn:Eo. unfold Qlt in Ho. cbn in Ho. rewrite Z.mul_1_r in Ho. assert (Pn : (0 < IZR on)%R) by (apply IZR_lt; exact Ho). assert (Pd : (0 < IZR (Z.pos od))%R) by (apply IZR_lt; reflexivity).
    assert (G : (2 * 31416 * s * IZR (Z.pos od) <= IZR (steps r) * (10000 * IZR on))%R).
    { eapply Rle_trans; [|apply Rmult_le_compat_r; [lra|]; apply IZR_le; apply Z.le_max_l]. rewrite Eo. cbn [Qnum Qden]. pose proof (div_hi (2 * 31416 * k_support r * Z.pos od) (10000 * on) ltac:(lia)) as D. rewrite !mult_IZR in D. rewrite plus_IZR. exact D. }
    unfold Q2R in K1. cbn [Qnum Qden] in K1. replace (1 / (2 * (IZR on * / IZR (Z.pos od))))%R with (IZR (Z.pos od) / (2 * IZR on))%R in K1 by (field; lra).
    assert (M : (PI * k <= 31416 / 10000 * (IZR (Z.pos od) / (2 * IZR on)))%R) by (apply Rmult_le_compat; lra). apply (Rmult_le_compat_r s) in M; [|exact Hs].
    eapply Rle_trans; [exact M|]. apply Rmult_le_reg_r with (4 * (10000 * IZR on))%R; [lra|]. replace (31416 / 10000 * (IZR (Z.pos od) / (2 * IZR on)) * s * (4 * (10000 * IZR on)))%R with (2 * 31416 * s * IZR (Z.pos od))%R by (field; lra). lra.
Qed.

Section Plan.
Context (rows chan image : Z) (px : R) (epsilon : Q) (dbl : bool) (mn mx : R) (do_w : bool) (P : es_plan) (M : made rows chan image px epsilon dbl mn mx do_w P).

Lemma transform_bounds : exists r, candidate epsilon dbl r /\ In r KernelDB /\ grid_size_for image r (p_grid P) /\ forall k, (Rabs k <= reach r)%R -> (p_norm P <= 175 * kernel_transform P k /\ kernel_transform P k <= p_norm P)%R.
Proof.
  pose proof (made_support _ _ _ _ _ _ _ _ _ _ M) as Hs. pose proof (entry_ok _ _ _ _ _ _ _ _ _ _ M) as Ent. destruct M as (r & xp & Cd & I & Gs & _ & _ & _ & _ & _ & Es & Ebt & _ & _ & _ & _ & _ & _ & _ & En & No & Nm & _).
  exists r. split; [exact Cd|]. split; [exact I|]. split; [exact Gs|]. intros k Hk. rewrite <- transform_eq by assumption. rewrite Nm. unfold transform. set (s := p_support P) in *. set (p := host_points s) in *. rewrite (Rmult_comm _ (IZR s)).
  assert (Ps : (0 <= IZR s)%R) by (apply IZR_le; lia).
  set (x := fun i => elem (p_qn P) [i]). set (w := fun i => elem (p_qw P) [i]).
  assert (Es1 : rsumf 0 p (fun i => (elem (p_qk P) [i] * elem (p_qw P) [i])%R) = wsum (p_beta P) (fun _ => 1%R) (map (fun i => (x i, w i)) (zrange 0 p))).
  { rewrite wsum_rsumf. apply rsumf_ext. intros i Hi. destruct (En i Hi) as [_ ->]. unfold x, w. ring. }
  assert (Es2 : forall t, rsumf 0 p (fun i => (elem (p_qk P) [i] * elem (p_qw P) [i] * cos (t * elem (p_qn P) [i]))%R) = wsum (p_beta P) (fun x => cos (t * x)) (map (fun i => (x i, w i)) (zrange 0 p))).
  { intro t. rewrite wsum_rsumf. apply rsumf_ext. intros i Hi. destruct (En i Hi) as [_ ->]. unfold x, w. ring. }
  set (t := (PI * k * IZR s)%R). rewrite Es2, Es1. set (l := map _ _).
  assert (Near : Forall2 near24 (coarse (host_points s)) l). { apply (table_coarse s (1 / 10 ^ 16) x w Hs ltac:(cbn [pow]; lra)). intros i Hi. exact (proj1 (En i Hi)). }
  split.
  - replace (175 * (IZR s * wsum (p_beta P) (fun x0 => cos (t * x0)) l))%R with (IZR s * (175 * wsum (p_beta P) (fun x0 => cos (t * x0)) l))%R by ring. apply Rmult_le_compat_l; [exact Ps|].
    pose proof (row_checked r I) as RC. cbv zeta in RC. destruct RC as ((A1 & A2 & A3) & A4 & K). rewrite Ebt, <- Es in *. fold s.
    assert (Et : wsum (Q2R (k_beta r) * IZR s) (fun x0 => cos (t * x0)) l = wsum (Q2R (k_beta r) * IZR s) (fun x0 => cos (Rabs t * x0)) l).
    { apply wsum_ext. intro y. unfold Rabs. destruct (Rcase_abs t); [|reflexivity]. rewrite <- cos_neg. f_equal. ring. }
    rewrite Et. apply (row_bound s r l Hs (eq_sym Es) A1 A2 A3 A4 K Near). unfold t. rewrite Rabs_mult, Rabs_mult, (Rabs_right PI), (Rabs_right (IZR s)) by (pose proof PI_RGT_0; lra). rewrite Es. apply reach_steps; [|lia|].
    + destruct (fine r I) as (_ & O & _). eapply Qlt_le_trans; [|exact O]. reflexivity.
    + split; [apply Rabs_pos|exact Hk].
  - apply Rmult_le_compat_l; [exact Ps|]. unfold l. rewrite <- Es1, <- Es2. assert (G : forall m, 0 <= m <= p -> (rsumf 0 m (fun i => elem (p_qk P) [i] * elem (p_qw P) [i] * cos (t * elem (p_qn P) [i])) <= rsumf 0 m (fun i => elem (p_qk P) [i] * elem (p_qw P) [i]))%R).
    { intros m [H0 H1]. revert H1. rewrite <- (Z2Nat.id m H0). induction (Z.to_nat m) as [|j IH]; intro H1; [unfold rsumf; rewrite !sum_empty by lia; lra|]. replace (Z.of_nat (S j)) with (Z.of_nat j + 1) by lia. rewrite !rsumf_snoc by lia. specialize (IH ltac:(lia)).
      destruct (Ent (Z.of_nat j) ltac:(fold s p; lia)) as (_ & W & Q). pose proof (COS_bound (t * elem (p_qn P) [Z.of_nat j])) as [_ Cb]. assert (0 < elem (p_qk P) [Z.of_nat j] * elem (p_qw P) [Z.of_nat j])%R by (apply Rmult_lt_0_compat; assumption). nra. }
    apply G. pose proof (points s Hs). fold p in H. lia.
Qed.
End Plan.
