(** C88: the quadrature tables of the gridder are Gauss-Legendre rules *)
From Coq Require Import Reals Lia Lra.
From Verif Require Import Base BaseFacts Sum Legendre LegendreSpec LegendreFacts Cplx EsKernels EsKernelsSpec EsKernelsFacts EsScreenFacts2 EsPlanSpec EsPlanFacts QuadratureSpec QuadratureFacts2.
Open Scope Z_scope.

(** Every node that is computed for the tables of a plan (support 4 to 16) is in (0, 1) and next to a zero of the Legendre polynomial, the nodes are
    in decreasing order, and the weights are positive. *)
Theorem C88_nodes s acc i : 4 <= s <= 16 -> (0 <= acc <= 1 / 10 ^ 13)%R -> 0 <= i < host_points s ->
  exists x w, calculate_legendre_root (i + 1) (2 * host_points s) acc = Some (x, w) /\ (0 < x < 1 /\ 0 < w)%R /\
    (exists P dP y, is_legendre (2 * host_points s) P dP /\ P y = 0 /\ Rabs (x - y) <= 1 / 10 ^ 11)%R /\
    (forall x' w', 1 <= i -> calculate_legendre_root i (2 * host_points s) acc = Some (x', w') -> (x < x')%R).
Proof.
  intros Hs Ha Hi. pose proof (points s Hs) as Pb. set (f := fun i => match calculate_legendre_root (i + 1) (2 * host_points s) acc with Some v => v | None => (0, 0)%R end).
  assert (E : forall i, 0 <= i < host_points s -> calculate_legendre_root (i + 1) (2 * host_points s) acc = Some (fst (f i), snd (f i))).
  { intros j _. unfold f. destruct (root_total (j + 1) (2 * host_points s) acc ltac:(lia)) as (x & w & ->). reflexivity. }
  destruct (nodes s acc (fun i => fst (f i)) (fun i => snd (f i)) Hs Ha E i Hi) as [N (y & Ey & Dy)].
  exists (fst (f i)), (snd (f i)). split; [exact (E i Hi)|]. split; [exact N|]. split.
  - exists (leg (Z.to_nat (2 * host_points s))), (dleg (Z.to_nat (2 * host_points s))), y. split; [|split; assumption].
    pose proof (leg_is_legendre (Z.to_nat (2 * host_points s))) as L. rewrite Z2Nat.id in L by lia. exact L.
  - intros x' w' H1 E'. pose proof (ordered s acc (fun i => fst (f i)) (fun i => snd (f i)) Hs Ha E (i - 1) ltac:(lia)) as O. cbv beta in O. replace (i - 1 + 1) with i in O by lia.
    pose proof (E (i - 1) ltac:(lia)) as Ep. replace (i - 1 + 1) with i in Ep by lia. rewrite E' in Ep. injection Ep as -> _. exact O.
Qed.
Print Assumptions C88_nodes.

(** The computed rule with p points integrates every even polynomial of degree below 4 p over [0, 1] (so every polynomial of that degree over [-1, 1]),
    up to 2 10^-8 of the sum of its coefficients' sizes. *)
Theorem C88_integral s acc x w (a : Z -> R) F : 4 <= s <= 16 -> (0 <= acc <= 1 / 10 ^ 13)%R -> let p := host_points s in
  (forall i, 0 <= i < p -> calculate_legendre_root (i + 1) (2 * p) acc = Some (x i, w i)) ->
  (forall y, derivable_pt_lim F y (even_poly (2 * p) a y)) ->
  (Rabs (rsumf 0 p (fun i => w i * even_poly (2 * p) a (x i)) - (F 1 - F 0)) <= 2 / 10 ^ 8 * rsumf 0 (2 * p) (fun k => Rabs (a k)))%R.
Proof.
  intros Hs Ha p Hx HF. pose proof (points s Hs) as Pb. fold p in Pb.
  set (G := fun m y => rsumf 0 m (fun k => (a k / (2 * INR (Z.to_nat k) + 1) * y ^ (2 * Z.to_nat k + 1))%R)).
  assert (DG : forall m, 0 <= m -> forall y, derivable_pt_lim (G m) y (even_poly m a y)).
  { intros m Hm y. rewrite <- (Z2Nat.id m Hm). induction (Z.to_nat m) as [|k IH].
    - apply (dl_ext (fun _ => 0%R)); [intro; unfold G, rsumf; now rewrite sum_empty by lia|]. unfold even_poly, rsumf. rewrite sum_empty by lia. apply dl_const.
    - replace (Z.of_nat (S k)) with (Z.of_nat k + 1) by lia.
      apply (dl_ext (fun y => G (Z.of_nat k) y + a (Z.of_nat k) / (2 * INR k + 1) * y ^ (2 * k + 1))%R); [intro t; unfold G; rewrite rsumf_snoc by lia; now rewrite Nat2Z.id|].
      unfold even_poly. rewrite rsumf_snoc by lia. rewrite Nat2Z.id. apply dl_add; [exact IH|].
      eapply dl_val; [|apply (dl_scal _ (fun y => y ^ (2 * k + 1))%R); apply derivable_pt_lim_pow]. rewrite Nat.add_1_r. cbn [pred]. rewrite S_INR, mult_INR. change (INR 2) with 2%R. field. pose proof (pos_INR k). lra. }
  assert (EF : (F 1 - F 0 = G (2 * p)%Z 1 - G (2 * p)%Z 0)%R).
  { destruct (MVT_cor2 (fun y => F y - G (2 * p)%Z y)%R (fun _ => 0%R) 0 1 ltac:(lra)) as (c & Ec & _); [|lra]. intros c _. eapply dl_val; [|apply dl_sub; [apply HF|apply DG; lia]]. ring. }
  assert (E1 : G (2 * p) 1%R = rsumf 0 (2 * p) (fun k => (a k / (2 * INR (Z.to_nat k) + 1))%R)) by (apply rsumf_ext; intros k _; rewrite pow1; ring).
  assert (E0 : G (2 * p) 0%R = 0%R) by (apply rsumf_none; intros k _; rewrite Nat.add_1_r; cbn [pow]; ring).
  rewrite EF, E1, E0, Rminus_0_r. unfold even_poly.
  replace (rsumf 0 p (fun i => w i * rsumf 0 (2 * p) (fun k => a k * x i ^ (2 * Z.to_nat k)))%R) with (rsumf 0 (2 * p) (fun k => a k * rsumf 0 p (fun i => w i * x i ^ (2 * Z.to_nat k)))%R).
  2:{ transitivity (rsumf 0 (2 * p) (fun k => rsumf 0 p (fun i => a k * (w i * x i ^ (2 * Z.to_nat k)))%R)); [apply rsumf_ext; intros; apply rsumf_mul_l|].
      rewrite rsumf_swap. apply rsumf_ext. intros i _. rewrite rsumf_mul_l. apply rsumf_ext. intros k _. ring. }
  assert (Z : forall m, 0 <= m <= 2 * p -> (Rabs (rsumf 0 m (fun k => a k * rsumf 0 p (fun i => w i * x i ^ (2 * Z.to_nat k))) - rsumf 0 m (fun k => a k / (2 * INR (Z.to_nat k) + 1))) <= 2 / 10 ^ 8 * rsumf 0 m (fun k => Rabs (a k)))%R).
  { intros m [H0 H1]. revert H1. rewrite <- (Z2Nat.id m H0). induction (Z.to_nat m) as [|k IH]; intro H1.
    - unfold rsumf. rewrite !sum_empty by lia. rewrite Rminus_0_r, Rabs_R0. lra.
    - replace (Z.of_nat (S k)) with (Z.of_nat k + 1) by lia. rewrite !rsumf_snoc by lia. rewrite Nat2Z.id. specialize (IH ltac:(lia)). match goal with |- (Rabs (?A' + _ - (?B' + _)) <= _ * (?D' + _))%R => set (A := A') in *; set (B := B') in *; set (D := D') in * end.
      pose proof (moment s acc x w Hs Ha Hx k ltac:(fold p; lia)) as M. fold p in M. set (m0 := rsumf 0 p _) in *.
      replace (A + a (Z.of_nat k) * m0 - (B + a (Z.of_nat k) / (2 * INR k + 1)))%R with ((A - B) + a (Z.of_nat k) * (m0 - 1 / (2 * INR k + 1)))%R by (field; pose proof (pos_INR k); lra).
      eapply Rle_trans; [apply Rabs_triang|]. rewrite Rabs_mult. rewrite Rmult_plus_distr_l. apply Rplus_le_compat; [exact IH|]. rewrite (Rmult_comm (2 / 10 ^ 8)). apply Rmult_le_compat_l; [apply Rabs_pos|exact M]. }
  apply Z. lia.
Qed.
Print Assumptions C88_integral.

(** Satisfied hypotheses: the tables for support 4 with 1 + x^2, whose integral is 4/3 *)
Example C88_hyps : exists x w, (forall i, 0 <= i < host_points 4 -> calculate_legendre_root (i + 1) (2 * host_points 4) (1 / 10 ^ 16) = Some (x i, w i)) /\
  (Rabs (rsumf 0 8 (fun i => w i * (1 + x i * x i)) - 4 / 3) <= 1 / 10 ^ 7)%R.
Proof.
  set (f := fun i => match calculate_legendre_root (i + 1) (2 * host_points 4) (1 / 10 ^ 16) with Some v => v | None => (0, 0)%R end). exists (fun i => fst (f i)), (fun i => snd (f i)).
  assert (E : forall i, 0 <= i < host_points 4 -> calculate_legendre_root (i + 1) (2 * host_points 4) (1 / 10 ^ 16) = Some (fst (f i), snd (f i))).
  { intros j _. unfold f. destruct (root_total (j + 1) (2 * host_points 4) (1 / 10 ^ 16) ltac:(apply Z.leb_le; reflexivity)) as (x & w & ->). reflexivity. }
  split; [exact E|]. set (a := fun k => if k <? 2 then 1%R else 0%R).
  assert (Ev : forall y, even_poly (2 * host_points 4) a y = (1 + y * y)%R).
  { intro y. unfold even_poly. change (2 * host_points 4) with 16. unfold rsumf. rewrite (sum_split _ _ rcm 0 2 16) by lia. fold (rsumf 2 16 (fun k => (a k * y ^ (2 * Z.to_nat k))%R)). rewrite (rsumf_none 2 16) by (intros i Hi; unfold a; destruct (Z.ltb_spec i 2); [lia|]; apply Rmult_0_l). unfold sum. change (zrange 0 2) with [0; 1]. unfold a. cbn. change (Pos.to_nat 1) with 1%nat. cbn. ring. }
  pose proof (C88_integral 4 (1 / 10 ^ 16) (fun i => fst (f i)) (fun i => snd (f i)) a (fun y => y + y * y * y / 3)%R ltac:(lia) ltac:(cbn [pow]; lra) E) as T. cbv zeta in T.
  assert (A : rsumf 0 (2 * host_points 4) (fun k => Rabs (a k)) = 2%R).
  { change (2 * host_points 4) with 16. unfold rsumf. rewrite (sum_split _ _ rcm 0 2 16) by lia. fold (rsumf 2 16 (fun k => Rabs (a k))). rewrite (rsumf_none 2 16) by (intros i Hi; unfold a; destruct (Z.ltb_spec i 2); [lia|]; apply Rabs_R0). unfold sum. change (zrange 0 2) with [0; 1]. unfold a. cbn. rewrite Rabs_R1. ring. }
  rewrite A in T. change (host_points 4) with 8 in *. eapply Rle_trans; [|apply Rle_trans with (2 / 10 ^ 8 * 2)%R; [apply T|cbn [pow]; lra]].
  - right. f_equal. f_equal; [apply rsumf_ext; intros i _; now rewrite Ev|field].
  - intro y. rewrite Ev. eapply dl_val; [|apply (dl_add (fun y => y) (fun y => y * y * y / 3)%R); [apply dl_id|]; apply (dl_ext (fun y => / 3 * (y * y * y))%R); [intro; unfold Rdiv; ring|]; apply (dl_scal (/ 3) (fun y => y * y * y)%R);
      apply (dl_mul (fun y => y * y)%R (fun y => y)); [apply (dl_mul (fun y => y) (fun y => y)); apply dl_id|apply dl_id]]. field.
Qed.
