From Coq Require Import Lra.
From Verif Require Import Base BaseFacts Sum CRing Cplx Clamp LegendreSpec LegendreFacts SphericalWave SphericalWaveSpec.
Open Scope R_scope.

(** G m k: the k-th polynomial of order m (scaled Gegenbauer polynomials), as a pair with the next one *)
Fixpoint dfact (m : nat) : R := match m with O => 1 | S m => dfact m * (2 * INR m + 1) end.
Fixpoint geg2 (m k : nat) (x : R) : R * R :=
  match k with
  | O => (dfact m, (2 * INR m + 1) * x * dfact m)
  | S k => let (a, b) := geg2 m k x in (b, ((2 * INR m + 2 * INR k + 3) * x * b - (2 * INR m + INR k + 1) * a) / (INR k + 2))
  end.
Definition geg m k x := fst (geg2 m k x).
Lemma geg2_snd m k x : snd (geg2 m k x) = geg m (S k) x.
Proof. unfold geg. cbn [geg2]. destruct (geg2 m k x). reflexivity. Qed.
Lemma geg_SS m k x : geg m (S (S k)) x = ((2 * INR m + 2 * INR k + 3) * x * geg m (S k) x - (2 * INR m + INR k + 1) * geg m k x) / (INR k + 2).
Proof. rewrite <- geg2_snd. cbn [geg2]. rewrite <- geg2_snd. unfold geg. destruct (geg2 m k x) as [a b]. reflexivity. Qed.
Lemma geg_0 m x : geg m 0 x = dfact m. Proof. reflexivity. Qed.
Lemma geg_1 m x : geg m 1 x = (2 * INR m + 1) * x * dfact m. Proof. reflexivity. Qed.
Lemma gegr m k x : (INR k + 2) * geg m (S (S k)) x = (2 * INR m + 2 * INR k + 3) * x * geg m (S k) x - (2 * INR m + INR k + 1) * geg m k x.
Proof. rewrite geg_SS. pose proof (pos k). field. lra. Qed.

Lemma pair_ind (P : nat -> Prop) : P 0%nat -> P 1%nat -> (forall k, P k -> P (S k) -> P (S (S k))) -> forall k, P k.
Proof. intros H0 H1 H k. enough (P k /\ P (S k)) by tauto. induction k as [|k [A B]]; [auto|]. split; [exact B|]. apply H; assumption. Qed.

Lemma geg_leg k x : geg 0 k x = leg k x.
Proof.
  induction k as [| |k I1 I2] using pair_ind; [reflexivity|rewrite geg_1, leg_1; cbn; ring|]. pose proof (pos k).
  apply Rmult_eq_reg_l with (INR k + 2); [|lra]. rewrite gegr, bonnet, I1, I2. cbn [INR]. ring.
Qed.

(** The derivative is the family of the next order *)
Definition dgeg m k x := match k with O => 0 | S k => geg (S m) k x end.
Lemma gAB m k x : dgeg m (S k) x = x * dgeg m k x + (INR k + 2 * INR m + 1) * geg m k x /\ x * dgeg m (S k) x - dgeg m k x = (INR k + 1) * geg m (S k) x.
Proof.
  induction k as [|k [A B]].
  - cbn [dgeg]. rewrite !geg_0, geg_1. cbn [dfact INR]. split; ring.
  - pose proof (pos k) as P. pose proof (gegr m k x) as R. pose proof (pos_INR m) as Pm.
    assert (A' : dgeg m (S (S k)) x = x * dgeg m (S k) x + (INR (S k) + 2 * INR m + 1) * geg m (S k) x).
    { cbn [dgeg] in *. destruct k as [|k].
      - rewrite geg_0, !geg_1. cbn [dfact]. rewrite !S_INR. cbn [INR]. ring.
      - pose proof (gegr (S m) k x) as R'. rewrite (S_INR m) in R'. cbn [dgeg] in *. pose proof (pos k).
        apply Rmult_eq_reg_l with (INR k + 2); [|lra]. rewrite R'. rewrite !S_INR in *.
        replace (geg (S m) k x) with (x * geg (S m) (S k) x - (INR k + 1 + 1) * geg m (S (S k)) x) by lra. ring. }
    split; [exact A'|]. rewrite A'. rewrite (S_INR k). 
    assert (E : dgeg m (S k) x - x * (x * dgeg m (S k) x) = (INR k + 2 * INR m + 1) * geg m k x - (INR k + 1) * x * geg m (S k) x).
    { replace (x * dgeg m (S k) x) with (dgeg m k x + (INR k + 1) * geg m (S k) x) by lra. rewrite A. ring. }
    replace (INR k + 1 + 1) with (INR k + 2) by ring. rewrite R.
    replace (x * (x * dgeg m (S k) x + (INR k + 1 + 2 * INR m + 1) * geg m (S k) x) - dgeg m (S k) x) with
      (- (dgeg m (S k) x - x * (x * dgeg m (S k) x)) + (INR k + 1 + 2 * INR m + 1) * x * geg m (S k) x) by ring. rewrite E. ring.
Qed.
Lemma geg_deriv m k x : derivable_pt_lim (geg m k) x (dgeg m k x).
Proof.
  induction k as [| |k I1 I2] using pair_ind.
  - exact (dl_const (dfact m) x).
  - apply (dl_ext (fun y => ((2 * INR m + 1) * dfact m) * y)); [intro y; rewrite geg_1; ring|]. cbn [dgeg]. rewrite geg_0. cbn [dfact].
    eapply dl_val; [|apply dl_scal; apply dl_id]. ring.
  - pose proof (pos k) as P. apply (dl_ext (fun y => / (INR k + 2) * ((2 * INR m + 2 * INR k + 3) * (y * geg m (S k) y) - (2 * INR m + INR k + 1) * geg m k y))).
    { intro y. rewrite geg_SS. field. lra. }
    eapply dl_val; [|apply dl_scal; apply dl_sub; [apply dl_scal; apply dl_mul; [apply dl_id|exact I2]|apply dl_scal; exact I1]].
    destruct (gAB m k x) as [_ B]. destruct (gAB m (S k) x) as [A' _]. rewrite A', S_INR.
    replace (dgeg m k x) with (x * dgeg m (S k) x - (INR k + 1) * geg m (S k) x) by lra. field. lra.
Qed.
Lemma geg_formula m k x : (1 - x * x) * dgeg m k x = (2 * INR m + INR k + 1) * x * geg m k x - (INR k + 1) * geg m (S k) x.
Proof. destruct (gAB m k x) as [A B]. rewrite A in B. rewrite <- B. ring. Qed.

(** Associated Legendre functions of order m, degree m + k, and their derivatives in theta *)
Definition al (m k : nat) (t : R) : R := (- sin t) ^ m * geg m k (cos t).
Definition dal (m k : nat) (t : R) : R := INR m * (- sin t) ^ pred m * - cos t * geg m k (cos t) + (- sin t) ^ m * (dgeg m k (cos t) * - sin t).
Lemma dl_comp f g x a b : derivable_pt_lim f x a -> derivable_pt_lim g (f x) b -> derivable_pt_lim (fun y => g (f y)) x (b * a).
Proof. exact (derivable_pt_lim_comp f g x a b). Qed.
Lemma dl_cos x : derivable_pt_lim cos x (- sin x). Proof. apply derivable_pt_lim_cos. Qed.
Lemma dl_msin x : derivable_pt_lim (fun t => - sin t) x (- cos x).
Proof. apply (derivable_pt_lim_opp sin). apply derivable_pt_lim_sin. Qed.
Lemma al_deriv m k t : derivable_pt_lim (al m k) t (dal m k t).
Proof.
  unfold al. eapply dl_val; [|apply dl_mul; [apply (dl_comp (fun t => - sin t) (fun y => y ^ m)); [apply dl_msin|apply derivable_pt_lim_pow]|apply (dl_comp cos); [apply dl_cos|apply geg_deriv]]].
  unfold dal. reflexivity.
Qed.
Lemma dal_sin m k t : - dal m k t * sin t = cos t * al m k t * (INR m + INR k + 1) - al m (S k) t * (INR k + 1).
Proof.
  unfold dal, al. pose proof (geg_formula m k (cos t)) as F. pose proof (sin2_cos2 t) as T. unfold Rsqr in T.
  replace (1 - cos t * cos t) with (sin t * sin t) in F by lra.
  replace (- (INR m * (- sin t) ^ pred m * - cos t * geg m k (cos t) + (- sin t) ^ m * (dgeg m k (cos t) * - sin t)) * sin t)
    with (- cos t * geg m k (cos t) * (INR m * ((- sin t) ^ pred m * - sin t)) + (- sin t) ^ m * (sin t * sin t * dgeg m k (cos t))) by ring.
  rewrite F. replace (INR m * ((- sin t) ^ pred m * - sin t)) with (INR m * (- sin t) ^ m). 2:{ destruct m as [|m]; [cbn; ring|]. cbn [pred pow]. ring. }
  ring.
Qed.

(** Derivatives of all orders *)
Lemma dn_deriv l j x : derivable_pt_lim (fun x => if (j <=? l)%nat then geg j (l - j) x else 0) x (if (S j <=? l)%nat then geg (S j) (l - S j) x else 0).
Proof.
  destruct (Nat.leb_spec j l) as [H|H].
  - eapply dl_val; [|apply geg_deriv]. destruct (Nat.leb_spec (S j) l).
    + replace (l - j)%nat with (S (l - S j)) by lia. reflexivity.
    + replace (l - j)%nat with 0%nat by lia. reflexivity.
  - replace (S j <=? l)%nat with false by (symmetry; apply Nat.leb_gt; lia). apply dl_const.
Qed.
Lemma al_is_assoc m k : is_assoc_legendre (Z.of_nat (m + k)) (Z.of_nat m) (al m k).
Proof.
  exists (fun j x => if (j <=? m + k)%nat then geg j (m + k - j) x else 0). split; [|split; [intros j x; apply dn_deriv|]].
  - pose proof (leg_is_legendre (m + k)) as (D1 & At1 & D2).
    assert (E0 : forall x, (if (0 <=? m + k)%nat then geg 0 (m + k - 0) x else 0) = leg (m + k) x). { intro x. cbn [Nat.leb]. rewrite Nat.sub_0_r. apply geg_leg. }
    assert (E1 : forall x, (if (1 <=? m + k)%nat then geg 1 (m + k - 1) x else 0) = dleg (m + k) x).
    { intro x. apply (uniqueness_limite (leg (m + k)) x); [|apply D1]. apply (dl_ext _ _ _ _ E0). exact (dn_deriv (m + k) 0 x). }
    split; [intro x; exact (dn_deriv (m + k) 0 x)|]. split; [rewrite E0; exact At1|]. intro x. rewrite E0. eapply dl_ext; [|apply D2]. intro y. cbn beta. now rewrite E1.
  - intro t. rewrite Nat2Z.id. replace (m <=? m + k)%nat with true by (symmetry; apply Nat.leb_le; lia). replace (m + k - m)%nat with k by lia. reflexivity.
Qed.

(** The code computes them *)
Lemma pmm (m : nat) s : (if (Z.of_nat m >? 0)%Z then for_ 1 (Z.of_nat m + 1) (fun _ (st : R * R) => let (p0, fact) := st in Some (p0 * ((- fact) * s), fact + 2)) (1, 1) else Some (1, 1))
  = Some ((- s) ^ m * dfact m, 2 * INR m + 1).
Proof.
  destruct m as [|m]; [apply f_equal; apply f_equal2; cbn; ring|]. replace (Z.of_nat (S m) >? 0)%Z with true by lia. set (M := S m). clearbody M.
  match goal with |- for_ 1 ?hi ?body ?init = _ => destruct (for_inv (fun k (st : R * R) => exists j : nat, k = (Z.of_nat j + 1)%Z /\ st = ((- s) ^ j * dfact j, 2 * INR j + 1)) 1 hi body init) as (st & E & j & Ej & ->) end.
  - lia.
  - exists 0%nat. split; [reflexivity|]. apply f_equal2; cbn; ring.
  - intros i [p0 f] Hi (j & -> & Ej). injection Ej as -> ->. eexists. split; [reflexivity|]. exists (S j). split; [lia|]. rewrite S_INR. apply f_equal2; cbn [dfact pow]; ring.
  - rewrite E. replace j with M by lia. reflexivity.
Qed.
Lemma IZRn n : IZR (Z.of_nat n) = INR n. Proof. symmetry. apply INR_IZR_INZ. Qed.
Lemma legendre2_ok (m k : nat) t : legendre2 (Z.of_nat (m + k)) (Z.of_nat m) (cos t) (sin t) =
  Some (if Req_EM_T (sin t) 0 then (al m k t, 0, 0) else (al m k t, al m k t / sin t, - dal m k t)).
Proof.
  unfold legendre2. rewrite pmm. cbn [bind fst].
  assert (E1 : cos t * IZR (2 * Z.of_nat m + 1) * ((- sin t) ^ m * dfact m) = al m 1 t). { unfold al. rewrite geg_1, plus_IZR, mult_IZR, IZRn. ring. }
  assert (E0 : (- sin t) ^ m * dfact m = al m 0 t) by reflexivity. rewrite E1, E0.
  assert (X : (if (Z.of_nat (m + k) =? Z.of_nat m)%Z then Some (al m 0 t, al m 1 t, al m 0 t)
    else for_ (Z.of_nat m + 2) (Z.of_nat (m + k) + 2) (fun i (s : R * R * R) => let '(p0, p1, _) := s in
      Some (p1, ((IZR (2 * i - 1) * cos t * p1 - IZR (i + Z.of_nat m - 1) * p0) / IZR (i - Z.of_nat m)), p1)) (al m 0 t, al m 1 t, al m 1 t))
    = Some (al m k t, al m (S k) t, al m k t)).
  { destruct k as [|k]; [replace (m + 0)%nat with m by lia; now rewrite Z.eqb_refl|]. replace (Z.of_nat (m + S k) =? Z.of_nat m)%Z with false by lia.
    match goal with |- for_ ?lo ?hi ?body ?init = _ => destruct (for_inv (fun z (st : R * R * R) => exists j : nat, z = (Z.of_nat (m + j) + 2)%Z /\
      fst (fst st) = al m j t /\ snd (fst st) = al m (S j) t /\ (j <> 0%nat -> snd st = al m j t)) lo hi body init) as ([[a b] c] & E & j & Ej & Ea & Eb & Ec) end.
    - lia.
    - exists 0%nat. split; [lia|]. split; [reflexivity|]. split; [reflexivity|]. congruence.
    - intros i [[a b] c] Hi (j & -> & Ea & Eb & _). cbn [fst snd] in *. subst. eexists. split; [reflexivity|]. exists (S j). cbn [fst snd]. split; [lia|]. split; [reflexivity|]. split; [|reflexivity].
      unfold al. rewrite geg_SS. replace (2 * (Z.of_nat (m + j) + 2) - 1)%Z with (2 * Z.of_nat m + 2 * Z.of_nat j + 3)%Z by lia.
      replace (Z.of_nat (m + j) + 2 + Z.of_nat m - 1)%Z with (2 * Z.of_nat m + Z.of_nat j + 1)%Z by lia. replace (Z.of_nat (m + j) + 2 - Z.of_nat m)%Z with (Z.of_nat j + 2)%Z by lia.
      repeat rewrite ?plus_IZR, ?mult_IZR, ?IZRn. pose proof (pos j). field. lra.
    - rewrite E. cbn [fst snd] in *. assert (j = S k) as -> by lia. rewrite Ea, Eb, Ec by discriminate. reflexivity. }
  rewrite X. cbn [bind]. destruct (Req_EM_T (sin t) 0) as [Z|N]; [reflexivity|]. f_equal. f_equal. apply Rmult_eq_reg_r with (sin t); [|exact N].
  rewrite dal_sin. replace (Z.of_nat (m + k) + 1)%Z with (Z.of_nat m + Z.of_nat k + 1)%Z by lia. replace (Z.of_nat (m + k) - Z.of_nat m + 1)%Z with (Z.of_nat k + 1)%Z by lia.
  rewrite !plus_IZR, !IZRn. field. exact N.
Qed.

Definition alZ (l m : Z) (t : R) : R := al (Z.to_nat m) (Z.to_nat (l - m)) t.
Definition dalZ (l m : Z) (t : R) : R := dal (Z.to_nat m) (Z.to_nat (l - m)) t.
Lemma alZ_family : assoc_family alZ dalZ.
Proof.
  intros l m H. split; [|intro t; apply al_deriv]. pose proof (al_is_assoc (Z.to_nat m) (Z.to_nat (l - m))) as A.
  replace (Z.of_nat (Z.to_nat m + Z.to_nat (l - m))) with l in A by lia. rewrite Z2Nat.id in A by lia. exact A.
Qed.
Lemma legendre2_Z l m t : (0 <= m <= l)%Z -> legendre2 l m (cos t) (sin t) =
  Some (if Req_EM_T (sin t) 0 then (alZ l m t, 0, 0) else (alZ l m t, alZ l m t / sin t, - dalZ l m t)).
Proof.
  intro H. pose proof (legendre2_ok (Z.to_nat m) (Z.to_nat (l - m)) t) as A.
  replace (Z.of_nat (Z.to_nat m + Z.to_nat (l - m))) with l in A by lia. rewrite Z2Nat.id in A by lia. exact A.
Qed.
