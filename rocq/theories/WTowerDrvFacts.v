From Verif Require Import Base BaseFacts Sum CRing Cplx Loops Clamp ClampSpec Select QNum Fft FftSpec FftFacts FftFacts2 FftFacts3
  GridUtils GridUtilsFacts Subgrid SubgridFacts WTower WTowerSpec WTowerFacts WTowerFacts2 WTowerFacts3 WTowerFacts4 WTowerDrv WTowerDrvSpec.
From Coq Require Import Lia.
Open Scope Z_scope.

Lemma for_rel2 {S T} (R : Z -> S -> T -> Prop) lo hi F G s t :
  lo <= hi -> R lo s t ->
  (forall i x y, lo <= i < hi -> R i x y -> exists x' y', F i x = Some x' /\ G i y = Some y' /\ R (i + 1) x' y') ->
  exists s' t', for_ lo hi F s = Some s' /\ for_ lo hi G t = Some t' /\ R hi s' t'.
Proof.
  intros L R0 H.
  assert (K : exists p, for_ lo hi (fun i p => let* x := F i (fst p) in let* y := G i (snd p) in Some (x, y)) (s, t) = Some p /\
    R hi (fst p) (snd p) /\ for_ lo hi F s = Some (fst p) /\ for_ lo hi G t = Some (snd p)).
  { destruct (for_inv (fun i p => R i (fst p) (snd p) /\ for_ lo i F s = Some (fst p) /\ for_ lo i G t = Some (snd p)) lo hi
      (fun i p => let* x := F i (fst p) in let* y := G i (snd p) in Some (x, y)) (s, t) L) as (p & E & P).
    - rewrite !for_empty by lia. auto.
    - intros i [x y] Hi (Rxy & E1 & E2). cbn [fst snd] in *. destruct (H i x y Hi Rxy) as (x' & y' & F1 & G1 & R').
      rewrite F1, G1. cbn [bind]. eexists. split; [reflexivity|]. cbn [fst snd]. split; [exact R'|].
      rewrite !for_snoc by lia. rewrite E1, E2. cbn [bind]. auto.
    - eauto. }
  destruct K as ([x y] & _ & R' & E1 & E2). cbn [fst snd] in *. exists x, y. auto.
Qed.

Lemma Cinv_cis t : Cinv (cis t) = cis (- t).
Proof.
  rewrite cis_neg. unfold Cinv. rewrite Cnorm2_cis. unfold Cconj. f_equal; field.
Qed.
Lemma Cpowz_cis t e : Cpowz (cis t) e = cis (IZR e * t).
Proof.
  unfold Cpowz. destruct (e >=? 0) eqn:E.
  - rewrite <- cis_nat. rewrite INR_IZR_INZ, Z2Nat.id by lia. reflexivity.
  - rewrite <- cis_nat, Cinv_cis. rewrite INR_IZR_INZ, Z2Nat.id by lia. f_equal. rewrite opp_IZR. ring.
Qed.
Lemma Cdiv_cis' a t e : Cdiv a (Cpowz (cis t) e) = Cmul a (cis (- (IZR e * t))).
Proof. unfold Cdiv. rewrite Cpowz_cis, Cinv_cis. reflexivity. Qed.

Lemma centred2_ext inv n m x y k l : (forall s t, 0 <= s < n -> 0 <= t < m -> x s t = y s t) ->
  centred2 inv n m x k l = centred2 inv n m y k l.
Proof. intro H. unfold centred2. apply csum_ext; intros s Hs. apply csum_ext; intros t Ht. now rewrite H. Qed.

Lemma plane_fft_ok is_forward d temp S T : 0 < S -> S mod 2 = 0 -> shape d = [S; S] -> shape temp = [T] -> S * S <= T ->
  exists r, plane_fft is_forward d temp = Some r /\ shape r = [S; S] /\
    forall k l, 0 <= k < S -> 0 <= l < S -> elem r [k; l] = centred2 (inverse_of is_forward) S S (fun s t => elem d [s; t]) k l.
Proof.
  intros HS Ev Sd St HT. assert (D : S = 2 * (S / 2)) by (rewrite (Z.div_mod S 2) at 1; lia).
  set (n := S / 2) in *. clearbody n. subst S.
  destruct (shift_2d is_forward false d temp n n T) as (r & E & Sr & P); auto; try lia; try discriminate.
  unfold plane_fft. rewrite E. cbn [bind failed]. exists r. split; [reflexivity|]. split; [exact Sr|].
  intros k l Hk Hl. rewrite P by assumption. unfold norm_scale. replace (n + n) with (2 * n) by lia.
  replace (sign (2 * n)) with 1%R by (unfold sign; now rewrite Z.even_mul). csolve.
Qed.

Lemma elem_set_plane sg i d a k l : elem (set_plane sg i d) [a; k; l] = if a =? i then elem d [k; l] else elem sg [a; k; l].
Proof. reflexivity. Qed.

(** The transforms are adjoint to each other. *)
Lemma Cconj_add a b : Cconj (Cadd a b) = Cadd (Cconj a) (Cconj b). Proof. csolve. Qed.
Lemma Cconj_csum lo hi f : Cconj (csum lo hi f) = csum lo hi (fun i => Cconj (f i)).
Proof. unfold csum, sum. induction (zrange lo hi) as [|x l IH]; cbn; [csolve|]. rewrite Cconj_add, IH. reflexivity. Qed.
Lemma root_conj inv n m : Cconj (root inv n m) = root (negb inv) n m.
Proof. rewrite W_neg_inv, W_neg. reflexivity. Qed.

Lemma total2_csum n m (f : Z -> Z -> C) : total2 (A := Cring) n m f = csum 0 n (fun i => csum 0 m (fun j => f i j)).
Proof. reflexivity. Qed.
Lemma total3_csum n m p (f : Z -> Z -> Z -> C) :
  total3 (A := Cring) n m p f = csum 0 n (fun i => csum 0 m (fun j => csum 0 p (fun k => f i j k))).
Proof. reflexivity. Qed.

Lemma centred2_adjoint S (g h : Z -> Z -> C) :
  herm2 S S (centred2 true S S g) h = herm2 S S g (centred2 false S S h).
Proof.
  unfold herm2. rewrite !total2_csum. unfold centred2.
  transitivity (csum 0 S (fun k => csum 0 S (fun l => csum 0 S (fun s => csum 0 S (fun t =>
    Cmul (Cmul (Cmul (root true S ((k - S / 2) * (s - S / 2))) (root true S ((l - S / 2) * (t - S / 2)))) (g s t)) (Cconj (h k l))))))).
  { apply csum_ext; intros k Hk. apply csum_ext; intros l Hl. rewrite csum_mul_r. apply csum_ext; intros s Hs.
    rewrite csum_mul_r. reflexivity. }
  symmetry.
  transitivity (csum 0 S (fun s => csum 0 S (fun t => csum 0 S (fun k => csum 0 S (fun l =>
    Cmul (Cmul (Cmul (root true S ((k - S / 2) * (s - S / 2))) (root true S ((l - S / 2) * (t - S / 2)))) (g s t)) (Cconj (h k l))))))).
  { apply csum_ext; intros s Hs. apply csum_ext; intros t Ht. rewrite Cconj_csum, csum_mul_l. apply csum_ext; intros k Hk.
    rewrite Cconj_csum, csum_mul_l. apply csum_ext; intros l Hl. rewrite !Cconj_mul, !root_conj. cbn [negb].
    rewrite (Z.mul_comm (s - S / 2)), (Z.mul_comm (t - S / 2)).
    generalize (root true S ((k - S / 2) * (s - S / 2))) (root true S ((l - S / 2) * (t - S / 2))) (g s t) (Cconj (h k l)). csolve. }
  (* s t k l -> k l s t *)
  transitivity (csum 0 S (fun s => csum 0 S (fun k => csum 0 S (fun t => csum 0 S (fun l =>
    Cmul (Cmul (Cmul (root true S ((k - S / 2) * (s - S / 2))) (root true S ((l - S / 2) * (t - S / 2)))) (g s t)) (Cconj (h k l))))))).
  { apply csum_ext; intros s Hs. rewrite csum_swap. reflexivity. }
  rewrite csum_swap. apply csum_ext; intros k Hk.
  transitivity (csum 0 S (fun s => csum 0 S (fun l => csum 0 S (fun t =>
    Cmul (Cmul (Cmul (root true S ((k - S / 2) * (s - S / 2))) (root true S ((l - S / 2) * (t - S / 2)))) (g s t)) (Cconj (h k l)))))).
  { apply csum_ext; intros s Hs. rewrite csum_swap. reflexivity. }
  rewrite csum_swap. reflexivity.
Qed.
