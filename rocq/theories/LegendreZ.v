(** Integer bounds for the nodes and weights that the code computes: a checker and its soundness *)
From Coq Require Import Reals Lia Lra.
From Verif Require Import Base BaseFacts Legendre LegendreSpec LegendreFacts LegendreBounds CosQ CosZ Plane.
Open Scope Z_scope.

(** Powers of two as numerals *)
Notation z44 := 17592186044416%Z.
Notation z60 := 1152921504606846976%Z.
Notation z88 := 309485009821345068724781056%Z.
Notation z50 := 1125899906842624%Z.
Notation z100 := 1267650600228229401496703205376%Z.
Notation z241 := 3533694129556768659166595001485837031654967793751237916243212402585239552%Z.
Notation r44 := 17592186044416%R.
Notation r60 := 1152921504606846976%R.
Notation r36 := 68719476736%R.
Notation r50 := 1125899906842624%R.
Notation r40 := 1099511627776%R.
(** Approximations of P_n (z / 2^44) and P_(n+1) (z / 2^44), times 2^60 *)
Fixpoint legp (n : nat) (z : Z) : Z * Z :=
  match n with
  | O => (z60, z * 65536)
  | S m => let (a, b) := legp m z in let k := Z.of_nat m in (b, ((2 * k + 3) * Z.shiftr (z * b) 44 - (k + 1) * a) / (k + 2))
  end.
Definition ctr (z : Z) : R := (IZR z / r44)%R.
Definition perr (z : Z) (k : nat) : R := (leg k (ctr z) - IZR (fst (legp k z)) / r60)%R.
Lemma legp_fst z k : fst (legp (S k) z) = snd (legp k z).
Proof. cbn [legp]. destruct (legp k z). reflexivity. Qed.
Lemma perr_rec z k : exists d, (Rabs d <= 3 / r60 /\ (INR k + 2) * perr z (S (S k)) = (2 * INR k + 3) * ctr z * perr z (S k) - (INR k + 1) * perr z k + (INR k + 2) * d)%R.
Proof.
  unfold perr. rewrite (legp_fst z (S k)), (legp_fst z k). cbn [legp]. destruct (legp k z) as [a b]. cbn [fst snd]. cbv zeta. set (n := Z.of_nat k).
  set (s := Z.shiftr (z * b) 44). set (q := (((2 * n + 3) * s - (n + 1) * a) / (n + 2))%Z). assert (Hn : (0 <= n)%Z) by (unfold n; lia).
  pose proof (shift_lo (z * b) 44 ltac:(lia)) as S1. pose proof (shift_hi (z * b) 44 ltac:(lia)) as S2. fold s in S1, S2. change (2 ^ 44) with z44 in *.
  pose proof (div_lo ((2 * n + 3) * s - (n + 1) * a) (n + 2) ltac:(lia)) as D1. pose proof (div_hi ((2 * n + 3) * s - (n + 1) * a) (n + 2) ltac:(lia)) as D2. fold q in D1, D2.
  rewrite minus_IZR, !mult_IZR, !plus_IZR, !mult_IZR in *. assert (En : IZR n = INR k) by (unfold n; now rewrite <- INR_IZR_INZ). rewrite En in *.
  assert (Ez : IZR z = (ctr z * r44)%R) by (unfold ctr; field). rewrite Ez in *. pose proof (pos_INR k) as P. set (c := ctr z) in *. set (m := INR k) in *.
  exists (((2 * m + 3) * (c * (IZR b / r60)) - (m + 1) * (IZR a / r60)) / (m + 2) - IZR q / r60)%R. pose proof (bonnet k c) as B. fold m in B. split.
  - set (v := ((2 * m + 3) * (c * IZR b) - (m + 1) * IZR a - (m + 2) * IZR q)%R).
    replace (((2 * m + 3) * (c * (IZR b / r60)) - (m + 1) * (IZR a / r60)) / (m + 2) - IZR q / r60)%R with (v / ((m + 2) * r60))%R by (unfold v; field; lra).
    assert (V : (0 <= v <= 3 * (m + 2))%R).
    { assert (T1 : (IZR s <= c * IZR b)%R) by lra. assert (T2 : (c * IZR b <= IZR s + 1)%R) by lra.
      assert (U1 : ((2 * m + 3) * IZR s <= (2 * m + 3) * (c * IZR b))%R) by (apply Rmult_le_compat_l; lra). assert (U2 : ((2 * m + 3) * (c * IZR b) <= (2 * m + 3) * (IZR s + 1))%R) by (apply Rmult_le_compat_l; lra).
      unfold v. split; lra. }
    assert (P0 : (0 < (m + 2) * r60)%R) by lra. assert (X : (v / ((m + 2) * r60) * ((m + 2) * r60) = v)%R) by (field; lra).
    apply Rabs_le. split; apply Rmult_le_reg_r with ((m + 2) * r60)%R; try exact P0; rewrite X; lra.
  - replace ((m + 2) * (leg (S (S k)) c - IZR q / r60))%R with ((m + 2) * leg (S (S k)) c - (m + 2) * (IZR q / r60))%R by ring. rewrite B. field. lra.
Qed.
Lemma perr_bound z (n : nat) E : 0 < z < z44 -> 0 <= E -> 9 * Z.of_nat (S n) * Z.of_nat (S n) * z88 <= E * E * (z88 - z * z) -> (Rabs (perr z n) <= IZR E / r60 /\ Rabs (perr z (S n)) <= IZR E / r60)%R.
Proof.
  intros Hz HE H. assert (Hc : (0 < ctr z < 1)%R). { destruct Hz as [A B]. apply IZR_lt in A, B. unfold ctr. split; lra. }
  set (c := ctr z) in *. assert (Hs : (0 < 1 - c * c)%R) by nra. set (s := sqrt (1 - c * c)). assert (Ps : (0 < s)%R) by (apply sqrt_lt_R0; exact Hs).
  assert (Es : (s * s = 1 - c * c)%R) by (apply sqrt_sqrt; lra). assert (L : forall j, (s * Rabs (perr z (S j)) <= INR j * (3 / r60))%R).
  { intro j. apply (legendre_error c s (3 / r60) (perr z)); [lra|lra|lra| | |exact (perr_rec z)].
    - unfold perr. rewrite leg_0. cbn [legp fst]. lra.
    - unfold perr. rewrite leg_1, legp_fst. cbn [legp snd]. rewrite mult_IZR. unfold c, ctr. lra. }
  apply IZR_le in H, HE. rewrite !mult_IZR, minus_IZR, mult_IZR, <- INR_IZR_INZ in H. assert (Ez : IZR z = (c * r44)%R) by (unfold c, ctr; field). rewrite Ez in H.
  assert (H2 : (9 * (INR (S n) * INR (S n)) <= IZR E * IZR E * (s * s))%R) by (rewrite Es; lra).
  assert (H3 : (3 * INR (S n) <= IZR E * s)%R). { pose proof (pos_INR (S n)). assert (0 <= IZR E * s)%R by (apply Rmult_le_pos; lra). nra. }
  assert (G : forall j, (j <= n)%nat -> (Rabs (perr z (S j)) <= IZR E / r60)%R).
  { intros j Hj. specialize (L j). apply le_INR in Hj. rewrite S_INR in H3. apply Rmult_le_reg_l with s; [exact Ps|]. replace (s * (IZR E / r60))%R with (IZR E * s / r60)%R by (unfold Rdiv; ring). lra. }
  split; [|apply G; lia]. destruct n as [|n]; [|apply G; lia]. unfold perr. rewrite leg_0. cbn [legp fst]. replace (1 - r60 / r60)%R with 0%R by field. rewrite Rabs_R0. lra.
Qed.

(** Everything known about a node: centre cz / 2^44, bounds ce / 2^60, cd / 2^36, cD / 2^36 of the polynomial and its slope there, accuracy cE / 2^60 of their values, the angle ct / 2^31,
    radii cr, crho1, crho / 2^50 for the start and after one or two steps ([cup]: two steps are certain), and bounds cwl, cwh / 2^40 of the weight *)
Record cell := mk_cell { cz : Z; ce : Z; cE : Z; cd : Z; cD : Z; ct : Z; cr : Z; crho1 : Z; cup : bool; crho : Z; cwl : Z; cwh : Z }.
(** PI times 2^41, rounded down *)
Definition zpi41 : Z := 6908435304715.
Definition d2z (n : Z) : Z := (n - 1) * n * (n + 1) * (n + 2) / 8 + 1.
(** What is checked: a list of inequalities *)
Definition facts (m : nat) (i : Z) (C : cell) : list (Z * Z) :=
  let '(mk_cell z e E d D t r rho1 up rho wl wh) := C in
  let n := Z.of_nat (S m) in
  let (p1, p0) := legp m z in
  let K := z88 - z * z in
  let lo := n * ((p1 - E) * z44 - z * (p0 + E)) in let hi := n * ((p1 + E) * z44 - z * (p0 - E)) in
  let lo' := (if 0 <? lo then lo else - hi) * 1048576 in let hi' := (if 0 <? lo then hi else - lo) * 1048576 in
  let (cl, ch) := cos_start t in let n8 := 8 * n * n * n in let im := n8 - n + 1 in
  let glo := im * cl * 1024 - 524288 * n8 in let ghi := im * ch * 1024 + 524288 * n8 in
  let M := d2z n in let d14 := d * 16384 in let c := 64 * z in let cn := c * n8 in let e41 := e * 2199023255552 in
  let a := c - rho in let b := c + rho in let f := D * 16384 + M * rho in let g := d14 - M * rho in let q := 4 * i - 1 in let q' := 4 * n + 2 in
  [ (1, z); (z + 1, z44); (0, E); (9 * n * n * z88, E * E * K); (p0 + E, e); (E - p0, e); (1, e);
    (d * K, lo'); (hi', D * K);
    ((t - 1) * 1024 * q', zpi41 * q); ((zpi41 + 1) * q, (t + 1) * 1024 * q'); (0, q); (0, t); (t, 4294967296);
    (cn - r * n8, glo); (ghi, cn + r * n8); (0, r); (1, c - r); (c + r, z50 - 1); (M * r + 1, d14);
    (e41 + M * r * r, 2 * rho1 * (d14 - M * r)); (rho1, r); (0, rho1); (rho, rho1);
    (if up then ghi + (rho1 + 1024) * n8 else rho1, if up then cn else rho);
    (if up then e41 + M * rho1 * rho1 else 0, if up then 2 * rho * (d14 - M * rho1) else 0);
    (wl * ((z100 - a * a) * (f * f)), z241); (z241, wh * ((z100 - b * b) * (g * g))); (1, wl) ].
Definition leqs (l : list (Z * Z)) : bool := forallb (fun p => fst p <=? snd p) l.
Lemma leqs_ok l : leqs l = true -> Forall (fun p => fst p <= snd p) l.
Proof. intro H. apply Forall_forall. intros [a b] Hp. unfold leqs in H. rewrite forallb_forall in H. specialize (H _ Hp). now apply Z.leb_le in H. Qed.
Lemma d2z_ge n : (2 <= n)%nat -> (d2max n <= IZR (d2z (Z.of_nat n)))%R.
Proof.
  intro H. unfold d2z, d2max. rewrite INR_IZR_INZ. set (m := Z.of_nat n). set (v := ((m - 1) * m * (m + 1) * (m + 2))%Z).
  replace ((IZR m - 1) * IZR m * (IZR m + 1) * (IZR m + 2))%R with (IZR v) by (unfold v; rewrite !mult_IZR, minus_IZR, !plus_IZR; reflexivity).
  pose proof (Z.mul_succ_div_gt v 8 ltac:(lia)) as G. apply IZR_lt in G. rewrite mult_IZR, <- Z.add_1_r in G. lra.
Qed.
Lemma cos_lip a b : (Rabs (cos a - cos b) <= Rabs (a - b))%R.
Proof.
  destruct (mean cos (fun x => - sin x)%R b a derivable_pt_lim_cos) as (t & -> & _). rewrite Rabs_mult, Rabs_Ropp. pose proof (SIN_bound t). pose proof (Rabs_pos (a - b)).
  assert (Rabs (sin t) <= 1)%R by (apply Rabs_le; lra). nra.
Qed.

Section Sound.
Context (m : nat) (i : Z) (C : cell) (Hm : (2 <= m)%nat) (OK : leqs (facts m i C) = true).
Notation n := (S m).
Notation M := (IZR (d2z (Z.of_nat (S m)))).
Notation c := (ctr (cz C)).
Notation e := (IZR (ce C) / r60)%R.
Notation d := (IZR (cd C) / r36)%R.
Notation D := (IZR (cD C) / r36)%R.
Notation r := (IZR (cr C) / r50)%R.
Notation rho1 := (IZR (crho1 C) / r50)%R.
Notation rho := (IZR (crho C) / r50)%R.
Notation wl := (IZR (cwl C) / r40)%R.
Notation wh := (IZR (cwh C) / r40)%R.

Ltac start := pose proof (leqs_ok _ OK) as F; destruct C as [z e0 E d0 D0 t r0 rh1 up rh w1 w2] eqn:EC; cbn [cz ce cE cd cD ct cr crho1 cup crho cwl cwh] in *; unfold facts in F;
  destruct (legp m z) as [p1 p0] eqn:Ep; destruct (cos_start t) as [cl ch] eqn:Ec; cbv zeta in F;
  set (nz := Z.of_nat (S m)) in *; set (Mz := d2z nz) in *;
  repeat (let H := fresh "F" in apply Forall_cons_iff in F; destruct F as [H F]; cbn [fst snd] in H); clear F.
Ltac toR H := apply IZR_le in H; repeat first [rewrite mult_IZR in H | rewrite minus_IZR in H | rewrite plus_IZR in H].
Lemma sound_range : (0 <= r /\ 0 < c - r /\ c + r < 1 /\ rho1 <= r /\ M * r < d /\ e + M / 2 * (r * r) <= rho1 * (d - M * r) /\ 0 < e /\ 0 < wl /\ 0 <= rho1 /\ rho <= rho1)%R.
Proof.
  start. toR F16. toR F17. toR F18. toR F19. toR F20. toR F21. toR F22. toR F23. toR F6. toR F28. unfold ctr. repeat split; lra.
Qed.
Lemma sound_values : (Rabs (leg n c) <= e /\ d <= Rabs (dleg n c) <= D)%R.
Proof.
  destruct sound_range as (R1 & R2 & R3 & _ & R5 & _). start. assert (Hz : 0 < z < z44) by lia.
  pose proof (perr_bound z m E Hz F2 F3) as [B1 B0]. unfold perr in B1, B0. rewrite legp_fst in B0. rewrite Ep in B1, B0. cbn [fst snd] in *. set (x := ctr z) in *.
  assert (Ez : IZR z = (x * r44)%R) by (unfold x, ctr; field). apply rabs_in in B0. apply rabs_in in B1. toR F4. toR F5. split; [apply Rabs_le; lra|].
  pose proof (dleg_formula m x) as Dl. replace (INR m + 1)%R with (INR (S m)) in Dl by (now rewrite S_INR). set (N := INR (S m)) in *. assert (N0 : (0 <= N)%R) by (apply pos_INR). assert (En : IZR nz = N) by (unfold nz, N; now rewrite <- INR_IZR_INZ).
  set (lo := nz * ((p1 - E) * z44 - z * (p0 + E))) in *. set (hi := nz * ((p1 + E) * z44 - z * (p0 - E))) in *. assert (K : (0 < 1 - x * x)%R) by nra. set (y := dleg (S m) x) in *.
  assert (EK : (IZR (z88 - z * z) = (1 - x * x) * (r44 * r44))%R) by (rewrite minus_IZR, mult_IZR, Ez; lra).
  assert (L1 : (IZR lo <= (1 - x * x) * y * (r44 * r60))%R).
  { rewrite Dl. unfold lo. rewrite mult_IZR, minus_IZR, !mult_IZR, minus_IZR, plus_IZR, En, Ez.
    assert (x * (leg (S m) x * r60) <= x * (IZR p0 + IZR E))%R by (apply Rmult_le_compat_l; lra).
    apply Rle_trans with (N * ((leg m x - x * leg (S m) x) * (r44 * r60)))%R; [apply Rmult_le_compat_l; lra|lra]. }
  assert (L2 : ((1 - x * x) * y * (r44 * r60) <= IZR hi)%R).
  { rewrite Dl. unfold hi. rewrite mult_IZR, minus_IZR, !mult_IZR, minus_IZR, plus_IZR, En, Ez.
    assert (x * (IZR p0 - IZR E) <= x * (leg (S m) x * r60))%R by (apply Rmult_le_compat_l; lra).
    apply Rle_trans with (N * ((leg m x - x * leg (S m) x) * (r44 * r60)))%R; [lra|apply Rmult_le_compat_l; lra]. }
  apply IZR_le in F7. apply IZR_le in F8. rewrite (mult_IZR _ (z88 - z * z)), EK in F7. rewrite (mult_IZR _ (z88 - z * z)), EK in F8. set (k := (1 - x * x)%R) in *.
  assert (Q0 : (0 <= IZR d0)%R). { pose proof (d2z_ge (S m) ltac:(lia)) as G. fold nz Mz in G. assert (0 <= IZR Mz)%R; [|nra]. eapply Rle_trans; [apply Rabs_pos|]. eapply Rle_trans; [apply (proj1 (ddleg_le (S m) 1 ltac:(lra)))|assumption]. }
  clearbody y lo hi k. destruct (0 <? lo).
  - rewrite mult_IZR in F7, F8. assert (A1 : (IZR d0 / r36 <= y)%R). { apply Rmult_le_reg_l with k; [exact K|]. lra. }
    assert (A2 : (y <= IZR D0 / r36)%R). { apply Rmult_le_reg_l with k; [exact K|]. lra. } rewrite Rabs_right by lra. lra.
  - rewrite mult_IZR, opp_IZR in F7, F8. assert (A1 : (IZR d0 / r36 <= - y)%R). { apply Rmult_le_reg_l with k; [exact K|]. lra. }
    assert (A2 : (- y <= IZR D0 / r36)%R). { apply Rmult_le_reg_l with k; [exact K|]. lra. } rewrite Rabs_left1 by lra. lra.
Qed.
Lemma bound2 x : (0 <= x <= 1 -> Rabs (ddleg n x) <= M)%R.
Proof. intro H. eapply Rle_trans; [apply (proj1 (ddleg_le n x H))|]. apply d2z_ge. lia. Qed.
Lemma sound_guess : (Rabs (get_approx_legendre_root i (Z.of_nat n) - c) <= r /\ (cup C = true -> get_approx_legendre_root i (Z.of_nat n) + rho1 + 1 / 1099511627776 <= c))%R.
Proof.
  start. unfold get_approx_legendre_root. fold nz. pose proof (cos_start_ok t ltac:(change (2 ^ 32) with 4294967296; lia)) as [C1 C2]. rewrite Ec in C1, C2. cbn [fst snd] in C1, C2.
  set (q := 4 * i - 1) in *. set (q' := 4 * nz + 2) in *. assert (Hn : 3 <= nz) by (unfold nz; lia). assert (N : (3 <= IZR nz)%R) by (now apply IZR_le).
  assert (Q' : (0 < IZR q')%R) by (apply IZR_lt; unfold q'; lia). assert (Eq : IZR q = (4 * IZR i - 1)%R) by (unfold q; rewrite minus_IZR, mult_IZR; reflexivity).
  assert (Eq' : IZR q' = (4 * IZR nz + 2)%R) by (unfold q'; rewrite plus_IZR, mult_IZR; reflexivity). rewrite <- Eq, <- Eq'. set (f := (IZR q / IZR q')%R). replace (PI * IZR q / IZR q')%R with (PI * f)%R by (unfold f, Rdiv; ring).
  assert (Ef : (f * IZR q' = IZR q)%R) by (unfold f; field; lra). pose proof pi41 as [P1 P2]. fold zpi41 in P1, P2.
  assert (Hq : (0 <= IZR q)%R) by (apply IZR_le; assumption). assert (Pf : (0 <= f)%R) by (unfold f; apply Rmult_le_pos; [exact Hq|left; now apply Rinv_0_lt_compat]).
  assert (A : (Rabs (PI * f - IZR t / 2147483648) <= 1 / 2147483648)%R).
  { toR F9. toR F10. rewrite <- Ef in F9, F10.
    assert (T1 : ((IZR t - 1) / 2147483648 <= IZR zpi41 / 2199023255552 * f)%R) by (apply Rmult_le_reg_r with (IZR q'); [exact Q'|lra]).
    assert (T2 : ((IZR zpi41 + 1) / 2199023255552 * f <= (IZR t + 1) / 2147483648)%R) by (apply Rmult_le_reg_r with (IZR q'); [exact Q'|lra]).
    assert (U1 : (IZR zpi41 / 2199023255552 * f <= PI * f)%R) by (apply Rmult_le_compat_r; assumption). assert (U2 : (PI * f <= (IZR zpi41 + 1) / 2199023255552 * f)%R) by (apply Rmult_le_compat_r; assumption).
    apply Rabs_le. lra. }
  pose proof (cos_lip (PI * f) (IZR t / 2147483648)) as L. assert (L' : (Rabs (cos (PI * f) - cos (IZR t / 2147483648)) <= 1 / 2147483648)%R) by lra. apply rabs_in in L'. clear L A.
  set (v := cos (PI * f)) in *. set (n8 := 8 * nz * nz * nz) in *. assert (E8 : IZR n8 = (8 * IZR nz * IZR nz * IZR nz)%R) by (unfold n8; rewrite !mult_IZR; reflexivity).
  assert (H8 : 0 < n8 - nz + 1) by (unfold n8; nia). set (im := n8 - nz + 1) in *. assert (Ei : IZR im = (IZR n8 - IZR nz + 1)%R) by (unfold im; rewrite plus_IZR, minus_IZR; reflexivity).
  assert (P8 : (0 < IZR n8)%R) by (apply IZR_lt; unfold n8; repeat apply Z.mul_pos_pos; lia). apply IZR_lt in H8. assert (Il : (IZR im <= IZR n8)%R) by (rewrite Ei; lra).
  replace (1 - (1 - 1 / IZR nz) / (8 * IZR nz * IZR nz))%R with (IZR im / IZR n8)%R by (rewrite Ei, E8; field; lra). clearbody im n8 v f q q'. clear E8 Ei Eq Eq' Ef.
  set (g := (IZR im / IZR n8 * v)%R). assert (Eg : (g * IZR n8 = IZR im * v)%R) by (unfold g; field; lra).
  assert (G1 : (IZR im * IZR cl * 1024 - 524288 * IZR n8 <= g * r50 * IZR n8)%R).
  { replace (g * r50 * IZR n8)%R with (IZR im * (v * r50))%R by (transitivity (g * IZR n8 * r50)%R; [rewrite Eg|]; ring). assert (IZR im * (IZR cl * 1024 - 524288) <= IZR im * (v * r50))%R by (apply Rmult_le_compat_l; lra). lra. }
  assert (G2 : (g * r50 * IZR n8 <= IZR im * IZR ch * 1024 + 524288 * IZR n8)%R).
  { replace (g * r50 * IZR n8)%R with (IZR im * (v * r50))%R by (transitivity (g * IZR n8 * r50)%R; [rewrite Eg|]; ring). assert (IZR im * (v * r50) <= IZR im * (IZR ch * 1024 + 524288))%R by (apply Rmult_le_compat_l; lra). lra. }
  clearbody g. toR F14. toR F15. unfold ctr. split.
  - assert (A1 : ((64 * IZR z - IZR r0) <= g * r50)%R) by (apply Rmult_le_reg_r with (IZR n8); [exact P8|lra]). assert (A2 : (g * r50 <= 64 * IZR z + IZR r0)%R) by (apply Rmult_le_reg_r with (IZR n8); [exact P8|lra]).
    apply Rabs_le. lra.
  - intro Eu. rewrite Eu in F24. toR F24. assert (A1 : (g * r50 + (IZR rh1 + 1024) <= 64 * IZR z)%R) by (apply Rmult_le_reg_r with (IZR n8); [exact P8|lra]). lra.
Qed.
Lemma sound_two : (cup C = true -> e + M / 2 * (rho1 * rho1) <= rho * (d - M * rho1))%R.
Proof. intro Eu. start. rewrite Eu in *. toR F25. lra. Qed.
Lemma sound_same : cup C = false -> rho = rho1.
Proof. intro Eu. destruct sound_range as (_ & _ & _ & _ & _ & _ & _ & _ & _ & L). start. rewrite Eu in *. toR F24. lra. Qed.
Lemma sound_node acc x w : (0 <= acc <= 1 / 10 ^ 13)%R -> calculate_legendre_root i (Z.of_nat n) acc = Some (x, w) -> (Rabs (x - c) <= rho /\ w = 2 / ((1 - x * x) * dleg n x * dleg n x))%R.
Proof.
  intros Ha Er. destruct sound_range as (R1 & R2 & R3 & R4 & R5 & R6 & R7 & R8 & R9 & R10). destruct sound_values as (V1 & V2 & V3). destruct sound_guess as [G1 G2].
  destruct (cup C) eqn:Eu.
  - specialize (G2 eq_refl). pose proof (sound_two Eu) as R11. assert (Mp : (0 <= M)%R) by (eapply Rle_trans; [apply Rabs_pos|apply (bound2 1); lra]).
    assert (MR : (M * rho1 <= M * r)%R) by (apply Rmult_le_compat_l; assumption).
    unfold calculate_legendre_root in Er. change (MAX_NEWTON_RAPHSON_ITERATIONS - 1)%nat with (S 98) in Er. destruct (newton _ _ _ _ _) as [[[a b] D']|] eqn:N; cbn [bind] in Er; [|discriminate].
    apply (newton_two n c r e d rho1 M ltac:(lia) R2 R3 V1 V2 bound2 R6 R5 R4) in N; [|lra|exact G1|cbn [pow] in Ha; lra].
    destruct N as [A B]. assert (Bn : (Rabs (b - c) <= rho)%R).
    { rewrite B. apply (newton_step n c rho1 e d rho M); (assumption || exact bound2 || lra). }
    rewrite (inside n c rho1 e d M) in Er; [|lia|lra|lra|exact V1|exact V2|exact bound2|lra]. cbn [bind snd] in Er. injection Er as <- <-. auto.
  - rewrite (sound_same Eu). exact (root_in n c r e d rho1 M ltac:(lia) R2 R3 V1 V2 bound2 R6 R5 R4 i acc x w G1 Er).
Qed.
(** The node and weight that the code computes, and the zero of the polynomial nearby *)
Theorem cell_sound acc x w : (0 <= acc <= 1 / 10 ^ 13)%R -> calculate_legendre_root i (Z.of_nat n) acc = Some (x, w) ->
  (Rabs (x - c) <= rho /\ wl <= w <= wh /\ 0 < x < 1 /\ 0 < wl /\ w = 2 / ((1 - x * x) * dleg n x * dleg n x))%R.
Proof.
  intros Ha Er. destruct sound_range as (R1 & R2 & R3 & R4 & R5 & R6 & R7 & R8 & R9 & R10). destruct sound_values as (V1 & V2 & V3).
  destruct (sound_node acc x w Ha Er) as [X W].
  split; [exact X|]. pose proof X as X'. apply rabs_in in X'. assert (Mp : (0 <= M)%R) by (eapply Rle_trans; [apply Rabs_pos|apply (bound2 1); lra]).
  assert (Rp : (0 <= rho)%R) by (pose proof (Rabs_pos (x - c)); lra).
  assert (Lp : (Rabs (dleg n x - dleg n c) <= M * rho)%R).
  { eapply Rle_trans; [apply (dleg_lip n M c x bound2); lra|]. apply Rmult_le_compat_l; assumption. }
  pose proof (Rabs_triang_inv (dleg n x) (dleg n c)) as T1. pose proof (Rabs_triang_inv (dleg n c) (dleg n x)) as T2. rewrite (Rabs_minus_sym (dleg n c)) in T2.
  set (s := Rabs (dleg n x)) in *. assert (Sq : ((1 - x * x) * dleg n x * dleg n x = (1 - x * x) * (s * s))%R). { unfold s. rewrite <- Rabs_mult, (Rabs_right (dleg n x * dleg n x)) by nra. ring. }
  assert (MR : (M * rho <= M * r)%R) by (apply Rmult_le_compat_l; lra).
  assert (S1 : (0 < d - M * rho <= s)%R) by lra. assert (S2 : (s <= D + M * rho)%R) by lra.
  assert (K1 : (0 < 1 - (c + rho) * (c + rho) <= 1 - x * x)%R) by nra. assert (K2 : (1 - x * x <= 1 - (c - rho) * (c - rho))%R) by nra.
  split; [|repeat split; (lra || assumption)]. rewrite W, Sq.
  set (den := ((1 - x * x) * (s * s))%R). assert (Dp : (0 < den)%R) by (unfold den; apply Rmult_lt_0_compat; [lra|]; nra).
  assert (D1 : (den <= (1 - (c - rho) * (c - rho)) * ((D + M * rho) * (D + M * rho)))%R) by (unfold den; apply Rmult_le_compat; nra).
  assert (D2 : ((1 - (c + rho) * (c + rho)) * ((d - M * rho) * (d - M * rho)) <= den)%R) by (unfold den; apply Rmult_le_compat; nra).
  assert (X1 : (wl * ((1 - (c - rho) * (c - rho)) * ((D + M * rho) * (D + M * rho))) <= 2)%R).
  { clear - OK. start. toR F26. unfold ctr. lra. }
  assert (X2 : (2 <= wh * ((1 - (c + rho) * (c + rho)) * ((d - M * rho) * (d - M * rho))))%R).
  { clear - OK. start. toR F27. unfold ctr. lra. }
  split; apply Rmult_le_reg_r with den; try exact Dp; unfold Rdiv; rewrite ?Rmult_assoc, ?Rinv_l, ?Rmult_1_r by lra.
  - rewrite <- Rmult_assoc. change (wl * den <= 2)%R. eapply Rle_trans; [apply Rmult_le_compat_l; [lra|exact D1]|]. lra.
  - rewrite <- Rmult_assoc. change (2 <= wh * den)%R. assert (0 <= wh)%R.
    { destruct (Rlt_or_le wh 0); [exfalso|assumption]. assert (0 < (1 - (c + rho) * (c + rho)) * ((d - M * rho) * (d - M * rho)))%R by (apply Rmult_lt_0_compat; [lra|]; nra). nra. }
    eapply Rle_trans; [|apply Rmult_le_compat_l; [assumption|exact D2]]. lra.
Qed.
Theorem cell_root : (exists y, leg n y = 0 /\ Rabs (y - c) <= rho)%R.
Proof.
  destruct sound_range as (R1 & R2 & R3 & R4 & R5 & R6 & R7 & R8 & R9 & R10). destruct sound_values as (V1 & V2 & V3).
  assert (Mp : (0 < M)%R).
  { eapply Rlt_le_trans; [|apply d2z_ge; lia]. unfold d2max. assert (3 <= INR n)%R by (replace 3%R with (INR 3) by (cbn; ring); apply le_INR; lia).
    assert (0 < (INR n - 1) * INR n * (INR n + 1) * (INR n + 2))%R; [|lra]. repeat apply Rmult_lt_0_compat; lra. }
  destruct (cup C) eqn:Eu.
  - pose proof (sound_two Eu) as R11. assert (MR : (M * rho1 <= M * r)%R) by (apply Rmult_le_compat_l; lra).
    apply (true_root n c rho1 e d rho M); (assumption || exact bound2 || lra).
  - rewrite (sound_same Eu). apply (true_root n c r e d rho1 M R2 R3 V1 V2 bound2 R6 R5 R4 R7 Mp).
Qed.
End Sound.
