(** Soundness of the bounds of CorrectionCells.v *)
From Coq Require Import Reals Lia Lra QArith Qreals.
From Verif Require Import Base BaseFacts EsParams LegendreFacts LegendreBounds CosQ CosZ Plane LegendreZ QuadratureCells QuadratureFacts2 CorrectionCells.
Open Scope Z_scope.
Notation s24 := 16777216%R.
Notation s32 := 4294967296%R.

(** Powers *)
Lemma sq_down_ok n : forall v x, 0 <= v -> (IZR v <= x * s24)%R -> 0 <= sq_down n v /\ (IZR (sq_down n v) <= x ^ (2 ^ n) * s24)%R.
Proof.
  induction n as [|n IH]; intros v x Hv H; [cbn [sq_down Nat.pow]; rewrite pow_1; auto|]. cbn [sq_down]. replace (x ^ (2 ^ S n))%R with ((x * x) ^ (2 ^ n))%R.
  - apply IH; [apply Z.shiftr_nonneg; nia|]. pose proof (shift_lo (v * v) 24 ltac:(lia)) as S1. change (2 ^ 24) with 16777216 in S1. rewrite mult_IZR in S1. apply IZR_le in Hv.
    assert (IZR v * IZR v <= (x * s24) * (x * s24))%R by (apply Rmult_le_compat; assumption). lra.
  - change (2 ^ S n)%nat with (2 * 2 ^ n)%nat. rewrite pow_mult. f_equal. ring.
Qed.
Lemma sq_up_ok n : forall v x, (0 <= x)%R -> (x * s24 <= IZR v)%R -> (x ^ (2 ^ n) * s24 <= IZR (sq_up n v))%R.
Proof.
  induction n as [|n IH]; intros v x Hx H; [cbn [sq_up Nat.pow]; rewrite pow_1; auto|]. cbn [sq_up]. replace (x ^ (2 ^ S n))%R with ((x * x) ^ (2 ^ n))%R.
  - apply IH; [nra|]. pose proof (shift_hi (v * v) 24 ltac:(lia)) as S1. change (2 ^ 24) with 16777216 in S1. rewrite mult_IZR in S1. rewrite plus_IZR.
    assert ((x * s24) * (x * s24) <= IZR v * IZR v)%R by (apply Rmult_le_compat; lra). lra.
  - change (2 ^ S n)%nat with (2 * 2 ^ n)%nat. rewrite pow_mult. f_equal. ring.
Qed.
Lemma exp_split y : exp (- y) = (exp (- (y / 64)) ^ (2 ^ 6))%R.
Proof.
  assert (G : forall n t, (exp t ^ (2 ^ n) = exp (t * 2 ^ n))%R).
  { induction n as [|n IH]; intro t; [cbn [Nat.pow pow]; now rewrite !Rmult_1_r|]. change (2 ^ S n)%nat with (2 * 2 ^ n)%nat. rewrite pow_mult. replace (exp t ^ 2)%R with (exp (t + t)) by (rewrite exp_plus; ring).
    rewrite IH. f_equal. cbn [pow]. ring. }
  rewrite G. f_equal. cbn [pow]. field.
Qed.
(** exp between polynomials *)
Lemma dl_expn x : derivable_pt_lim (fun t => exp (- t)%R) x (- exp (- x))%R.
Proof. eapply dl_val; [|apply (derivable_pt_lim_comp Ropp exp); [apply (derivable_pt_lim_opp id); apply derivable_pt_lim_id|apply derivable_pt_lim_exp]]. ring. Qed.
Lemma exp_above x : (0 <= x -> exp (- x) <= 1 - x + x * x / 2)%R.
Proof.
  intros [H|H]; [|rewrite <- H, Ropp_0, exp_0; lra].
  destruct (MVT_cor2 (fun t => 1 - t + t * t / 2 - exp (- t))%R (fun t => -1 + t + exp (- t))%R 0 x H) as (c & E & C).
  - intros c _. eapply dl_val; [|apply (dl_sub (fun t => 1 - t + t * t / 2)%R (fun t => exp (- t)%R)); [|apply dl_expn]; apply (dl_add (fun t => 1 - t)%R (fun t => t * t / 2)%R); [apply (dl_sub (fun _ => 1%R) (fun t => t)); [apply dl_const|apply dl_id]|];
      apply (dl_ext (fun t => / 2 * (t * t))%R); [intro; field|]; apply (dl_scal (/ 2) (fun t => t * t)%R); apply (dl_mul (fun t => t) (fun t => t)); apply dl_id]. field.
  - rewrite Ropp_0, exp_0 in E. pose proof (exp_ineq1_le (- c)) as I. assert (0 <= (-1 + c + exp (- c)) * (x - 0))%R by (apply Rmult_le_pos; lra). lra.
Qed.
Lemma exp_below x : (0 <= x -> 1 - x + x * x / 2 - x * x * x / 6 <= exp (- x))%R.
Proof.
  intros [H|H]; [|rewrite <- H, Ropp_0, exp_0; lra].
  destruct (MVT_cor2 (fun t => exp (- t) - (1 - t + t * t / 2 - t * t * t / 6))%R (fun t => - exp (- t) - (-1 + t - t * t / 2))%R 0 x H) as (c & E & C).
  - intros c _. apply (dl_sub (fun t => exp (- t)%R) (fun t => 1 - t + t * t / 2 - t * t * t / 6)%R); [apply dl_expn|]. eapply dl_val; [|apply (dl_sub (fun t => 1 - t + t * t / 2)%R (fun t => t * t * t / 6)%R);
      [apply (dl_add (fun t => 1 - t)%R (fun t => t * t / 2)%R); [apply (dl_sub (fun _ => 1%R) (fun t => t)); [apply dl_const|apply dl_id]|];
        apply (dl_ext (fun t => / 2 * (t * t))%R); [intro; field|]; apply (dl_scal (/ 2) (fun t => t * t)%R); apply (dl_mul (fun t => t) (fun t => t)); apply dl_id|];
      apply (dl_ext (fun t => / 6 * (t * t * t))%R); [intro; field|]; apply (dl_scal (/ 6) (fun t => t * t * t)%R); apply (dl_mul (fun t => t * t)%R (fun t => t)); [apply (dl_mul (fun t => t) (fun t => t)); apply dl_id|apply dl_id]]. field.
  - rewrite Ropp_0, exp_0 in E. pose proof (exp_above c ltac:(lra)) as I. assert (0 <= (- exp (- c) - (-1 + c - c * c / 2)) * (x - 0))%R by (apply Rmult_le_pos; lra). lra.
Qed.
Lemma exp_lo_ok y u : (0 <= y)%R -> (y * s24 <= 64 * IZR u)%R -> 0 <= exp_lo u /\ (IZR (exp_lo u) <= exp (- y) * s24)%R.
Proof.
  intros Hy H. unfold exp_lo. cbv zeta. set (q := Z.shiftr (u * u) 25). set (c := Z.shiftr ((q + 1) * u) 25). set (v := S24 - u + q - c - 1). rewrite exp_split. apply sq_down_ok; [lia|].
  pose proof (exp_pos (- (y / 64))) as P. destruct (Z.max_spec 0 v) as [[_ ->] | [_ ->]]; [|lra].
  pose proof (shift_lo (u * u) 25 ltac:(lia)) as A. pose proof (shift_hi (u * u) 25 ltac:(lia)) as B. pose proof (shift_hi ((q + 1) * u) 25 ltac:(lia)) as C. fold q in A, B. fold c in C. change (2 ^ 25) with 33554432 in *. rewrite mult_IZR in A, B. rewrite mult_IZR, plus_IZR in C.
  unfold v. rewrite !minus_IZR, plus_IZR, minus_IZR. change (IZR S24) with s24. set (U := (IZR u / s24)%R). assert (EU : IZR u = (U * s24)%R) by (unfold U; field). rewrite EU in *.
  assert (U0 : (0 <= U)%R) by lra. pose proof (exp_below U U0) as E. assert (M : (exp (- U) <= exp (- (y / 64)))%R). { destruct (Req_dec U (y / 64)) as [->|N]; [lra|]. left. apply exp_increasing. lra. }
  assert (C2 : (U * (U * U) / 4 <= (IZR c + 1) / s24)%R). { assert (U * (U * U) * s24 * s24 <= U * (2 * (IZR q + 1) * s24))%R by (assert (U * U * s24 * s24 <= 2 * (IZR q + 1) * s24)%R by lra; nra). lra. }
  assert (Q : (IZR q / s24 <= U * U / 2)%R) by lra. assert (T : (0 <= U * (U * U))%R) by (apply Rmult_le_pos; [exact U0|apply Rle_0_sqr]). lra.
Qed.
Lemma exp_hi_ok y u : 0 <= u -> (64 * IZR u <= y * s24)%R -> (exp (- y) * s24 <= IZR (exp_hi u))%R.
Proof.
  intros Hu H. unfold exp_hi. rewrite exp_split. apply sq_up_ok; [left; apply exp_pos|]. pose proof (shift_hi (u * u) 25 ltac:(lia)) as B. change (2 ^ 25) with 33554432 in *. rewrite mult_IZR in B. apply IZR_le in Hu.
  rewrite !plus_IZR, minus_IZR. change (IZR S24) with s24. set (U := (IZR u / s24)%R). assert (EU : IZR u = (U * s24)%R) by (unfold U; field). rewrite EU in *. pose proof (exp_above U ltac:(lra)) as E.
  assert (M : (exp (- (y / 64)) <= exp (- U))%R). { destruct (Req_dec U (y / 64)) as [->|N]; [lra|]. left. apply exp_increasing. lra. } lra.
Qed.

(** Square roots *)
Definition near_node (nd : node) (e : R * R) : Prop := let '(c, w, dl, dh) := nd in near24 (c, w) e /\ node_ok nd = true /\ (IZR dl <= (1 - sqrt (1 - fst e * fst e)) * s24 <= IZR dh)%R.
Lemma node_ok_near cw e : near24 cw e -> node_ok (make_node cw) = true -> near_node (make_node cw) e.
Proof.
  destruct cw as [c w]. destruct e as [x v]. intros Nr O. unfold make_node in *. unfold near_node. split; [exact Nr|]. split; [exact O|]. destruct Nr as (Hc & _ & Hx). cbn [fst snd] in *. unfold node_ok in O.
  apply andb_prop in O. destruct O as [O _]. apply andb_prop in O. destruct O as [O _]. apply andb_prop in O. destruct O as [H1 H2]. apply Z.leb_le in H1, H2. unfold S24 in *. apply IZR_le in H1, H2. rewrite plus_IZR in H2.
  assert (Sq : (sqrt (1 - x * x) * sqrt (1 - x * x) = 1 - x * x)%R) by (apply sqrt_sqrt; nra). pose proof (sqrt_pos (1 - x * x)) as Sp. set (r := sqrt (1 - x * x)) in *.
  assert (Pos : forall u v : R, (0 <= u)%R -> (0 <= v)%R -> (u * u <= v * v)%R -> (u <= v)%R) by (intros u v0 A B D; nra). rewrite !minus_IZR. split.
  - set (m := 281474976710656 - (c - 1) * (c - 1)). assert (Em : IZR m = (s24 * s24 - (IZR c - 1) * (IZR c - 1))%R) by (unfold m; rewrite minus_IZR, !mult_IZR, minus_IZR; lra).
    assert (Nm : 0 <= m) by (apply le_IZR; rewrite Em; nra). pose proof (Z.sqrt_spec m Nm) as [_ A]. pose proof (Z.sqrt_nonneg m) as B. apply IZR_lt in A. apply IZR_le in B. rewrite mult_IZR, succ_IZR in A. set (q := IZR (Z.sqrt m)) in *.
    assert (r * s24 <= q + 1)%R; [|lra]. apply Pos; [nra|lra|]. replace (r * s24 * (r * s24))%R with ((r * r) * (s24 * s24))%R by ring. rewrite Sq. nra.
  - set (m := 281474976710656 - (c + 1) * (c + 1)). assert (Em : IZR m = (s24 * s24 - (IZR c + 1) * (IZR c + 1))%R) by (unfold m; rewrite minus_IZR, !mult_IZR, plus_IZR; lra).
    assert (Nm : 0 <= m) by (apply le_IZR; rewrite Em; nra). pose proof (Z.sqrt_spec m Nm) as [A _]. pose proof (Z.sqrt_nonneg m) as B. apply IZR_le in A, B. rewrite mult_IZR in A. set (q := IZR (Z.sqrt m)) in *.
    assert (q <= r * s24)%R; [|lra]. apply Pos; [exact B|nra|]. replace (r * s24 * (r * s24))%R with ((r * r) * (s24 * s24))%R by ring. rewrite Sq. nra.
Qed.

(** The weighted kernel at a node *)
Definition weight (beta : R) (e : R * R) : R := (snd e * exp (beta * (sqrt (1 - fst e * fst e) - 1)))%R.
Definition in_amp (a : Z * Z) (v : R) : Prop := (0 <= IZR (fst a) <= v * 1048576 /\ v * 1048576 <= IZR (snd a))%R.
Lemma amp_ok B beta nd e : 0 <= B -> (IZR B <= beta * 16384 <= IZR B + 1)%R -> near_node nd e -> in_amp (amp B nd) (weight beta e).
Proof.
  destruct nd as [[[c w] dl] dh]. destruct e as [x v]. intros HB Hb ((_ & Hw & Hx) & O & Hd). cbn [fst snd] in *. unfold in_amp, amp, weight. cbn [fst snd]. unfold node_ok in O.
  apply andb_prop in O. destruct O as [O K4]. apply andb_prop in O. destruct O as [_ K3]. apply Z.leb_le in K3, K4. set (r := sqrt (1 - x * x)) in *. replace (beta * (r - 1))%R with (- (beta * (1 - r)))%R by ring.
  apply IZR_le in HB. assert (K4' : (0 <= IZR dl)%R) by (now apply IZR_le). assert (Y0 : (0 <= beta * (1 - r))%R) by (apply Rmult_le_pos; lra).
  pose proof (shift_hi ((B + 1) * dh) 20 ltac:(lia)) as A1. pose proof (shift_lo (B * dl) 20 ltac:(lia)) as A2. change (2 ^ 20) with 1048576 in *. rewrite mult_IZR, plus_IZR in A1. rewrite mult_IZR in A2.
  assert (U1 : ((beta * 16384) * ((1 - r) * s24) <= (IZR B + 1) * IZR dh)%R) by (apply Rmult_le_compat; lra). assert (U2 : (IZR B * IZR dl <= (beta * 16384) * ((1 - r) * s24))%R) by (apply Rmult_le_compat; lra).
  destruct (exp_lo_ok (beta * (1 - r)) (Z.shiftr ((B + 1) * dh) 20 + 1) Y0 ltac:(rewrite plus_IZR; lra)) as [L0 L1].
  pose proof (exp_hi_ok (beta * (1 - r)) (Z.shiftr (B * dl) 20) ltac:(apply Z.shiftr_nonneg; apply le_IZR in HB; nia) ltac:(lra)) as L2. set (q := exp _) in *. set (el := exp_lo _) in *. set (eh := exp_hi _) in *. assert (Pq : (0 < q)%R) by apply exp_pos.
  pose proof (shift_lo ((w - 1) * el) 28 ltac:(lia)) as D1. pose proof (shift_hi ((w + 1) * eh) 28 ltac:(lia)) as D2. change (2 ^ 28) with 268435456 in *. rewrite mult_IZR, minus_IZR in D1. rewrite mult_IZR, plus_IZR in D2. assert (K3' : (1 <= IZR w)%R) by (now apply IZR_le). assert (L0' : (0 <= IZR el)%R) by (now apply IZR_le).
  assert (M1 : ((IZR w - 1) * IZR el <= (v * s24) * (q * s24))%R) by (apply Rmult_le_compat; lra).
  assert (M2 : ((v * s24) * (q * s24) <= (IZR w + 1) * IZR eh)%R) by (apply Rmult_le_compat; nra).
  split; [split|].
  - apply IZR_le. apply Z.shiftr_nonneg. apply Z.mul_nonneg_nonneg; lia.
  - lra.
  - rewrite plus_IZR. lra.
Qed.

(** cos *)
Definition vseq (k : Z) : nat -> Z * Z := fix v j := match j with O => (4294967296, k) | S j => let (a, b) := v j in (b, Z.shiftr (2 * k * b) 32 - a) end.
Lemma cos_rec (t : R) (j : nat) : (cos (INR (S (S j)) * t) = 2 * cos t * cos (INR (S j) * t) - cos (INR j * t))%R.
Proof.
  rewrite !S_INR. set (a := ((INR j + 1) * t)%R). replace ((INR j + 1 + 1) * t)%R with (a + t)%R by (unfold a; ring). replace (INR j * t)%R with (a - t)%R by (unfold a; ring).
  rewrite cos_plus, cos_minus. ring.
Qed.
Lemma vseq_error k th (J : nat) : (IZR k <= cos th * s32 <= IZR k + 2)%R -> (0 < sin th)%R -> (forall j, (j < J)%nat -> -8589934592 <= snd (vseq k j) <= 8589934592) ->
  forall j, (j <= J)%nat -> (sin th * Rabs (cos (INR j * th) - IZR (fst (vseq k j)) / s32) <= INR j * (9 / s32))%R.
Proof.
  intros Hk Hs Hv. set (e := fun j => (cos (INR j * th) - IZR (fst (vseq k j)) / s32)%R).
  (* beyond J the recurrence is continued without errors *)
  set (f := fix f (j : nat) : R * R := match j with O => (e 0%nat, e 1%nat) | S j => let (a, b) := f j in (b, if Nat.ltb (S j) J then e (S (S j)) else 2 * cos th * b - a)%R end).
  assert (Ff : forall j, fst (f (S j)) = snd (f j)) by (intro j; cbn [f]; destruct (f j); reflexivity).
  assert (Fs : forall j, snd (f (S j)) = (if Nat.ltb (S j) J then e (S (S j)) else 2 * cos th * snd (f j) - fst (f j))%R) by (intro j; cbn [f]; destruct (f j); reflexivity).
  assert (Fe : forall j, (j < J)%nat -> fst (f j) = e j /\ snd (f j) = e (S j)).
  { induction j as [|j IH]; intro H; [split; reflexivity|]. destruct (IH ltac:(lia)) as [I1 I2]. rewrite Ff, Fs. split; [exact I2|]. destruct (Nat.ltb_spec (S j) J); [reflexivity|lia]. }
  assert (V1 : forall j, fst (vseq k (S j)) = snd (vseq k j)) by (intro j; cbn [vseq]; destruct (vseq k j); reflexivity).
  assert (E0 : e 0%nat = 0%R) by (unfold e; cbn [vseq fst INR]; rewrite Rmult_0_l, cos_0; field).
  assert (E1 : (Rabs (e 1%nat) <= 9 / s32)%R) by (unfold e; rewrite V1; cbn [vseq snd INR]; rewrite Rmult_1_l; apply Rabs_le; lra).
  assert (Rec : forall j, exists d, (Rabs d <= 9 / s32 /\ fst (f (S (S j))) = 2 * cos th * fst (f (S j)) - fst (f j) + d)%R).
  { intro j. rewrite !Ff, Fs. destruct (Nat.ltb_spec (S j) J) as [L|L].
    - destruct (Fe j ltac:(lia)) as [I1 I2]. rewrite I1, I2. exists (e (S (S j)) - 2 * cos th * e (S j) + e j)%R. split; [|ring]. unfold e. rewrite cos_rec, (V1 (S j)), (V1 j). cbn [vseq].
      pose proof (Hv j ltac:(lia)) as B. destruct (vseq k j) as [a b]. cbn [fst snd] in *. pose proof (shift_lo (2 * k * b) 32 ltac:(lia)) as S1. pose proof (shift_hi (2 * k * b) 32 ltac:(lia)) as S2. change (2 ^ 32) with 4294967296 in *. rewrite !mult_IZR in S1, S2. rewrite minus_IZR. set (z := IZR (Z.shiftr _ _)) in *.
      destruct B as [B1 B2]. apply IZR_le in B1, B2. set (y := IZR b) in *. set (c := cos th) in *. set (kk := IZR k) in *.
      replace (2 * c * cos (INR (S j) * th) - cos (INR j * th) - (z - IZR a) / s32 - 2 * c * (cos (INR (S j) * th) - y / s32) + (cos (INR j * th) - IZR a / s32))%R with ((2 * c * y - z) / s32)%R by field.
      assert (D : (Rabs ((c * s32 - kk) * y) <= 2 * 8589934592)%R). { rewrite Rabs_mult. apply Rmult_le_compat; try apply Rabs_pos; apply Rabs_le; lra. }
      apply rabs_in in D. apply Rabs_le. split; lra.
    - exists 0%R. rewrite Rabs_R0. split; lra. }
  intros [|j] Hj.
  - change (sin th * Rabs (e 0%nat) <= INR 0 * (9 / s32))%R. rewrite E0, Rabs_R0. cbn [INR]. lra.
  - pose proof (cosine_error (cos th) (sin th) (9 / s32) (fun j => fst (f j))) as L. change (sin th * Rabs (e (S j)) <= INR (S j) * (9 / s32))%R. rewrite S_INR.
    destruct (Fe j ltac:(lia)) as [_ I2]. rewrite <- I2, <- Ff. apply L; [|lra|lra|exact E0| |exact Rec].
    + pose proof (sin2_cos2 th) as Q. unfold Rsqr in Q. lra.
    + cbn [f fst]. exact E1.
Qed.
(** The j-th list of angles *)
Definition vstep (k : Z) (p : Z * Z) : Z * Z := let (a, b) := p in (b, Z.shiftr (2 * k * b) 32 - a).
Lemma vseq_angle k j : forall v0 v1, Nat.iter j next_angle (k, v0, v1) = (k, fst (Nat.iter j (vstep k) (v0, v1)), snd (Nat.iter j (vstep k) (v0, v1))).
Proof. induction j as [|j IH]; intros; [reflexivity|]. change (Nat.iter (S j) next_angle (k, v0, v1)) with (next_angle (Nat.iter j next_angle (k, v0, v1))). rewrite IH. change (Nat.iter (S j) (vstep k) (v0, v1)) with (vstep k (Nat.iter j (vstep k) (v0, v1))). destruct (Nat.iter j _ (v0, v1)) as [a b]. reflexivity. Qed.
Lemma vseq_iter k j : vseq k j = Nat.iter j (vstep k) (4294967296, k).
Proof. induction j as [|j IH]; [reflexivity|]. change (vseq k (S j)) with (vstep k (vseq k j)). rewrite IH. reflexivity. Qed.
Lemma angles_nth J : forall l j, (j < J)%nat -> nth j (angles J l) [] = map (Nat.iter j next_angle) l.
Proof.
  induction J as [|J IH]; intros l j H; [lia|]. cbn [angles]. destruct j as [|j]; [cbn [nth Nat.iter]; symmetry; rewrite <- (map_id l) at 2; reflexivity|].
  cbn [nth]. rewrite IH by lia. rewrite map_map. apply map_ext. intro a. change (Nat.iter (S j) next_angle a) with (next_angle (Nat.iter j next_angle a)). clear. induction j as [|j IH]; [reflexivity|]. change (Nat.iter (S j) next_angle (next_angle a)) with (next_angle (Nat.iter j next_angle (next_angle a))). now rewrite IH.
Qed.
Lemma angles_length J : forall l, length (angles J l) = J.
Proof. induction J as [|J IH]; intro l; [reflexivity|]. cbn [angles length]. now rewrite IH. Qed.
Lemma cos_low_ok (J : nat) nd e : near_node nd e -> first_ok (Z.of_nat J) nd = true -> Z.of_nat J <= 512 -> (forall j, (j < J)%nat -> angle_ok (Nat.iter j next_angle (first_angle nd)) = true) ->
  forall j, (j < J)%nat -> (IZR (out (Nat.iter j next_angle (first_angle nd))) <= cos (INR j / 4 * fst e) * 65536)%R.
Proof.
  destruct nd as [[[c w] dl] dh]. destruct e as [x v]. intros ((Hc & _ & Hx) & O & _) F HJ Hv j Hj. cbn [fst snd] in *. unfold node_ok in O. apply andb_prop in O. destruct O as [O _]. apply andb_prop in O. destruct O as [O _]. apply andb_prop in O. destruct O as [H1 H2]. apply Z.leb_le in H1, H2. unfold S24 in *.
  unfold first_ok, first_angle in *. set (k := Z.shiftr (fst (cos_start (32 * c))) 8) in *. apply andb_prop in F. destruct F as [F1 F2]. apply Z.leb_le in F1, F2.
  pose proof (cos_start_ok (32 * c) ltac:(change (2 ^ 32) with 4294967296; lia)) as [C1 C2]. set (th := (IZR (32 * c) / 2147483648)%R) in *. pose proof (shift_lo (fst (cos_start (32 * c))) 8 ltac:(lia)) as S1. fold k in S1. change (2 ^ 8) with 256 in *.
  apply IZR_le in F1. rewrite mult_IZR, plus_IZR in F1. assert (Hk : (IZR k <= cos th * s32 <= IZR k + 2)%R) by (split; lra).
  assert (Et : th = (IZR c / 67108864)%R) by (unfold th; rewrite mult_IZR; field). assert (Rc : (1 <= IZR c <= 16777215)%R) by (split; apply IZR_le; lia).
  assert (Hs : (0 < sin th)%R) by (apply sin_gt_0; [rewrite Et; lra|]; pose proof PI2_3_2; rewrite Et; lra).
  assert (Vb : forall i, (i < J)%nat -> -8589934592 <= snd (vseq k i) <= 8589934592).
  { intros i Hi. specialize (Hv i Hi). rewrite vseq_angle, <- vseq_iter in Hv. unfold angle_ok in Hv. apply andb_prop in Hv. destruct Hv as [A B]. apply Z.leb_le in A, B. lia. }
  pose proof (vseq_error k th J Hk Hs Vb j ltac:(lia)) as L. rewrite vseq_angle, <- vseq_iter. unfold out. set (a := fst (vseq k j)) in *.
  (* the sine is large enough *)
  assert (Sn : (9 * 2 * (INR J + 1) <= 3 * 65536 * sin th)%R).
  { apply IZR_le in F2. rewrite !mult_IZR, minus_IZR, mult_IZR, !plus_IZR, <- INR_IZR_INZ in F2. pose proof (sin2_cos2 th) as Q. unfold Rsqr in Q. pose proof (pos_INR J) as PJ.
    assert (K0 : (-1 <= IZR k)%R). { assert (0 < cos th)%R by (apply cos_gt_0; pose proof PI2_3_2; rewrite Et; lra). assert (-2 < IZR k)%R by lra. change (-2)%R with (IZR (-2)) in H0. apply lt_IZR in H0. apply IZR_le. lia. }
    assert (Cs : (0 <= cos th * s32 <= IZR k + 2)%R). { assert (0 < cos th)%R by (apply cos_gt_0; pose proof PI2_3_2; rewrite Et; lra). lra. }
    assert (C3 : ((cos th * s32) * (cos th * s32) <= (IZR k + 2) * (IZR k + 2))%R) by (apply Rmult_le_compat; lra).
    assert (G : ((9 * 2 * (INR J + 1)) * (9 * 2 * (INR J + 1)) <= (3 * 65536 * sin th) * (3 * 65536 * sin th))%R) by (replace ((3 * 65536 * sin th) * (3 * 65536 * sin th))%R with (38654705664 * (sin th * sin th))%R by ring; replace (sin th * sin th)%R with (1 - cos th * cos th)%R by lra; lra).
    nra. }
  assert (Le : (Rabs (cos (INR j * th) - IZR a / s32) <= 3 / 131072)%R).
  { apply Rmult_le_reg_l with (sin th); [exact Hs|]. eapply Rle_trans; [exact L|]. apply lt_INR in Hj. lra. }
  apply rabs_in in Le. pose proof (cos_lip (INR j * th) (INR j / 4 * x)) as Li. assert (Dx : (Rabs (INR j * th - INR j / 4 * x) <= 1 / 131072)%R).
  { assert (Hj' : (INR j <= 512)%R). { rewrite INR_IZR_INZ. apply IZR_le. lia. } pose proof (pos_INR j) as Pj. rewrite Et. replace (INR j * (IZR c / 67108864) - INR j / 4 * x)%R with (INR j * (IZR c - x * s24) / 67108864)%R by field.
    assert (Rabs (INR j * (IZR c - x * s24)) <= 512 * 1)%R by (rewrite Rabs_mult, (Rabs_right (INR j)) by lra; apply Rmult_le_compat; [lra|apply Rabs_pos|lra|apply Rabs_le; lra]).
    unfold Rdiv. rewrite Rabs_mult, (Rabs_right (/ 67108864)) by lra. lra. }
  assert (Li' : (Rabs (cos (INR j * th) - cos (INR j / 4 * x)) <= 1 / 131072)%R) by lra. apply rabs_in in Li'.
  pose proof (shift_lo a 16 ltac:(lia)) as S2. change (2 ^ 16) with 65536 in *. rewrite minus_IZR. lra.
Qed.

(** Sums over the nodes *)
Definition wsum (beta : R) (f : R -> R) (l : list (R * R)) : R := fold_right (fun e a => (weight beta e * f (fst e) + a)%R) 0%R l.
Lemma amps_ok B beta (HB : 0 <= B) (Hb : (IZR B <= beta * 16384 <= IZR B + 1)%R) nds : forall l, Forall2 near_node nds l -> Forall2 (fun a e => in_amp a (weight beta e)) (map (amp B) nds) l.
Proof.
  induction nds as [|nd nds IH]; intros l F; inversion F as [|? e ? l' N F']; subst; [constructor|]. cbn [map]. constructor; [|now apply IH]. now apply amp_ok.
Qed.
Lemma total_ok beta al : forall l, Forall2 (fun a e => in_amp a (weight beta e)) al l -> (wsum beta (fun _ => 1) l * 1048576 <= IZR (total al))%R.
Proof.
  induction al as [|[a h] al IH]; intros l F; inversion F as [|? e ? l' N F']; subst; cbn [total wsum fold_right]; [lra|]. specialize (IH l' F'). unfold wsum in *. rewrite plus_IZR. destruct N as [_ N]. cbn [snd] in N. lra.
Qed.
Lemma curve_ok beta nds : forall al l, Forall2 near_node nds l -> Forall2 (fun a e => in_amp a (weight beta e)) al l -> (wsum beta (fun x => x * x) l * (1048576 * s32) <= IZR (curve al nds))%R.
Proof.
  induction nds as [|[[[c w] dl] dh] nds IH]; intros al l F G; inversion F as [|? e ? l' N F']; subst; inversion G as [|[al0 ah0] ? al' ? A G']; subst; cbn [curve wsum fold_right]; [lra|].
  specialize (IH al' l' F' G'). unfold wsum in IH. cbv zeta. rewrite plus_IZR, !mult_IZR, plus_IZR. destruct N as ((Nx & _ & Xr) & _). cbn [fst snd] in *. destruct A as [[A0 A1] A2]. cbn [fst snd] in *. set (x := fst e) in *. set (v := weight beta e) in *.
  pose proof (shift_hi c 8 ltac:(lia)) as S1. change (2 ^ 8) with 256 in S1. assert (S2 : (IZR c + 1 <= (IZR (Z.shiftr c 8) + 1) * 256)%R). { rewrite Z.shiftr_div_pow2 by lia. change (2 ^ 8) with 256. rewrite <- !plus_IZR, <- mult_IZR. apply IZR_le. pose proof (Z.mul_succ_div_gt c 256 ltac:(lia)). lia. }
  set (q := IZR (Z.shiftr c 8)) in *. set (r := fold_right _ _ _) in *. assert (X : ((x * 65536) * (x * 65536) <= (q + 1) * (q + 1))%R) by (apply Rmult_le_compat; lra).
  assert (M : (v * 1048576 * ((x * 65536) * (x * 65536)) <= IZR ah0 * ((q + 1) * (q + 1)))%R) by (apply Rmult_le_compat; [lra|nra|lra|exact X]). lra.
Qed.
Lemma dot_ok beta t al : forall cl l, Forall2 (fun a e => in_amp a (weight beta e)) al l -> Forall2 (fun c e => IZR c <= cos (t * fst e) * 65536)%R cl l ->
  (IZR (dot al cl) <= wsum beta (fun x => cos (t * x)) l * (1048576 * 65536))%R.
Proof.
  induction al as [|[a0 h0] al IH]; intros cl l F G; inversion F as [|? e ? l' A F']; subst; inversion G as [|z ? cl' ? L G']; subst; cbn [dot wsum fold_right]; [lra|].
  specialize (IH cl' l' F' G'). unfold wsum in IH. destruct A as [[A0 A1] A2]. cbn [fst snd] in *. set (v := weight beta e) in *. set (k := cos (t * fst e)) in *. set (r := fold_right _ _ _) in *. rewrite plus_IZR.
  assert (M : (IZR (if 0 <=? z then a0 * z else h0 * z) <= v * k * (1048576 * 65536))%R).
  { destruct (Z.leb_spec 0 z) as [P|P]; rewrite mult_IZR.
    - apply IZR_le in P. assert (IZR a0 * IZR z <= (v * 1048576) * (k * 65536))%R by (apply Rmult_le_compat; lra). lra.
    - apply IZR_lt in P. assert (P0 : (IZR h0 * IZR z <= (v * 1048576) * IZR z)%R) by nra. assert (P1 : (v * 1048576 * IZR z <= v * 1048576 * (k * 65536))%R) by (apply Rmult_le_compat_l; lra). lra. }
  lra.
Qed.

(** cos lies at most (b - a)^2 / 8 below its chord *)
Lemma cos_chord a b t : (a <= t <= b)%R -> (a < b)%R -> ((b - t) * cos a + (t - a) * cos b - (b - a) * (b - a) / 8 * (b - a) <= (b - a) * cos t)%R.
Proof.
  intros Ht Hab. set (f := fun x => (cos x - x * x / 2)%R).
  assert (Df : forall x, derivable_pt_lim f x (- sin x - x)%R). { intro x. unfold f. eapply dl_val; [|apply dl_sub; [apply derivable_pt_lim_cos|apply (dl_ext (fun x => / 2 * (x * x))%R); [intro; field|apply dl_scal; apply (dl_mul (fun y => y) (fun y => y)); apply dl_id]]]. field. }
  assert (Mono : forall u v, (u <= v)%R -> (- sin v - v <= - sin u - u)%R).
  { intros u v H. assert (L : (Rabs (sin u - sin v) <= Rabs (u - v))%R). { rewrite <- !cos_shift. replace (Rabs (u - v)) with (Rabs ((PI / 2 - u) - (PI / 2 - v))) by (rewrite <- Rabs_Ropp; f_equal; ring). apply cos_lip. }
    rewrite (Rabs_left1 (u - v)) in L by lra. apply rabs_in in L. lra. }
  assert (C : ((b - t) * f a + (t - a) * f b <= (b - a) * f t)%R).
  { destruct (Req_dec a t) as [<-|Na]; [right; ring|]. destruct (Req_dec t b) as [->|Nb]; [right; ring|].
    destruct (MVT_cor2 f (fun x => - sin x - x)%R a t ltac:(lra)) as (c1 & E1 & C1); [intros; apply Df|]. destruct (MVT_cor2 f (fun x => - sin x - x)%R t b ltac:(lra)) as (c2 & E2 & C2); [intros; apply Df|].
    pose proof (Mono c1 c2 ltac:(lra)) as Mo. set (d1 := (- sin c1 - c1)%R) in *. set (d2 := (- sin c2 - c2)%R) in *.
    assert (Pp : (0 <= (t - a) * (b - t))%R) by (apply Rmult_le_pos; lra). apply (Rmult_le_compat_l _ _ _ Pp) in Mo. replace (f b) with (f t + d2 * (b - t))%R by lra. replace (f a) with (f t - d1 * (t - a))%R by lra. lra. }
  unfold f in C. assert (Q : ((t - a) * (b - t) <= (b - a) * (b - a) / 4)%R). { pose proof (Rle_0_sqr ((t - a) - (b - t))) as S0. unfold Rsqr in S0. lra. }
  apply (Rmult_le_compat_l (b - a)) in Q; [|lra]. lra.
Qed.
Lemma wsum_chord beta a b t l : (forall e, In e l -> 0 <= weight beta e /\ 0 <= fst e)%R -> (a <= t <= b)%R -> (a < b)%R ->
  ((b - t) * wsum beta (fun x => cos (a * x)) l + (t - a) * wsum beta (fun x => cos (b * x)) l - (b - a) * (b - a) / 8 * (b - a) * wsum beta (fun x => x * x) l <= (b - a) * wsum beta (fun x => cos (t * x)) l)%R.
Proof.
  intros P Ht Hab. induction l as [|e l IH]; [unfold wsum; cbn [fold_right]; lra|]. specialize (IH (fun e h => P e (or_intror h))). unfold wsum in *. cbn [fold_right].
  destruct (P e (or_introl eq_refl)) as [W X]. set (v := weight beta e) in *. set (x := fst e) in *. set (r1 := fold_right _ _ _) in *. match goal with |- context [fold_right ?f 0%R l] => idtac end.
  assert (C : ((b - t) * cos (a * x) + (t - a) * cos (b * x) - (b - a) * (b - a) / 8 * (b - a) * (x * x) <= (b - a) * cos (t * x))%R).
  { destruct X as [X|X].
    - pose proof (cos_chord (a * x) (b * x) (t * x) ltac:(nra) ltac:(nra)) as D. apply Rmult_le_reg_l with x; [exact X|]. nra.
    - rewrite <- X, !Rmult_0_r, cos_0. right. ring. }
  apply (Rmult_le_compat_l v) in C; [|exact W]. nra.
Qed.
