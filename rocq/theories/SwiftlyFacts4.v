(** SwiFTly, continued: adjointness (proofs only). *)
From Verif Require Import Base BaseFacts Sum CRing Loops Cplx Fft FftSpec FftFacts FftFacts2 FftConvFacts Swiftly SwiftlySpec SwiftlyFacts SwiftlyFacts2 SwiftlyFacts3.
From Coq Require Import Lra Lia.
Open Scope Z_scope.

Lemma csum_window_rot n e o (G : Z -> Z -> C) : 0 < n -> 0 <= e <= n ->
  csum 0 n (fun j => if (j - o) mod n <? e then G ((j - o) mod n) j else C0) = csum 0 e (fun x => G x ((o + x) mod n)).
Proof.
  intros Hn He.
  transitivity (csum 0 n (fun j => (fun p => if (p - o) mod n <? e then G ((p - o) mod n) p else C0) ((j - - o) mod n))).
  { rewrite (csum_rot n (fun p => if (p - o) mod n <? e then G ((p - o) mod n) p else C0) (- o) Hn). reflexivity. }
  transitivity (csum 0 n (fun x => if x <? e then G x ((o + x) mod n) else C0)).
  - apply csum_ext. intros x Hx. cbn beta. replace (x - - o) with (o + x) by ring.
    assert (E : ((o + x) mod n - o) mod n = x).
    { rewrite Zminus_mod_idemp_l. replace (o + x - o) with x by ring. apply Z.mod_small. lia. }
    now rewrite E.
  - unfold csum. rewrite (sum_split _ _ (Rcm (A := Cring)) 0 e n) by lia.
    rewrite (sum_none _ _ (Rcm (A := Cring)) e n) by (intros i Hi; now replace (i <? e) with false by lia).
    cbn [radd r0 Cring]. rewrite (sum_ext _ _ 0 e _ (fun x => G x ((o + x) mod n))) by (intros i Hi; now replace (i <? e) with true by lia).
    generalize (sum Cadd C0 0 e (fun x : Z => G x ((o + x) mod n))). csolve.
Qed.

Lemma Cconj_mul a b : Cconj (Cmul a b) = Cmul (Cconj a) (Cconj b).
Proof. csolve. Qed.
Lemma Cconj_R x : Cconj (RtoC x) = RtoC x.
Proof. csolve. Qed.
Lemma Cconj_root inv n m : Cconj (root inv n m) = root (negb inv) n m.
Proof. rewrite <- W_neg, <- W_neg_inv. reflexivity. Qed.
Lemma Cconj_csum lo hi f : Cconj (csum lo hi f) = csum lo hi (fun i => Cconj (f i)).
Proof.
  destruct (Z.le_gt_cases hi lo) as [L|L]; [rewrite !csum_empty by lia; csolve|].
  assert (G : forall n, 0 <= n -> Cconj (csum lo (lo + n) f) = csum lo (lo + n) (fun i => Cconj (f i))).
  { intros n Hn. pattern n. apply natlike_ind; [| |exact Hn].
    - rewrite !csum_empty by lia. csolve.
    - intros x Hx IH. unfold Z.succ. rewrite Z.add_assoc, !csum_snoc, <- IH by lia. csolve. }
  replace hi with (lo + (hi - lo)) by lia. apply G. lia.
Qed.

Lemma cdot_ext n a a' b b' : (forall k, 0 <= k < n -> a k = a' k) -> (forall k, 0 <= k < n -> b k = b' k) -> cdot n a b = cdot n a' b'.
Proof. intros H1 H2. unfold cdot. apply csum_ext. intros k Hk. now rewrite H1, H2. Qed.

(** stage 1: prepare_facet and finish_facet *)
Lemma adj_facet yN size t sc (Fbf : Z -> R) (f g : Z -> C) : 
  cdot yN (fun k => Cmul (RtoC sc) (csum 0 size (fun x => Cmul (root true yN (k * (t + x))) (Cmul (f x) (RtoC (Fbf x)))))) g =
  Cmul (RtoC sc) (cdot size f (fun x => Cmul (csum 0 yN (fun k => Cmul (root false yN (k * (t + x))) (g k))) (RtoC (Fbf x)))).
Proof.
  unfold cdot. rewrite csum_mul_l.
  transitivity (csum 0 yN (fun k => csum 0 size (fun x => Cmul (RtoC sc) (Cmul (Cconj (f x)) (Cmul (Cmul (root false yN (k * (t + x))) (g k)) (RtoC (Fbf x))))))).
  - apply csum_ext. intros k Hk. rewrite Cconj_mul, Cconj_R, Cconj_csum, csum_mul_l, csum_mul_r. apply csum_ext. intros x Hx.
    rewrite !Cconj_mul, Cconj_R, Cconj_root. cbn [negb]. generalize (root false yN (k * (t + x))). csolve.
  - rewrite csum_swap. apply csum_ext. intros x Hx. rewrite csum_mul_r, csum_mul_l, csum_mul_l. reflexivity.
Qed.

(** stage 2: extract_from_facet and add_to_facet *)
Lemma adj_window yN m o (p c : Z -> C) : 0 < m <= yN ->
  cdot yN p (fun j => let x := (j - o) mod yN in if x <? m then c ((o + x) mod m) else C0) =
  cdot m (fun i => p (wpos yN m o i)) c.
Proof.
  intro H. unfold cdot. cbn zeta.
  transitivity (csum 0 yN (fun j => if (j - o) mod yN <? m then (fun x j => Cmul (Cconj (p j)) (c ((o + x) mod m))) ((j - o) mod yN) j else C0)).
  { apply csum_ext. intros j Hj. cbn beta. destruct (_ <? m); [reflexivity|csolve]. }
  rewrite (csum_window_rot yN m o (fun x j => Cmul (Cconj (p j)) (c ((o + x) mod m)))) by lia. symmetry.
  rewrite <- (csum_rot m (fun i => Cmul (Cconj (p (wpos yN m o i))) (c i)) (- o)) by lia.
  apply csum_ext. intros x Hx. replace (x - - o) with (o + x) by ring. f_equal. f_equal. f_equal.
  unfold wpos. rewrite Zminus_mod_idemp_l. replace (o + x - o) with x by ring. now rewrite (Z.mod_small x m) by lia.
Qed.
Lemma adj_dft m sc (g w : Z -> C) :
  cdot m g (fun i => Cmul (RtoC sc) (DFT true m w i)) = Cmul (RtoC sc) (cdot m (DFT false m g) w).
Proof.
  unfold cdot, DFT. rewrite csum_mul_l.
  transitivity (csum 0 m (fun i => csum 0 m (fun k => Cmul (RtoC sc) (Cmul (Cmul (root true m (i * k)) (Cconj (g i))) (w k))))).
  - apply csum_ext. intros i Hi. rewrite csum_mul_l, csum_mul_l. apply csum_ext. intros k Hk. generalize (root true m (i * k)). csolve.
  - rewrite csum_swap. apply csum_ext. intros k Hk. rewrite Cconj_csum, csum_mul_r, csum_mul_l. apply csum_ext. intros i Hi.
    rewrite Cconj_mul, Cconj_root. cbn [negb]. now rewrite (Z.mul_comm k i).
Qed.

(** stage 3: add_to_subgrid and extract_from_subgrid *)
Lemma adj_subgrid xM m u c (Fnf : Z -> R) (cc s : Z -> C) : 0 < m <= xM ->
  cdot xM (fun j => let x := (j - u) mod xM in if x <? m then Cmul (RtoC (Fnf x)) (cc ((x + c) mod m)) else C0) s =
  cdot m cc (fun k => let x := (k - c) mod m in Cmul (s ((x + u) mod xM)) (RtoC (Fnf x))).
Proof.
  intro H. unfold cdot. cbn zeta.
  transitivity (csum 0 xM (fun j => if (j - u) mod xM <? m then (fun x j => Cmul (Cconj (Cmul (RtoC (Fnf x)) (cc ((x + c) mod m)))) (s j)) ((j - u) mod xM) j else C0)).
  { apply csum_ext. intros j Hj. cbn beta. destruct (_ <? m); [reflexivity|csolve]. }
  rewrite (csum_window_rot xM m u (fun x j => Cmul (Cconj (Cmul (RtoC (Fnf x)) (cc ((x + c) mod m)))) (s j))) by lia. symmetry.
  rewrite <- (csum_rot m (fun k => Cmul (Cconj (cc k)) (Cmul (s (((k - c) mod m + u) mod xM)) (RtoC (Fnf ((k - c) mod m))))) (- c)) by lia.
  apply csum_ext. intros x Hx. replace (x - - c) with (x + c) by ring.
  assert (E : ((x + c) mod m - c) mod m = x).
  { rewrite Zminus_mod_idemp_l. replace (x + c - c) with x by ring. apply Z.mod_small. lia. }
  rewrite E. rewrite Cconj_mul, Cconj_R. rewrite (Z.add_comm u x). csolve.
Qed.

(** truncated and floored offsets agree modulo xM *)
Lemma offsets_agree sw off : valid sw -> 0 <= off \/ (image_size sw / xM_size sw | off) ->
  exists q, (off mod image_size sw) / (image_size sw / xM_size sw) = Z.quot off (image_size sw / xM_size sw) + q * xM_size sw.
Proof.
  intros V H. pose proof (sz_pos sw V) as HP. pose proof (sz_step_x sw V) as Hst.
  assert (EI : image_size sw = (image_size sw / xM_size sw) * xM_size sw).
  { destruct V as ((A & B & C & (q & D) & _) & _). rewrite D, Z.div_mul by lia. reflexivity. }
  set (st := image_size sw / xM_size sw) in *. set (xM := xM_size sw) in *. rewrite EI.
  exists (- (off / (st * xM))). rewrite Z.mod_eq by nia.
  assert (Q : Z.quot off st = off / st).
  { destruct H as [H|(t & ->)]; [apply Z.quot_div_nonneg; lia|]. rewrite Z.quot_mul, Z.div_mul by lia. reflexivity. }
  rewrite Q. replace (off - st * xM * (off / (st * xM))) with (off + (- (off / (st * xM)) * xM) * st) by ring.
  rewrite Z.div_add by lia. reflexivity.
Qed.
Lemma m_divides sw : valid sw -> (contrib_size sw | xM_size sw).
Proof.
  intro V. pose proof (sz_pos sw V). pose proof (sz_m sw V) as M. destruct V as ((A & B & C & _ & (q & D) & _) & _).
  exists q. rewrite D in M. nia.
Qed.

Lemma adjoint_lemma sw fct prep ext contrib2 img fct2 foff soff n0 size : valid sw -> 0 <= n0 -> 0 < size <= yN_size sw ->
  shape fct = [n0; size] -> shape img = [n0; xM_size sw] -> shape prep = [n0; yN_size sw] -> shape ext = [n0; contrib_size sw] ->
  shape contrib2 = [n0; contrib_size sw] -> shape fct2 = [n0; size] ->
  0 <= foff \/ (image_size sw / xM_size sw | foff) ->
  0 <= Z.quot foff (image_size sw / xM_size sw) + contrib_size sw / 2 ->
  exists p e a c q fb r,
    prepare_facet sw fct prep foff = Some (SUCCESS, p) /\
    extract_from_facet sw p ext soff = Some (SUCCESS, e) /\
    add_to_subgrid sw e (zeros n0 (xM_size sw)) foff = Some (SUCCESS, a) /\
    extract_from_subgrid sw img contrib2 foff = Some (SUCCESS, c) /\
    add_to_facet sw c (zeros n0 (yN_size sw)) soff = Some (SUCCESS, q) /\
    finish_facet sw q fct2 foff = Some (SUCCESS, (fb, r)) /\
    forall i, 0 <= i < n0 ->
      cdot size (fun x => elem fct [i; x]) (fun x => elem r [i; x]) =
      Cmul (RtoC (IZR (image_size sw) / IZR (xM_size sw))) (cdot (xM_size sw) (fun j => elem a [i; j]) (fun j => elem img [i; j])).
Proof.
  intros V Hn Hs Sf Si Sp Se Sc Sf2 Hd Hq. pose proof (sz_pos sw V) as HP. pose proof (sz_m_pos sw V) as Hm. pose proof (sz_m_xM sw V) as Hmx. pose proof (sz_m_yN sw V) as Hmy.
  destruct (prepare_facet_lemma sw fct prep foff n0 size V Hn Hs Sf Sp) as (p & Ep & Sp' & Vp).
  destruct (gather_facet sw p ext soff n0 V Hn Sp' Se) as (e1 & Ee & Se' & Ve).
  destruct (add_to_subgrid_lemma sw (c2c_rows false 1 e1) (zeros n0 (xM_size sw)) foff n0 _ V Hn Se' eq_refl eq_refl) as (a & Ea & Sa & Va).
  destruct (gather_subgrid sw img contrib2 foff n0 _ V Hn Si Sc eq_refl Hq) as (c1 & Ec & Sc1 & Vc).
  destruct (add_to_facet_lemma sw (c2c_rows true (1 / IZR (contrib_size sw)) c1) (zeros n0 (yN_size sw)) soff n0 V Hn Sc1 eq_refl) as (q & Eq & Sq & Vq).
  destruct (finish_facet_lemma sw q fct2 foff n0 size V Hn Hs Sq Sf2) as (fb & r & Er & Sr & Vr).
  exists p, (c2c_rows false 1 e1), a, (c2c_rows true (1 / IZR (contrib_size sw)) c1), q, fb, r. repeat (split; [assumption|]).
  intros i Hi.
  destruct (offsets_agree sw foff V Hd) as (z & Hz). destruct (m_divides sw V) as (md & Hmd).
  set (f := Z.quot foff (image_size sw / xM_size sw)) in *. set (f' := foff mod image_size sw / (image_size sw / xM_size sw)) in *.
  set (m := contrib_size sw) in *. set (xM := xM_size sw) in *. set (yN := yN_size sw) in *. set (o := window_start sw soff) in *.
  set (u := xM / 2 - m / 2 + f) in *. set (cc := f + m / 2) in *.
  assert (A1 : cdot xM (fun j => elem a [i; j]) (fun j => elem img [i; j]) = cdot m (fun k => elem (c2c_rows false 1 e1) [i; k]) (fun k => elem c1 [i; k])).
  { rewrite (cdot_ext m _ (fun k => elem (c2c_rows false 1 e1) [i; k]) _ (fun k => let x := (k - cc) mod m in Cmul (elem img [i; (x + u) mod xM]) (RtoC (elem (tab_Fn sw) [x])))).
    2: reflexivity. 2: intros k Hk; rewrite Vc by lia; reflexivity.
    rewrite <- (adj_subgrid xM m u cc (fun x => elem (tab_Fn sw) [x]) (fun k => elem (c2c_rows false 1 e1) [i; k]) (fun j => elem img [i; j])) by lia.
    apply cdot_ext; [|reflexivity]. intros j Hj. rewrite Va by lia. cbn zeta. cbn [zeros elem].
    replace ((j - (xM / 2 - m / 2 + f')) mod xM) with ((j - u) mod xM).
    2:{ rewrite Hz. replace (j - (xM / 2 - m / 2 + (f + z * xM))) with (j - u + (- z) * xM) by (unfold u; ring). rewrite Z.mod_add by lia. reflexivity. }
    destruct (_ <? m); [|csolve]. rewrite Hz. unfold Fn.
    replace (((j - u) mod xM + (f + z * xM) + m / 2) mod m) with (((j - u) mod xM + cc) mod m).
    2:{ rewrite Hmd at 3. replace ((j - u) mod xM + (f + z * (md * m)) + m / 2) with ((j - u) mod xM + cc + (z * md) * m) by (unfold cc; ring).
        rewrite Z.mod_add by lia. reflexivity. }
    generalize (elem (c2c_rows false 1 e1) [i; ((j - u) mod xM + cc) mod m]). csolve. }
  assert (A2 : cdot yN (fun k => elem p [i; k]) (fun k => elem q [i; k]) = Cmul (RtoC (1 / IZR m)) (cdot m (fun k => elem (c2c_rows false 1 e1) [i; k]) (fun k => elem c1 [i; k]))).
  { rewrite (cdot_ext yN _ (fun k => elem p [i; k]) _ (fun j => let x := (j - o) mod yN in if x <? m then elem (c2c_rows true (1 / IZR m) c1) [i; (o + x) mod m] else C0)).
    2: reflexivity.
    2:{ intros j Hj. rewrite Vq by lia. cbn zeta. cbn [zeros elem]. destruct (_ <? m); [|csolve]. generalize (elem (c2c_rows true (1 / IZR m) c1) [i; (o + (j - o) mod yN) mod m]). csolve. }
    rewrite (adj_window yN m o (fun k => elem p [i; k]) (fun k => elem (c2c_rows true (1 / IZR m) c1) [i; k])) by lia.
    rewrite (cdot_ext m _ (fun j => elem e1 [i; j]) _ (fun k => Cmul (RtoC (1 / IZR m)) (DFT true m (fun k => elem c1 [i; k]) k))).
    2: intros k Hk; symmetry; apply Ve; lia. 2: intros k Hk; apply (elem_c2c _ _ _ _ _ _ _ Sc1).
    rewrite adj_dft. f_equal. apply cdot_ext; [|reflexivity]. intros k Hk. rewrite (elem_c2c _ _ _ _ _ _ _ Se'). rewrite Cmul_1_l. reflexivity. }
  assert (A3 : cdot yN (fun k => elem p [i; k]) (fun k => elem q [i; k]) = Cmul (RtoC (1 / IZR yN)) (cdot size (fun x => elem fct [i; x]) (fun x => elem r [i; x]))).
  { rewrite (cdot_ext yN _ (fun k => Cmul (RtoC (1 / IZR yN)) (csum 0 size (fun x => Cmul (root true yN (k * (foff - size / 2 + x))) (Cmul (elem fct [i; x]) (RtoC (elem (tab_Fb sw) [yN / 2 - size / 2 + x])))))) _ (fun k => elem q [i; k])).
    2: intros k Hk; rewrite Vp by lia; reflexivity. 2: reflexivity.
    rewrite (adj_facet yN size (foff - size / 2) (1 / IZR yN) (fun x => elem (tab_Fb sw) [yN / 2 - size / 2 + x]) (fun x => elem fct [i; x])).
    f_equal. apply cdot_ext; [reflexivity|]. intros x Hx. rewrite Vr by lia. reflexivity. }
  rewrite A1. set (D := cdot m _ _) in *. set (L := cdot size _ _) in *. clearbody D L.
  assert (K : Cmul (RtoC (1 / IZR yN)) L = Cmul (RtoC (1 / IZR m)) D) by (rewrite <- A3; exact A2).
  assert (NY : IZR yN <> 0%R) by (apply not_0_IZR; lia). assert (NM : IZR m <> 0%R) by (apply not_0_IZR; lia). assert (NX : IZR xM <> 0%R) by (apply not_0_IZR; lia).
  assert (RAT : (IZR (image_size sw) / IZR xM = IZR yN / IZR m)%R).
  { pose proof (sz_m sw V) as M. fold m xM yN in M. apply (f_equal IZR) in M. rewrite !mult_IZR in M. field_simplify_eq; [|auto]. lra. }
  rewrite RAT.
  transitivity (Cmul (RtoC (IZR yN)) (Cmul (RtoC (1 / IZR yN)) L)).
  { apply C_eq; unfold Cmul, RtoC; cbn [re im fst snd]; field; auto. }
  rewrite K. apply C_eq; unfold Cmul, RtoC; cbn [re im fst snd]; field; auto.
Qed.
