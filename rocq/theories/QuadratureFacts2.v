From Coq Require Import Reals Lia Lra.
From Verif Require Import Base BaseFacts Sum Legendre LegendreFacts Cplx EsKernels EsKernelsSpec EsKernelsFacts EsScreenFacts2 EsPlanSpec QuadratureSpec LegendreZ QuadratureCells QuadratureFacts QuadratureTables.
Open Scope Z_scope.

Lemma table_of s : 4 <= s <= 16 -> table_ok (host_points s) = true.
Proof.
  intro H. pose proof tables_ok as T. rewrite forallb_forall in T. apply T. unfold host_points.
  assert (E : s = 4 \/ s = 5 \/ s = 6 \/ s = 7 \/ s = 8 \/ s = 9 \/ s = 10 \/ s = 11 \/ s = 12 \/ s = 13 \/ s = 14 \/ s = 15 \/ s = 16) by lia.
  repeat (destruct E as [-> | E]; [cbn; tauto|]). subst s. cbn. tauto.
Qed.
Lemma points s : 4 <= s <= 16 -> 8 <= host_points s <= 26.
Proof. intro H. unfold host_points. pose proof (Z.div_le_mono (3 * 4) (3 * s) 2 ltac:(lia) ltac:(lia)). pose proof (Z.div_le_mono (3 * s) (3 * 16) 2 ltac:(lia) ltac:(lia)). change (3 * 4 / 2) with 6 in *. change (3 * 16 / 2) with 24 in *. lia. Qed.

Section Tables.
Context (s : Z) (acc : R) (x w : Z -> R) (Hs : 4 <= s <= 16) (Ha : (0 <= acc <= 1 / 10 ^ 13)%R).
Notation p := (host_points s).
Notation n := (Z.to_nat (2 * host_points s)).
Notation m := (Z.to_nat (2 * host_points s - 1)).
Lemma n_S : n = S m.
Proof. pose proof (points s Hs). lia. Qed.
Context (Hx : forall i, 0 <= i < p -> calculate_legendre_root (i + 1) (2 * p) acc = Some (x i, w i)).
Notation l := (map (fun i => (x i, w i)) (zrange 0 p)).

Lemma computed_range hi : hi <= p -> forall k lo, 0 <= lo -> Z.to_nat (hi - lo) = k -> computed m acc (lo + 1) (map (fun i => (x i, w i)) (zrange lo hi)).
Proof.
  intros Hh k. pose proof (points s Hs) as Pb. induction k as [|k IH]; intros lo Hl Em.
  - rewrite zrange_empty by lia. exact I.
  - rewrite zrange_cons by lia. cbn [map computed]. split; [rewrite <- n_S, Z2Nat.id by lia; apply Hx; lia|]. apply IH; lia.
Qed.
Lemma table_enclosed : exists bs : list cell, Forall2 (enclosed m) bs l /\ decreasing bs = true /\ moments n 0 (map start bs) = true /\ inside (coarse p) bs = true.
Proof.
  pose proof (table_of s Hs) as T. pose proof (points s Hs) as Pb. unfold table_ok in T. cbv zeta in T. apply andb_prop in T. destruct T as [T Ti]. apply andb_prop in T. destruct T as [T Tm]. apply andb_prop in T. destruct T as [T Td]. apply andb_prop in T. destruct T as [Tl Tb].
  apply Z.eqb_eq in Tl. exists (cells p). rewrite n_S. split; [|split; [|split]; assumption]. apply (boxes_sound m acc ltac:(lia) Ha (cells p) 1); [|exact Tb|].
  - rewrite map_length. unfold zrange. rewrite map_length, seq_length. lia.
  - apply (computed_range p ltac:(lia) (Z.to_nat (p - 0)) 0); lia.
Qed.
Lemma nth_l i : 0 <= i < p -> nth (Z.to_nat i) l (0, 0)%R = (x i, w i).
Proof.
  intro H. rewrite nth_indep with (d' := (x 0, w 0)) by (rewrite map_length; unfold zrange; rewrite map_length, seq_length; lia).
  rewrite (map_nth (fun i => (x i, w i)) (zrange 0 p) 0). unfold zrange. rewrite nth_indep with (d' := 0 + Z.of_nat 0) by (rewrite map_length, seq_length; lia). rewrite (map_nth (fun k => 0 + Z.of_nat k)), seq_nth by lia. f_equal; f_equal; lia.
Qed.
Lemma nodes i : 0 <= i < p -> (0 < x i < 1 /\ 0 < w i)%R /\ (exists y, leg n y = 0 /\ Rabs (x i - y) <= 1 / 10 ^ 11)%R.
Proof.
  intro H. destruct table_enclosed as (bs & F & _). assert (G : exists b, enclosed m b (x i, w i)).
  { assert (In (x i, w i) l). { apply in_map_iff. exists i. split; [reflexivity|]. apply in_zrange. lia. }
    clear - F H0. revert F H0. generalize l as ll. intros ll F. induction F as [|b e bl ll Fb F IH]; [contradiction|]. intros [-> | Hi]; [eauto|auto]. }
  destruct G as (b & (_ & W1 & _) & Wp & Xr & _ & R). cbn [fst snd] in *. apply IZR_lt in Wp. rewrite n_S. split; [split; [exact Xr|lra]|exact R].
Qed.
Lemma ordered i : 0 <= i < p - 1 -> (x (i + 1) < x i)%R.
Proof.
  intro H. pose proof (points s Hs). destruct table_enclosed as (bs & F & D & _). pose proof (decreasing_sound m ltac:(lia) bs l D F (Z.to_nat i)) as G.
  replace (S (Z.to_nat i)) with (Z.to_nat (i + 1)) in G by lia. rewrite !nth_l in G by lia. apply G. rewrite map_length. unfold zrange. rewrite map_length, seq_length. lia.
Qed.
Lemma moment (k : nat) : (k < n)%nat -> (Rabs (rsumf 0 p (fun i => w i * x i ^ (2 * k)) - 1 / (2 * INR k + 1)) <= 2 / 10 ^ 8)%R.
Proof.
  intro H. pose proof (points s Hs). destruct table_enclosed as (bs & F & _ & M & _). replace (rsumf 0 p (fun i => w i * x i ^ (2 * k))%R) with (msum k l).
  - apply (moments_sound m ltac:(lia) n 0 (map start bs)); [exact M| |lia]. clear - F Hs. revert F. generalize l as ll. induction bs as [|b bs IH]; intros ll F; inversion F as [|? e ? ll' Eb F']; subst; [constructor|].
    cbn [map]. constructor; [|apply IH; exact F']. exact (start_sound (Z.to_nat (2 * host_points s - 1)) ltac:(pose proof (points s Hs); lia) _ _ Eb).
  - unfold msum, rsumf, sum. generalize (zrange 0 p). intro z. induction z as [|i z IH]; [reflexivity|]. cbn [map fold_right fst snd]. now rewrite IH.
Qed.
(** The nodes and weights to 2^-24 *)
Definition near24 (c : Z * Z) (e : R * R) : Prop := (IZR (fst c) - 1 <= fst e * 16777216 <= IZR (fst c) + 1 /\ IZR (snd c) - 1 <= snd e * 16777216 <= IZR (snd c) + 1 /\ 0 < fst e < 1)%R.
Lemma inside_sound : forall cs bs ll, inside cs bs = true -> Forall2 (enclosed m) bs ll -> Forall2 near24 cs ll.
Proof.
  induction cs as [|[cx cw] cs IH]; intros bs ll H F; destruct bs as [|b bs]; try discriminate; inversion F as [|? e ? ll' Eb F' E1 E2]; subst; [constructor|].
  cbn [inside] in H. apply andb_prop in H. destruct H as [H Hi]. apply andb_prop in H. destruct H as [H H4]. apply andb_prop in H. destruct H as [H H3]. apply andb_prop in H. destruct H as [H1 H2].
  constructor; [|now apply (IH bs)]. destruct Eb as (((X1 & X2) & W1 & W2) & _ & Xr & _). apply Z.leb_le in H1, H2, H3, H4. apply IZR_le in H1, H2, H3, H4.
  rewrite !minus_IZR, !mult_IZR, ?minus_IZR in H1. rewrite !plus_IZR, !mult_IZR, ?plus_IZR in H2. rewrite mult_IZR, minus_IZR in H3. rewrite mult_IZR, plus_IZR in H4. unfold near24. cbn [fst snd] in *. repeat split; lra.
Qed.
Lemma table_coarse : Forall2 near24 (coarse p) l.
Proof. destruct table_enclosed as (bs & F & _ & _ & I). exact (inside_sound _ _ _ I F). Qed.
End Tables.
