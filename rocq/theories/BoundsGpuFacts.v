From Coq Require Import String Lia Permutation Lqa.
From Verif Require Import Base BaseFacts Mem Checks ChecksFacts Clamp ClampSpec ClampFacts Select SelectSpec SelectFacts GpuLaunch GpuLaunchFacts GpuViewFacts GpuCas GpuCasSpec GpuCasFacts PhaseRotateGpu PhaseRotateGpuFacts GridUtilsGpuSpec GridUtilsGpuFacts BoundsGpu BoundsGpuSpec.
Open Scope Z_scope.

Lemma loc_eqb_spec a b : reflect (a = b) (loc_eqb a b).
Proof. destruct a as [a i], b as [b j]. unfold loc_eqb. cbn [fst snd]. destruct (Bool.eqb_spec a b), (Z.eqb_spec i j); cbn [andb]; constructor; congruence. Qed.
Lemma bits_eqb_spec a b : reflect (a = b) (bits_eqb a b).
Proof.
  destruct a as [[a p]|], b as [[b q]|]; cbn [bits_eqb Qnum Qden]; try (constructor; congruence). destruct (Z.eqb_spec a b), (Pos.eqb_spec p q); cbn [andb]; constructor; congruence.
Qed.
Lemma min_val l l' v v' : atomic_min below_min l v = atomic_min (L := bound_loc) below_min l' v' -> l = l' /\ v = v'.
Proof. intro E. split; [exact (f_equal at_ E)|]. exact (f_equal (fun o => next o None) E). Qed.
Lemma max_val l l' v v' : atomic_max above_max l v = atomic_max (L := bound_loc) above_max l' v' -> l = l' /\ v = v'.
Proof. intro E. split; [exact (f_equal at_ E)|]. exact (f_equal (fun o => next o None) E). Qed.
Lemma min_fold (ord : list (rmw bound_loc (option Q))) l : (forall o, In o ord -> at_ o = l -> exists v, o = atomic_min below_min l (Some v)) ->
  is_min (fun v => In (atomic_min below_min l (Some v)) ord) (in_order loc_eqb ord l None).
Proof.
  induction ord as [|o ord IH] using rev_ind; intro H; [intros x []|]. rewrite in_order_snoc. assert (IH' := IH (fun o' I => H o' (in_or_app _ _ _ (or_introl I)))). clear IH.
  destruct (loc_eqb_spec (at_ o) l) as [E|N].
  - destruct (H o (in_or_app ord [o] o (or_intror (in_eq o []))) E) as (v & ->). set (x := in_order loc_eqb ord l None) in *. unfold act, atomic_min. cbn [go next].
    assert (X : forall b : bool, (b = true -> forall r, x = Some r -> (v <= r)%Q) -> (b = false -> exists r, x = Some r /\ (r <= v)%Q) ->
      is_min (fun v' => In (atomic_min below_min l (Some v')) (ord ++ [atomic_min below_min l (Some v)])) (if b then Some v else x)).
    { intros [] B1 B2.
      - split; [exists v; split; [apply in_or_app; right; now left|reflexivity]|]. intros y I. apply in_app_or in I. destruct I as [I|[I|[]]].
        + destruct x as [r|]; [|destruct (IH' y I)]. destruct IH' as [_ M]. specialize (M y I). specialize (B1 eq_refl r eq_refl). lra.
        + apply min_val in I. destruct I as (_ & I). injection I as ->. lra.
      - destruct (B2 eq_refl) as (r & -> & Le). destruct IH' as [(y & I & Ey) M]. split; [exists y; split; [apply in_or_app; now left|exact Ey]|].
        intros z I'. apply in_app_or in I'. destruct I' as [I'|[I'|[]]]; [now apply M|]. apply min_val in I'. destruct I' as (_ & I'). injection I' as ->. exact Le. }
    apply X; unfold below_min.
    + intros B r ->. unfold Qltb in B. apply negb_true_iff in B. apply Qnot_lt_le. intro F. apply Qlt_le_weak, Qle_bool_iff in F. congruence.
    + intro B. destruct x as [r|]; [|discriminate]. exists r. split; [reflexivity|]. unfold Qltb in B. apply negb_false_iff in B. now apply Qle_bool_iff in B.
  - destruct (in_order loc_eqb ord l None) as [r|].
    + destruct IH' as [(y & I & Ey) M]. split; [exists y; split; [apply in_or_app; now left|exact Ey]|]. intros z I'. apply in_app_or in I'. destruct I' as [I'|[I'|[]]]; [now apply M|]. exfalso. apply N. now rewrite I'.
    + intros z I'. apply in_app_or in I'. destruct I' as [I'|[I'|[]]]; [exact (IH' z I')|]. apply N. now rewrite I'.
Qed.
Lemma max_fold (ord : list (rmw bound_loc (option Q))) l : (forall o, In o ord -> at_ o = l -> exists v, o = atomic_max above_max l (Some v)) ->
  is_max (fun v => In (atomic_max above_max l (Some v)) ord) (in_order loc_eqb ord l None).
Proof.
  induction ord as [|o ord IH] using rev_ind; intro H; [intros x []|]. rewrite in_order_snoc. assert (IH' := IH (fun o' I => H o' (in_or_app _ _ _ (or_introl I)))). clear IH.
  destruct (loc_eqb_spec (at_ o) l) as [E|N].
  - destruct (H o (in_or_app ord [o] o (or_intror (in_eq o []))) E) as (v & ->). set (x := in_order loc_eqb ord l None) in *. unfold act, atomic_max. cbn [go next].
    assert (X : forall b : bool, (b = true -> forall r, x = Some r -> (r <= v)%Q) -> (b = false -> exists r, x = Some r /\ (v <= r)%Q) ->
      is_max (fun v' => In (atomic_max above_max l (Some v')) (ord ++ [atomic_max above_max l (Some v)])) (if b then Some v else x)).
    { intros [] B1 B2.
      - split; [exists v; split; [apply in_or_app; right; now left|reflexivity]|]. intros y I. apply in_app_or in I. destruct I as [I|[I|[]]].
        + destruct x as [r|]; [|destruct (IH' y I)]. destruct IH' as [_ M]. specialize (M y I). specialize (B1 eq_refl r eq_refl). lra.
        + apply max_val in I. destruct I as (_ & I). injection I as ->. lra.
      - destruct (B2 eq_refl) as (r & -> & Le). destruct IH' as [(y & I & Ey) M]. split; [exists y; split; [apply in_or_app; now left|exact Ey]|].
        intros z I'. apply in_app_or in I'. destruct I' as [I'|[I'|[]]]; [now apply M|]. apply max_val in I'. destruct I' as (_ & I'). injection I' as ->. exact Le. }
    apply X; unfold above_max.
    + intros B r ->. unfold Qltb in B. apply negb_true_iff in B. apply Qnot_lt_le. intro F. apply Qlt_le_weak, Qle_bool_iff in F. congruence.
    + intro B. destruct x as [r|]; [|discriminate]. exists r. split; [reflexivity|]. unfold Qltb in B. apply negb_false_iff in B. now apply Qle_bool_iff in B.
  - destruct (in_order loc_eqb ord l None) as [r|].
    + destruct IH' as [(y & I & Ey) M]. split; [exists y; split; [apply in_or_app; now left|exact Ey]|]. intros z I'. apply in_app_or in I'. destruct I' as [I'|[I'|[]]]; [now apply M|]. exfalso. apply N. now rewrite I'.
    + intros z I'. apply in_app_or in I'. destruct I' as [I'|[I'|[]]]; [exact (IH' z I')|]. apply N. now rewrite I'.
Qed.
Open Scope Z_scope.

(** One thread *)
Section Rows.
Context (uvw : nd Q) (f0 df : Q) (s_in e_in : nd Z) (n : Z) (Hd : (0 <= df)%Q) (SU : shape uvw = [n; 3]) (SS : shape s_in = [n]) (SE : shape e_in = [n]).
Definition end_value (i j c : Z) : Q := (f0 * elem uvw [i; j] / C_0 + inject_Z c * (df * elem uvw [i; j] / C_0))%Q.
Definition lo (i j : Z) : Q := end_value i j (if Qle_bool 0 (elem uvw [i; j]) then elem s_in [i] else elem e_in [i] - 1).
Definition hi (i j : Z) : Q := end_value i j (if Qle_bool 0 (elem uvw [i; j]) then elem e_in [i] - 1 else elem s_in [i]).
Definition on (i : Z) : Prop := 0 <= i < n /\ elem s_in [i] < elem e_in [i].
Lemma row_ops a b c : 0 <= a < 4294967296 -> exists k, bounds_thread uvw f0 df s_in e_in (a, b, c) = Some k /\
  forall o, In o k <-> on a /\ exists j, 0 <= j < 3 /\ (o = atomic_min below_min (false, j) (Some (lo a j)) \/ o = atomic_max above_max (true, j) (Some (hi a j))).
Proof using SU SS SE.
  clear Hd. intro Ha. unfold bounds_thread, dim. rewrite SU. cbn [nth]. rewrite u32_id by lia. unfold on. destruct (Z.leb_spec n a).
  { exists []. split; [reflexivity|]. intro o. split; [intros []|intros ((? & _) & _); lia]. }
  rewrite !rd_some by (rewrite ?SS, ?SE; apply in_shape_1; lia). cbn [bind]. rewrite Z.geb_leb. destruct (Z.leb_spec (elem e_in [a]) (elem s_in [a])).
  { exists []. split; [reflexivity|]. intro o. split; [intros []|intros ((_ & ?) & _); lia]. }
  rewrite !rd_some by (rewrite SU; apply in_shape_2; lia). cbn [bind]. eexists. split; [reflexivity|]. intro o.
  assert (K : forall j, In o (if Qle_bool 0 (elem uvw [a; j]) then [atomic_min below_min (false, j) (Some (end_value a j (elem s_in [a]))); atomic_max above_max (true, j) (Some (end_value a j (elem e_in [a] - 1)))]
      else [atomic_max above_max (true, j) (Some (end_value a j (elem s_in [a]))); atomic_min below_min (false, j) (Some (end_value a j (elem e_in [a] - 1)))]) <->
      o = atomic_min below_min (false, j) (Some (lo a j)) \/ o = atomic_max above_max (true, j) (Some (hi a j))).
  { intro j. unfold lo, hi. destruct (Qle_bool 0 (elem uvw [a; j])); cbn [In]; intuition. }
  rewrite !in_app_iff. change (f0 * elem uvw [a; ?j] / C_0 + inject_Z ?c * (df * elem uvw [a; ?j] / C_0))%Q with (end_value a j c).
  split.
  - intro I. split; [lia|]. destruct I as [I|[I|I]]; apply K in I; eexists; (split; [|exact I]); lia.
  - intros (_ & j & Hj & I). assert (j = 0 \/ j = 1 \/ j = 2) as [-> |[-> | ->]] by lia; [left|right; left|right; right]; now apply K.
Qed.
(** The ends of a row bound its coordinates *)
Lemma row_ends i j : on i -> (exists c, elem s_in [i] <= c < elem e_in [i] /\ (coord (elem uvw [i; j]) f0 df c == lo i j)%Q) /\
  (exists c, elem s_in [i] <= c < elem e_in [i] /\ (coord (elem uvw [i; j]) f0 df c == hi i j)%Q) /\
  forall c, elem s_in [i] <= c < elem e_in [i] -> (lo i j <= coord (elem uvw [i; j]) f0 df c <= hi i j)%Q.
Proof using Hd.
  intros (_ & O). unfold lo, hi, end_value. destruct (Qle_bool 0 (elem uvw [i; j])) eqn:B.
  - apply Qle_bool_iff in B. split; [exists (elem s_in [i]); split; [lia|symmetry; apply coord_code]|]. split; [exists (elem e_in [i] - 1); split; [lia|symmetry; apply coord_code]|].
    intros c Hc. rewrite !coord_code. pose proof (coord_mono (elem uvw [i; j]) f0 df (elem s_in [i]) c Hd ltac:(lia)) as (X1 & X2). pose proof (coord_mono (elem uvw [i; j]) f0 df c (elem e_in [i] - 1) Hd ltac:(lia)) as (Y1 & Y2). split; auto.
  - assert (B' : (elem uvw [i; j] <= 0)%Q). { apply Qnot_lt_le. intro F. apply Qlt_le_weak, Qle_bool_iff in F. congruence. }
    split; [exists (elem e_in [i] - 1); split; [lia|symmetry; apply coord_code]|]. split; [exists (elem s_in [i]); split; [lia|symmetry; apply coord_code]|].
    intros c Hc. rewrite !coord_code. pose proof (coord_mono (elem uvw [i; j]) f0 df (elem s_in [i]) c Hd ltac:(lia)) as (X1 & X2). pose proof (coord_mono (elem uvw [i; j]) f0 df c (elem e_in [i] - 1) Hd ltac:(lia)) as (Y1 & Y2). split; auto.
Qed.
Lemma ends_min j m : is_min (fun v => exists i, on i /\ v = lo i j) m -> is_min (coords uvw f0 df s_in e_in j n) m.
Proof using Hd.
  destruct m as [m|]; cbn [is_min].
  - intros [(x & (i & O & ->) & E) M]. split.
    + destruct (row_ends i j O) as ((c & Hc & Ec) & _). eexists. split; [exists i, c; split; [exact (proj1 O)|split; [exact Hc|reflexivity]]|]. now rewrite Ec.
    + intros x (i' & c & Hi & Hc & ->). assert (O' : on i') by (split; [exact Hi|lia]). destruct (row_ends i' j O') as (_ & _ & B). specialize (B c Hc). specialize (M (lo i' j) (ex_intro _ i' (conj O' eq_refl))). lra.
  - intros M x (i' & c & Hi & Hc & ->). assert (O' : on i') by (split; [exact Hi|lia]). exact (M (lo i' j) (ex_intro _ i' (conj O' eq_refl))).
Qed.
Lemma ends_max j m : is_max (fun v => exists i, on i /\ v = hi i j) m -> is_max (coords uvw f0 df s_in e_in j n) m.
Proof using Hd.
  destruct m as [m|]; cbn [is_max].
  - intros [(x & (i & O & ->) & E) M]. split.
    + destruct (row_ends i j O) as (_ & (c & Hc & Ec) & _). eexists. split; [exists i, c; split; [exact (proj1 O)|split; [exact Hc|reflexivity]]|]. now rewrite Ec.
    + intros x (i' & c & Hi & Hc & ->). assert (O' : on i') by (split; [exact Hi|lia]). destruct (row_ends i' j O') as (_ & _ & B). specialize (B c Hc). specialize (M (hi i' j) (ex_intro _ i' (conj O' eq_refl))). lra.
  - intros M x (i' & c & Hi & Hc & ->). assert (O' : on i') by (split; [exact Hi|lia]). exact (M (hi i' j) (ex_intro _ i' (conj O' eq_refl))).
Qed.
End Rows.
Lemma is_min_ext (P P' : Q -> Prop) m : (forall x, P x <-> P' x) -> is_min P m -> is_min P' m.
Proof. intro E. destruct m as [m|]; cbn [is_min]; [intros [(x & I & X) M]; split; [exists x; split; [now apply E|exact X]|intros y Y; apply M; now apply E]|intros M x X; apply (M x); now apply E]. Qed.
Lemma is_max_ext (P P' : Q -> Prop) m : (forall x, P x <-> P' x) -> is_max P m -> is_max P' m.
Proof. intro E. destruct m as [m|]; cbn [is_max]; [intros [(x & I & X) M]; split; [exists x; split; [now apply E|exact X]|intros y Y; apply M; now apply E]|intros M x X; apply (M x); now apply E]. Qed.
Lemma concat_in {X Y} (f : X -> option (list Y)) l : forall ks, Forall2 (fun t o => f t = Some o) l ks -> forall o, In o (concat ks) <-> exists t k, In t l /\ f t = Some k /\ In o k.
Proof.
  intros ks F o. induction F as [|t k l ks E F IH]; [split; [intros []|intros (? & ? & [] & _)]|]. cbn [concat]. rewrite in_app_iff, IH. split.
  - intros [I|(t' & k' & I & E' & I')]; [exists t, k|exists t', k']; intuition.
  - intros (t' & k' & [<-|I] & E' & I'); [left; rewrite E in E'; now injection E' as <-|right; eauto].
Qed.
Lemma forall2_make {X Y} (f : X -> option Y) l : (forall t, In t l -> exists k, f t = Some k) -> exists ks, Forall2 (fun t o => f t = Some o) l ks.
Proof.
  induction l as [|t l IH]; intro H; [exists []; constructor|]. destruct (H t (or_introl eq_refl)) as (k & E). destruct IH as (ks & F); [intros; apply H; now right|]. exists (k :: ks). now constructor.
Qed.

(** Two least elements of the same set *)
Lemma is_min_unique P a b : is_min P a -> is_min P b -> same_bound a b.
Proof.
  destruct a as [a|], b as [b|]; cbn [is_min same_bound].
  - intros ((x & Px & Ex) & Ha) ((y & Py & Ey) & Hb). specialize (Ha y Py). specialize (Hb x Px). rewrite Ex in Hb. rewrite Ey in Ha. now apply Qle_antisym.
  - intros ((x & Px & _) & _) N. exact (N x Px).
  - intros N ((x & Px & _) & _). exact (N x Px).
  - trivial.
Qed.
Lemma is_max_unique P a b : is_max P a -> is_max P b -> same_bound a b.
Proof.
  destruct a as [a|], b as [b|]; cbn [is_max same_bound].
  - intros ((x & Px & Ex) & Ha) ((y & Py & Ey) & Hb). specialize (Ha y Py). specialize (Hb x Px). rewrite Ex in Hb. rewrite Ey in Ha. now apply Qle_antisym.
  - intros ((x & Px & _) & _) N. exact (N x Px).
  - intros N ((x & Px & _) & _). exact (N x Px).
  - trivial.
Qed.
(** The bounds on the CPU for every channel separation *)
Section Cpu.
Context (uvw : nd Q) (f0 df : Q) (s_in e_in : nd Z) (n : Z) (Hn : 0 <= n) (SU : shape uvw = [n; 3]) (SS : shape s_in = [n]) (SE : shape e_in = [n]).
Definition los (k j : Z) (v : Q) : Prop := exists i, on s_in e_in k i /\ v = lo uvw f0 df s_in e_in i j.
Definition his (k j : Z) (v : Q) : Prop := exists i, on s_in e_in k i /\ v = hi uvw f0 df s_in e_in i j.
Lemma min_add (P P' : Q -> Prop) x m : is_min P m -> (forall v, P' v <-> P v \/ v = x) -> is_min P' (std_min x m).
Proof.
  intros M E. destruct m as [m|]; cbn [std_min is_min] in *.
  - destruct M as ((y & Py & Ey) & M). unfold Qltb. destruct (Qle_bool x m) eqn:B; cbn [negb].
    + apply Qle_bool_iff in B. split; [exists x; split; [apply E; now right|reflexivity]|]. intros v Pv. apply E in Pv. destruct Pv as [Pv| ->]; [|lra]. specialize (M v Pv). lra.
    + assert (B' : (m < x)%Q) by (apply Qnot_le_lt; intro F; apply Qle_bool_iff in F; congruence). split; [exists y; split; [apply E; now left|exact Ey]|]. intros v Pv. apply E in Pv. destruct Pv as [Pv| ->]; [now apply M|lra].
  - split; [exists x; split; [apply E; now right|reflexivity]|]. intros v Pv. apply E in Pv. destruct Pv as [Pv| ->]; [now apply M in Pv|lra].
Qed.
Lemma max_add (P P' : Q -> Prop) x m : is_max P m -> (forall v, P' v <-> P v \/ v = x) -> is_max P' (std_max x m).
Proof.
  intros M E. destruct m as [m|]; cbn [std_max is_max] in *.
  - destruct M as ((y & Py & Ey) & M). unfold Qltb. destruct (Qle_bool m x) eqn:B; cbn [negb].
    + apply Qle_bool_iff in B. split; [exists x; split; [apply E; now right|reflexivity]|]. intros v Pv. apply E in Pv. destruct Pv as [Pv| ->]; [|lra]. specialize (M v Pv). lra.
    + assert (B' : (x < m)%Q) by (apply Qnot_le_lt; intro F; apply Qle_bool_iff in F; congruence). split; [exists y; split; [apply E; now left|exact Ey]|]. intros v Pv. apply E in Pv. destruct Pv as [Pv| ->]; [now apply M|lra].
  - split; [exists x; split; [apply E; now right|reflexivity]|]. intros v Pv. apply E in Pv. destruct Pv as [Pv| ->]; [now apply M in Pv|lra].
Qed.
Lemma los_next k j v : 0 <= k -> los (k + 1) j v <-> los k j v \/ (elem s_in [k] < elem e_in [k] /\ v = lo uvw f0 df s_in e_in k j).
Proof.
  clear. intro Hk. unfold los, on. split.
  - intros (i & (Hi & O) & ->). destruct (Z.eq_dec i k) as [->|N]; [right; auto|left; exists i; repeat split; auto; lia].
  - intros [(i & (Hi & O) & ->)|(O & ->)]; [exists i|exists k]; repeat split; auto; lia.
Qed.
Lemma his_next k j v : 0 <= k -> his (k + 1) j v <-> his k j v \/ (elem s_in [k] < elem e_in [k] /\ v = hi uvw f0 df s_in e_in k j).
Proof.
  clear. intro Hk. unfold his, on. split.
  - intros (i & (Hi & O) & ->). destruct (Z.eq_dec i k) as [->|N]; [right; auto|left; exists i; repeat split; auto; lia].
  - intros [(i & (Hi & O) & ->)|(O & ->)]; [exists i|exists k]; repeat split; auto; lia.
Qed.
Lemma cpu_ends : exists mn mx, uvw_bounds uvw f0 df s_in e_in = Some (mn, mx) /\ shape mn = [3] /\ shape mx = [3] /\
  forall j, 0 <= j < 3 -> is_min (los n j) (elem mn [j]) /\ is_max (his n j) (elem mx [j]).
Proof using Hn SU SS SE.
  unfold uvw_bounds, dim. rewrite SU. cbn [nth].
  destruct (for_inv (fun k t => shape (fst t) = [3] /\ shape (snd t) = [3] /\ forall j, 0 <= j < 3 -> is_min (los k j) (elem (fst t) [j]) /\ is_max (his k j) (elem (snd t) [j]))
    0 n (bounds_row uvw f0 df s_in e_in) (mk_nd [3] (fun _ => None), mk_nd [3] (fun _ => None))) as ([mn mx] & E & P1 & P2 & P3); [exact Hn| | |exists mn, mx; auto].
  { cbn. split; [auto|]. split; [auto|]. intros j Hj. split; intros x (i & (K & _) & _); lia. }
  intros i [a b] Hi (Q1 & Q2 & Q3). cbn [fst snd] in *. unfold bounds_row.
  rewrite !rd_some by (rewrite ?SS, ?SE; apply in_shape_1; lia). cbn [bind]. rewrite Z.geb_leb. destruct (Z.leb_spec (elem e_in [i]) (elem s_in [i])) as [L|L].
  { exists (a, b). split; [reflexivity|]. split; [exact Q1|]. split; [exact Q2|]. cbn [fst snd]. intros j Hj. destruct (Q3 j Hj) as (M1 & M2).
    split; [apply (is_min_ext (los i j)); [|exact M1]|apply (is_max_ext (his i j)); [|exact M2]]; intro v; [rewrite los_next by lia|rewrite his_next by lia]; (split; [auto|]); intros [X|(X & _)]; auto; exfalso; lia. }
  match goal with |- exists st', for_ 0 3 ?f _ = _ /\ _ => set (body := f) end.
  destruct (for_inv (fun k t => shape (fst t) = [3] /\ shape (snd t) = [3] /\
      (forall j, 0 <= j < k -> is_min (los (i + 1) j) (elem (fst t) [j]) /\ is_max (his (i + 1) j) (elem (snd t) [j])) /\
      (forall j, k <= j < 3 -> is_min (los i j) (elem (fst t) [j]) /\ is_max (his i j) (elem (snd t) [j]))) 0 3 body (a, b)) as (t' & E & P1 & P2 & P3 & _); [lia| | |exists t'; auto].
  { cbn [fst snd]. split; [exact Q1|]. split; [exact Q2|]. split; [intros; lia|exact Q3]. }
  intros j [c d] Hj (R1 & R2 & R3 & R4). cbn [fst snd] in *. unfold body. cbn [fst snd].
  rewrite rd_some by (rewrite SU; apply in_shape_2; lia). cbn [bind]. rewrite !rd_some by (rewrite ?R1, ?R2; apply in_shape_1; lia). cbn [bind].
  assert (EL : (if Qle_bool 0 (elem uvw [i; j]) then (f0 * elem uvw [i; j] / C_0 + inject_Z (elem s_in [i]) * (df * elem uvw [i; j] / C_0), f0 * elem uvw [i; j] / C_0 + inject_Z (elem e_in [i] - 1) * (df * elem uvw [i; j] / C_0))
      else (f0 * elem uvw [i; j] / C_0 + inject_Z (elem e_in [i] - 1) * (df * elem uvw [i; j] / C_0), f0 * elem uvw [i; j] / C_0 + inject_Z (elem s_in [i]) * (df * elem uvw [i; j] / C_0)))%Q
      = (lo uvw f0 df s_in e_in i j, hi uvw f0 df s_in e_in i j)) by (unfold lo, hi, end_value; destruct (Qle_bool 0 (elem uvw [i; j])); reflexivity).
  cbv zeta. rewrite EL. rewrite !wr_some by (rewrite ?R1, ?R2; apply in_shape_1; lia). cbn [bind]. eexists. split; [reflexivity|]. cbn [fst snd]. rewrite !shape_upd. split; [exact R1|]. split; [exact R2|].
  destruct (R4 j ltac:(lia)) as (M1 & M2). split.
  - intros j' Hj'. destruct (Z.eq_dec j' j) as [->|N].
    + rewrite !elem_upd_same. split; [apply (min_add (los i j)); [exact M1|]|apply (max_add (his i j)); [exact M2|]]; intro v; [rewrite los_next by lia|rewrite his_next by lia]; tauto.
    + rewrite !elem_upd_other by congruence. apply R3. lia.
  - intros j' Hj'. rewrite !elem_upd_other by (intro X; injection X; lia). apply R4. lia.
Qed.
End Cpu.
