(** Counting visibilities over sub-grids and tasks. *)
From Verif Require Import Base BaseFacts Sum Clamp ClampSpec ClampFacts ClampFacts2 Select SelectSpec SelectFacts
  TaskPool TaskPoolSpec TaskPoolFacts.
From Coq Require Import Lqa Qfield Permutation.
Open Scope Z_scope.

Definition dirb (rising : bool) (x mn mx : Q) : bool :=
  if rising then Qle_bool mn x && Qltb x mx else Qltb mn x && Qle_bool x mx.

Lemma dirb_iff u df x mn mx :
  dirb (Qle_bool 0 (coord_step u df)) x mn mx = true <->
  in_range_directed (0 <= coord_step u df)%Q x mn mx.
Proof.
  unfold dirb, in_range_directed. destruct (Qle_bool 0 (coord_step u df)) eqn:E.
  - apply Qle_bool_iff in E. rewrite andb_true_iff, Qle_bool_iff, Qltb_lt. split; [auto|].
    intros [H|H]; tauto.
  - assert (N : ~ (0 <= coord_step u df)%Q) by (intro H; apply Qle_bool_iff in H; congruence).
    rewrite andb_true_iff, Qle_bool_iff, Qltb_lt. split; [auto|]. intros [H|H]; tauto.
Qed.

Lemma interval_count r s e (p : Z -> bool) : fst r <= snd r ->
  (forall c, selected r c <-> s <= c < e /\ p c = true) ->
  channels r = zs s e (fun c => if p c then 1 else 0).
Proof.
  destruct r as [a b]. unfold selected, channels. cbn [fst snd]. intros L H.
  destruct (Z.eq_dec a b) as [->|N].
  - rewrite (sum_none _ _ Zcm); [lia|]. intros c Hc. destruct (p c) eqn:E; [|reflexivity].
    assert (b <= c < b) by (apply H; auto). lia.
  - assert (Ha : s <= a < e) by (apply H; lia). assert (Hb : s <= b - 1 < e) by (apply H; lia).
    rewrite (sum_split _ _ Zcm s a e), (sum_split _ _ Zcm a b e) by lia.
    rewrite (sum_none _ _ Zcm s a), (sum_none _ _ Zcm b e).
    + assert (G : forall n, zs a (a + Z.of_nat n) (fun _ => 1) = Z.of_nat n).
      { induction n as [|n IH]; [rewrite (sum_empty _ _); lia|].
        replace (a + Z.of_nat (S n)) with (a + Z.of_nat n + 1) by lia.
        rewrite (sum_snoc _ _ Zcm) by lia. rewrite IH. lia. }
      rewrite (sum_ext _ _ a b _ (fun _ => 1)).
      * replace b with (a + Z.of_nat (Z.to_nat (b - a))) at 2 by lia. rewrite G. lia.
      * intros c Hc. destruct (p c) eqn:E; [reflexivity|]. apply H in Hc. destruct Hc; congruence.
    + intros c Hc. destruct (p c) eqn:E; [|reflexivity]. assert (a <= c < b) by (apply H; split; auto; lia). lia.
    + intros c Hc. destruct (p c) eqn:E; [|reflexivity]. assert (a <= c < b) by (apply H; split; auto; lia). lia.
Qed.

(** Number of channels of row [i] in sub-grid (iu, iv). *)
Definition chan_count (uvw : nd Q) (f0 df : Q) (s_w e_w : nd Z) (d : Q) (iu iv i : Z) : Z :=
  match clamp2 (elem uvw [i; 0]) (elem uvw [i; 1]) f0 df (elem s_w [i]) (elem e_w [i])
          (cell_min d iu) (cell_max d iu) (cell_min d iv) (cell_max d iv) with
  | Some r => channels r
  | None => 0
  end.

Lemma sum_diff_lemma e s n r0 r1 : shape e = [n] -> shape s = [n] -> 0 <= r0 -> r1 <= n ->
  sum_diff_rows e s r0 r1 = Some (zs r0 r1 (fun i => elem e [i] - elem s [i])).
Proof.
  intros S1 S2 H0 H1. unfold sum_diff_rows.
  rewrite (for_ext _ _ _ (fun i acc => Some (acc + (elem e [i] - elem s [i])))).
  - rewrite (for_sum _ _ Zcm r0 r1 (fun i => elem e [i] - elem s [i]) 0). f_equal.
  - intros i acc Hi. rewrite rd_some by (rewrite S1; apply in_shape_1; lia). cbn [bind].
    rewrite rd_some by (rewrite S2; apply in_shape_1; lia). reflexivity.
Qed.

Lemma count_task_lemma uvw f0 df s_w e_w s_uv e_uv d iu iv n r0 r1 :
  shape uvw = [n; 3] -> shape s_w = [n] -> shape e_w = [n] -> shape s_uv = [n] -> shape e_uv = [n] ->
  0 <= r0 -> 0 <= r1 -> r1 <= n ->
  count_task uvw f0 df s_w e_w s_uv e_uv d iu iv r0 r1 =
  Some (zs r0 r1 (chan_count uvw f0 df s_w e_w d iu iv)).
Proof.
  intros S0 S1 S2 S3 S4 H0 H01 H1. unfold count_task.
  destruct (Z.le_gt_cases r0 r1) as [L|L].
  - destruct (clamp_uv_lemma uvw f0 df s_w e_w (cell_min d iu) (cell_max d iu) (cell_min d iv) (cell_max d iv)
      s_uv e_uv n r0 r1) as (so & eo & E & A & B & C & _); auto.
    rewrite E. cbn [bind]. rewrite (sum_diff_lemma _ _ n) by auto. f_equal.
    apply sum_ext. intros i Hi. unfold chan_count. rewrite (C i Hi). reflexivity.
  - unfold clamp_uv. replace ((r0 <? 0) || (r1 <? 0)) with false by lia.
    rewrite for_empty by lia. cbn [bind]. unfold sum_diff_rows. rewrite for_empty by lia.
    now rewrite sum_empty by lia.
Qed.

Lemma chan_count_nonneg uvw f0 df s_w e_w d iu iv i : 0 <= chan_count uvw f0 df s_w e_w d iu iv i.
Proof.
  unfold chan_count. destruct (clamp2_defined (elem uvw [i; 0]) (elem uvw [i; 1]) f0 df (elem s_w [i]) (elem e_w [i])
          (cell_min d iu) (cell_max d iu) (cell_min d iv) (cell_max d iv)) as (r & -> & L). unfold channels. lia.
Qed.

(** Conditions on one row: cells resolve it and contain its coordinates. *)
Lemma one_cell u f0 df d s e lo hi c : (0 < d)%Q -> lo <= hi + 1 ->
  row_fits u f0 df d s e lo hi -> s <= c < e ->
  zs lo (hi + 1) (fun i => if dirb (Qle_bool 0 (coord_step u df)) (coord u f0 df c) (cell_min d i) (cell_max d i) then 1 else 0) = 1.
Proof.
  intros Hd L [_ H] Hc. specialize (H c Hc). change (cell_max d hi) with (cell_min d (hi + 1)) in H.
  destruct (chain_cell _ _ (cell_min d) lo (hi + 1) (dir_dec u df) (cell_mono d Hd) L H) as (i & Hi & Hc1 & Hu).
  rewrite (sum_one _ _ Zcm lo (hi + 1) i).
  2: exact Hi.
  2:{ intros j Hj Hne. destruct (dirb _ _ _ _) eqn:E; [|reflexivity]. apply dirb_iff in E. exfalso. apply Hne, Hu; auto. }
  change (cell_max d i) with (cell_min d (i + 1)). apply dirb_iff in Hc1. now rewrite Hc1.
Qed.

Lemma row_count uvw f0 df s_w e_w d u0 u1 v0 v1 i : (0 < d)%Q -> u0 <= u1 + 1 -> v0 <= v1 + 1 ->
  elem s_w [i] <= elem e_w [i] ->
  row_fits (elem uvw [i; 0]) f0 df d (elem s_w [i]) (elem e_w [i]) u0 u1 ->
  row_fits (elem uvw [i; 1]) f0 df d (elem s_w [i]) (elem e_w [i]) v0 v1 ->
  zs u0 (u1 + 1) (fun iu => zs v0 (v1 + 1) (fun iv => chan_count uvw f0 df s_w e_w d iu iv i)) =
  elem e_w [i] - elem s_w [i].
Proof.
  intros Hd Lu Lv Le Fu Fv. set (u := elem uvw [i; 0]) in *. set (v := elem uvw [i; 1]) in *.
  set (s := elem s_w [i]) in *. set (e := elem e_w [i]) in *.
  pose (pu iu c := dirb (Qle_bool 0 (coord_step u df)) (coord u f0 df c) (cell_min d iu) (cell_max d iu)).
  pose (pv iv c := dirb (Qle_bool 0 (coord_step v df)) (coord v f0 df c) (cell_min d iv) (cell_max d iv)).
  assert (E : forall iu iv, u0 <= iu < u1 + 1 -> v0 <= iv < v1 + 1 ->
     chan_count uvw f0 df s_w e_w d iu iv i = zs s e (fun c => (if pu iu c then 1 else 0) * (if pv iv c then 1 else 0))).
  { intros iu iv Hu Hv. unfold chan_count. fold u v s e.
    destruct (clamp2_ok u v f0 df s e (cell_min d iu) (cell_max d iu) (cell_min d iv) (cell_max d iv)) as (r & A & B & C).
    - apply Fu. lia.
    - apply Fv. lia.
    - rewrite A. rewrite (interval_count r s e (fun c => pu iu c && pv iv c)); auto.
      + apply sum_ext. intros c _. destruct (pu iu c), (pv iv c); reflexivity.
      + intro c. rewrite C, andb_true_iff. unfold pu, pv. rewrite !dirb_iff. tauto. }
  rewrite (sum_ext _ _ u0 (u1 + 1) _ (fun iu => zs v0 (v1 + 1) (fun iv =>
     zs s e (fun c => (if pu iu c then 1 else 0) * (if pv iv c then 1 else 0))))).
  2:{ intros iu Hu. apply sum_ext. intros iv Hv. now apply E. }
  rewrite (sum_ext _ _ u0 (u1 + 1) _ (fun iu => zs s e (fun c => zs v0 (v1 + 1) (fun iv =>
     (if pu iu c then 1 else 0) * (if pv iv c then 1 else 0))))).
  2:{ intros iu Hu. apply (sum_swap _ _ Zcm). }
  rewrite (sum_swap _ _ Zcm).
  rewrite (sum_ext _ _ s e _ (fun _ => 1)).
  - rewrite <- (interval_count (s, e) s e (fun _ => true)); [reflexivity|exact Le|].
    intro c. unfold selected. cbn. tauto.
  - intros c Hc.
    assert (G : forall k, zs v0 (v1 + 1) (fun iv => k * (if pv iv c then 1 else 0)) = k).
    { intro k. transitivity (k * zs v0 (v1 + 1) (fun iv => if pv iv c then 1 else 0)).
      - unfold sum. induction (zrange v0 (v1 + 1)) as [|x l IH]; cbn; lia.
      - unfold pv. rewrite (one_cell v f0 df d s e v0 v1 c); auto. lia. }
    rewrite (sum_ext _ _ u0 (u1 + 1) _ (fun iu => if pu iu c then 1 else 0)) by (intros; apply G).
    unfold pu. apply (one_cell u f0 df d s e u0 u1 c); auto.
Qed.

(** *** Summing over the pieces handed out *)
Definition piece_sum (g : Z -> Z -> Z -> Z) (p : piece) : Z :=
  match p with (iu, iv, r0, r1) => zs r0 r1 (g iu iv) end.

Lemma fold_zsum l : fold_right Z.add 0 l = zsum l. Proof. reflexivity. Qed.

Lemma remaining_sum g k : 0 <= tk_per k -> 0 <= tk_start k ->
  zsum (map (piece_sum g) (remaining k)) =
  zs (Z.min (tk_start k) (tk_total k)) (Z.min (tk_start k + Z.of_nat (Z.to_nat (tk_chunks k)) * tk_per k) (tk_total k)) (g (tk_iu k) (tk_iv k)).
Proof.
  intros Hp Hs. unfold remaining. generalize (Z.to_nat (tk_chunks k)) as m. intro m.
  induction m as [|m IH].
  - cbn [seq map zsum fold_right]. rewrite sum_empty; [reflexivity|lia].
  - rewrite seq_S, !map_app. unfold zsum. rewrite (fold_app _ _ Zcm). rewrite fold_zsum, IH.
    cbn [map fold_right plus]. rewrite Z.add_0_r.
    replace (tk_start k + Z.of_nat (S m) * tk_per k) with (tk_start k + Z.of_nat m * tk_per k + tk_per k) by lia.
    set (a := tk_start k + Z.of_nat m * tk_per k). unfold piece_sum, rem_piece. fold a.
    assert (tk_start k <= a) by (unfold a; nia).
    rewrite (sum_split _ _ Zcm (Z.min (tk_start k) (tk_total k)) (Z.min a (tk_total k)) (Z.min (a + tk_per k) (tk_total k))) by lia.
    f_equal. destruct (Z.le_gt_cases a (tk_total k)) as [L|L].
    + f_equal. lia.
    + rewrite !sum_empty by lia. reflexivity.
Qed.

Lemma task_sum g iu iv nv rows vpc : 0 <= nv -> 0 <= rows ->
  (nv = 0 -> zs 0 rows (g iu iv) = 0) ->
  zsum (map (piece_sum g) (remaining (task_make iu iv nv rows vpc))) = zs 0 rows (g iu iv).
Proof.
  intros Hv Hr Hz. destruct (task_make_facts iu iv nv rows vpc Hv Hr) as (F1 & F2 & F3 & F4 & F5 & F6 & F7).
  destruct (Z.eq_dec nv 0) as [->|N].
  - unfold remaining. rewrite (F6 eq_refl). cbn. now rewrite Hz.
  - destruct (F7 ltac:(lia)) as (G1 & G2 & G3).
    rewrite remaining_sum by (auto; lia). rewrite F1, F2, F3, F4. f_equal; lia.
Qed.

Lemma zsum_app a b : zsum (a ++ b) = zsum a + zsum b.
Proof. apply (fold_app _ _ Zcm). Qed.

Lemma tasks_sum g nvis rows chans nt u0 u1 v0 v1 :
  (forall u v, 0 <= nvis u v) -> 0 <= rows -> (forall u v, nvis u v = 0 -> zs 0 rows (g u v) = 0) ->
  zsum (map (piece_sum g) (flat_map remaining (count_visibilities nvis rows chans nt u0 u1 v0 v1))) =
  zs u0 (u1 + 1) (fun iu => zs v0 (v1 + 1) (fun iv => zs 0 rows (g iu iv))).
Proof.
  intros Hn Hr Hz. unfold count_visibilities, sum.
  induction (zrange u0 (u1 + 1)) as [|iu l IH]; [reflexivity|].
  cbn [flat_map map fold_right]. rewrite flat_map_app, map_app, zsum_app, IH. f_equal.
  clear IH. induction (zrange v0 (v1 + 1)) as [|iv l' IH']; [reflexivity|].
  cbn [flat_map map fold_right]. rewrite map_app, zsum_app, IH'. f_equal.
  apply task_sum; auto.
Qed.

(** The check of sdp_grid_wstack_wtower.cpp 437-445: what all tasks counted is what the w-plane
    selected. *)
Lemma count_check_lemma uvw f0 df s_w e_w s_uv e_uv d n chans nt u0 u1 v0 v1 s k :
  (0 < d)%Q -> 0 <= n -> (0 < nt)%nat -> u0 <= u1 + 1 -> v0 <= v1 + 1 ->
  shape uvw = [n; 3] -> shape s_w = [n] -> shape e_w = [n] -> shape s_uv = [n] -> shape e_uv = [n] ->
  (forall i, 0 <= i < n -> elem s_w [i] <= elem e_w [i] /\
     row_fits (elem uvw [i; 0]) f0 df d (elem s_w [i]) (elem e_w [i]) u0 u1 /\
     row_fits (elem uvw [i; 1]) f0 df d (elem s_w [i]) (elem e_w [i]) v0 v1) ->
  (forall nvis, (forall iu iv, count_subgrid uvw f0 df s_w e_w s_uv e_uv d iu iv = Some (nvis iu iv)) ->
   pool_steps (pool_init (count_visibilities nvis n chans (Z.of_nat nt) u0 u1 v0 v1) nt) s k ->
   all_done s ->
   exists counts,
     map Some counts = map (fun t => count_task uvw f0 df s_w e_w s_uv e_uv d (tk_iu t) (tk_iv t) (tk_start t) (tk_end t)) (p_done s) /\
     sum_diff_rows e_w s_w 0 n = Some (zsum counts)).
Proof.
  intros Hd Hn Hnt Lu Lv S0 S1 S2 S3 S4 Hrow nvis Hnv Hrun Hdone.
  set (g iu iv := chan_count uvw f0 df s_w e_w d iu iv).
  assert (Env : forall iu iv, nvis iu iv = zs 0 n (g iu iv)).
  { intros iu iv. specialize (Hnv iu iv).
    pose proof (count_task_lemma uvw f0 df s_w e_w s_uv e_uv d iu iv n 0 n S0 S1 S2 S3 S4 ltac:(lia) ltac:(lia) ltac:(lia)) as E.
    unfold count_task in E. unfold count_subgrid in Hnv.
    assert (X : clamp_uv uvw f0 df s_w e_w (cell_min d iu) (cell_max d iu) (cell_min d iv) (cell_max d iv) s_uv e_uv (-1) (-1) =
                clamp_uv uvw f0 df s_w e_w (cell_min d iu) (cell_max d iu) (cell_min d iv) (cell_max d iv) s_uv e_uv 0 n).
    { unfold clamp_uv. replace ((0 <? 0) || (n <? 0)) with false by lia. unfold Base.dim. rewrite S0. reflexivity. }
    rewrite X in Hnv.
    destruct (clamp_uv_lemma uvw f0 df s_w e_w (cell_min d iu) (cell_max d iu) (cell_min d iv) (cell_max d iv)
      s_uv e_uv n 0 n) as (so & eo & E1 & A & B & _); auto; try lia.
    rewrite E1 in E, Hnv. cbn [bind] in E, Hnv. unfold dim in Hnv. rewrite B in Hnv. cbn [nth] in Hnv.
    rewrite E in Hnv. injection Hnv. auto. }
  pose proof (done_perm _ _ _ _ Hnt Hrun Hdone) as PERM.
  assert (NN : forall u v, 0 <= nvis u v).
  { intros. rewrite Env. unfold sum. induction (zrange 0 n) as [|x l IH]; cbn; [lia|].
    pose proof (chan_count_nonneg uvw f0 df s_w e_w d u v x). unfold g in *. lia. }
  exists (map (piece_sum g) (map piece_of (p_done s))). split.
  - rewrite !map_map. apply map_ext_in. intros t Ht. unfold piece_of, piece_sum.
    symmetry. assert (In (piece_of t) (flat_map remaining (count_visibilities nvis n chans (Z.of_nat nt) u0 u1 v0 v1))) as HIn.
    { eapply Permutation_in; [exact PERM|]. now apply in_map. }
    apply in_flat_map in HIn. destruct HIn as (q & Hq & Hp).
    unfold count_visibilities in Hq. apply in_flat_map in Hq. destruct Hq as (iu & _ & Hq).
    apply in_map_iff in Hq. destruct Hq as (iv & <- & _).
    destruct (task_make_facts iu iv (nvis iu iv) n (cdiv (n * chans) (Z.of_nat nt)) (NN iu iv) Hn)
      as (F1 & F2 & F3 & F4 & F5 & F6 & F7).
    set (q := task_make iu iv (nvis iu iv) n (cdiv (n * chans) (Z.of_nat nt))) in *. clearbody q.
    unfold remaining in Hp. apply in_map_iff in Hp. destruct Hp as (j & Hj & Hjn). apply in_seq in Hjn.
    unfold piece_of, rem_piece in Hj. injection Hj as J1 J2 J3 J4.
    assert (0 < nvis iu iv).
    { destruct (Z.eq_dec (nvis iu iv) 0) as [Z0|]; [rewrite (F6 Z0) in Hjn; lia|]. pose proof (NN iu iv). lia. }
    destruct (F7 H) as (G1 & G2 & G3). rewrite F3, F4 in J4. rewrite F3 in J3. rewrite Z.add_0_l in J3, J4.
    apply (count_task_lemma uvw f0 df s_w e_w s_uv e_uv d _ _ n); auto; nia.
  - rewrite (sum_diff_lemma e_w s_w n) by (auto; lia). f_equal.
    transitivity (zsum (map (piece_sum g) (flat_map remaining (count_visibilities nvis n chans (Z.of_nat nt) u0 u1 v0 v1)))).
    + rewrite tasks_sum; auto.
      * symmetry.
        rewrite (sum_ext _ _ u0 (u1 + 1) _ (fun iu => zs 0 n (fun i => zs v0 (v1 + 1) (fun iv => g iu iv i)))).
        2:{ intros iu _. apply (sum_swap _ _ Zcm). }
        rewrite (sum_swap _ _ Zcm). apply sum_ext. intros i Hi.
        destruct (Hrow i Hi) as (R1 & R2 & R3). apply row_count; auto.
      * intros u v E. now rewrite <- Env.
    + symmetry. apply (fold_perm _ _ Zcm). now apply Permutation_map.
Qed.

(** *** Each visibility is processed on exactly one w-plane of a tower *)
Lemma one_plane_lemma w f0 df ws off lo hi s e c :
  (0 < ws)%Q -> s <= c < e -> (lo <= coord w f0 df c)%Q -> (coord w f0 df c <= hi)%Q ->
  (forall p, first_w_plane lo ws off <= p <= last_w_plane hi ws off ->
     step_ok w f0 df (plane_min ws off p) (plane_max ws off p)) ->
  exists! p, first_w_plane lo ws off <= p <= last_w_plane hi ws off /\
    selected (clamp_inline w f0 df s e (plane_min ws off p) (plane_max ws off p)) c.
Proof.
  intros Hw Hc H1 H2 HO.
  pose proof (planes_cover _ lo hi ws off _ (dir_dec w df) Hw H1 H2) as COV.
  pose proof (planes_order lo hi ws off Hw (Qle_trans _ _ _ H1 H2)) as ORD.
  set (a := first_w_plane lo ws off) in *. set (b := last_w_plane hi ws off) in *.
  assert (PM : forall p, plane_max ws off p = plane_min ws off (p + 1)).
  { intro p. unfold plane_min, plane_max. do 2 f_equal. lia. }
  rewrite PM in COV.
  assert (SEL : forall p, a <= p <= b -> (selected (clamp_inline w f0 df s e (plane_min ws off p) (plane_max ws off p)) c <->
     in_range_directed (0 <= coord_step w df)%Q (coord w f0 df c) (plane_min ws off p) (plane_min ws off (p + 1)))).
  { intros p Hp. destruct (clamp1_ok w f0 df s e _ _ (HO p Hp)) as (r & A & _ & C).
    destruct (clamp_inline_lemma w f0 df s e (plane_min ws off p) (plane_max ws off p)) as (r' & A' & D).
    rewrite A in A'. injection A' as <-. rewrite D, C, PM. tauto. }
  destruct (chain_cell _ _ (plane_min ws off) a (b + 1) (dir_dec w df) (plane_mono ws off Hw) ltac:(lia) COV)
    as (p & Hp & Hcell & Hu).
  exists p. split.
  - split; [lia|]. apply SEL; [lia|exact Hcell].
  - intros q [Hq Hs]. symmetry. apply Hu; [lia|]. apply SEL; auto.
Qed.

(** *** The selection on a w-plane stays inside the input channel range *)
Lemma clamp1_inside u f0 df s e mn mx r c : clamp1 u f0 df s e mn mx = Some r -> selected r c -> s <= c < e.
Proof.
  intros E H. destruct (step_resolved_dec u f0 df mn mx) as [R|R].
  - destruct (clamp1_lemma u f0 df s e mn mx R) as (r' & E' & _ & _ & X). rewrite E in E'. injection E' as <-.
    now apply X in H.
  - rewrite (clamp1_unresolved u f0 df s e mn mx R) in E. injection E as <-.
    unfold selected in H. destruct in_range_dec; cbn in H; lia.
Qed.

Lemma clamp1_order u f0 df s e mn mx r : clamp1 u f0 df s e mn mx = Some r -> fst r <= snd r.
Proof.
  intro E. destruct (clamp1_defined u f0 df s e mn mx) as (r' & E' & L). rewrite E in E'. injection E' as <-. exact L.
Qed.

Lemma count_check_bounds uvw f0 df s_in e_in s_w0 e_w0 s_w e_w s_uv e_uv d n chans nt mnw mxw
    bmin bmax lu hu lv hv nvis s k :
  (0 <= df)%Q -> (0 < d)%Q -> 0 <= n -> (0 < nt)%nat ->
  shape uvw = [n; 3] -> shape s_in = [n] -> shape e_in = [n] -> shape s_w0 = [n] -> shape e_w0 = [n] ->
  shape s_uv = [n] -> shape e_uv = [n] ->
  uvw_bounds uvw f0 df s_in e_in = Some (bmin, bmax) ->
  elem bmin [0] = Some lu -> elem bmax [0] = Some hu -> elem bmin [1] = Some lv -> elem bmax [1] = Some hv ->
  clamp_single uvw 2 f0 df s_in e_in mnw mxw s_w0 e_w0 (-1) (-1) = Some (s_w, e_w) ->
  (forall i j, 0 <= i < n -> first_cell lu d <= j <= last_cell hu d -> step_ok (elem uvw [i; 0]) f0 df (cell_min d j) (cell_max d j)) ->
  (forall i j, 0 <= i < n -> first_cell lv d <= j <= last_cell hv d -> step_ok (elem uvw [i; 1]) f0 df (cell_min d j) (cell_max d j)) ->
  (forall iu iv, count_subgrid uvw f0 df s_w e_w s_uv e_uv d iu iv = Some (nvis iu iv)) ->
  pool_steps (pool_init (count_visibilities nvis n chans (Z.of_nat nt)
     (first_cell lu d) (last_cell hu d) (first_cell lv d) (last_cell hv d)) nt) s k ->
  all_done s ->
  exists counts,
     map Some counts = map (fun t => count_task uvw f0 df s_w e_w s_uv e_uv d (tk_iu t) (tk_iv t) (tk_start t) (tk_end t)) (p_done s) /\
     sum_diff_rows e_w s_w 0 n = Some (zsum counts).
Proof.
  intros Hf Hd Hn Hnt S0 S1 S2 S3 S4 S5 S6 HB B1 B2 B3 B4 HW OU OV Hnv Hrun Hdone.
  destruct (uvw_bounds_lemma uvw f0 df s_in e_in n Hf Hn S0 S1 S2) as (bmin' & bmax' & HB' & _ & _ & BD).
  rewrite HB in HB'. injection HB' as <- <-.
  rewrite (clamp_single_all uvw 2 f0 df s_in e_in mnw mxw s_w0 e_w0 n) in HW by (auto; lia).
  destruct (clamp_single_lemma uvw 2 f0 df s_in e_in mnw mxw s_w0 e_w0 n 0 n) as (so & eo & E & X1 & X2 & X3 & _); auto; try lia.
  rewrite HW in E. injection E as <- <-.
  assert (CU : forall i c, 0 <= i < n -> elem s_in [i] <= c < elem e_in [i] ->
     (lu <= coord (elem uvw [i; 0%Z]) f0 df c)%Q /\ (coord (elem uvw [i; 0%Z]) f0 df c <= hu)%Q /\
     (lv <= coord (elem uvw [i; 1%Z]) f0 df c)%Q /\ (coord (elem uvw [i; 1%Z]) f0 df c <= hv)%Q).
  { intros i c Hi Hc. destruct (BD 0 ltac:(lia)) as [P1 P2], (BD 1 ltac:(lia)) as [P3 P4].
    rewrite B1 in P1. rewrite B2 in P2. rewrite B3 in P3. rewrite B4 in P4.
    destruct P1 as [_ P1], P2 as [_ P2], P3 as [_ P3], P4 as [_ P4].
    repeat split; [apply P1|apply P2|apply P3|apply P4]; exists i, c; auto. }
  assert (NE : exists i c, 0 <= i < n /\ elem s_in [i] <= c < elem e_in [i]).
  { destruct (BD 0 ltac:(lia)) as [P1 _]. rewrite B1 in P1. destruct P1 as [(x & (i & c & A & B & _) & _) _]. eauto. }
  destruct NE as (i0 & c0 & Hi0 & Hc0). destruct (CU i0 c0 Hi0 Hc0) as (Q1 & Q2 & Q3 & Q4).
  pose proof (cells_order lu hu d Hd (Qle_trans _ _ _ Q1 Q2)).
  pose proof (cells_order lv hv d Hd (Qle_trans _ _ _ Q3 Q4)).
  refine (count_check_lemma uvw f0 df s_w e_w s_uv e_uv d n chans nt _ _ _ _ s k Hd Hn Hnt _ _ S0 X1 X2 S5 S6 _ nvis Hnv Hrun Hdone);
    [lia|lia|].
  intros i Hi. pose proof (X3 i Hi) as EC. split; [exact (clamp1_order _ _ _ _ _ _ _ _ EC)|]. split.
  - split; [intros; now apply OU|]. intros c Hc.
    assert (elem s_in [i] <= c < elem e_in [i]) as Hin by (eapply clamp1_inside; [exact EC|exact Hc]).
    destruct (CU i c Hi Hin) as (? & ? & _). apply cells_cover; auto. apply dir_dec.
  - split; [intros; now apply OV|]. intros c Hc.
    assert (elem s_in [i] <= c < elem e_in [i]) as Hin by (eapply clamp1_inside; [exact EC|exact Hc]).
    destruct (CU i c Hi Hin) as (_ & _ & ? & ?). apply cells_cover; auto. apply dir_dec.
Qed.

(** *** Every visibility falls on exactly one (w-stack plane, sub-grid) *)
Lemma one_subgrid_lemma u v w f0 df du dw s e c lu hu lv hv lw hw :
  (0 < du)%Q -> (0 < dw)%Q -> s <= c < e ->
  (lu <= coord u f0 df c)%Q -> (coord u f0 df c <= hu)%Q ->
  (lv <= coord v f0 df c)%Q -> (coord v f0 df c <= hv)%Q ->
  (lw <= coord w f0 df c)%Q -> (coord w f0 df c <= hw)%Q ->
  (forall j, first_cell lu du <= j <= last_cell hu du -> step_ok u f0 df (cell_min du j) (cell_max du j)) ->
  (forall j, first_cell lv du <= j <= last_cell hv du -> step_ok v f0 df (cell_min du j) (cell_max du j)) ->
  (forall j, first_cell lw dw <= j <= last_cell hw dw -> step_ok w f0 df (cell_min dw j) (cell_max dw j)) ->
  exists! p : Z * Z * Z, let '(iw, iu, iv) := p in
    first_cell lw dw <= iw <= last_cell hw dw /\ first_cell lu du <= iu <= last_cell hu du /\
    first_cell lv du <= iv <= last_cell hv du /\
    exists rw r, clamp1 w f0 df s e (cell_min dw iw) (cell_max dw iw) = Some rw /\
      clamp2 u v f0 df (fst rw) (snd rw) (cell_min du iu) (cell_max du iu) (cell_min du iv) (cell_max du iv) = Some r /\
      selected r c.
Proof.
  intros Hu Hw Hc U1 U2 V1 V2 W1 W2 OU OV OW.
  assert (CH : forall x lo hi d, (0 < d)%Q -> (lo <= coord x f0 df c)%Q -> (coord x f0 df c <= hi)%Q ->
    exists i, first_cell lo d <= i <= last_cell hi d /\
      in_range_directed (0 <= coord_step x df)%Q (coord x f0 df c) (cell_min d i) (cell_max d i) /\
      forall j, first_cell lo d <= j <= last_cell hi d ->
        in_range_directed (0 <= coord_step x df)%Q (coord x f0 df c) (cell_min d j) (cell_max d j) -> j = i).
  { intros x lo hi d Hd L1 L2. pose proof (cells_order lo hi d Hd (Qle_trans _ _ _ L1 L2)).
    pose proof (cells_cover _ lo hi d _ (dir_dec x df) Hd L1 L2) as CV.
    change (cell_max d (last_cell hi d)) with (cell_min d (last_cell hi d + 1)) in CV.
    destruct (chain_cell _ _ (cell_min d) (first_cell lo d) (last_cell hi d + 1) (dir_dec x df) (cell_mono d Hd) ltac:(lia) CV)
      as (i & Hi & A & B). exists i. split; [lia|]. split; [exact A|]. intros j Hj. apply B. lia. }
  destruct (CH u lu hu du Hu U1 U2) as (iu & Iu & Au & Bu).
  destruct (CH v lv hv du Hu V1 V2) as (iv & Iv & Av & Bv).
  destruct (CH w lw hw dw Hw W1 W2) as (iw & Iw & Aw & Bw).
  exists (iw, iu, iv). split.
  - split; [exact Iw|]. split; [exact Iu|]. split; [exact Iv|].
    destruct (clamp1_ok w f0 df s e _ _ (OW iw Iw)) as (rw & Ew & _ & Xw).
    destruct (clamp2_ok u v f0 df (fst rw) (snd rw) _ _ _ _ (OU iu Iu) (OV iv Iv)) as (r & Er & _ & Xr).
    exists rw, r. split; [exact Ew|]. split; [exact Er|]. apply Xr. split; [|auto].
    apply (Xw c). auto.
  - intros [[jw ju] jv] (Jw & Ju & Jv & rw & r & Ew & Er & Hs).
    destruct (clamp1_ok w f0 df s e _ _ (OW jw Jw)) as (rw' & Ew' & _ & Xw). rewrite Ew in Ew'. injection Ew' as <-.
    destruct (clamp2_ok u v f0 df (fst rw) (snd rw) _ _ _ _ (OU ju Ju) (OV jv Jv)) as (r' & Er' & _ & Xr).
    rewrite Er in Er'. injection Er' as <-. apply Xr in Hs. destruct Hs as (H1 & H2 & H3).
    apply Xw in H1. destruct H1 as [_ H1].
    rewrite (Bu ju Ju H2), (Bv jv Jv H3), (Bw jw Jw H1). reflexivity.
Qed.
