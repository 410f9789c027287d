From Coq Require Import Lra Permutation.
From Verif Require Import Base BaseFacts Sum CRing Clamp Cplx Legendre FftSpec Gpu GpuFacts EsKernels EsKernelsSpec EsKernelsFacts.
Open Scope Z_scope.

(** Loops that do one thing after the other *)
Definition fold_opt {X S} (f : X -> S -> option S) (l : list X) (s : S) : option S := fold_left (fun o x => let* s := o in f x s) l (Some s).
Lemma fold_opt_app {X S} (f : X -> S -> option S) a b s : fold_opt f (a ++ b) s = let* s := fold_opt f a s in fold_opt f b s.
Proof.
  unfold fold_opt. rewrite fold_left_app. destruct (fold_left _ a (Some s)) as [x|]; [reflexivity|]. cbn [bind].
  induction b as [|y b IH]; [reflexivity|]. exact IH.
Qed.
Lemma fold_opt_cons {X S} (f : X -> S -> option S) x l s : fold_opt f (x :: l) s = let* s := f x s in fold_opt f l s.
Proof. change (x :: l) with ([x] ++ l). rewrite fold_opt_app. reflexivity. Qed.
Lemma for_fold {X S} (e : Z -> list X) (f : X -> S -> option S) lo hi body s :
  (forall i s, lo <= i < hi -> body i s = fold_opt f (e i) s) -> for_ lo hi body s = fold_opt f (flat_map e (zrange lo hi)) s.
Proof.
  intro B. destruct (Z.le_gt_cases hi lo) as [L|L]; [rewrite for_empty, zrange_empty by lia; reflexivity|].
  assert (X0 : forall n : nat, (Z.of_nat n <= hi - lo) -> for_ lo (lo + Z.of_nat n) body s = fold_opt f (flat_map e (zrange lo (lo + Z.of_nat n))) s).
  { induction n as [|n IH]; intro Hn; [rewrite for_empty, zrange_empty by lia; reflexivity|].
    replace (lo + Z.of_nat (Datatypes.S n)) with (lo + Z.of_nat n + 1) by lia. rewrite for_snoc, zrange_snoc by lia. rewrite IH by lia.
    rewrite flat_map_app, fold_opt_app. cbn [flat_map]. rewrite app_nil_r. destruct (fold_opt f _ s) as [x|]; cbn [bind]; [apply B; lia|reflexivity]. }
  replace hi with (lo + Z.of_nat (Z.to_nat (hi - lo))) by lia. apply X0. lia.
Qed.

(** Sums over lists *)
Definition lsum {X} (l : list X) (h : X -> R) : R := fold_right Rplus 0%R (map h l).
Lemma lsum_app {X} (a b : list X) h : lsum (a ++ b) h = (lsum a h + lsum b h)%R.
Proof. unfold lsum. rewrite map_app, fold_right_app. induction (map h a) as [|x xs IH]; cbn [fold_right]; lra. Qed.
Lemma lsum_flat {X Y} (e : X -> list Y) l h : lsum (flat_map e l) h = lsum l (fun x => lsum (e x) h).
Proof. induction l as [|x l IH]; [reflexivity|]. cbn [flat_map]. rewrite lsum_app, IH. reflexivity. Qed.
Lemma lsum_map {X Y} (e : X -> Y) l h : lsum (map e l) h = lsum l (fun x => h (e x)).
Proof. unfold lsum. now rewrite map_map. Qed.
Lemma lsum_range lo hi h : lsum (zrange lo hi) h = rsumf lo hi h.
Proof. reflexivity. Qed.
Lemma lsum_ext {X} (l : list X) g h : (forall x, In x l -> g x = h x) -> lsum l g = lsum l h.
Proof. intro H. unfold lsum. rewrite (map_ext_in g h l H). reflexivity. Qed.
Lemma lsum_mul {X} c (l : list X) h : (c * lsum l h)%R = lsum l (fun x => c * h x)%R.
Proof. unfold lsum. induction l as [|x l IH]; cbn [map fold_right]; [ring|]. rewrite <- IH. ring. Qed.
Lemma lsum_zero {X} (l : list X) h : (forall x, In x l -> h x = 0%R) -> lsum l h = 0%R.
Proof. intro H. induction l as [|x l IH]; [reflexivity|]. change (h x + lsum l h = 0)%R. rewrite (H x), IH; [ring| |now left]. intros; apply H; now right. Qed.

Lemma s32_id z : -2147483648 <= z <= 2147483647 -> s32 z = z.
Proof. intro H. unfold s32, u32. destruct (Z.lt_ge_cases z 0) as [L|L].
  - replace (z mod 4294967296) with (z + 4294967296) by (rewrite <- (Z.mod_small (z + 4294967296) 4294967296) by lia; rewrite <- (Z.mod_add z 1) by lia; f_equal; lia).
    replace (z + 4294967296 <? 2147483648) with false by lia. lia.
  - rewrite Z.mod_small by lia. replace (z <? 2147483648) with true by lia. reflexivity.
Qed.

Section One.
Context (P : es_args) (uvw freq : nd R) (nvis cells : Z) (OK : es_ok P uvw freq nvis cells) (r c : Z) (Hr : 0 <= r < num_vis_rows P) (Hc : 0 <= c < num_vis_chan P).
Notation g := (grid_size P). Notation s := (support P).
Notation pu := (at_u P uvw freq r c). Notation pv := (at_v P uvw freq r c). Notation pw := (at_w P uvw freq r c).

Definition umin := Z.max (ceilZ (pu - IZR s / 2)) (- (g / 2)). Definition umax := Z.min (floorZ (pu + IZR s / 2)) ((g - 1) / 2).
Definition vmin := Z.max (ceilZ (pv - IZR s / 2)) (- (g / 2)). Definition vmax := Z.min (floorZ (pv + IZR s / 2)) ((g - 1) / 2).
Definition wmin := Z.max (ceilZ (pw - IZR s / 2)) (grid_start_w P).
Definition wmax := s32 (Z.min (u32 (floorZ (pw + IZR s / 2))) (u32 (grid_start_w P + num_w_grids_subset P - 1))).
Definition the_place : place := mk_place (turned P uvw r) pu pv pw umin umax vmin vmax wmin wmax.

Lemma supp16 : 1 <= s <= 16.
Proof. pose proof (ok_support _ _ _ _ _ OK). destruct (ok_place _ _ _ _ _ OK r c Hr Hc) as ([?|(? & _)] & _); lia. Qed.

Lemma half_neg : cdiv (- g) 2 = - (g / 2).
Proof. unfold cdiv. pose proof (ok_grid _ _ _ _ _ OK). rewrite Z.quot_opp_l by lia. rewrite Z.quot_div_nonneg by lia. reflexivity. Qed.
Lemma half_pos : cdiv (g - 1) 2 = (g - 1) / 2.
Proof. unfold cdiv. pose proof (ok_grid _ _ _ _ _ OK). apply Z.quot_div_nonneg; lia. Qed.

Lemma get_place_ok : get_place P uvw freq (c, r) = Some the_place.
Proof.
  unfold get_place. cbn [fst snd]. rewrite !rd_some by (try rewrite (ok_uvw _ _ _ _ _ OK); try rewrite (ok_freq _ _ _ _ _ OK); try apply in_shape_2; try apply in_shape_1; lia).
  cbn [bind]. set (fl := if wstack P then _ else _). assert (Ef : fl = turned P uvw r) by (unfold fl, turned, Rltb; destruct (wstack P); [destruct (Rlt_dec (elem uvw [r; 2]) 0); reflexivity|reflexivity]). rewrite Ef.
  destruct (ok_place _ _ _ _ _ OK r c Hr Hc) as (_ & Nu & Nv & Nw). pose proof supp16 as Hs.
  set (inv := (turned P uvw r * elem freq [c] / 299792458)%R).
  replace (elem uvw [r; 0%Z] * inv * uv_scale P)%R with pu by (unfold inv, at_u, waves; field).
  replace (elem uvw [r; 1%Z] * inv * uv_scale P)%R with pv by (unfold inv, at_v, waves; field).
  replace (if wstack P then ((elem uvw [r; 2%Z] * inv - min_plane_w P) * w_scale P)%R else 0%R) with pw by (unfold inv, at_w, waves; destruct (wstack P); [field|reflexivity]).
  pose proof (near_range pu s Nu Hs). pose proof (near_range pv s Nv Hs). pose proof (near_range pw s Nw Hs).
  rewrite !to_int_in by lia. cbn [bind]. rewrite half_neg, half_pos. reflexivity.
Qed.

Lemma w_in k : wmin <= k <= wmax -> grid_start_w P <= k < grid_start_w P + num_w_grids_subset P.
Proof.
  pose proof (ok_start _ _ _ _ _ OK). pose proof (ok_subset _ _ _ _ _ OK). pose proof (ok_end _ _ _ _ _ OK).
  unfold wmin, wmax. intros [A B]. assert (X : s32 (Z.min (u32 (floorZ (pw + IZR s / 2))) (u32 (grid_start_w P + num_w_grids_subset P - 1))) <= grid_start_w P + num_w_grids_subset P - 1).
  { unfold u32. rewrite (Z.mod_small (grid_start_w P + num_w_grids_subset P - 1)) by lia. assert (0 <= floorZ (pw + IZR s / 2) mod 4294967296) by (apply Z.mod_pos_bound; lia). rewrite s32_id by lia. lia. }
  lia.
Qed.
Lemma w_out k : grid_start_w P <= k < grid_start_w P + num_w_grids_subset P -> ~ (wmin <= k <= wmax) -> es (beta P) s (IZR k - pw) = 0%R.
Proof.
  pose proof (ok_start _ _ _ _ _ OK). pose proof (ok_subset _ _ _ _ _ OK). pose proof (ok_end _ _ _ _ _ OK). pose proof supp16 as Hs.
  destruct (ok_place _ _ _ _ _ OK r c Hr Hc) as (_ & _ & _ & Nw). pose proof (near_range pw s Nw Hs) as Hn. intros Hk N. apply es_outside; [lia|].
  unfold wmin, wmax, u32 in N. rewrite (Z.mod_small (grid_start_w P + num_w_grids_subset P - 1)) in N by lia.
  destruct (Z.lt_ge_cases (floorZ (pw + IZR s / 2)) 0) as [L|L]; [right; lia|]. rewrite Z.mod_small in N by lia. rewrite s32_id in N by lia. lia.
Qed.
Lemma u_in k : umin <= k <= umax -> 0 <= k + g / 2 < g.
Proof. pose proof (ok_grid _ _ _ _ _ OK). unfold umin, umax. intros. assert (g / 2 + (g - 1) / 2 = g - 1) by lia. lia. Qed.
Lemma v_in k : vmin <= k <= vmax -> 0 <= k + g / 2 < g.
Proof. pose proof (ok_grid _ _ _ _ _ OK). unfold vmin, vmax. intros. assert (g / 2 + (g - 1) / 2 = g - 1) by lia. lia. Qed.
Lemma u_out a : 0 <= a < g -> ~ (umin <= a - g / 2 <= umax) -> es (beta P) s (IZR (a - g / 2) - pu) = 0%R.
Proof. pose proof supp16. unfold umin, umax. intros Ha N. apply es_outside; lia. Qed.
Lemma v_out a : 0 <= a < g -> ~ (vmin <= a - g / 2 <= vmax) -> es (beta P) s (IZR (a - g / 2) - pv) = 0%R.
Proof. pose proof supp16. unfold vmin, vmax. intros Ha N. apply es_outside; lia. Qed.

(** The tables hold the kernel *)
Lemma table_ok pos lo hi : hi - lo < 16 -> exists T, kernel_table P pos lo hi = Some T /\ forall k, lo <= k <= hi -> look_up T (k - lo) = Some (es (beta P) s (IZR k - pos)).
Proof.
  intro Hw. pose proof supp16 as Hs. unfold kernel_table. destruct (Z.lt_ge_cases hi lo) as [L|L].
  - rewrite for_empty by lia. eexists. split; [reflexivity|]. lia.
  - destruct (for_inv (fun i T => shape T = [16] /\ forall k, lo <= k < i -> elem T [k - lo] = Some (es (beta P) s (IZR k - pos))) lo (hi + 1)
      (fun g0 k => wr k [g0 - lo] (Some (exp_semicircle (beta P) ((IZR g0 - pos) * (1 / (IZR s / 2))))))
      (mk_nd [KERNEL_SUPPORT_BOUND] (fun _ => None))) as (T & E & S1 & V); [lia|split; [reflexivity|lia]| |].
    + intros i T Hi (S1 & V). rewrite wr_some by (rewrite S1; apply in_shape_1; lia). eexists. split; [reflexivity|]. split; [exact S1|].
      intros k Hk. destruct (Z.eq_dec k i) as [->|N]; [rewrite elem_upd_same, es_code by lia; reflexivity|].
      rewrite elem_upd_other by (intro Q; injection Q; lia). apply V. lia.
    + exists T. split; [exact E|]. intros k Hk. unfold look_up. rewrite rd_some by (rewrite S1; apply in_shape_1; lia). cbn [bind]. apply V. lia.
Qed.

(** The cells visited, with the kernel *)
Definition offset (k u v : Z) : Z := (k - grid_start_w P) * (g * g) + (u + g / 2) * g + (v + g / 2).
Definition value (k u v : Z) : R := (sign (u + v) * es (beta P) s (IZR u - pu) * es (beta P) s (IZR v - pv) * es (beta P) s (IZR k - pw))%R.
Definition visits : list (Z * R) :=
  flat_map (fun k => flat_map (fun u => flat_map (fun v => [(offset k u v, value k u v)]) (zrange vmin (vmax + 1))) (zrange umin (umax + 1))) (zrange wmin (wmax + 1)).

Lemma narrow : umax - umin < 16 /\ vmax - vmin < 16.
Proof.
  destruct (ok_place _ _ _ _ _ OK r c Hr Hc) as (F & _). unfold umax, umin, vmax, vmin.
  pose proof (width pu s). pose proof (width pv s). destruct F as [F|(F & Ou & Ov)]; [lia|].
  pose proof (width_off pu s Ou F). pose proof (width_off pv s Ov F). lia.
Qed.

Lemma visit_ok {S} (f : Z -> R -> S -> option S) (st : S) : visit P the_place f st = fold_opt (fun '(o, k) => f o k) visits st.
Proof.
  pose proof (ok_grid _ _ _ _ _ OK). pose proof (ok_grid2 _ _ _ _ _ OK). pose proof narrow as [Nu Nv]. pose proof supp16 as Hs.
  unfold visit. cbn [pos_u pos_v pos_w u_min u_max v_min v_max w_min w_max the_place].
  destruct (table_ok pu umin umax Nu) as (Tu & Eu & Lu). destruct (table_ok pv vmin vmax Nv) as (Tv & Ev & Lv). rewrite Eu, Ev. cbn [bind]. unfold visits.
  apply for_fold. intros k st1 Hk. rewrite to_int_in by nia. cbn [bind]. apply for_fold. intros u st2 Hu. apply for_fold. intros v st3 Hv.
  rewrite Lu, Lv by lia. cbn [bind]. rewrite es_code by lia. rewrite fold_opt_cons. unfold fold_opt. cbn [fold_left].
  replace (cdiv g 2) with (g / 2) by (unfold cdiv; symmetry; apply Z.quot_div_nonneg; lia). fold (offset k u v).
  replace (if Z.odd (u + v) then (- (es (beta P) s (IZR u - pu) * es (beta P) s (IZR v - pv) * es (beta P) s (IZR k - pw)))%R
           else (es (beta P) s (IZR u - pu) * es (beta P) s (IZR v - pv) * es (beta P) s (IZR k - pw))%R) with (value k u v).
  - destruct (f (offset k u v) (value k u v) st3); reflexivity.
  - unfold value, sign. rewrite <- Z.negb_odd. destruct (Z.odd (u + v)); cbn [negb]; ring.
Qed.

(** Sums over the cells visited are sums over all cells. *)
Lemma visits_sum (h : Z -> R) : lsum visits (fun '(o, k) => (h o * k)%R) =
  rsumf 0 (num_w_grids_subset P) (fun p => rsumf 0 g (fun a => rsumf 0 g (fun b => (h (cell g p a b) * coef P uvw freq r c (grid_start_w P + p) a b)%R))).
Proof.
  unfold visits. rewrite lsum_flat, lsum_range.
  rewrite (rsumf_ext wmin (wmax + 1) _ (fun k => rsumf 0 g (fun a => rsumf 0 g (fun b => (h (offset k (a - g / 2) (b - g / 2)) * value k (a - g / 2) (b - g / 2))%R)))).
  2: { intros k Hk. rewrite lsum_flat, lsum_range. transitivity (rsumf (umin + g / 2) (umax + 1 + g / 2) (fun a => rsumf 0 g (fun b => (h (offset k (a - g / 2) (b - g / 2)) * value k (a - g / 2) (b - g / 2))%R))).
    - unfold rsumf at 2. rewrite (sum_shift _ _ umin (umax + 1) (g / 2)). apply rsumf_ext. intros u Hu. rewrite lsum_flat, lsum_range.
      transitivity (rsumf (vmin + g / 2) (vmax + 1 + g / 2) (fun b => (h (offset k (u + g / 2 - g / 2) (b - g / 2)) * value k (u + g / 2 - g / 2) (b - g / 2))%R)).
      + unfold rsumf at 2. rewrite (sum_shift _ _ vmin (vmax + 1) (g / 2)). apply rsumf_ext. intros v Hv. unfold lsum. cbn [map fold_right].
        replace (u + g / 2 - g / 2) with u by lia. replace (v + g / 2 - g / 2) with v by lia. ring.
      + apply rsumf_extend.
        * intros b Hb. pose proof (v_in (b - g / 2)). lia.
        * intros b Hb N. unfold value. rewrite v_out by lia. ring.
    - apply rsumf_extend.
      * intros a Ha. pose proof (u_in (a - g / 2)). lia.
      * intros a Ha N. apply rsumf_none. intros b Hb. unfold value. rewrite u_out by lia. ring. }
  rewrite (rsumf_extend wmin (wmax + 1) (grid_start_w P) (grid_start_w P + num_w_grids_subset P)).
  - rewrite <- (Z.add_0_l (grid_start_w P)) at 1. rewrite (Z.add_comm (grid_start_w P)). unfold rsumf at 1. rewrite (sum_shift _ _ 0 (num_w_grids_subset P) (grid_start_w P)).
    apply rsumf_ext. intros p Hp. apply rsumf_ext. intros a Ha. apply rsumf_ext. intros b Hb. unfold offset, value, coef, cell. rewrite (Z.add_comm p).
    replace ((grid_start_w P + p - grid_start_w P) * (g * g) + (a - g / 2 + g / 2) * g + (b - g / 2 + g / 2)) with ((p * g + a) * g + b) by ring. reflexivity.
  - intros k Hk. apply w_in. lia.
  - intros k Hk N. apply rsumf_none. intros a Ha. apply rsumf_none. intros b Hb. unfold value. rewrite w_out by lia. ring.
Qed.

Lemma visits_in o k : In (o, k) visits -> 0 <= o < cells.
Proof.
  pose proof (ok_grid _ _ _ _ _ OK). pose proof (ok_subset _ _ _ _ _ OK). rewrite (ok_cells _ _ _ _ _ OK). unfold visits. intro I.
  apply in_flat_map in I. destruct I as (w & Iw & I). apply in_flat_map in I. destruct I as (u & Iu & I). apply in_flat_map in I. destruct I as (v & Iv & [I|[]]).
  injection I as <- _. apply in_zrange in Iw, Iu, Iv. pose proof (w_in w ltac:(lia)). pose proof (u_in u ltac:(lia)). pose proof (v_in v ltac:(lia)). unfold offset. nia.
Qed.
Lemma no_overlap_visits : no_overlap the_place = true -> visits = [].
Proof.
  unfold no_overlap. cbn [u_min u_max v_min v_max w_min w_max the_place]. intro H. unfold visits.
  assert (E : forall (l : list Z), flat_map (fun _ => @nil (Z * R)) l = []) by (induction l; auto).
  destruct (Z.lt_ge_cases wmax wmin); [rewrite (zrange_empty wmin) by lia; reflexivity|].
  destruct (Z.lt_ge_cases umax umin); [rewrite (zrange_empty umin) by lia; apply E|].
  rewrite (zrange_empty vmin) by lia. cbn [flat_map]. rewrite (E (zrange umin (umax + 1))). apply E.
Qed.
End One.
