(** Proofs about tiling and bucket sort. *)
From Verif Require Import Base BaseFacts Sum QNum Tiled TiledSpec.
From Coq Require Import Permutation.
Open Scope Z_scope.
Notation zs := (sum Z.add 0).

(** *** Folding a partial function over a list *)
Fixpoint fold_opt {S X} (f : X -> S -> option S) (l : list X) (s : S) : option S :=
  match l with [] => Some s | x :: l => let* s := f x s in fold_opt f l s end.

Lemma fold_opt_app {S X} (f : X -> S -> option S) l1 l2 s :
  fold_opt f (l1 ++ l2) s = (let* s := fold_opt f l1 s in fold_opt f l2 s).
Proof. revert s. induction l1 as [|x l1 IH]; intro s; cbn; [reflexivity|]. destruct (f x s); cbn; auto. Qed.

Lemma fold_opt_ext {S X} (f g : X -> S -> option S) l s :
  (forall x s, In x l -> f x s = g x s) -> fold_opt f l s = fold_opt g l s.
Proof.
  revert s. induction l as [|x l IH]; intros s H; cbn; [reflexivity|]. rewrite H by (left; reflexivity).
  destruct (g x s); cbn; [|reflexivity]. apply IH. intros. apply H. now right.
Qed.

Lemma for_fold {S X} (f : X -> S -> option S) (g : Z -> list X) body lo hi s :
  (forall i s, lo <= i < hi -> body i s = fold_opt f (g i) s) ->
  for_ lo hi body s = fold_opt f (flat_map g (zrange lo hi)) s.
Proof.
  intro H. destruct (Z.le_gt_cases hi lo) as [L|L].
  { rewrite for_empty, zrange_empty by lia. reflexivity. }
  assert (G : forall k, 0 <= k -> lo + k <= hi -> for_ lo (lo + k) body s = fold_opt f (flat_map g (zrange lo (lo + k))) s).
  { apply (natlike_ind (fun k => lo + k <= hi -> for_ lo (lo + k) body s = fold_opt f (flat_map g (zrange lo (lo + k))) s)).
    - intros _. rewrite for_empty, zrange_empty by lia. reflexivity.
    - intros k Hk IH Hl. replace (lo + Z.succ k) with (lo + k + 1) by lia.
      rewrite for_snoc, zrange_snoc by lia. rewrite flat_map_app, fold_opt_app. cbn [flat_map]. rewrite app_nil_r.
      rewrite IH by lia. destruct (fold_opt f (flat_map g (zrange lo (lo + k))) s); cbn [bind]; [|reflexivity].
      apply H. lia. }
  replace hi with (lo + (hi - lo)) by lia. apply G; lia.
Qed.

Lemma flat_map_map {X Y Z'} (f : X -> Y) (g : Y -> list Z') l : flat_map g (map f l) = flat_map (fun x => g (f x)) l.
Proof. induction l as [|x l IH]; cbn; [reflexivity|]. now rewrite IH. Qed.
Lemma flat_map_flat_map {X Y Z'} (f : X -> list Y) (g : Y -> list Z') l :
  flat_map g (flat_map f l) = flat_map (fun x => flat_map g (f x)) l.
Proof. induction l as [|x l IH]; cbn; [reflexivity|]. now rewrite flat_map_app, IH. Qed.
Lemma map_flat_map_single {X Y} (f : X -> Y) l : flat_map (fun x => [f x]) l = map f l.
Proof. induction l as [|x l IH]; cbn; [reflexivity|]. now rewrite IH. Qed.

(** *** The loop nest visits the list of visibilities *)
Inductive event := Hit (i : Z) (u v : Q) (pu pv : Z) | Skip.
Definition ev_run {S} (hit : Z -> Q -> Q -> Z -> Z -> S -> option S) (skip : S -> option S) (e : event) (s : S) : option S :=
  match e with Hit i u v pu pv => hit i u v pu pv s | Skip => skip s end.
Definition events (P : tparams) (v : Z * Q * Q) : list event :=
  if fits P v then map (fun t => Hit (fst (fst v)) (snd (fst v)) (snd v) (fst t) (snd t)) (tiles_of P v) else [Skip].

Lemma flat_map_ext_in {X Y} (f g : X -> list Y) l : (forall x, In x l -> f x = g x) -> flat_map f l = flat_map g l.
Proof. induction l as [|x l IH]; intro H; cbn; [reflexivity|]. rewrite H by (now left). rewrite IH; [reflexivity|]. intros. apply H. now right. Qed.

Lemma visit_lemma {S} P nt nb nc uvw freqs (hit : Z -> Q -> Q -> Z -> Z -> S -> option S) skip s :
  shape uvw = [nt; nb; 3] -> shape freqs = [nc] ->
  visit P nt nb nc uvw freqs hit skip s =
    fold_opt (ev_run hit skip) (flat_map (events P) (visibilities P nt nb nc uvw freqs)) s.
Proof.
  intros S1 S2. unfold visit, visibilities. rewrite flat_map_flat_map.
  apply for_fold. intros t s0 Ht. rewrite flat_map_flat_map. apply for_fold. intros b s1 Hb.
  rewrite flat_map_map. apply for_fold. intros c s2 Hc.
  rewrite rd_some by (rewrite S2; apply in_shape_1; lia). cbn [bind].
  rewrite rd_some by (rewrite S1; apply in_shape_3; lia). cbn [bind].
  rewrite rd_some by (rewrite S1; apply in_shape_3; lia). cbn [bind].
  set (pu := position P (elem uvw [t; b; 0]) (elem freqs [c])).
  set (pv := position P (elem uvw [t; b; 1]) (elem freqs [c])).
  unfold events. cbn [fst snd]. unfold tiles_of, fits. cbn [fst snd].
  destruct (inside P (grid_pos P pu) (grid_pos P pv)); [|cbn; now destruct (skip s2)].
  destruct (tile_ranges P (grid_pos P pu) (grid_pos P pv)) as [[[u0 u1] v0] v1].
  rewrite (for_fold (ev_run hit skip) (fun y => map (fun x => Hit (nc * (nb * t + b) + c) pu pv x y) (zrange u0 u1))).
  - f_equal. clear. induction (zrange v0 v1) as [|y l IH]; cbn; [reflexivity|].
    rewrite map_app, IH. f_equal. now rewrite map_map.
  - intros y s3 Hy. rewrite (for_fold (ev_run hit skip) (fun x => [Hit (nc * (nb * t + b) + c) pu pv x y])).
    + now rewrite map_flat_map_single.
    + intros x s4 Hx. cbn. now destruct (hit (nc * (nb * t + b) + c) pu pv x y s4).
Qed.

(** *** Counting *)
Lemma entries_app {E} t (l1 l2 : list (Z * E)) : entries t (l1 ++ l2) = entries t l1 ++ entries t l2.
Proof. unfold entries. now rewrite filter_app, map_app. Qed.
Lemma cnt_app {E} t (l1 l2 : list (Z * E)) : cnt t (l1 ++ l2) = cnt t l1 + cnt t l2.
Proof. unfold cnt. rewrite entries_app, app_length. lia. Qed.
Lemma cnt_cons {E} t (h : Z * E) l : cnt t (h :: l) = (if fst h =? t then 1 else 0) + cnt t l.
Proof. unfold cnt, entries. cbn [filter]. destruct (fst h =? t); cbn [map length]; lia. Qed.
Lemma cnt_nonneg {E} t (l : list (Z * E)) : 0 <= cnt t l. Proof. unfold cnt. lia. Qed.

(** Tile numbers of a list of events. *)
Definition ev_hits {E} (mk : Z * Q * Q -> Z * Z -> E) P (e : event) : list (Z * E) :=
  match e with Hit i u v pu pv => [(pu + pv * num_tiles_u P, mk (i, u, v) (pu, pv))] | Skip => [] end.
Definition ev_skips (e : event) : Z := match e with Skip => 1 | _ => 0 end.
Definition skips (l : list event) : Z := fold_right Z.add 0 (map ev_skips l).

Lemma hits_events {E} (mk : Z * Q * Q -> Z * Z -> E) P vs :
  flat_map (ev_hits mk P) (flat_map (events P) vs) = hits P mk vs.
Proof.
  unfold hits. rewrite flat_map_flat_map. apply flat_map_ext_in. intros [[i u] v] _.
  unfold events. destruct (fits P (i, u, v)) eqn:F.
  - rewrite flat_map_map. cbn [fst snd ev_hits]. rewrite map_flat_map_single. apply map_ext. intros [x y]. reflexivity.
  - unfold tiles_of. rewrite F. reflexivity.
Qed.

Lemma skips_app a b : skips (a ++ b) = skips a + skips b.
Proof. unfold skips. induction a as [|x a IH]; cbn; [lia|]. rewrite IH. lia. Qed.
Lemma skips_events P vs : skips (flat_map (events P) vs) = Z.of_nat (length (filter (fun v => negb (fits P v)) vs)).
Proof.
  induction vs as [|v vs IH]; [reflexivity|]. cbn [flat_map filter]. rewrite skips_app, IH. unfold events.
  destruct (fits P v).
  - cbn [negb]. assert (G : forall l : list (Z * Z), skips (map (fun t => Hit (fst (fst v)) (snd (fst v)) (snd v) (fst t) (snd t)) l) = 0).
    { induction l as [|t l IHl]; [reflexivity|]. unfold skips in *. cbn. now rewrite IHl. }
    rewrite G. lia.
  - cbn [negb length]. unfold skips. cbn. lia.
Qed.

Definition unit_entry (_ : Z * Q * Q) (_ : Z * Z) : unit := tt.

Lemma count_fold P n evs : forall pts sk,
  shape pts = [n] -> shape sk = [1] ->
  (forall h, In h (flat_map (ev_hits unit_entry P) evs) -> 0 <= fst h < n) ->
  exists pts' sk', fold_opt (ev_run
    (fun _ _ _ pu pv st => let '(pts, sk) := st in
       let* x := rd pts [pu + pv * num_tiles_u P] in
       let* pts := wr pts [pu + pv * num_tiles_u P] (x + 1) in Some (pts, sk))
    (fun st => let '(pts, sk) := st in let* x := rd sk [0] in let* sk := wr sk [0] (x + 1) in Some (pts, sk))) evs (pts, sk)
   = Some (pts', sk') /\ shape pts' = [n] /\ shape sk' = [1] /\
   (forall t, elem pts' [t] = elem pts [t] + cnt t (flat_map (ev_hits unit_entry P) evs)) /\
   elem sk' [0] = elem sk [0] + skips evs.
Proof.
  induction evs as [|e evs IH]; intros pts sk S1 S2 H.
  - exists pts, sk. cbn [fold_opt flat_map]. repeat split; auto.
    + intros. unfold cnt, entries. cbn. lia.
    + unfold skips. cbn. lia.
  - cbn [fold_opt]. destruct e as [i u v pu pv|]; cbn [ev_run].
    + set (k := pu + pv * num_tiles_u P).
      assert (Hk : 0 <= k < n) by (apply (H (k, tt)); left; reflexivity).
      rewrite rd_some by (rewrite S1; apply in_shape_1; lia). cbn [bind].
      rewrite wr_some by (rewrite S1; apply in_shape_1; lia). cbn [bind].
      destruct (IH (upd pts [k] (elem pts [k] + 1)) sk) as (p' & s' & E & A & B & Cc & D); auto.
      { intros h Hh. apply H. right. exact Hh. }
      exists p', s'. split; [exact E|]. split; [exact A|]. split; [exact B|]. split.
      * intro t. rewrite Cc. cbn [flat_map ev_hits app]. rewrite cnt_cons. cbn [fst]. fold k.
        destruct (Z.eqb_spec k t) as [->|N].
        -- rewrite elem_upd_same. lia.
        -- rewrite elem_upd_other by congruence. lia.
      * rewrite D. unfold skips. cbn. lia.
    + rewrite rd_some by (rewrite S2; reflexivity). cbn [bind]. rewrite wr_some by (rewrite S2; reflexivity). cbn [bind].
      destruct (IH pts (upd sk [0] (elem sk [0] + 1))) as (p' & s' & E & A & B & Cc & D); auto.
      exists p', s'. split; [exact E|]. split; [exact A|]. split; [exact B|]. split; [exact Cc|].
      rewrite D, elem_upd_same. unfold skips. cbn. lia.
Qed.

Lemma prefix_lemma n pts offs : shape pts = [n] -> shape offs = [n + 1] -> 0 <= n ->
  exists offs', prefix_sum n pts offs = Some offs' /\ shape offs' = [n + 1] /\
    forall t, 0 <= t <= n -> elem offs' [t] = zs 0 t (fun j => elem pts [j]).
Proof.
  intros S1 S2 Hn. unfold prefix_sum.
  match goal with |- context [for_ 0 n ?b (offs, 0)] => destruct (for_inv (fun i st => shape (fst st) = [n + 1] /\
      snd st = zs 0 i (fun j => elem pts [j]) /\ forall t, 0 <= t < i -> elem (fst st) [t] = zs 0 t (fun j => elem pts [j])) 0 n b (offs, 0)) as ([o s] & E & A & B & D) end; auto.
  - cbn [fst snd]. split; [exact S2|]. split; [now rewrite sum_empty|]. intros; lia.
  - intros i [o s] Hi (A & B & D). cbn [fst snd] in *.
    rewrite rd_some by (rewrite S1; apply in_shape_1; lia). cbn [bind].
    rewrite wr_some by (rewrite A; apply in_shape_1; lia). cbn [bind].
    eexists. split; [reflexivity|]. cbn [fst snd]. split; [exact A|]. split.
    + rewrite (sum_snoc _ _ Zcm) by lia. lia.
    + intros t Ht. destruct (Z.eq_dec t i) as [->|N]; [now rewrite elem_upd_same|].
      rewrite elem_upd_other by congruence. apply D. lia.
  - rewrite E. cbn [bind]. cbn [fst snd] in *. rewrite wr_some by (rewrite A; apply in_shape_1; lia).
    eexists. split; [reflexivity|]. split; [exact A|]. intros t Ht.
    destruct (Z.eq_dec t n) as [->|N]; [now rewrite elem_upd_same|].
    rewrite elem_upd_other by congruence. apply D. lia.
Qed.

Lemma nth_error_ext {X} (l1 l2 : list X) : (forall k, nth_error l1 k = nth_error l2 k) -> l1 = l2.
Proof.
  revert l2. induction l1 as [|x l1 IH]; intros [|y l2] H; auto.
  - specialize (H O). discriminate.
  - specialize (H O). discriminate.
  - pose proof (H O) as H0. cbn in H0. injection H0 as ->. f_equal. apply IH. intro k. apply (H (S k)).
Qed.

(** *** Bucket sort of a list of (tile, entry) pairs *)
Section Sort.
  Context {E : Type}.
  Context (n : Z) (full : list (Z * E)) (full_ok : forall h, In h full -> 0 <= fst h < n) (Hn : 0 <= n).
  Definition B (t : Z) := start t full.

  Lemma B_next t : 0 <= t -> B (t + 1) = B t + cnt t full.
  Proof. intro H. unfold B, start. now rewrite (sum_snoc _ _ Zcm) by lia. Qed.
  Lemma B_mono t t' : 0 <= t -> t <= t' -> B t <= B t'.
  Proof.
    intros H L. replace t' with (t + (t' - t)) by lia. assert (0 <= t' - t) by lia. revert H0. generalize (t' - t). clear L.
    intros k Hk. pattern k. apply natlike_ind; [rewrite Z.add_0_r; lia| |exact Hk].
    intros j Hj IH. replace (t + Z.succ j) with (t + j + 1) by lia. rewrite B_next by lia.
    pose proof (cnt_nonneg (t + j) full). lia.
  Qed.
  Lemma B_0 : B 0 = 0. Proof. reflexivity. Qed.

  Definition Inv (l : list (Z * E)) (st : nd Z * nd E) : Prop :=
    shape (fst st) = [n + 1] /\ shape (snd st) = [B n] /\
    (forall t, 0 <= t < n -> elem (fst st) [t] = B t + cnt t l) /\
    (forall t k e, 0 <= t < n -> nth_error (entries t l) k = Some e -> elem (snd st) [B t + Z.of_nat k] = e).

  Lemma put_step l h rest st : full = l ++ h :: rest -> Inv l st ->
    exists st', put (fst h) (snd h) st = Some st' /\ Inv (l ++ [h]) st'.
  Proof.
    intros F (S1 & S2 & O & X). destruct h as [t e]. destruct st as [offs out]. cbn [fst snd] in *.
    assert (Ht : 0 <= t < n) by (apply (full_ok (t, e)); rewrite F; apply in_app_iff; right; left; reflexivity).
    assert (C1 : cnt t full = cnt t l + 1 + cnt t rest).
    { rewrite F, cnt_app, cnt_cons. cbn [fst]. rewrite Z.eqb_refl. lia. }
    pose proof (cnt_nonneg t l). pose proof (cnt_nonneg t rest).
    assert (L0 : 0 <= B t) by (rewrite <- B_0; apply B_mono; lia).
    assert (L1 : B (t + 1) <= B n) by (apply B_mono; lia). rewrite B_next in L1 by lia.
    unfold put. rewrite rd_some by (rewrite S1; apply in_shape_1; lia). cbn [bind].
    rewrite wr_some by (rewrite S1; apply in_shape_1; lia). cbn [bind]. rewrite O by lia.
    rewrite wr_some by (rewrite S2; apply in_shape_1; lia). cbn [bind].
    eexists. split; [reflexivity|]. unfold Inv. cbn [fst snd]. split; [exact S1|]. split; [exact S2|]. split.
    - intros t' Ht'. rewrite cnt_app, cnt_cons. cbn [fst]. change (cnt t' (@nil (Z * E))) with 0.
      destruct (Z.eqb_spec t t') as [->|N].
      + rewrite elem_upd_same. lia.
      + rewrite elem_upd_other by congruence. rewrite O by lia. lia.
    - intros t' k e' Ht' Hk. rewrite entries_app in Hk.
      assert (K : (k < length (entries t' l))%nat \/ (k = length (entries t' l) /\ t' = t /\ e' = e)).
      { destruct (Nat.lt_ge_cases k (length (entries t' l))) as [L|L]; [now left|]. right.
        rewrite nth_error_app2 in Hk by lia. unfold entries at 1 in Hk. cbn [filter fst] in Hk.
        destruct (Z.eqb_spec t t') as [->|N]; cbn [map snd] in Hk.
        - destruct (k - length (entries t' l))%nat as [|m] eqn:Em; cbn in Hk; [injection Hk as <-; repeat split; lia|destruct m; discriminate].
        - destruct (k - length (entries t' l))%nat; discriminate. }
      destruct K as [L|(-> & -> & ->)].
      + rewrite nth_error_app1 in Hk by lia. rewrite elem_upd_other; [now apply X|].
        intro Q. injection Q as Q.
        assert (Z.of_nat k < cnt t' l) by (unfold cnt; lia).
        assert (C2 : cnt t' full = cnt t' l + ((if t =? t' then 1 else 0) + cnt t' rest)) by (rewrite F, cnt_app, cnt_cons; reflexivity).
        pose proof (cnt_nonneg t' rest).
        destruct (Z.lt_trichotomy t t') as [M|[M|M]].
        * pose proof (B_mono (t + 1) t' ltac:(lia) ltac:(lia)). rewrite B_next in H3 by lia. lia.
        * subst t'. lia.
        * pose proof (B_mono (t' + 1) t ltac:(lia) ltac:(lia)). rewrite B_next in H3 by lia.
          destruct (Z.eqb_spec t t'); lia.
      + change (Z.of_nat (length (entries t l))) with (cnt t l). now rewrite elem_upd_same.
  Qed.

  Lemma sort_run : forall rest l st, full = l ++ rest -> Inv l st ->
    exists st', fold_opt (fun h => put (fst h) (snd h)) rest st = Some st' /\ Inv full st'.
  Proof.
    induction rest as [|h rest IH]; intros l st F I.
    - rewrite app_nil_r in F. subst l. exists st. split; [reflexivity|exact I].
    - cbn [fold_opt]. destruct (put_step l h rest st F I) as (st' & P & I'). rewrite P. cbn [bind].
      apply (IH (l ++ [h])); [|exact I']. now rewrite <- app_assoc.
  Qed.

  Lemma slice_entries st t : Inv full st -> 0 <= t < n -> slice (snd st) (B t) (B (t + 1)) = entries t full.
  Proof.
    intros (_ & _ & _ & X) Ht. rewrite B_next by lia. apply nth_error_ext. intro k.
    unfold slice. rewrite nth_error_map.
    destruct (Nat.lt_ge_cases k (length (entries t full))) as [L|L].
    - destruct (nth_error (entries t full) k) as [e|] eqn:Ee; [|apply nth_error_None in Ee; lia].
      assert (Z1 : nth_error (zrange (B t) (B t + cnt t full)) k = Some (B t + Z.of_nat k)).
      { unfold zrange. rewrite nth_error_map. replace (Z.to_nat (B t + cnt t full - B t)) with (length (entries t full)) by (unfold cnt; lia).
        rewrite (nth_error_nth' _ 0%nat) by (rewrite seq_length; lia). cbn [option_map]. now rewrite seq_nth by lia. }
      rewrite Z1. cbn [option_map]. f_equal. now apply X.
    - rewrite (proj2 (nth_error_None (entries t full) k)) by lia.
      rewrite (proj2 (nth_error_None (zrange (B t) (B t + cnt t full)) k)); [reflexivity|].
      rewrite zrange_length. unfold cnt. lia.
  Qed.
End Sort.

(** *** The functions *)
Lemma entries_in {E} (mk : Z * Q * Q -> Z * Z -> E) P vs : tiles_ok P vs ->
  0 <= num_tiles_u P ->
  forall h, In h (hits P mk vs) -> 0 <= fst h < num_tiles P.
Proof.
  intros T H0 h Hh. unfold hits in Hh. apply in_flat_map in Hh. destruct Hh as (v & Hv & Hh).
  apply in_map_iff in Hh. destruct Hh as (t & <- & Ht). cbn [fst].
  destruct (T v t Hv Ht) as [A B]. unfold num_tiles, num_tiles_u in *. nia.
Qed.

Lemma cnt_map {E F} (f : E -> F) t (l : list (Z * E)) : cnt t (map (fun h => (fst h, f (snd h))) l) = cnt t l.
Proof.
  induction l as [|h l IH]; [reflexivity|]. cbn [map]. rewrite !cnt_cons, IH. reflexivity.
Qed.
Lemma hits_map {E} (mk : Z * Q * Q -> Z * Z -> E) P vs :
  hits P unit_entry vs = map (fun h => (fst h, tt)) (hits P mk vs).
Proof.
  unfold hits. induction vs as [|v vs IH]; cbn; [reflexivity|]. rewrite map_app, IH. f_equal.
  rewrite map_map. reflexivity.
Qed.
Lemma cnt_hits {E} (mk : Z * Q * Q -> Z * Z -> E) P vs t : cnt t (hits P unit_entry vs) = cnt t (hits P mk vs).
Proof. rewrite (hits_map mk). apply (cnt_map (fun _ => tt)). Qed.

Lemma num_tiles_nonneg P : 0 <= grid_size P -> 0 < tile_u P -> 0 < tile_v P -> 0 <= num_tiles_u P /\ 0 <= num_tiles P.
Proof.
  intros G U V. unfold num_tiles_u, num_tiles, num_tiles1, cdiv.
  pose proof (Z.quot_pos (grid_size P + tile_u P - 1) (tile_u P) ltac:(lia) ltac:(lia)).
  pose proof (Z.quot_pos (grid_size P + tile_v P - 1) (tile_v P) ltac:(lia) ltac:(lia)). nia.
Qed.

(** Counting and prefix sum. *)
Lemma count_lemma {E} (mk : Z * Q * Q -> Z * Z -> E) P nt nb nc uvw freqs offs pts sk :
  let vs := visibilities P nt nb nc uvw freqs in
  shape uvw = [nt; nb; 3] -> shape freqs = [nc] -> shape offs = [num_tiles P + 1] -> shape pts = [num_tiles P] ->
  shape sk = [1] -> 0 <= grid_size P -> 0 < tile_u P -> 0 < tile_v P -> tiles_ok P vs ->
  exists offs' pts' sk', count_and_prefix_sum P nt nb nc uvw freqs offs pts sk =
      Some (offs', pts', sk', start (num_tiles P) (hits P mk vs)) /\
    shape offs' = [num_tiles P + 1] /\ shape pts' = [num_tiles P] /\ shape sk' = [1] /\
    (forall t, 0 <= t < num_tiles P -> elem pts' [t] = cnt t (hits P mk vs)) /\
    (forall t, 0 <= t <= num_tiles P -> elem offs' [t] = start t (hits P mk vs)) /\
    elem sk' [0] = Z.of_nat (length (filter (fun v => negb (fits P v)) vs)).
Proof.
  intros vs S1 S2 S3 S4 S5 G U V T. destruct (num_tiles_nonneg P G U V) as [N1 N2].
  unfold count_and_prefix_sum, tile_count. rewrite visit_lemma by auto. fold vs.
  destruct (count_fold P (num_tiles P) (flat_map (events P) vs) (clear pts) (clear sk)) as (p' & s' & Ef & A & B & C & D); auto.
  { rewrite hits_events. now apply entries_in. }
  rewrite Ef. cbn [bind]. rewrite hits_events in C.
  destruct (prefix_lemma (num_tiles P) p' (clear offs)) as (o' & E2 & A2 & B2); auto.
  rewrite E2. cbn [bind]. rewrite rd_some by (rewrite A2; apply in_shape_1; lia). cbn [bind].
  assert (C' : forall t, elem p' [t] = cnt t (hits P mk vs)).
  { intro t. rewrite C. cbn [clear elem]. rewrite (cnt_hits mk). lia. }
  assert (O : forall t, 0 <= t <= num_tiles P -> elem o' [t] = start t (hits P mk vs)).
  { intros t Ht. rewrite B2 by lia. unfold start. apply sum_ext. intros j Hj. apply C'. }
  exists o', p', s'. rewrite (O (num_tiles P)) by lia. split; [reflexivity|]. repeat split; auto.
  rewrite D, skips_events. cbn [clear elem]. lia.
Qed.

(** Sorting any permutation of the hits. *)
Lemma sort_any {E} n (full l : list (Z * E)) offs out :
  Permutation full l -> 0 <= n -> (forall h, In h full -> 0 <= fst h < n) ->
  shape offs = [n + 1] -> shape out = [start n full] -> (forall t, 0 <= t < n -> elem offs [t] = start t full) ->
  exists offs' out', fold_opt (fun h => put (fst h) (snd h)) l (offs, out) = Some (offs', out') /\
    shape out' = [start n full] /\
    (forall t, 0 <= t < n -> slice out' (start t full) (start (t + 1) full) = entries t l) /\
    (forall t, 0 <= t < n -> elem offs' [t] = start (t + 1) full).
Proof.
  intros PM Hn Hf S1 S2 O.
  assert (CE : forall t, cnt t l = cnt t full).
  { intro t. unfold cnt, entries. rewrite !map_length. f_equal. apply Permutation_length.
    clear - PM. induction PM; cbn [filter]; auto.
    - destruct (fst x =? t); [constructor|]; auto.
    - destruct (fst x =? t), (fst y =? t); auto. apply perm_swap.
    - etransitivity; eauto. }
  assert (SE : forall t, start t l = start t full) by (intro t; unfold start; apply sum_ext; intros; apply CE).
  assert (Hl : forall h, In h l -> 0 <= fst h < n) by (intros h Hh; apply Hf; eapply Permutation_in; [symmetry; exact PM|exact Hh]).
  destruct (sort_run n l Hl l [] (offs, out)) as ([o' u'] & E1 & I); [reflexivity| |].
  - unfold Inv, B. cbn [fst snd]. rewrite SE. split; [exact S1|]. split; [exact S2|]. split.
    + intros t Ht. rewrite O, SE by lia. change (cnt t (@nil (Z * E))) with 0. lia.
    + intros t k e Ht K. destruct k; discriminate.
  - exists o', u'. split; [exact E1|]. pose proof I as (A & B1 & C & D). cbn [fst snd] in *.
    unfold B in B1. rewrite SE in B1. split; [exact B1|]. split.
    + intros t Ht. pose proof (slice_entries n l (o', u') t I Ht) as Q. unfold B in Q. rewrite !SE in Q. exact Q.
    + intros t Ht. rewrite C by lia. rewrite <- (B_next l) by lia. unfold B. apply SE.
Qed.

Lemma fold_events {E} (mk : Z * Q * Q -> Z * Z -> E) P S (f : Z * E -> S -> option S) evs s :
  fold_opt (ev_run (fun i u v pu pv => f (pu + pv * num_tiles_u P, mk (i, u, v) (pu, pv))) (fun st => Some st)) evs s =
  fold_opt f (flat_map (ev_hits mk P) evs) s.
Proof.
  revert s. induction evs as [|e evs IH]; intro s; [reflexivity|]. cbn [fold_opt flat_map]. rewrite fold_opt_app.
  destruct e as [i u v pu pv|]; cbn [ev_run ev_hits fold_opt].
  - destruct (f _ s); cbn [bind]; [apply IH|reflexivity].
  - cbn [bind]. apply IH.
Qed.


Lemma indexing_lemma P nt nb nc uvw freqs offs out :
  let vs := visibilities P nt nb nc uvw freqs in let hs := hits P index_entry vs in
  shape uvw = [nt; nb; 3] -> shape freqs = [nc] -> 0 <= grid_size P -> 0 < tile_u P -> 0 < tile_v P -> tiles_ok P vs ->
  shape offs = [num_tiles P + 1] -> shape out = [start (num_tiles P) hs] ->
  (forall t, 0 <= t < num_tiles P -> elem offs [t] = start t hs) ->
  exists offs' out', tiled_indexing P nt nb nc uvw freqs (offs, out) = Some (offs', out') /\
    shape out' = shape out /\
    (forall t, 0 <= t < num_tiles P -> slice out' (start t hs) (start (t + 1) hs) = entries t hs) /\
    (forall t, 0 <= t < num_tiles P -> elem offs' [t] = start (t + 1) hs).
Proof.
  intros vs hs S1 S2 G U V T S3 S4 O. destruct (num_tiles_nonneg P G U V) as [N1 N2].
  unfold tiled_indexing. rewrite visit_lemma by auto. fold vs.
  rewrite (fold_events index_entry P (nd Z * nd (Z * Z))%type (fun h => put (fst h) (snd h))). rewrite hits_events. fold hs.
  destruct (sort_any (num_tiles P) hs hs offs out) as (o' & u' & E & A & B & C); auto.
  - now apply entries_in.
  - exists o', u'. rewrite S4. auto.
Qed.


Lemma vis_index P nt nb nc uvw freqs v : In v (visibilities P nt nb nc uvw freqs) -> 0 <= fst (fst v) < nt * nb * nc.
Proof.
  unfold visibilities. intro H. apply in_flat_map in H. destruct H as (t & Ht & H). apply in_flat_map in H.
  destruct H as (b & Hb & H). apply in_map_iff in H. destruct H as (c & <- & Hc). cbn [fst].
  apply in_zrange in Ht, Hb, Hc. assert (0 <= nb * t + b <= nt * nb - 1) by nia.
  set (k := nb * t + b) in *. set (m := nt * nb) in *. clearbody k m. nia.
Qed.

Lemma bucket_sort_lemma {V W} P nt nb nc uvw freqs (vis : nd V) (weight : nd W) nv offs out :
  let vs := visibilities P nt nb nc uvw freqs in let hs := hits P (sort_entry vis weight) vs in
  shape uvw = [nt; nb; 3] -> shape freqs = [nc] -> shape vis = [nv] -> shape weight = [nv] -> nt * nb * nc <= nv ->
  0 <= grid_size P -> 0 < tile_u P -> 0 < tile_v P -> tiles_ok P vs ->
  shape offs = [num_tiles P + 1] -> shape out = [start (num_tiles P) hs] ->
  (forall t, 0 <= t < num_tiles P -> elem offs [t] = start t hs) ->
  exists offs' out', bucket_sort P nt nb nc uvw freqs vis weight (offs, out) = Some (offs', out') /\
    shape out' = shape out /\
    (forall t, 0 <= t < num_tiles P -> slice out' (start t hs) (start (t + 1) hs) = entries t hs) /\
    (forall t, 0 <= t < num_tiles P -> elem offs' [t] = start (t + 1) hs).
Proof.
  intros vs hs S1 S2 Sv Sw Nv G U V' T S3 S4 O. destruct (num_tiles_nonneg P G U V') as [N1 N2].
  unfold bucket_sort. rewrite visit_lemma by auto. fold vs.
  rewrite (fold_opt_ext _ (ev_run (fun i u v pu pv => (fun h => put (fst h) (snd h))
     (pu + pv * num_tiles_u P, sort_entry vis weight (i, u, v) (pu, pv))) (fun st => Some st))).
  - rewrite (fold_events (sort_entry vis weight) P _ (fun h => put (fst h) (snd h))). rewrite hits_events. fold hs.
    destruct (sort_any (num_tiles P) hs hs offs out) as (o' & u' & E & A & B & C); auto.
    + now apply entries_in.
    + exists o', u'. rewrite S4. auto.
  - intros e s He. apply in_flat_map in He. destruct He as (v & Hv & He).
    apply vis_index in Hv. unfold events in He.
    destruct (fits P v); [|destruct He as [<-|[]]; reflexivity].
    apply in_map_iff in He. destruct He as (t & <- & _). cbn [ev_run]. unfold sort_entry. cbn [fst snd].
    rewrite rd_some by (rewrite Sv; apply in_shape_1; lia). cbn [bind].
    rewrite rd_some by (rewrite Sw; apply in_shape_1; lia). reflexivity.
Qed.

(** *** Tile ranges *)
Lemma range_overlap ts tl s g p : 0 < ts -> 0 <= s ->
  floor_div (g - tl - s) ts <= p < ceil_div (g - tl + s + 1) ts <-> overlaps ts tl s g p.
Proof.
  intros Ht Hs. unfold floor_div, ceil_div, overlaps.
  set (a := g - tl - s). set (b := g - tl + s + 1).
  pose proof (Z.div_mod a ts ltac:(lia)) as Ea. pose proof (Z.mod_pos_bound a ts Ht) as Ma.
  pose proof (Z.div_mod (- b) ts ltac:(lia)) as Eb. pose proof (Z.mod_pos_bound (- b) ts Ht) as Mb.
  set (qa := a / ts) in *. set (qb := - b / ts) in *. set (ra := a mod ts) in *. set (rb := - b mod ts) in *.
  split.
  - intros [L1 L2]. exists (Z.max (g - s) (tl + p * ts)). assert (qa + 1 <= p \/ p = qa) by lia.
    split; [|destruct H; nia]. split; [lia|]. apply Z.max_lub; [lia|]. nia.
  - intros (x & H1 & H2). split.
    + assert (a <= x - tl) by lia. assert (x - tl < (p + 1) * ts) by lia.
      destruct (Z.le_gt_cases qa p); [lia|]. nia.
    + destruct (Z.lt_ge_cases p (- qb)); [lia|]. nia.
Qed.

Lemma v_range_lemma P gu gv u0 u1 v0 v1 p : 0 < tile_v P -> 0 <= support P ->
  tile_ranges P gu gv = (u0, u1, v0, v1) ->
  (v0 <= p < v1 <-> overlaps (tile_v P) (top_left P (tile_v P)) (support P) gv p).
Proof.
  intros Ht Hs E. unfold tile_ranges in E. injection E as <- <- <- <-. rewrite <- range_overlap by auto. reflexivity.
Qed.

Lemma u_range_lemma P gu gv u0 u1 v0 v1 p : 0 < tile_u P -> 0 <= support P ->
  tile_ranges P gu gv = (u0, u1, v0, v1) ->
  u0 = 0 /\ (overlaps (tile_u P) (top_left P (tile_u P)) (support P) gu p -> p < u1) /\
  (u0 <= p < u1 -> exists q, p <= q /\ overlaps (tile_u P) (top_left P (tile_u P)) (support P) gu q).
Proof.
  intros Ht Hs E. unfold tile_ranges in E. injection E as <- <- <- <-. split; [reflexivity|]. split.
  - intro O. apply range_overlap in O; auto. lia.
  - intros [L1 L2]. exists (ceil_div (gu - top_left P (tile_u P) + support P + 1) (tile_u P) - 1). split; [lia|].
    apply range_overlap; auto. split; [|lia]. unfold floor_div, ceil_div.
    set (a := gu - top_left P (tile_u P)). set (ts := tile_u P) in *.
    pose proof (Z.div_mod (a - support P) ts ltac:(lia)). pose proof (Z.mod_pos_bound (a - support P) ts Ht).
    pose proof (Z.div_mod (- (a + support P + 1)) ts ltac:(lia)). pose proof (Z.mod_pos_bound (- (a + support P + 1)) ts Ht).
    nia.
Qed.

(** A grid of an odd number of tiles: everything is in range. *)
Lemma top_left_odd P ts k : 0 < ts -> 0 <= k -> grid_size P = (2 * k + 1) * ts -> top_left P ts = 0 /\ num_tiles1 P ts = 2 * k + 1.
Proof.
  intros Ht Hk G. unfold top_left, num_tiles1, cdiv. rewrite G.
  rewrite !Z.quot_div_nonneg by (try apply Z.quot_pos; nia). 
  assert (E : (2 * k + 1) * ts / 2 = k * ts + ts / 2).
  { replace ((2 * k + 1) * ts) with (ts + (k * ts) * 2) by lia. rewrite Z.div_add by lia. lia. }
  rewrite E. pose proof (Z.div_mod ts 2 ltac:(lia)). pose proof (Z.mod_pos_bound ts 2 ltac:(lia)).
  assert (E2 : (k * ts + ts / 2) / ts = k).
  { rewrite Z.div_add_l by lia. rewrite Z.div_small by lia. lia. }
  rewrite E2. split; [lia|].
  replace ((2 * k + 1) * ts + ts - 1) with ((2 * k + 1) * ts + (ts - 1)) by lia. rewrite Z.div_add_l by lia.
  rewrite Z.div_small by lia. lia.
Qed.

Lemma range_in ts s g n : 0 < ts -> 0 <= s -> 0 <= g - s -> g + s < n * ts ->
  0 <= floor_div (g - 0 - s) ts /\ ceil_div (g - 0 + s + 1) ts <= n.
Proof.
  intros Ht Hs L U. unfold floor_div, ceil_div. split.
  - apply Z.div_pos; lia.
  - pose proof (Z.div_mod (- (g - 0 + s + 1)) ts ltac:(lia)). pose proof (Z.mod_pos_bound (- (g - 0 + s + 1)) ts Ht). nia.
Qed.

Lemma tiles_ok_odd P vs ku kv : 0 < tile_u P -> 0 < tile_v P -> 0 <= support P -> 0 <= ku -> 0 <= kv ->
  grid_size P = (2 * ku + 1) * tile_u P -> grid_size P = (2 * kv + 1) * tile_v P -> tiles_ok P vs.
Proof.
  intros U V S Ku Kv Gu Gv [[i pu] pv] [x y] Hv Ht. cbn [fst snd].
  destruct (top_left_odd P (tile_u P) ku U Ku Gu) as [Tu Nu]. destruct (top_left_odd P (tile_v P) kv V Kv Gv) as [Tv Nv].
  unfold tiles_of in Ht. destruct (fits P (i, pu, pv)) eqn:F; [|destruct Ht].
  unfold fits, inside in F. unfold tile_ranges in Ht. rewrite Tu, Tv in Ht.
  apply in_flat_map in Ht. destruct Ht as (y' & Hy & Ht). apply in_map_iff in Ht. destruct Ht as (x' & Q & Hx).
  injection Q as -> ->. apply in_zrange in Hy, Hx.
  destruct (range_in (tile_u P) (support P) (grid_pos P pu) (2 * ku + 1)) as [A B]; try lia.
  destruct (range_in (tile_v P) (support P) (grid_pos P pv) (2 * kv + 1)) as [A' B']; try lia.
Qed.
