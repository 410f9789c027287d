(** Property theorems C50, C51, C66: sorting visibilities into tiles.
    [visibilities] lists index and grid position of every visibility in processing order,
    [hits] the (tile number, entry) pairs, [entries t] those of tile t, [start t] the number of
    entries of the tiles before t, [slice a lo hi] the elements lo..hi-1 of an array. *)
From Verif Require Import Base Sum QNum Clamp Tiled TiledSpec TiledFacts.
From Coq Require Import Permutation.
Open Scope Z_scope.

(** ** C50 *)
(** Counting: num_points_in_tiles, tile_offsets, num_skipped and num_visibilities. *)
Theorem C50_count : forall E (mk : Z * Q * Q -> Z * Z -> E) P nt nb nc uvw freqs offs pts sk,
  let vs := visibilities P nt nb nc uvw freqs in
  shape uvw = [nt; nb; 3] -> shape freqs = [nc] -> shape offs = [num_tiles P + 1] -> shape pts = [num_tiles P] ->
  shape sk = [1] -> 0 <= grid_size P -> 0 < tile_u P -> 0 < tile_v P -> tiles_ok P vs ->
  exists offs' pts' sk', count_and_prefix_sum P nt nb nc uvw freqs offs pts sk =
      Some (offs', pts', sk', start (num_tiles P) (hits P mk vs)) /\
    shape offs' = [num_tiles P + 1] /\ shape pts' = [num_tiles P] /\ shape sk' = [1] /\
    (forall t, 0 <= t < num_tiles P -> elem pts' [t] = cnt t (hits P mk vs)) /\
    (forall t, 0 <= t <= num_tiles P -> elem offs' [t] = start t (hits P mk vs)) /\
    elem sk' [0] = Z.of_nat (length (filter (fun v => negb (fits P v)) vs)).
Proof. intros E mk. exact (count_lemma mk). Qed.
Print Assumptions C50_count.

(** A visibility is kept (not skipped) exactly when all pixels of its kernel lie in the grid; its
    central pixel is the one nearest to its position. *)
Theorem C50_kept : forall P k pu pv, 0 <= support P ->
  (fits P (k, pu, pv) = true <->
   forall x, - support P <= x <= support P -> 0 <= grid_pos P pu + x < grid_size P /\ 0 <= grid_pos P pv + x < grid_size P).
Proof.
  intros P k pu pv Hs. unfold fits, inside. rewrite !andb_true_iff, !Z.ltb_lt, !Z.geb_le. split.
  - intros H x Hx. lia.
  - intro H. pose proof (H (support P) ltac:(lia)). pose proof (H (- support P) ltac:(lia)). lia.
Qed.
Print Assumptions C50_kept.
Theorem C50_nearest_pixel : forall P pos, let centre := inject_Z (grid_pos P pos - grid_size P ÷ 2) in
  (centre - (1 # 2) <= pos <= centre + (1 # 2))%Q.
Proof.
  intros P pos centre. unfold centre, grid_pos, cdiv. replace (qround pos + grid_size P ÷ 2 - grid_size P ÷ 2) with (qround pos) by lia. apply qround_near.
Qed.
Print Assumptions C50_nearest_pixel.

(** Sorting with the offsets of the count: no access out of bounds, the elements
    [start t, start (t + 1)) are exactly the entries of tile t (in processing order), and each
    offset has advanced to the start of the next tile. *)
Theorem C50_bucket_sort : forall V W P nt nb nc uvw freqs (vis : nd V) (weight : nd W) nv offs out,
  let vs := visibilities P nt nb nc uvw freqs in let hs := hits P (sort_entry vis weight) vs in
  shape uvw = [nt; nb; 3] -> shape freqs = [nc] -> shape vis = [nv] -> shape weight = [nv] -> nt * nb * nc <= nv ->
  0 <= grid_size P -> 0 < tile_u P -> 0 < tile_v P -> tiles_ok P vs ->
  shape offs = [num_tiles P + 1] -> shape out = [start (num_tiles P) hs] ->
  (forall t, 0 <= t < num_tiles P -> elem offs [t] = start t hs) ->
  exists offs' out', bucket_sort P nt nb nc uvw freqs vis weight (offs, out) = Some (offs', out') /\
    shape out' = shape out /\
    (forall t, 0 <= t < num_tiles P -> slice out' (start t hs) (start (t + 1) hs) = entries t hs) /\
    (forall t, 0 <= t < num_tiles P -> elem offs' [t] = start (t + 1) hs).
Proof. intros V W. exact (@bucket_sort_lemma V W). Qed.
Print Assumptions C50_bucket_sort.

Theorem C50_tiled_indexing : forall P nt nb nc uvw freqs offs out,
  let vs := visibilities P nt nb nc uvw freqs in let hs := hits P index_entry vs in
  shape uvw = [nt; nb; 3] -> shape freqs = [nc] -> 0 <= grid_size P -> 0 < tile_u P -> 0 < tile_v P -> tiles_ok P vs ->
  shape offs = [num_tiles P + 1] -> shape out = [start (num_tiles P) hs] ->
  (forall t, 0 <= t < num_tiles P -> elem offs [t] = start t hs) ->
  exists offs' out', tiled_indexing P nt nb nc uvw freqs (offs, out) = Some (offs', out') /\
    shape out' = shape out /\
    (forall t, 0 <= t < num_tiles P -> slice out' (start t hs) (start (t + 1) hs) = entries t hs) /\
    (forall t, 0 <= t < num_tiles P -> elem offs' [t] = start (t + 1) hs).
Proof. exact indexing_lemma. Qed.
Print Assumptions C50_tiled_indexing.

(** Any order: if the (tile, entry) pairs are put in the order of an arbitrary permutation l
    (threads taking slots one at a time), the slice of each tile is a permutation of its entries. *)
Theorem C50_any_order : forall E n (full l : list (Z * E)) offs out,
  Permutation full l -> 0 <= n -> (forall h, In h full -> 0 <= fst h < n) ->
  shape offs = [n + 1] -> shape out = [start n full] -> (forall t, 0 <= t < n -> elem offs [t] = start t full) ->
  exists offs' out', fold_opt (fun h => put (fst h) (snd h)) l (offs, out) = Some (offs', out') /\
    shape out' = [start n full] /\
    (forall t, 0 <= t < n -> Permutation (slice out' (start t full) (start (t + 1) full)) (entries t full)) /\
    (forall t, 0 <= t < n -> elem offs' [t] = start (t + 1) full).
Proof.
  intros E n full l offs out PM Hn Hf S1 S2 O.
  destruct (sort_any n full l offs out PM Hn Hf S1 S2 O) as (o & u & A & B & C & D).
  exists o, u. split; [exact A|]. split; [exact B|]. split; [|exact D].
  intros t Ht. rewrite C by exact Ht. unfold entries. apply Permutation_map.
  clear - PM. symmetry. induction PM; cbn [filter]; auto.
  - destruct (fst x =? t); [constructor|]; auto.
  - destruct (fst x =? t), (fst y =? t); auto. apply perm_swap.
  - etransitivity; eauto.
Qed.
Print Assumptions C50_any_order.

(** When the grid is an odd number of tiles in both directions only existing tiles are used. *)
Theorem C50_tiles_exist : forall P vs ku kv, 0 < tile_u P -> 0 < tile_v P -> 0 <= support P -> 0 <= ku -> 0 <= kv ->
  grid_size P = (2 * ku + 1) * tile_u P -> grid_size P = (2 * kv + 1) * tile_v P -> tiles_ok P vs.
Proof. exact tiles_ok_odd. Qed.
Print Assumptions C50_tiles_exist.

(** Two visibilities on a 12 x 12 grid of 4 x 4 tiles, support 1; cell size 1/12. *)
Definition exP := mk_tparams 1 12 4 4 (1 # 12).
Definition ex_uvw : nd Q := mk_nd [1; 2; 3] (fun idx => if nth 1 idx 0 =? 0 then (2 # 1)%Q else (- 3 # 1)%Q).
Definition ex_freq : nd Q := mk_nd [1] (fun _ => C_0).
Definition ex_z (n : Z) : nd Z := mk_nd [n] (fun _ => 77).
Example C50_hyps : tiles_ok exP (visibilities exP 1 2 1 ex_uvw ex_freq) /\
  (exists o p s nv, count_and_prefix_sum exP 1 2 1 ex_uvw ex_freq (ex_z 10) (ex_z 9) (ex_z 1) = Some (o, p, s, nv) /\
     nv = 10 /\ slice o 0 10 = [0; 1; 2; 2; 4; 6; 7; 8; 9; 10] /\
     exists o' out, tiled_indexing exP 1 2 1 ex_uvw ex_freq (o, mk_nd [nv] (fun _ => (0, 0))) = Some (o', out) /\
       slice out 0 10 = [(1, 0); (1, 1); (0, 32768); (1, 32768); (0, 32769); (1, 32769); (0, 32770); (0, 65536);
         (0, 65537); (0, 65538)]).
Proof.
  split.
  - apply (tiles_ok_odd exP _ 1 1); cbn; lia.
  - do 4 eexists. split; [vm_compute; reflexivity|]. split; [reflexivity|]. split; [vm_compute; reflexivity|].
    do 2 eexists. split; vm_compute; reflexivity.
Qed.

(** ** C51 *)
(** In the v direction the range is exact. *)
Theorem C51_v_range : forall P gu gv u0 u1 v0 v1 p, 0 < tile_v P -> 0 <= support P ->
  tile_ranges P gu gv = (u0, u1, v0, v1) ->
  (v0 <= p < v1 <-> overlaps (tile_v P) (top_left P (tile_v P)) (support P) gv p).
Proof. exact v_range_lemma. Qed.
Print Assumptions C51_v_range.

(** In the u direction every tile touched with a non-negative number is covered and nothing
    beyond the last one, but the range always starts at tile 0. *)
Theorem C51_u_range_partial : forall P gu gv u0 u1 v0 v1 p, 0 < tile_u P -> 0 <= support P ->
  tile_ranges P gu gv = (u0, u1, v0, v1) ->
  u0 = 0 /\ (overlaps (tile_u P) (top_left P (tile_u P)) (support P) gu p -> p < u1) /\
  (u0 <= p < u1 -> exists q, p <= q /\ overlaps (tile_u P) (top_left P (tile_u P)) (support P) gu q).
Proof. exact u_range_lemma. Qed.
Print Assumptions C51_u_range_partial.

(** Refuted: grid position 9 of a 12-pixel grid (tiles of 4, support 1) is assigned to tile 0. *)
Theorem C51_u_range_refuted :
  exists u0 u1 v0 v1, tile_ranges exP 9 9 = (u0, u1, v0, v1) /\ inside exP 9 9 = true /\
    u0 <= 0 < u1 /\ ~ overlaps (tile_u exP) (top_left exP (tile_u exP)) (support exP) 9 0.
Proof.
  do 4 eexists. split; [reflexivity|]. split; [reflexivity|]. split; [vm_compute; split; [intro; discriminate|reflexivity]|].
  intros (x & A & B). change (top_left exP (tile_u exP)) with 0 in B. change (tile_u exP) with 4 in B. change (support exP) with 1 in A. lia.
Qed.
Print Assumptions C51_u_range_refuted.

(** Refuted: the range leaves the tile grid when the grid is an even number of tiles, and the
    count then writes outside num_points_in_tiles (grid 8, tiles of 4, a visibility at (6, 6)). *)
Definition exP2 := mk_tparams 1 8 4 4 (1 # 8).
Definition ex_uvw2 : nd Q := mk_nd [1; 1; 3] (fun _ => (2 # 1)%Q).
Theorem C51_outside_grid_refuted :
  snd (tile_ranges exP2 6 6) = 3 /\ num_tiles1 exP2 (tile_v exP2) = 2 /\
  count_and_prefix_sum exP2 1 1 1 ex_uvw2 ex_freq (ex_z 5) (ex_z 4) (ex_z 1) = None.
Proof. repeat split; vm_compute; reflexivity. Qed.
Print Assumptions C51_outside_grid_refuted.

(** ** C66, refuted: what is stored with a sorted visibility. *)
(** The complex visibility array is copied as if it were real: with two visibilities (1 + 2i) and
    (3 + 4i) the entry of the second one holds 2 (the imaginary part of the first). *)
Definition ex_vis : nd (Q * Q) := mk_nd [2] (fun idx => if nth 0 idx 0 =? 0 then (1%Q, 2%Q) else (3%Q, 4%Q)).
Theorem C66_complex_refuted :
  exists o' out, bucket_sort exP 1 2 1 ex_uvw ex_freq (as_reals ex_vis) (mk_nd [2] (fun _ => tt))
    (mk_nd [10] (fun idx => nth (Z.to_nat (nth 0 idx 0)) [0; 1; 2; 2; 4; 6; 7; 8; 9; 10] 0),
     mk_nd [10] (fun _ => (0%Q, 0%Q, 0%Q, tt, 0))) = Some (o', out) /\
    (let '(_, _, v, _, _) := elem out [0] in v) = 2%Q /\ elem ex_vis [1] = (3%Q, 4%Q).
Proof. do 2 eexists. split; [vm_compute; reflexivity|]. split; vm_compute; reflexivity. Qed.
Print Assumptions C66_complex_refuted.

(** sdp_tiled_indexing returns zeros as the sorted coordinates. *)
Theorem C66_indexing_coordinates_refuted : forall uu k, elem (tiled_indexing_uu uu) [k] = 0%Q.
Proof. reflexivity. Qed.
Print Assumptions C66_indexing_coordinates_refuted.

(** With single precision coordinates the count is zero for every tile, without an error. *)
Theorem C66_single_precision_refuted : forall offs pts sk nv t,
  let '(offs', pts', _, nv') := count_and_prefix_sum_float offs pts sk nv in
  elem offs' [t] = 0 /\ elem pts' [t] = 0 /\ nv' = nv.
Proof. cbn. auto. Qed.
Print Assumptions C66_single_precision_refuted.

(** What holds: coordinates and (real) per-visibility data with one polarisation are those of the
    visibility: position k of a slice holds (u, v, vis[i], weight[i]) of a visibility i. *)
Theorem C66_real_partial : forall V W P (vis : nd V) (weight : nd W) vs t e,
  In e (entries t (hits P (sort_entry vis weight) vs)) ->
  exists i pu pv x y, In (i, pu, pv) vs /\ In (x, y) (tiles_of P (i, pu, pv)) /\ t = x + y * num_tiles_u P /\
    e = (pu, pv, elem vis [i], elem weight [i], y * 32768 + x).
Proof.
  intros V W P vis weight vs t e H. unfold entries in H. apply in_map_iff in H. destruct H as ([t' e'] & <- & H).
  apply filter_In in H. destruct H as [H Q]. cbn [fst] in Q. apply Z.eqb_eq in Q. subst t'.
  unfold hits in H. apply in_flat_map in H. destruct H as ([[i pu] pv] & Hv & H). apply in_map_iff in H.
  destruct H as ([x y] & Q & Ht). injection Q as <- <-. exists i, pu, pv, x, y. repeat split; auto.
Qed.
Print Assumptions C66_real_partial.
