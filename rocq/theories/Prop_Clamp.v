(** Property theorems C19-C23 and C62: channel selection (exact rational arithmetic).
    [coord u f0 df c] = u (f0 + c df) / c_light is the coordinate of channel c. *)
From Verif Require Import Base Clamp ClampSpec ClampFacts ClampFacts2 Select SelectSpec SelectFacts SelectFacts2
  TaskPool TaskPoolSpec TaskPoolFacts.
From Coq Require Import Lqa.
Open Scope Z_scope.

(** ** C19: a channel is kept iff it was given and its coordinate lies in the range. *)
Theorem C19_single_exact : forall uvw d f0 df s_in e_in mn mx s_out e_out n r0 r1,
  shape uvw = [n; 3] -> 0 <= d < 3 ->
  shape s_in = [n] -> shape e_in = [n] -> shape s_out = [n] -> shape e_out = [n] ->
  0 <= r0 -> r0 <= r1 -> r1 <= n ->
  (forall i, r0 <= i < r1 -> step_ok (elem uvw [i; d]) f0 df mn mx) ->
  exists so eo, clamp_single uvw d f0 df s_in e_in mn mx s_out e_out r0 r1 = Some (so, eo) /\
    shape so = [n] /\ shape eo = [n] /\
    (forall i, r0 <= i < r1 -> elem so [i] <= elem eo [i] /\
       forall c, elem so [i] <= c < elem eo [i] <->
         elem s_in [i] <= c < elem e_in [i] /\
         in_range_directed (0 <= coord_step (elem uvw [i; d]) df)%Q (coord (elem uvw [i; d]) f0 df c) mn mx) /\
    (forall i, ~ (r0 <= i < r1) -> elem so [i] = elem s_out [i] /\ elem eo [i] = elem e_out [i]).
Proof.
  intros. destruct (clamp_single_lemma uvw d f0 df s_in e_in mn mx s_out e_out n r0 r1) as (so & eo & E & A & B & C & D); auto.
  exists so, eo. split; [exact E|]. split; [exact A|]. split; [exact B|]. split; [|exact D].
  intros i Hi. destruct (clamp1_ok _ f0 df (elem s_in [i]) (elem e_in [i]) mn mx (H8 i Hi)) as (r & E1 & L & X).
  rewrite (C i Hi) in E1. injection E1 as <-. split; [exact L|exact X].
Qed.
Print Assumptions C19_single_exact.

Theorem C19_uv_exact : forall uvw f0 df s_in e_in mnu mxu mnv mxv s_out e_out n r0 r1,
  shape uvw = [n; 3] ->
  shape s_in = [n] -> shape e_in = [n] -> shape s_out = [n] -> shape e_out = [n] ->
  0 <= r0 -> r0 <= r1 -> r1 <= n ->
  (forall i, r0 <= i < r1 -> step_ok (elem uvw [i; 0]) f0 df mnu mxu /\ step_ok (elem uvw [i; 1]) f0 df mnv mxv) ->
  exists so eo, clamp_uv uvw f0 df s_in e_in mnu mxu mnv mxv s_out e_out r0 r1 = Some (so, eo) /\
    shape so = [n] /\ shape eo = [n] /\
    (forall i, r0 <= i < r1 -> elem so [i] <= elem eo [i] /\
       forall c, elem so [i] <= c < elem eo [i] <->
         elem s_in [i] <= c < elem e_in [i] /\
         in_range_directed (0 <= coord_step (elem uvw [i; 0%Z]) df)%Q (coord (elem uvw [i; 0]) f0 df c) mnu mxu /\
         in_range_directed (0 <= coord_step (elem uvw [i; 1%Z]) df)%Q (coord (elem uvw [i; 1]) f0 df c) mnv mxv) /\
    (forall i, ~ (r0 <= i < r1) -> elem so [i] = elem s_out [i] /\ elem eo [i] = elem e_out [i]).
Proof.
  intros. destruct (clamp_uv_lemma uvw f0 df s_in e_in mnu mxu mnv mxv s_out e_out n r0 r1) as (so & eo & E & A & B & C & D); auto.
  exists so, eo. split; [exact E|]. split; [exact A|]. split; [exact B|]. split; [|exact D].
  intros i Hi. destruct (H7 i Hi) as [K1 K2].
  destruct (clamp2_ok _ _ f0 df (elem s_in [i]) (elem e_in [i]) mnu mxu mnv mxv K1 K2) as (r & E1 & L & X).
  rewrite (C i Hi) in E1. injection E1 as <-. split; [exact L|exact X].
Qed.
Print Assumptions C19_uv_exact.

(** Negative row limits mean all rows. *)
Theorem C19_all_rows : forall uvw d f0 df s_in e_in mn mx s_out e_out n r0 r1,
  shape uvw = [n; 3] -> 0 <= n -> r0 < 0 \/ r1 < 0 ->
  clamp_single uvw d f0 df s_in e_in mn mx s_out e_out r0 r1 =
  clamp_single uvw d f0 df s_in e_in mn mx s_out e_out 0 n.
Proof. exact clamp_single_all. Qed.
Print Assumptions C19_all_rows.

(** The conversions to int are always defined and the result is an ordered interval, whatever
    the input (also when the step is neither zero nor resolved). *)
Theorem C19_always_defined : forall u f0 df s e mn mx,
  exists r, clamp1 u f0 df s e mn mx = Some r /\ fst r <= snd r /\
    forall c, selected r c -> s <= c < e.
Proof.
  intros. destruct (clamp1_defined u f0 df s e mn mx) as (r & E & L). exists r. split; [exact E|]. split; [exact L|].
  intros c Hc. eapply clamp1_inside; eauto.
Qed.
Print Assumptions C19_always_defined.

(** The inline version of the w-towers kernels selects the same channels. *)
Theorem C19_inline_same : forall u f0 df s e mn mx,
  exists r, clamp1 u f0 df s e mn mx = Some r /\
    forall c, selected (clamp_inline u f0 df s e mn mx) c <-> selected r c.
Proof. exact clamp_inline_lemma. Qed.
Print Assumptions C19_inline_same.

(** A row of u = 30 m, 4 channels of 10 MHz from 100 MHz, range [11, 13.5): channels 1..3. *)
Definition ex_u := mk_nd [1; 3] (fun _ => 30 # 1).
Definition ex_i (k : Z) := mk_nd [1] (fun _ => k).
Example C19_hyps :
  step_resolved (30 # 1) (100000000 # 1) (10000000 # 1) (11 # 1) (27 # 2) /\
  match clamp_single ex_u 0 (100000000 # 1) (10000000 # 1) (ex_i 0) (ex_i 4) (11 # 1) (27 # 2) (ex_i 7) (ex_i 7) 0 1 with
  | Some (so, eo) => elem so [0] = 1 /\ elem eo [0] = 4
  | None => False
  end.
Proof. repeat split; vm_compute; reflexivity. Qed.

(** ** C20: the documented convention (minimum inclusive, maximum exclusive) holds for rising and
    constant coordinates ... *)
Theorem C20_rising_convention_partial : forall u f0 df s e mn mx,
  step_ok u f0 df mn mx -> (0 <= coord_step u df)%Q ->
  exists r, clamp1 u f0 df s e mn mx = Some r /\
  forall c, selected r c <-> s <= c < e /\ in_range (coord u f0 df c) mn mx.
Proof.
  intros u f0 df s e mn mx H P. destruct (clamp1_ok u f0 df s e mn mx H) as (r & E & _ & X).
  exists r. split; [exact E|]. intro c. rewrite X. unfold in_range_directed, in_range. tauto.
Qed.
Print Assumptions C20_rising_convention_partial.

(** ... and fails for a falling one (missing: negative coordinates with positive channel width):
    a channel exactly at the maximum is kept, one exactly at the minimum dropped. *)
Theorem C20_falling_convention_refuted :
  exists u f0 df mn mx r, (0 < df)%Q /\ step_ok u f0 df mn mx /\
    clamp1 u f0 df 0 10 mn mx = Some r /\
    (exists c, 0 <= c < 10 /\ selected r c /\ ~ in_range (coord u f0 df c) mn mx) /\
    (exists c, 0 <= c < 10 /\ ~ selected r c /\ in_range (coord u f0 df c) mn mx).
Proof.
  exists (-1 # 1)%Q, C_0, C_0, (-5 # 1)%Q, (-3 # 1)%Q, (2, 4).
  split; [reflexivity|]. split; [right; split; reflexivity|]. split; [reflexivity|].
  unfold selected, in_range. split.
  - exists 2. split; [lia|]. split; [cbn; lia|]. intros [_ H]. vm_compute in H. discriminate.
  - exists 4. split; [lia|]. split; [cbn; lia|]. split; [intro H; vm_compute in H; discriminate|reflexivity].
Qed.
Print Assumptions C20_falling_convention_refuted.

(** ** C21: neighbouring ranges share out the channels. *)
Theorem C21_two_ranges : forall u f0 df s e a b c,
  (a <= b)%Q -> (b <= c)%Q ->
  step_ok u f0 df a b -> step_ok u f0 df b c -> step_ok u f0 df a c ->
  exists r1 r2 r,
    clamp1 u f0 df s e a b = Some r1 /\ clamp1 u f0 df s e b c = Some r2 /\
    clamp1 u f0 df s e a c = Some r /\
    forall k, (selected r k <-> selected r1 k \/ selected r2 k) /\ ~ (selected r1 k /\ selected r2 k).
Proof. exact adjacent_lemma. Qed.
Print Assumptions C21_two_ranges.

(** Any chain of ranges [b i, b (i+1)): a channel selected by the whole range is selected by
    exactly one link, and by none otherwise. *)
Theorem C21_chain : forall u f0 df s e (b : Z -> Q) lo hi,
  (forall i, (b i <= b (i + 1)%Z)%Q) -> lo <= hi ->
  (forall i, lo <= i < hi -> step_ok u f0 df (b i) (b (i + 1))) -> step_ok u f0 df (b lo) (b hi) ->
  exists r, clamp1 u f0 df s e (b lo) (b hi) = Some r /\
  forall k, selected r k <->
    exists! i, lo <= i < hi /\ exists ri, clamp1 u f0 df s e (b i) (b (i + 1)) = Some ri /\ selected ri k.
Proof. exact chain_lemma. Qed.
Print Assumptions C21_chain.

(** The drivers: every channel of every row within the bounds is given to exactly one w-stack
    plane and sub-grid. *)
Theorem C21_one_subgrid : forall u v w f0 df du dw s e c lu hu lv hv lw hw,
  (0 < du)%Q -> (0 < dw)%Q -> s <= c < e ->
  (lu <= coord u f0 df c)%Q -> (coord u f0 df c <= hu)%Q ->
  (lv <= coord v f0 df c)%Q -> (coord v f0 df c <= hv)%Q ->
  (lw <= coord w f0 df c)%Q -> (coord w f0 df c <= hw)%Q ->
  (forall j, first_cell lu du <= j <= last_cell hu du -> step_ok u f0 df (cell_min du j) (cell_max du j)) ->
  (forall j, first_cell lv du <= j <= last_cell hv du -> step_ok v f0 df (cell_min du j) (cell_max du j)) ->
  (forall j, first_cell lw dw <= j <= last_cell hw dw -> step_ok w f0 df (cell_min dw j) (cell_max dw j)) ->
  exists! p : Z * Z * Z, let '(iw, iu, iv) := p in
    first_cell lw dw <= iw <= last_cell hw dw /\ first_cell lu du <= iu <= last_cell hu du /\
    first_cell lv du <= iv <= last_cell hv du /\
    exists rw r, clamp1 w f0 df s e (cell_min dw iw) (cell_max dw iw) = Some rw /\
      clamp2 u v f0 df (fst rw) (snd rw) (cell_min du iu) (cell_max du iu) (cell_min du iv) (cell_max du iv) = Some r /\
      selected r c.
Proof. exact one_subgrid_lemma. Qed.
Print Assumptions C21_one_subgrid.
Example C21_hyps :
  step_ok (-1 # 1) C_0 C_0 (-5 # 1) (-3 # 1) /\ step_ok (-1 # 1) C_0 C_0 (-3 # 1) 0 /\ step_ok (-1 # 1) C_0 C_0 (-5 # 1) 0 /\
  clamp1 (-1 # 1) C_0 C_0 0 10 (-5 # 1) (-3 # 1) = Some (2, 4) /\
  clamp1 (-1 # 1) C_0 C_0 0 10 (-3 # 1) 0 = Some (0, 2) /\
  clamp1 (-1 # 1) C_0 C_0 0 10 (-5 # 1) 0 = Some (0, 4) /\
  first_cell (-7 # 1) (2 # 1) = -4 /\ last_cell (7 # 1) (2 # 1) = 4.
Proof. repeat split; try (right; split); vm_compute; reflexivity. Qed.

(** The condition on the step is needed: a tiny step makes a channel vanish from both halves. *)
Theorem C21_unresolved_step_refuted :
  exists u f0 df a b c k, (a <= b)%Q /\ (b <= c)%Q /\ ~ (coord_step u df == 0)%Q /\
    (a <= coord u f0 df k)%Q /\ (coord u f0 df k < c)%Q /\ 0 <= k < 4 /\
    forall r1 r2, clamp1 u f0 df 0 4 a b = Some r1 -> clamp1 u f0 df 0 4 b c = Some r2 ->
      ~ selected r1 k /\ ~ selected r2 k.
Proof.
  exists 1%Q, C_0, C_0, (-100 # 1)%Q, 3%Q, (2147483648 # 1)%Q, 3.
  split; [intro H; discriminate|]. split; [intro H; discriminate|]. split; [intro H; discriminate|].
  split; [intro H; discriminate|]. split; [reflexivity|]. split; [lia|].
  intros r1 r2 E1 E2. vm_compute in E1, E2. injection E1 as <-. injection E2 as <-.
  unfold selected. cbn. lia.
Qed.
Print Assumptions C21_unresolved_step_refuted.

(** ** C22: the w-planes visited cover every w within the bounds, each visibility on exactly one. *)
Theorem C22_exactly_one_plane : forall w f0 df w_step off lo hi s e c,
  (0 < w_step)%Q -> s <= c < e -> (lo <= coord w f0 df c)%Q -> (coord w f0 df c <= hi)%Q ->
  (forall p, first_w_plane lo w_step off <= p <= last_w_plane hi w_step off ->
     step_ok w f0 df (plane_min w_step off p) (plane_max w_step off p)) ->
  exists! p, first_w_plane lo w_step off <= p <= last_w_plane hi w_step off /\
    selected (clamp_inline w f0 df s e (plane_min w_step off p) (plane_max w_step off p)) c.
Proof. exact one_plane_lemma. Qed.
Print Assumptions C22_exactly_one_plane.
Example C22_hyps : first_w_plane (-3 # 1) 1 2 = -6 /\ last_w_plane (-2 # 1) 1 2 = -2 /\
  step_ok (-1 # 1) C_0 C_0 (plane_min 1 2 (-4)) (plane_max 1 2 (-4)) /\
  clamp_inline (-1 # 1) C_0 C_0 0 10 (plane_min 1 2 (-4)) (plane_max 1 2 (-4)) = (1, 2).
Proof. repeat split; try (right; split); vm_compute; reflexivity. Qed.

(** ** C23: for a non-negative channel width the bounds are exactly the least and greatest
    coordinate over all channels of all rows with a non-empty channel interval. *)
Theorem C23_bounds_exact : forall uvw f0 df s_in e_in n,
  (0 <= df)%Q -> 0 <= n -> shape uvw = [n; 3] -> shape s_in = [n] -> shape e_in = [n] ->
  exists mn mx, uvw_bounds uvw f0 df s_in e_in = Some (mn, mx) /\ shape mn = [3] /\ shape mx = [3] /\
  forall j, 0 <= j < 3 ->
    is_min (coords uvw f0 df s_in e_in j n) (elem mn [j]) /\
    is_max (coords uvw f0 df s_in e_in j n) (elem mx [j]).
Proof. exact uvw_bounds_lemma. Qed.
Print Assumptions C23_bounds_exact.
Definition ex_uvw := mk_nd [2; 3] (fun ix => match ix with [0; 0] => 30 # 1 | [1; 0] => -15 # 1 | _ => 0%Q end).
Definition ex_rows (k : Z) := mk_nd [2] (fun _ => k).
Example C23_hyps : match uvw_bounds ex_uvw C_0 C_0 (ex_rows 0) (ex_rows 4) with
  | Some (mn, mx) => exists a b, elem mn [0] = Some a /\ elem mx [0] = Some b /\ (a == -60)%Q /\ (b == 120)%Q
  | None => False end.
Proof. do 2 eexists. split; [vm_compute; reflexivity|]. split; [vm_compute; reflexivity|]. split; reflexivity. Qed.

(** With a negative channel width (allowed by the interface) the bounds may miss coordinates. *)
Theorem C23_negative_width_refuted :
  exists uvw f0 df s_in e_in mn mx a,
    shape uvw = [1; 3] /\ uvw_bounds uvw f0 df s_in e_in = Some (mn, mx) /\ elem mn [0] = Some a /\
    exists x, coords uvw f0 df s_in e_in 0 1 x /\ ~ (a <= x)%Q.
Proof.
  exists (mk_nd [1; 3] (fun _ => 1%Q)), (inject_Z 10 * C_0)%Q, (- C_0)%Q, (ex_i 0), (ex_i 4). do 3 eexists.
  split; [reflexivity|]. split; [vm_compute; reflexivity|]. split; [vm_compute; reflexivity|].
  eexists. split; [exists 0, 3; split; [lia|]; split; [cbn; lia|reflexivity]|].
  intro H. vm_compute in H. apply H. reflexivity.
Qed.
Print Assumptions C23_negative_width_refuted.

(** ** C62: the visibility count check of the w-stacking (de)gridder never fails: in whatever
    order the tasks are taken, the counts of all tasks add up to the number of visibilities
    selected on the w-plane. *)
Theorem C62_count_check : forall uvw f0 df s_in e_in s_w0 e_w0 s_w e_w s_uv e_uv d n chans nt mnw mxw
    bmin bmax lu hu lv hv nvis s k,
  (0 <= df)%Q -> (0 < d)%Q -> 0 <= n -> (0 < nt)%nat ->
  shape uvw = [n; 3] -> shape s_in = [n] -> shape e_in = [n] -> shape s_w0 = [n] -> shape e_w0 = [n] ->
  shape s_uv = [n] -> shape e_uv = [n] ->
  uvw_bounds uvw f0 df s_in e_in = Some (bmin, bmax) ->
  elem bmin [0] = Some lu -> elem bmax [0] = Some hu -> elem bmin [1] = Some lv -> elem bmax [1] = Some hv ->
  clamp_single uvw 2 f0 df s_in e_in mnw mxw s_w0 e_w0 (-1) (-1) = Some (s_w, e_w) ->
  (forall i j, 0 <= i < n -> first_cell lu d <= j <= last_cell hu d -> step_ok (elem uvw [i; 0]) f0 df (cell_min d j) (cell_max d j)) ->
  (forall i j, 0 <= i < n -> first_cell lv d <= j <= last_cell hv d -> step_ok (elem uvw [i; 1]) f0 df (cell_min d j) (cell_max d j)) ->
  (forall iu iv, count_subgrid uvw f0 df s_w e_w s_uv e_uv d iu iv = Some (nvis iu iv)) ->
  pool_steps (pool_init (count_visibilities nvis n chans (Z.of_nat nt)
     (first_cell lu d) (last_cell hu d) (first_cell lv d) (last_cell hv d)) nt) s k ->
  all_done s ->
  exists counts,
     map Some counts = map (fun t => count_task uvw f0 df s_w e_w s_uv e_uv d (tk_iu t) (tk_iv t) (tk_start t) (tk_end t)) (p_done s) /\
     sum_diff_rows e_w s_w 0 n = Some (zsum counts).
Proof. exact count_check_bounds. Qed.
Print Assumptions C62_count_check.
(** Two rows of 4 channels, sub-grids 200 wavelengths apart: 7 + 1 = 8 visibilities. *)
Example C62_hyps :
  count_subgrid ex_uvw C_0 C_0 (ex_rows 0) (ex_rows 4) (ex_rows 9) (ex_rows 9) (200 # 1) 0 0 = Some 7 /\
  count_subgrid ex_uvw C_0 C_0 (ex_rows 0) (ex_rows 4) (ex_rows 9) (ex_rows 9) (200 # 1) 1 0 = Some 1 /\
  sum_diff_rows (ex_rows 4) (ex_rows 0) 0 2 = Some 8 /\
  first_cell (-60 # 1) (200 # 1) = 0 /\ last_cell (120 # 1) (200 # 1) = 1.
Proof. repeat split; vm_compute; reflexivity. Qed.
