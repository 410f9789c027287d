From Coq Require Import Reals String Lia.
From Verif Require Import Base BaseFacts Mem Checks ChecksFacts CRing Cplx GridUtils GridUtilsFacts FftSpec Gpu GpuFacts GpuLaunch GpuLaunchFacts GpuView GpuViewFacts PhaseRotateGpu PhaseRotateGpuFacts GridUtilsGpu GridUtilsGpuSpec GridUtilsGpuFacts ElementGpu ElementGpuSpec.
Open Scope Z_scope.

(** Launches with one thread for every element *)
Lemma in_shape_dec sh idx (P : Prop) : (in_shape sh idx = true -> P) -> (in_shape sh idx = false -> P) -> P.
Proof. destruct (in_shape sh idx); auto. Qed.

Section Grid3.
Context (n : string) (nx ny nz tx ty tz : Z) (body : Z * Z * Z -> option (list (op (list Z) C))) (x : nd C) (val : list Z -> C -> C) (pos : Z -> Z -> Z -> list Z).
Context (Hx : side nx) (Hy : side ny) (Hz : side nz) (Tx : 1 <= tx <= 1024) (Ty : 1 <= ty <= 1024) (Tz : 1 <= tz <= 64) (T : tx * ty * tz <= 1024) (Rg : registered n = true).
Context (Sh : forall idx, in_shape (shape x) idx = true <-> exists a b c, 0 <= a < nx /\ 0 <= b < ny /\ 0 <= c < nz /\ idx = pos a b c).
Context (Inj : forall a b c a' b' c', 0 <= a < nx -> 0 <= b < ny -> 0 <= c < nz -> 0 <= a' < nx -> 0 <= b' < ny -> 0 <= c' < nz -> pos a b c = pos a' b' c' -> a = a' /\ b = b' /\ c = c').
Context (Th : forall a b c, 0 <= a < nx + tx - 1 -> 0 <= b < ny + ty - 1 -> 0 <= c < nz + tz - 1 -> 0 <= a < 4294967296 -> 0 <= b < 4294967296 -> 0 <= c < 4294967296 ->
  body (a, b, c) = Some (if (a <? nx) && (b <? ny) && (c <? nz) then [Update (pos a b c) (val (pos a b c))] else [])).
Lemma grid3_th a b c : 0 <= a < nx + tx - 1 -> 0 <= b < ny + ty - 1 -> 0 <= c < nz + tz - 1 ->
  exists k, body (a, b, c) = Some k /\ if in_range nx ny nz a b c then exists o, k = [o] /\ loc o = pos a b c /\ forall v, apply Cadd o v = val (pos a b c) v else k = [].
Proof using Hx Hy Hz Tx Ty Tz Th.
  clear Sh Inj Rg. unfold side in *. intros Ha Hb Hc. eexists. split; [apply Th; lia|]. unfold in_range. destruct ((a <? nx) && (b <? ny) && (c <? nz)); [|reflexivity].
  eexists. split; [reflexivity|]. split; reflexivity.
Qed.
Lemma grid3_result st' r : launch_view Cadd (Some n) (blocks_of nx tx, blocks_of ny ty, blocks_of nz tz) (tx, ty, tz) body SUCCESS x st' r -> all_or_nothing (fits3 ty tz nx ny nz) x val st' r.
Proof.
  intro H. pose proof Hx. pose proof Hy. pose proof Hz. unfold side in *.
  eapply (each_result Cadd n nx ny nz tx ty tz body x pos (fun a b c => val (pos a b c))) in H; try lia; auto; [|exact grid3_th].
  assert (F : fits_grid nx ny nz ty tz = true <-> fits3 ty tz nx ny nz) by (clear; unfold fits_grid, fits3; lia).
  unfold all_or_nothing. destruct (fits_grid nx ny nz ty tz); split; intro Q; try (exfalso; tauto).
  - destruct H as (-> & S & V & O). split; [reflexivity|]. split; [exact S|]. intro idx. destruct (in_shape (shape x) idx) eqn:E.
    + apply Sh in E. destruct E as (a & b & c & Ha & Hb & Hc & ->). now apply V.
    + apply O. intros a b c Ha Hb Hc ->. assert (in_shape (shape x) (pos a b c) = true) by (apply Sh; eauto 8). congruence.
  - exfalso. destruct F as [_ F]. specialize (F Q). discriminate.
  - exact H.
Qed.
Lemma grid3_exists : exists st' r, launch_view Cadd (Some n) (blocks_of nx tx, blocks_of ny ty, blocks_of nz tz) (tx, ty, tz) body SUCCESS x st' r.
Proof using Hx Hy Hz Tx Ty Tz T Rg Th.
  clear Sh Inj. pose proof Hx. pose proof Hy. pose proof Hz. unfold side in *.
  eapply (each_exists Cadd n nx ny nz tx ty tz body x pos (fun a b c => val (pos a b c))); try lia; auto. exact grid3_th.
Qed.
End Grid3.

Lemma side1 : side 1. Proof. unfold side. lia. Qed.
Lemma shape1_iff nx idx : in_shape [nx] idx = true <-> exists a b c, 0 <= a < nx /\ 0 <= b < 1 /\ 0 <= c < 1 /\ idx = [a].
Proof.
  split.
  - destruct idx as [|a [|]]; try discriminate; [|cbn; rewrite andb_false_r; discriminate]. rewrite in_shape_1. intro. exists a, 0, 0. repeat split; lia.
  - intros (a & b & c & Ha & _ & _ & ->). now apply in_shape_1.
Qed.
Lemma shape2_iff nx ny idx : in_shape [nx; ny] idx = true <-> exists a b c, 0 <= a < nx /\ 0 <= b < ny /\ 0 <= c < 1 /\ idx = [a; b].
Proof.
  split.
  - destruct idx as [|a [|b [|]]]; try discriminate; try (cbn; rewrite ?andb_false_r; discriminate). rewrite in_shape_2. intros (? & ?). exists a, b, 0. repeat split; lia.
  - intros (a & b & c & Ha & Hb & _ & ->). now apply in_shape_2.
Qed.
Lemma shape3_iff nx ny nz idx : in_shape [nx; ny; nz] idx = true <-> exists a b c, 0 <= a < nx /\ 0 <= b < ny /\ 0 <= c < nz /\ idx = [a; b; c].
Proof.
  split.
  - destruct idx as [|a [|b [|c [|]]]]; try discriminate; try (cbn; rewrite ?andb_false_r; discriminate). rewrite in_shape_3. intros (? & ? & ?). exists a, b, c. repeat split; lia.
  - intros (a & b & c & Ha & Hb & Hc & ->). now apply in_shape_3.
Qed.

Section Grid2.
Context (n : string) (nx ny tx ty : Z) (body : Z * Z * Z -> option (list (op (list Z) C))) (x : nd C) (val : list Z -> C -> C).
Context (Hx : side nx) (Hy : side ny) (Tx : 1 <= tx <= 1024) (Ty : 1 <= ty <= 1024) (T : tx * ty <= 1024) (Rg : registered n = true) (Sh : shape x = [nx; ny]).
Context (Th : forall a b, 0 <= a < 4294967296 -> 0 <= b < 4294967296 -> body (a, b, 0) = Some (if (a <? nx) && (b <? ny) then [Update [a; b] (val [a; b])] else [])).
Lemma grid2_all : (exists st' r, launch_view Cadd (Some n) (blocks_of nx tx, blocks_of ny ty, 1) (tx, ty, 1) body SUCCESS x st' r) /\
  forall st' r, launch_view Cadd (Some n) (blocks_of nx tx, blocks_of ny ty, 1) (tx, ty, 1) body SUCCESS x st' r -> all_or_nothing (fits ty nx ny) x val st' r.
Proof.
  change (blocks_of nx tx, blocks_of ny ty, 1) with (blocks_of nx tx, blocks_of ny ty, blocks_of 1 1).
  assert (Th3 : forall a b c, 0 <= a < nx + tx - 1 -> 0 <= b < ny + ty - 1 -> 0 <= c < 1 + 1 - 1 -> 0 <= a < 4294967296 -> 0 <= b < 4294967296 -> 0 <= c < 4294967296 ->
    body (a, b, c) = Some (if (a <? nx) && (b <? ny) && (c <? 1) then [Update [a; b] (val [a; b])] else [])).
  { intros a b c _ _ Hc Ha Hb _. assert (c = 0) as -> by (clear - Hc; lia). replace (0 <? 1) with true by reflexivity. rewrite andb_true_r. now apply Th. }
  assert (T3 : tx * ty * 1 <= 1024) by (clear - T; lia). assert (L1 : 1 <= 1 <= 64) by (clear; lia). clear T Th.
  split.
  - exact (grid3_exists n nx ny 1 tx ty 1 body x val (fun a b _ => [a; b]) Hx Hy side1 Tx Ty L1 T3 Rg Th3).
  - intros st' r L. eapply (grid3_result n nx ny 1 tx ty 1 body x val (fun a b _ => [a; b]) Hx Hy side1 Tx Ty L1 T3 Rg) in L; try exact Th3.
    + destruct L as (X & Y). unfold all_or_nothing, fits, fits3 in *. split; intro Q; [apply X|apply Y]; clear - Q; lia.
    + intro idx. rewrite Sh. apply shape2_iff.
    + intros a b c a' b' c' _ _ Hc _ _ Hc' E. injection E as -> ->. clear - Hc Hc'. lia.
Qed.
End Grid2.

Section Grid1.
Context (n : string) (nx : Z) (body : Z * Z * Z -> option (list (op (list Z) C))) (x : nd C) (val : list Z -> C -> C).
Context (Hx : side nx) (Rg : registered n = true) (Sh : shape x = [nx]).
Context (Th : forall a, 0 <= a < 4294967296 -> body (a, 0, 0) = Some (if a <? nx then [Update [a] (val [a])] else [])).
Lemma grid1_all : (exists st' r, launch_view Cadd (Some n) (blocks_of nx 256, 1, 1) (256, 1, 1) body SUCCESS x st' r) /\
  forall st' r, launch_view Cadd (Some n) (blocks_of nx 256, 1, 1) (256, 1, 1) body SUCCESS x st' r -> all_or_nothing (1 <= nx) x val st' r.
Proof.
  change (blocks_of nx 256, 1, 1) with (blocks_of nx 256, blocks_of 1 1, blocks_of 1 1).
  assert (Th3 : forall a b c, 0 <= a < nx + 256 - 1 -> 0 <= b < 1 + 1 - 1 -> 0 <= c < 1 + 1 - 1 -> 0 <= a < 4294967296 -> 0 <= b < 4294967296 -> 0 <= c < 4294967296 ->
    body (a, b, c) = Some (if (a <? nx) && (b <? 1) && (c <? 1) then [Update [a] (val [a])] else [])).
  { intros a b c _ Hb Hc Ha _ _. assert (c = 0) as -> by (clear - Hc; lia). assert (b = 0) as -> by (clear - Hb; lia). replace (0 <? 1) with true by reflexivity. rewrite !andb_true_r. now apply Th. }
  clear Th. assert (A : 1 <= 256 <= 1024) by (clear; lia). assert (B : 1 <= 1 <= 1024) by (clear; lia). assert (L1 : 1 <= 1 <= 64) by (clear; lia). assert (D : 256 * 1 * 1 <= 1024) by (clear; lia).
  split.
  - exact (grid3_exists n nx 1 1 256 1 1 body x val (fun a _ _ => [a]) Hx side1 side1 A B L1 D Rg Th3).
  - intros st' r L. eapply (grid3_result n nx 1 1 256 1 1 body x val (fun a _ _ => [a]) Hx side1 side1 A B L1 D Rg) in L; try exact Th3.
    + destruct L as (X & Y). unfold all_or_nothing, fits3 in *. split; intro Q; [apply X|apply Y]; clear - Q; lia.
    + intro idx. rewrite Sh. apply shape1_iff.
    + intros a b c a' b' c' _ Hb Hc _ Hb' Hc' E. injection E as ->. clear - Hb Hb' Hc Hc'. lia.
Qed.
End Grid1.

(** ** Threads *)
Lemma norm_th n m f a b : 0 <= a < 4294967296 -> 0 <= b < 4294967296 -> norm_thread n m f (a, b, 0) = Some (if (a <? n) && (b <? m) then [Update [a; b] (fun v => Cmul v (RtoC f))] else []).
Proof. intros Ha Hb. unfold norm_thread. rewrite !u32_id, ltb_out by assumption. now destruct (_ && _). Qed.
Lemma sign_shift k : IZR (1 - Z.shiftl (Z.land k 1) 1) = sign k.
Proof.
  unfold sign. change 1 with (Z.ones 1) at 2. rewrite Z.land_ones by lia. change (2 ^ 1) with 2. rewrite Z.shiftl_mul_pow2 by lia. change (2 ^ 1) with 2.
  rewrite Zmod_even. destruct (Z.even k); reflexivity.
Qed.
Lemma phase_th n m a b : 0 <= a < 4294967296 -> 0 <= b < 4294967296 -> phase_thread n m (a, b, 0) = Some (if (a <? n) && (b <? m) then [Update [a; b] (fun v => Cmul v (RtoC (sign (a + b))))] else []).
Proof. intros Ha Hb. unfold phase_thread. rewrite !u32_id, ltb_out by assumption. rewrite sign_shift. now destruct (_ && _). Qed.
Lemma scale_th n f a : 0 <= a < 4294967296 -> scale_thread n f (a, 0, 0) = Some (if a <? n then [Update [a] (fun v => Cmul v (RtoC f))] else []).
Proof. intros Ha. unfold scale_thread. rewrite !u32_id by assumption. rewrite Z.leb_antisym. now destruct (a <? n). Qed.
Lemma set1_th n v a : 0 <= a < 4294967296 -> set1_thread n v (a, 0, 0) = Some (if a <? n then [Update [a] (fun _ => RtoC (IZR v))] else []).
Proof. intros Ha. unfold set1_thread. rewrite !u32_id by assumption. rewrite Z.leb_antisym. now destruct (a <? n). Qed.
Lemma set2_th n m v a b : 0 <= a < 4294967296 -> 0 <= b < 4294967296 -> set2_thread n m v (a, b, 0) = Some (if (a <? n) && (b <? m) then [Update [a; b] (fun _ => RtoC (IZR v))] else []).
Proof. intros Ha Hb. unfold set2_thread. rewrite !u32_id, ltb_out by assumption. now destruct (_ && _). Qed.
Lemma set3_th n m l v a b c : 0 <= a < 4294967296 -> 0 <= b < 4294967296 -> 0 <= c < 4294967296 ->
  set3_thread n m l v (a, b, c) = Some (if (a <? n) && (b <? m) && (c <? l) then [Update [a; b; c] (fun _ => RtoC (IZR v))] else []).
Proof. intros Ha Hb Hc. unfold set3_thread. rewrite !u32_id, ltb_out by assumption. rewrite (Z.leb_antisym c l). now destruct (a <? n), (b <? m), (c <? l). Qed.
Lemma w_stack_th sz theta ws hu hv n m ol om w inv a b : 0 <= n -> 0 <= m -> 0 <= a < 4294967296 -> 0 <= b < 4294967296 ->
  w_stack_thread sz theta ws hu hv n m ol om w inv (a, b, 0) = Some (if (a <? n) && (b <? m) then [Update [a; b] (fun v => Cmul v (cis (if inv then w_phase sz theta ws hu hv n m ol om w a b else - w_phase sz theta ws hu hv n m ol om w a b)%R))] else []).
Proof.
  intros Hn Hm Ha Hb. unfold w_stack_thread. rewrite !u32_id, ltb_out by assumption. destruct (_ && _); cbn [negb]; [|reflexivity]. rewrite !cdiv2' by assumption.
  fold (w_phase sz theta ws hu hv n m ol om w a b). unfold w_phase. do 3 f_equal. destruct inv; [reflexivity|]. fold (cis (2 * PI * ws * lm_to_n (IZR (a - n / 2 + ol) * theta / IZR sz) (IZR (b - m / 2 + om) * theta / IZR sz) hu hv * IZR w)). rewrite Cdiv_cis. reflexivity.
Qed.
Lemma pswf_th sz theta hu hv pswf pn n m ol om a b : 0 <= n -> 0 <= m -> shape pswf = [sz] -> 0 <= sz ->
  0 <= sz / 2 - n / 2 + ol -> sz / 2 - n / 2 + ol + n <= sz -> 0 <= sz / 2 - m / 2 + om -> sz / 2 - m / 2 + om + m <= sz -> 0 <= a < 4294967296 -> 0 <= b < 4294967296 ->
  pswf_thread sz theta hu hv pswf pn n m ol om (a, b, 0) = Some (if (a <? n) && (b <? m) then [Update [a; b] (fun v => Cmul v (RtoC (1 / (elem pswf [(a - n / 2 + ol + sz / 2)%Z] * elem pswf [(b - m / 2 + om + sz / 2)%Z] *
    pn (lm_to_n (IZR (a - n / 2 + ol) * theta / IZR sz) (IZR (b - m / 2 + om) * theta / IZR sz) hu hv)))))] else []).
Proof.
  intros Hn Hm Sp Hs L1 L2 M1 M2 Ha Hb. unfold pswf_thread. rewrite !u32_id, ltb_out by assumption. destruct (Z.ltb_spec a n), (Z.ltb_spec b m); cbn [negb andb]; try reflexivity. rewrite !cdiv2' by assumption.
  rewrite !rd_some by (rewrite Sp; apply in_shape_1; lia). reflexivity.
Qed.
