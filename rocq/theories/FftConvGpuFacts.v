(** The convolution on the GPU (proofs only). *)
From Coq Require Import String Lia Lra.
From Verif Require Import Base BaseFacts Mem Sum CRing Cplx Fft FftSpec FftFacts FftFacts2 FftFacts3 FftConv FftConvSpec FftConvFacts FftConvFacts2 Gpu GpuFacts GpuFacts2 GpuLaunch GpuLaunchFacts GpuView GpuViewFacts PhaseRotateGpu GridUtilsGpuFacts FftConvGpu FftConvGpuSpec.
Open Scope Z_scope.

Lemma conv_name base ty : In base ["pad_2D_gpu"; "complex_multiply"; "fft_normalise_gpu"; "fft_shift_2D_gpu"; "remove_padding_2D_gpu"]%string ->
  registered (base ++ if Z.eqb ty MEM_COMPLEX_DOUBLE then "<cuDoubleComplex>" else "<cuFloatComplex>") = true.
Proof. intro H. cbn [In] in H. destruct (ty =? MEM_COMPLEX_DOUBLE); repeat (destruct H as [<-|H]; [reflexivity|]); destruct H. Qed.
Lemma fits_square n : 1 <= n <= 2000000 -> fits_grid n n 1 32 1 = true.
Proof. intro H. unfold fits_grid. lia. Qed.

(** One element for each thread of a square *)
Section Square.
Context (base : string) (ty n : Z) (body : Z * Z * Z -> option (list (op (list Z) C))) (x : nd C) (pos : Z -> Z -> list Z) (val : Z -> Z -> C).
Context (Hn : 1 <= n <= 2000000) (Nm : In base ["pad_2D_gpu"; "complex_multiply"; "fft_normalise_gpu"; "fft_shift_2D_gpu"; "remove_padding_2D_gpu"]%string).
Context (Th : forall a b, 0 <= a < 4294967296 -> 0 <= b < 4294967296 -> body (a, b, 0) = Some (if (a <? n) && (b <? n) then [Update (pos a b) (fun _ => val a b)] else [])).
Context (Inj : forall a b a' b', 0 <= a < n -> 0 <= b < n -> 0 <= a' < n -> 0 <= b' < n -> pos a b = pos a' b' -> a = a' /\ b = b').
Lemma square_thread a b c : 0 <= a < n + 32 - 1 -> 0 <= b < n + 32 - 1 -> 0 <= c < 1 + 1 - 1 ->
  exists k, body (a, b, c) = Some k /\ if in_range n n 1 a b c then exists o, k = [o] /\ loc o = pos a b /\ forall v, apply (fun a _ => a) o v = val a b else k = [].
Proof using Hn Th.
  clear Inj Nm. intros Ha Hb Hc. assert (c = 0) as -> by lia. eexists. split; [apply Th; lia|]. unfold in_range. rewrite andb_true_r. destruct ((a <? n) && (b <? n)); [|reflexivity].
  eexists. split; [reflexivity|]. split; reflexivity.
Qed.
Lemma square_result st' x' : conv_launch base ty (blocks_of n 32, blocks_of n 32, 1) (32, 32, 1) body SUCCESS x st' x' ->
  st' = SUCCESS /\ shape x' = shape x /\ (forall a b, 0 <= a < n -> 0 <= b < n -> elem x' (pos a b) = val a b) /\
  (forall idx, (forall a b, 0 <= a < n -> 0 <= b < n -> idx <> pos a b) -> elem x' idx = elem x idx).
Proof using Hn Nm Th Inj.
  unfold conv_launch. cbv zeta. change (blocks_of n 32, blocks_of n 32, 1) with (blocks_of n 32, blocks_of n 32, blocks_of 1 1). intro H.
  apply (each_result (fun a _ => a) _ n n 1 32 32 1 body x (fun a b _ => pos a b) (fun a b _ _ => val a b)) in H; try lia.
  - rewrite fits_square in H by exact Hn. destruct H as (A & B & C1 & D). split; [exact A|]. split; [exact B|]. split; [intros a b Ha Hb; exact (C1 a b 0 Ha Hb ltac:(lia))|].
    intros idx N. apply D. intros a b c Ha Hb _. exact (N a b Ha Hb).
  - now apply conv_name.
  - exact square_thread.
  - intros a b c a' b' c' Ha Hb Hc Ha' Hb' Hc' E. destruct (Inj a b a' b' Ha Hb Ha' Hb' E) as (-> & ->). repeat split. lia.
Qed.
Lemma square_exists : exists st' x', conv_launch base ty (blocks_of n 32, blocks_of n 32, 1) (32, 32, 1) body SUCCESS x st' x'.
Proof using Hn Nm Th.
  clear Inj. unfold conv_launch. cbv zeta. change (blocks_of n 32, blocks_of n 32, 1) with (blocks_of n 32, blocks_of n 32, blocks_of 1 1).
  apply (each_exists (fun a _ => a) _ n n 1 32 32 1 body x (fun a b _ => pos a b) (fun a b _ _ => val a b)); try lia; [now apply conv_name|exact square_thread].
Qed.
End Square.

(** One element for each thread of a line *)
Section Line.
Context (base : string) (ty n : Z) (body : Z * Z * Z -> option (list (op (list Z) C))) (x : nd C) (val : Z -> C -> C).
Context (Hn : 1 <= n <= 2147483647) (Nm : In base ["pad_2D_gpu"; "complex_multiply"; "fft_normalise_gpu"; "fft_shift_2D_gpu"; "remove_padding_2D_gpu"]%string).
Context (Th : forall a, 0 <= a < 4294967296 -> body (a, 0, 0) = Some (if a <? n then [Update [a] (val a)] else [])).
Lemma line_thread a b c : 0 <= a < n + 256 - 1 -> 0 <= b < 1 + 1 - 1 -> 0 <= c < 1 + 1 - 1 ->
  exists k, body (a, b, c) = Some k /\ if in_range n 1 1 a b c then exists o, k = [o] /\ loc o = [a] /\ forall v, apply (fun a _ => a) o v = val a v else k = [].
Proof using Hn Th.
  clear Nm. intros Ha Hb Hc. assert (b = 0) as -> by lia. assert (c = 0) as -> by lia. eexists. split; [apply Th; lia|]. unfold in_range. rewrite !andb_true_r. destruct (a <? n); [|reflexivity].
  eexists. split; [reflexivity|]. split; reflexivity.
Qed.
Lemma fits_line : fits_grid n 1 1 1 1 = true.
Proof using Hn. clear - Hn. unfold fits_grid. lia. Qed.
Lemma line_result st' x' : conv_launch base ty (blocks_of n 256, 1, 1) (256, 1, 1) body SUCCESS x st' x' ->
  st' = SUCCESS /\ shape x' = shape x /\ forall a, 0 <= a < n -> elem x' [a] = val a (elem x [a]).
Proof using Hn Nm Th.
  unfold conv_launch. cbv zeta. change (blocks_of n 256, 1, 1) with (blocks_of n 256, blocks_of 1 1, blocks_of 1 1). intro H.
  apply (each_result (fun a _ => a) _ n 1 1 256 1 1 body x (fun a _ _ => [a]) (fun a _ _ => val a)) in H; try lia.
  - rewrite fits_line in H. destruct H as (A & B & C1 & _). split; [exact A|]. split; [exact B|]. intros a Ha. exact (C1 a 0 0 Ha ltac:(lia) ltac:(lia)).
  - now apply conv_name.
  - exact line_thread.
  - intros a b c a' b' c' Ha Hb Hc Ha' Hb' Hc' E. injection E as ->. repeat split; lia.
Qed.
Lemma line_exists : exists st' x', conv_launch base ty (blocks_of n 256, 1, 1) (256, 1, 1) body SUCCESS x st' x'.
Proof using Hn Nm Th.
  unfold conv_launch. cbv zeta. change (blocks_of n 256, 1, 1) with (blocks_of n 256, blocks_of 1 1, blocks_of 1 1).
  apply (each_exists (fun a _ => a) _ n 1 1 256 1 1 body x (fun a _ _ => [a]) (fun a _ _ => val a)); try lia; [now apply conv_name|exact line_thread].
Qed.
End Line.

Lemma store_some N i v : 0 <= i < N -> store [N] i v = Some [Update [i] (fun _ => v)].
Proof. intro H. unfold store. assert (E : in_shape [N] [i] = true) by (apply in_shape_1; lia). now rewrite E. Qed.
Lemma flat_bound P i j : 0 <= i < P -> 0 <= j < P -> 0 <= i * P + j < P * P.
Proof. nia. Qed.

(** *** The kernels *)
Section Pad.
Context (ty n e P M : Z) (data : nd C) (Hn : 1 <= n) (He : 0 <= e) (HP : n + e <= P) (HB : P <= 32768) (HM : n * n <= M) (Sd : shape data = [M]).
Let zero := mk_nd [P * P] (fun _ : list Z => C0).
Lemma pad_ops a b : 0 <= a < 4294967296 -> 0 <= b < 4294967296 ->
  pad_thread data [P * P] n n e e P (a, b, 0) = Some (if (a <? n) && (b <? n) then [Update [(a + e) * P + (b + e)] (fun _ => elem data [a * n + b])] else []).
Proof using Hn He HP HM Sd.
  intros Ha Hb. unfold pad_thread. rewrite !u32_id by lia. destruct (Z.ltb_spec a n), (Z.ltb_spec b n); cbn [andb]; try reflexivity.
  pose proof (flat_bound n a b ltac:(lia) ltac:(lia)). pose proof (flat_bound P (a + e) (b + e) ltac:(lia) ltac:(lia)).
  rewrite rd_some by (rewrite Sd; apply in_shape_1; lia). cbn [bind]. apply store_some. lia.
Qed.
Lemma pad_result st' p : conv_launch "pad_2D_gpu" ty (blocks_of n 32, blocks_of n 32, 1) (32, 32, 1) (pad_thread data [P * P] n n e e P) SUCCESS zero st' p ->
  st' = SUCCESS /\ shape p = [P * P] /\ forall i j, 0 <= i < P -> 0 <= j < P -> elem p [i * P + j] = at0 data n (i - e) (j - e).
Proof using Hn He HP HB HM Sd.
  intro H. apply (square_result "pad_2D_gpu" ty n _ zero (fun a b => [(a + e) * P + (b + e)]) (fun a b => elem data [a * n + b])) in H; [|lia|cbn; auto|exact pad_ops|].
  2:{ intros a b a' b' Ha Hb Ha' Hb' E. injection E as E. apply flat_eq in E; lia. }
  destruct H as (A & B & V & F). split; [exact A|]. split; [exact B|]. intros i j Hi Hj. unfold at0.
  destruct (Z.leb_spec 0 (i - e)), (Z.ltb_spec (i - e) n), (Z.leb_spec 0 (j - e)), (Z.ltb_spec (j - e) n); cbn [andb].
  1:{ rewrite <- (V (i - e) (j - e)) by lia. do 2 f_equal. ring. }
  all: rewrite F; [reflexivity|]; intros i' j' Hi' Hj' K; injection K as K; apply flat_eq in K; lia.
Qed.
Lemma pad_exists : exists st' p, conv_launch "pad_2D_gpu" ty (blocks_of n 32, blocks_of n 32, 1) (32, 32, 1) (pad_thread data [P * P] n n e e P) SUCCESS zero st' p.
Proof using Hn He HP HB HM Sd. apply (square_exists "pad_2D_gpu" ty n _ zero (fun a b => [(a + e) * P + (b + e)]) (fun a b => elem data [a * n + b])); [lia|cbn; auto|exact pad_ops]. Qed.
End Pad.

Section Multiply.
Context (ty N : Z) (a b : nd C) (HN : 1 <= N <= 2147483647) (Sa : shape a = [N]) (Sb : shape b = [N]).
Let zero := mk_nd [N] (fun _ : list Z => C0).
Lemma multiply_ops x : 0 <= x < 4294967296 -> multiply_thread a b [N] N (x, 0, 0) = Some (if x <? N then [Update [x] ((fun x _ => Cmul (elem a [x]) (elem b [x])) x)] else []).
Proof using Sa Sb.
  intro Hx. unfold multiply_thread. rewrite u32_id by lia. destruct (Z.ltb_spec x N); [|reflexivity]. rewrite !rd_some by (rewrite ?Sa, ?Sb; apply in_shape_1; lia). cbn [bind]. apply store_some. lia.
Qed.
Lemma multiply_result st' p : conv_launch "complex_multiply" ty (blocks_of N 256, 1, 1) (256, 1, 1) (multiply_thread a b [N] N) SUCCESS zero st' p ->
  st' = SUCCESS /\ shape p = [N] /\ forall i, 0 <= i < N -> elem p [i] = Cmul (elem a [i]) (elem b [i]).
Proof using HN Sa Sb. intro H. apply (line_result "complex_multiply" ty N _ zero (fun x _ => Cmul (elem a [x]) (elem b [x]))) in H; [exact H|lia|cbn; auto|exact multiply_ops]. Qed.
Lemma multiply_exists : exists st' p, conv_launch "complex_multiply" ty (blocks_of N 256, 1, 1) (256, 1, 1) (multiply_thread a b [N] N) SUCCESS zero st' p.
Proof using HN Sa Sb. apply (line_exists "complex_multiply" ty N _ zero (fun x _ => Cmul (elem a [x]) (elem b [x]))); [lia|cbn; auto|exact multiply_ops]. Qed.
End Multiply.

Section Normalise.
Context (ty N : Z) (x : nd C) (HN : 1 <= N <= 2147483647) (Sx : shape x = [N]).
Lemma normalise_ops i : 0 <= i < 4294967296 -> normalise_thread [N] N (i, 0, 0) = Some (if i <? N then [Update [i] ((fun _ v => Cdiv v (RtoC (IZR N))) i)] else []).
Proof using. clear. intro Hx. unfold normalise_thread. rewrite u32_id by lia. destruct (Z.ltb_spec i N); [|reflexivity]. assert (E : in_shape [N] [i] = true) by (apply in_shape_1; lia). now rewrite E. Qed.
Lemma normalise_result st' p : conv_launch "fft_normalise_gpu" ty (blocks_of N 256, 1, 1) (256, 1, 1) (normalise_thread [N] N) SUCCESS x st' p ->
  st' = SUCCESS /\ shape p = [N] /\ forall i, 0 <= i < N -> elem p [i] = Cdiv (elem x [i]) (RtoC (IZR N)).
Proof using HN Sx. intro H. apply (line_result "fft_normalise_gpu" ty N _ x (fun _ v => Cdiv v (RtoC (IZR N)))) in H; [rewrite Sx in H; exact H|lia|cbn; auto|exact normalise_ops]. Qed.
Lemma normalise_exists : exists st' p, conv_launch "fft_normalise_gpu" ty (blocks_of N 256, 1, 1) (256, 1, 1) (normalise_thread [N] N) SUCCESS x st' p.
Proof using HN. apply (line_exists "fft_normalise_gpu" ty N _ x (fun _ v => Cdiv v (RtoC (IZR N)))); [lia|cbn; auto|exact normalise_ops]. Qed.
End Normalise.

Section Remove.
Context (ty n e P M : Z) (m out : nd C) (Hn : 1 <= n) (He : 1 <= e) (HP : n + e <= P + 1) (HB : P <= 32768) (HM : n * n <= M) (Sm : shape m = [P * P]) (So : shape out = [M]).
Lemma remove_ops a b : 0 <= a < 4294967296 -> 0 <= b < 4294967296 ->
  remove_thread m (shape out) P e e n n (a, b, 0) = Some (if (a <? n) && (b <? n) then [Update [a * n + b] (fun _ => elem m [(a + (e - 1)) * P + (b + (e - 1))])] else []).
Proof using Hn He HP HM Sm So.
  intros Ha Hb. unfold remove_thread. rewrite !u32_id by lia. destruct (Z.ltb_spec a n), (Z.ltb_spec b n); cbn [andb]; try reflexivity.
  pose proof (flat_bound n a b ltac:(lia) ltac:(lia)). pose proof (flat_bound P (a + (e - 1)) (b + (e - 1)) ltac:(lia) ltac:(lia)).
  rewrite rd_some by (rewrite Sm; apply in_shape_1; lia). cbn [bind]. rewrite So. apply store_some. lia.
Qed.
Lemma remove_inj a b a' b' : 0 <= a < n -> 0 <= b < n -> 0 <= a' < n -> 0 <= b' < n -> [a * n + b] = [a' * n + b'] -> a = a' /\ b = b'.
Proof using. clear. intros Ha Hb Ha' Hb' E. injection E as E. apply flat_eq in E; lia. Qed.
Lemma remove_result st' p : conv_launch "remove_padding_2D_gpu" ty (blocks_of n 32, blocks_of n 32, 1) (32, 32, 1) (remove_thread m (shape out) P e e n n) SUCCESS out st' p ->
  st' = SUCCESS /\ shape p = [M] /\ (forall i j, 0 <= i < n -> 0 <= j < n -> elem p [i * n + j] = elem m [(i + (e - 1)) * P + (j + (e - 1))]) /\
  forall t, t < 0 \/ n * n <= t -> elem p [t] = elem out [t].
Proof using Hn He HP HB HM Sm So.
  intro H. apply (square_result "remove_padding_2D_gpu" ty n _ out (fun a b => [a * n + b]) (fun a b => elem m [(a + (e - 1)) * P + (b + (e - 1))])) in H; [|lia|cbn; auto 6|exact remove_ops|exact remove_inj].
  destruct H as (A & B & V & F). split; [exact A|]. split; [congruence|]. split; [exact V|]. intros t Ht. apply F. intros a b Ha Hb E. injection E as E. pose proof (flat_bound n a b Ha Hb). lia.
Qed.
Lemma remove_exists : exists st' p, conv_launch "remove_padding_2D_gpu" ty (blocks_of n 32, blocks_of n 32, 1) (32, 32, 1) (remove_thread m (shape out) P e e n n) SUCCESS out st' p.
Proof using Hn He HP HB HM Sm So. apply (square_exists "remove_padding_2D_gpu" ty n _ out (fun a b => [a * n + b]) (fun a b => elem m [(a + (e - 1)) * P + (b + (e - 1))])); [lia|cbn; auto 6|exact remove_ops]. Qed.
End Remove.

(** The quadrants are exchanged: four elements for each thread *)
Section Shift.
Context (ty h P : Z) (m : nd C) (Hh : 1 <= h) (HP : P = 2 * h) (HB : P <= 32768) (Sm : shape m = [P * P]).
Let zero := mk_nd [P * P] (fun _ : list Z => C0).
Let ths := threads3 (to_dim3 (blocks_of h 32, blocks_of h 32, 1)) (to_dim3 (32, 32, 1)).
Definition shift_four (i j : Z) : list (op (list Z) C) :=
  [Update [i * P + j] (fun _ => elem m [(i + h) * P + j + h]); Update [(i + h) * P + j] (fun _ => elem m [i * P + j + h]);
   Update [(i + h) * P + j + h] (fun _ => elem m [i * P + j]); Update [i * P + j + h] (fun _ => elem m [(i + h) * P + j])].
Lemma shift_ops a b : 0 <= a < 4294967296 -> 0 <= b < 4294967296 ->
  shift_thread m [P * P] P P h h (a, b, 0) = Some (if (a <? h) && (b <? h) then shift_four a b else []).
Proof using Hh HP Sm.
  intros Ha Hb. unfold shift_thread. rewrite !u32_id by lia. destruct (Z.ltb_spec a h), (Z.ltb_spec b h); cbn [andb]; try reflexivity.
  pose proof (flat_bound P a b ltac:(lia) ltac:(lia)). pose proof (flat_bound P (a + h) b ltac:(lia) ltac:(lia)). pose proof (flat_bound P a (b + h) ltac:(lia) ltac:(lia)). pose proof (flat_bound P (a + h) (b + h) ltac:(lia) ltac:(lia)).
  rewrite !rd_some by (rewrite Sm; apply in_shape_1; lia). cbn [bind]. rewrite !store_some by lia. cbn [bind]. reflexivity.
Qed.
Lemma shift_in a b c : In (a, b, c) ths -> 0 <= a < 4294967296 /\ 0 <= b < 4294967296 /\ c = 0.
Proof using Hh HP HB.
  intro I. unfold ths in I. change (blocks_of h 32, blocks_of h 32, 1) with (blocks_of h 32, blocks_of h 32, blocks_of 1 1) in I. apply each_in in I; lia.
Qed.
Lemma shift_mem a b : 0 <= a < h -> 0 <= b < h -> In (a, b, 0) ths.
Proof using Hh HP HB. intros Ha Hb. unfold ths. change (blocks_of h 32, blocks_of h 32, 1) with (blocks_of h 32, blocks_of h 32, blocks_of 1 1). apply each_thread; lia. Qed.
Lemma shift_where a b o : 0 <= a < h -> 0 <= b < h -> In o (shift_four a b) -> exists r c, 0 <= r < 2 /\ 0 <= c < 2 /\ loc o = [(a + r * h) * P + (b + c * h)].
Proof using.
  intros Ha Hb. unfold shift_four. intro I. cbn [In] in I. destruct I as [<-|[<-|[<-|[<-|[]]]]]; cbn [loc].
  - exists 0, 0. repeat split; try lia. f_equal. ring.
  - exists 1, 0. repeat split; try lia. f_equal. ring.
  - exists 1, 1. repeat split; try lia. f_equal. ring.
  - exists 0, 1. repeat split; try lia. f_equal. ring.
Qed.
Lemma shift_same a b r c a' b' r' c' : 0 <= a < h -> 0 <= b < h -> 0 <= a' < h -> 0 <= b' < h -> 0 <= r < 2 -> 0 <= c < 2 -> 0 <= r' < 2 -> 0 <= c' < 2 ->
  [(a + r * h) * P + (b + c * h)] = [(a' + r' * h) * P + (b' + c' * h)] -> a = a' /\ b = b' /\ r = r' /\ c = c'.
Proof using Hh HP.
  intros Ha Hb Ha' Hb' Hr Hc Hr' Hc' E. injection E as E.
  assert (B1 : 0 <= b + c * h < P) by (assert (c = 0 \/ c = 1) as [-> | ->] by lia; lia). assert (B2 : 0 <= b' + c' * h < P) by (assert (c' = 0 \/ c' = 1) as [-> | ->] by lia; lia).
  destruct (flat_eq P _ _ _ _ B1 B2 E) as (E1 & E2). assert (r = 0 \/ r = 1) as [-> | ->] by lia; assert (r' = 0 \/ r' = 1) as [-> | ->] by lia; assert (c = 0 \/ c = 1) as [-> | ->] by lia; assert (c' = 0 \/ c' = 1) as [-> | ->] by lia; lia.
Qed.
Lemma shift_result st' p : conv_launch "fft_shift_2D_gpu" ty (blocks_of h 32, blocks_of h 32, 1) (32, 32, 1) (shift_thread m [P * P] P P h h) SUCCESS zero st' p ->
  st' = SUCCESS /\ shape p = [P * P] /\ forall k l, 0 <= k < P -> 0 <= l < P -> elem p [k * P + l] = elem m [(k + h) mod P * P + (l + h) mod P].
Proof using Hh HP HB Sm.
  unfold conv_launch, launch_view. cbv zeta. cbn [failed]. rewrite conv_name by (cbn; auto 6). cbn [negb].
  assert (G : grid_ok (to_dim3 (blocks_of h 32, blocks_of h 32, 1)) (to_dim3 (32, 32, 1)) = true).
  { change (blocks_of h 32, blocks_of h 32, 1) with (blocks_of h 32, blocks_of h 32, blocks_of 1 1). rewrite each_grid by lia. apply fits_square. lia. }
  rewrite G. cbn [negb]. fold ths. intros (-> & m' & R & ->). split; [reflexivity|]. split; [reflexivity|]. cbn [elem].
  assert (N : forall a b, 0 <= a < h -> 0 <= b < h -> NoDup (map loc (shift_four a b))).
  { intros a b Ha Hb. unfold shift_four. cbn [map loc].
    assert (Z0 : forall r c r' c', 0 <= r < 2 -> 0 <= c < 2 -> 0 <= r' < 2 -> 0 <= c' < 2 -> (r, c) <> (r', c') -> (a + r * h) * P + (b + c * h) <> (a + r' * h) * P + (b + c' * h)).
    { intros r c r' c' Hr Hc Hr' Hc' Ne E. apply Ne. destruct (shift_same a b r c a b r' c' Ha Hb Ha Hb Hr Hc Hr' Hc' ltac:(now rewrite E)) as (_ & _ & -> & ->). reflexivity. }
    match goal with |- NoDup ?l => replace l with [[(a + 0 * h) * P + (b + 0 * h)]; [(a + 1 * h) * P + (b + 0 * h)]; [(a + 1 * h) * P + (b + 1 * h)]; [(a + 0 * h) * P + (b + 1 * h)]] by (repeat (apply f_equal2; [apply (f_equal (fun x => [x])); ring|]); reflexivity) end.
    repeat (apply NoDup_cons; [cbn [In]; intros I; repeat (destruct I as [I|I]; [injection I as I; refine (Z0 _ _ _ _ _ _ _ _ _ I); solve [lia | congruence]|]); exact I|]). apply NoDup_nil. }
  destruct (disjoint_result idx_eqb (fun a _ => a) idx_reflect ths _ (elem zero) m' R (threads3_nodup _ _)) as [X _].
  - intros [[a b] c] k It E. destruct (shift_in _ _ _ It) as (Ha & Hb & ->). rewrite (shift_ops a b Ha Hb) in E. injection E as <-.
    destruct (Z.ltb_spec a h), (Z.ltb_spec b h); cbn [andb]; [apply N; lia| | |]; apply NoDup_nil.
  - intros [[a b] c] k o [[a' b'] c'] k' o' It It' E E' Io Io' L. destruct (shift_in _ _ _ It) as (Ha & Hb & ->). destruct (shift_in _ _ _ It') as (Ha' & Hb' & ->).
    rewrite (shift_ops a b Ha Hb) in E. injection E as <-. rewrite (shift_ops a' b' Ha' Hb') in E'. injection E' as <-.
    destruct (Z.ltb_spec a h), (Z.ltb_spec b h); cbn [andb] in Io; try (destruct Io; fail). destruct (Z.ltb_spec a' h), (Z.ltb_spec b' h); cbn [andb] in Io'; try (destruct Io'; fail).
    destruct (shift_where a b o ltac:(lia) ltac:(lia) Io) as (r & q & Hr & Hq & L1). destruct (shift_where a' b' o' ltac:(lia) ltac:(lia) Io') as (r' & q' & Hr' & Hq' & L2). rewrite L1, L2 in L.
    destruct (shift_same a b r q a' b' r' q' ltac:(lia) ltac:(lia) ltac:(lia) ltac:(lia) Hr Hq Hr' Hq' L) as (-> & -> & _). reflexivity.
  - assert (F : forall a b o, 0 <= a < h -> 0 <= b < h -> In o (shift_four a b) -> m' (loc o) = apply (fun a _ => a) o (elem zero (loc o))).
    { intros a b o Ha Hb Io. apply (X (a, b, 0) (shift_four a b) o); [now apply shift_mem| |exact Io]. rewrite shift_ops by lia. replace (a <? h) with true by lia. replace (b <? h) with true by lia. reflexivity. }
    assert (Md : forall k, 0 <= k < P -> (k < h -> (k + h) mod P = k + h) /\ (h <= k -> (k + h) mod P = k - h)).
    { intros k Hk. split; intro Hl; [apply Z.mod_small; lia|]. symmetry. apply (Z.mod_unique _ _ 1); lia. }
    intros k l Hk Hl. destruct (Md k Hk) as (K1 & K2). destruct (Md l Hl) as (L1 & L2).
    destruct (Z_lt_le_dec k h) as [Ck|Ck]; destruct (Z_lt_le_dec l h) as [Cl|Cl]; rewrite ?K1, ?K2, ?L1, ?L2 by assumption.
    + rewrite Z.add_assoc. exact (F k l _ ltac:(lia) ltac:(lia) (or_introl eq_refl)).
    + pose proof (F k (l - h) _ ltac:(lia) ltac:(lia) (or_intror (or_intror (or_intror (or_introl eq_refl))))) as Y. cbn [loc apply] in Y. replace (k * P + (l - h) + h) with (k * P + l) in Y by ring. exact Y.
    + pose proof (F (k - h) l _ ltac:(lia) ltac:(lia) (or_intror (or_introl eq_refl))) as Y. cbn [loc apply] in Y. replace (k - h + h) with k in Y by ring. rewrite Z.add_assoc. exact Y.
    + pose proof (F (k - h) (l - h) _ ltac:(lia) ltac:(lia) (or_intror (or_intror (or_introl eq_refl)))) as Y. cbn [loc apply] in Y. replace ((k - h + h) * P + (l - h) + h) with (k * P + l) in Y by ring. exact Y.
Qed.
Lemma shift_exists : exists st' p, conv_launch "fft_shift_2D_gpu" ty (blocks_of h 32, blocks_of h 32, 1) (32, 32, 1) (shift_thread m [P * P] P P h h) SUCCESS zero st' p.
Proof using Hh HP HB Sm.
  unfold conv_launch, launch_view. cbv zeta. cbn [failed]. rewrite conv_name by (cbn; auto 6). cbn [negb]. destruct (grid_ok _ _); cbn [negb]; [|eauto].
  destruct (runs_exists idx_eqb (fun a _ => a) ths (shift_thread m [P * P] P P h h) (elem zero)) as (m' & R); [|eauto 6].
  intros [[a b] c] I. destruct (shift_in _ _ _ I) as (Ha & Hb & ->). rewrite shift_ops by assumption. eauto.
Qed.
End Shift.

(** *** The transforms *)
Lemma cufft_at inv P x k l : 0 <= k < P -> 0 <= l < P -> elem (cufft inv P SUCCESS x) [k * P + l] = DFT2 inv P P (fun i j => elem x [i * P + j]) k l.
Proof.
  intros Hk Hl. unfold cufft. cbn [failed elem hd]. pose proof (flat_bound P k l Hk Hl).
  replace (0 <=? k * P + l) with true by lia. replace (k * P + l <? P * P) with true by lia. cbn [andb].
  rewrite Z.div_add_l by lia. rewrite Z.div_small by lia. rewrite Z.add_0_r. rewrite Z.add_comm, Z.mod_add by lia. now rewrite Z.mod_small by lia.
Qed.
Lemma cufft_shape inv P x : shape (cufft inv P SUCCESS x) = shape x.
Proof. reflexivity. Qed.

(** circular equals linear in the window kept *)
Lemma wrap_at' P e2 n2 n1 i a c : 0 < n1 -> 0 <= e2 -> 0 < n2 -> e2 + n2 <= P -> n1 + n2 <= P + 1 -> 0 <= c < n2 -> 0 <= i < n1 -> 0 <= a < n1 ->
  exists q, (i - a + c + e2) mod P = i - a + c + e2 + q * P /\ (q = 0 \/ (i - a + c + e2 + q * P < e2 \/ e2 + n2 <= i - a + c + e2 + q * P) /\ (i - a + c < 0 \/ n2 <= i - a + c)).
Proof.
  intros H1 He H2 HP HL Hc Hi Ha. exists (- ((i - a + c + e2) / P)).
  pose proof (Z.div_mod (i - a + c + e2) P ltac:(lia)) as D. pose proof (Z.mod_pos_bound (i - a + c + e2) P ltac:(lia)) as B.
  set (q := (i - a + c + e2) / P) in *. set (r := (i - a + c + e2) mod P) in *. clearbody q r.
  split; [lia|]. destruct (Z.eq_dec q 0) as [->|NQ]; [left; lia|right].
  assert (- 2 < q < 2) by nia. assert (q = 1 \/ q = -1) as [->| ->] by lia; lia.
Qed.
(** Elements of the circular convolution of the padded arrays *)
Lemma circ_full P h n1 n2 e1 e2 (a b p q : nd C) i l : 0 < n1 -> 0 < n2 -> P = 2 * h -> n1 + n2 - 1 <= P -> e1 = (P - n1) / 2 -> e2 = (P - n2) / 2 ->
  (forall i j, 0 <= i < P -> 0 <= j < P -> elem p [i * P + j] = at0 a n1 (i - e1) (j - e1)) -> (forall i j, 0 <= i < P -> 0 <= j < P -> elem q [i * P + j] = at0 b n2 (i - e2) (j - e2)) ->
  0 <= i < n1 -> 0 <= l < n1 ->
  circ P (fun i j => elem p [i * P + j]) (fun i j => elem q [i * P + j]) ((i + (e1 - 1) + h) mod P) ((l + (e1 - 1) + h) mod P) = full_conv a n1 b n2 (i + (n2 - 1) / 2) (l + (n2 - 1) / 2).
Proof.
  intros H1 H2 HP HL E1 E2 Va Vb Hi Hl.
  pose proof (Z.div_mod (P - n1) 2 ltac:(lia)) as D1. pose proof (Z.mod_pos_bound (P - n1) 2 ltac:(lia)) as B1. rewrite <- E1 in D1.
  pose proof (Z.div_mod (P - n2) 2 ltac:(lia)) as D2. pose proof (Z.mod_pos_bound (P - n2) 2 ltac:(lia)) as B2. rewrite <- E2 in D2.
  set (r1 := (P - n1) mod 2) in *. set (r2 := (P - n2) mod 2) in *. clearbody r1 r2. clear E1 E2.
  assert (HC : (n2 - 1) / 2 = h - 1 - e2) by (symmetry; apply (Z.div_unique _ _ _ (1 - r2)); lia). rewrite HC.
  unfold circ, full_conv.
  rewrite (csum_window P e1 n1); [|lia|lia|lia|].
  2:{ intros s Hs Ho. apply (sum_none _ _ (Rcm (A := Cring))). intros t Ht. rewrite Va by lia.
      rewrite at0_row_out by lia. cbn [r0 Cring]. csolve. }
  apply csum_ext. intros s Hs.
  rewrite (csum_window P e1 n1); [|lia|lia|lia|].
  2:{ intros t Ht Ho. rewrite Va by lia. rewrite at0_col_out by lia. csolve. }
  apply csum_ext. intros t Ht. rewrite Va by lia.
  replace (s + e1 - e1) with s by ring. replace (t + e1 - e1) with t by ring.
  f_equal.
  { unfold at0. replace (0 <=? s) with true by lia. replace (s <? n1) with true by lia. replace (0 <=? t) with true by lia.
    replace (t <? n1) with true by lia. reflexivity. }
  rewrite !Zminus_mod_idemp_l.
  replace (i + (e1 - 1) + h - (s + e1)) with (i - s + (h - 1 - e2) + e2) by ring.
  replace (l + (e1 - 1) + h - (t + e1)) with (l - t + (h - 1 - e2) + e2) by ring.
  rewrite Vb by (apply Z.mod_pos_bound; lia).
  destruct (wrap_at' P e2 n2 n1 i s (h - 1 - e2)) as (q0 & Q & D); try lia.
  destruct (wrap_at' P e2 n2 n1 l t (h - 1 - e2)) as (q' & Q' & D'); try lia.
  rewrite Q, Q'. destruct D as [->|(X1 & X2)].
  - destruct D' as [->|(X1' & X2')].
    + f_equal; ring.
    + rewrite !at0_col_out by lia. reflexivity.
  - rewrite !at0_row_out by lia. reflexivity.
Qed.
(** The product of the transforms, transformed back and divided *)
Lemma back_at P (p q m3 m4 : nd C) : 1 <= P -> (forall t, 0 <= t < P * P -> elem m3 [t] = Cmul (elem (cufft false P SUCCESS p) [t]) (elem (cufft false P SUCCESS q) [t])) ->
  (forall t, 0 <= t < P * P -> elem m4 [t] = Cdiv (elem (cufft true P SUCCESS m3) [t]) (RtoC (IZR (P * P)))) ->
  forall k l, 0 <= k < P -> 0 <= l < P -> elem m4 [k * P + l] = circ P (fun i j => elem p [i * P + j]) (fun i j => elem q [i * P + j]) k l.
Proof.
  intros HP V3 V4 k l Hk Hl. rewrite V4 by (now apply flat_bound). rewrite cufft_at by assumption.
  set (A := fun i j => elem p [i * P + j]). set (B := fun i j => elem q [i * P + j]).
  rewrite (DFT2_ext _ P P _ (DFT2 false P P (circ P A B))).
  2:{ intros s t Hs Ht. rewrite V3 by (now apply flat_bound). rewrite !cufft_at by assumption. symmetry. apply conv_theorem. lia. }
  change true with (negb false). rewrite DFT2_inverse by lia.
  assert (NZ : RtoC (IZR (P * P)) <> C0) by (apply RtoC_nz, not_0_IZR; nia).
  set (z := RtoC (IZR (P * P))) in *. clearbody z. set (c := circ P A B k l). clearbody c.
  unfold Cdiv. transitivity (Cmul (Cmul (Cinv z) z) c); [generalize (Cinv z); intro; csolve|]. rewrite (Cinv_l z NZ). csolve.
Qed.
(** The padded size *)
Lemma pad_size n1 n2 P : 0 < n1 -> 0 < n2 -> padded_size n1 n2 P -> pad_pow2 (S (Z.to_nat (n1 + n2))) (n1 + n2 - 1) = Some P.
Proof.
  intros H1 H2 ((k & Hk & ->) & HL & Min). destruct (pad_dim_lemma n1 n2 H1 H2) as (Q & j & E & A & Hj & ->). rewrite E. f_equal. apply Z.le_antisymm; [|now apply Min].
  destruct (Z_lt_le_dec (2 ^ k - (n1 + n2 - 1)) (Z.of_nat (S (Z.to_nat (n1 + n2))))) as [L|L].
  - destruct (pad_pow2_lemma (S (Z.to_nat (n1 + n2))) (n1 + n2 - 1) (2 ^ k) k ltac:(lia) Hk eq_refl HL L) as (r & j' & E' & B & _). rewrite E in E'. injection E' as <-. lia.
  - assert (K : forall fuel p r, pad_pow2 fuel p = Some r -> p <= r < p + Z.of_nat fuel).
    { clear. induction fuel as [|f IH]; intros p r E; [discriminate|]. cbn [pad_pow2] in E. destruct (_ =? 0); [injection E as <-; lia|]. apply IH in E. lia. }
    apply K in E. lia.
Qed.
