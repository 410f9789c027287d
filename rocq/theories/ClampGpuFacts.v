From Coq Require Import String Lia.
From Verif Require Import Base BaseFacts Mem Checks ChecksFacts Clamp ClampSpec ClampFacts ClampFacts2 Gpu GpuFacts GpuFacts2 GpuLaunch GpuLaunchFacts GpuView GpuViewFacts PhaseRotateGpu GridUtilsGpu GridUtilsGpuSpec GridUtilsGpuFacts ClampGpu ClampGpuSpec.
Open Scope Z_scope.

(** One thread per row of a range of rows *)
Section Rows.
Context {A : Type} (plus : A -> A -> A) (k : string) (n r0 r1 : Z) (body : Z * Z * Z -> option (list (op (list Z) A))) (x : nd A) (val : Z -> A -> A).
Context (Hn : 0 <= n <= 2147483647) (H0 : 0 <= r0) (Rg : registered k = true).
Context (Th : forall a, 0 <= a < 4294967296 -> body (a, 0, 0) = Some (if (a + r0 <? r1) && (a + r0 <? n) then [Update [a + r0] (val (a + r0))] else [])).
Lemma rows_grid : grid_ok (to_dim3 (blocks_of n 256, 1, 1)) (to_dim3 (256, 1, 1)) = (1 <=? n).
Proof using Hn.
  clear - Hn. change (blocks_of n 256, 1, 1) with (blocks_of n 256, blocks_of 1 1, blocks_of 1 1). rewrite grid_ok_cover by lia.
  replace (1 <=? 1) with true by reflexivity. replace (1 <=? 65535 * 1) with true by reflexivity. replace (n <=? 2147483647 * 256) with true by lia. now rewrite !andb_true_r.
Qed.
Lemma rows_in t : In t (threads3 (to_dim3 (blocks_of n 256, 1, 1)) (to_dim3 (256, 1, 1))) -> exists a, t = (a, 0, 0) /\ 0 <= a < 4294967296.
Proof using Hn.
  clear - Hn. destruct t as [[a b] c]. intro I. change (blocks_of n 256, 1, 1) with (blocks_of n 256, blocks_of 1 1, blocks_of 1 1) in I.
  apply each_in in I; try lia. exists a. replace b with 0 by lia. replace c with 0 by lia. split; [reflexivity|lia].
Qed.
Lemma rows_mem a : 0 <= a < n -> In (a, 0, 0) (threads3 (to_dim3 (blocks_of n 256, 1, 1)) (to_dim3 (256, 1, 1))).
Proof using Hn.
  clear - Hn. intro H. change (blocks_of n 256, 1, 1) with (blocks_of n 256, blocks_of 1 1, blocks_of 1 1). apply each_thread; lia.
Qed.
Lemma rows_result st' x' : launch_view plus (Some k) (blocks_of n 256, 1, 1) (256, 1, 1) body SUCCESS x st' x' ->
  (1 <= n -> st' = SUCCESS /\ shape x' = shape x /\ (forall i, r0 <= i < r1 -> i < n -> elem x' [i] = val i (elem x [i])) /\ (forall idx, (forall i, r0 <= i < r1 -> i < n -> idx <> [i]) -> elem x' idx = elem x idx)) /\
  (n = 0 -> st' = ERR_RUNTIME /\ x' = x).
Proof.
  unfold launch_view. cbn [failed]. rewrite Rg. cbn [negb]. rewrite rows_grid. destruct (Z.leb_spec 1 n) as [Hn1|Hn1]; cbn [negb]; [|intros (-> & ->); split; intro; [exfalso; clear - Hn Hn1 H; lia|auto]].
  intros (-> & m' & R & ->). split; [intros _|intro; exfalso; clear - Hn1 H; lia]. split; [reflexivity|]. split; [reflexivity|]. cbn [elem].
  destruct (disjoint_result idx_eqb plus idx_reflect _ body (elem x) m' R (threads3_nodup _ _)) as [X Y].
  - intros t l It E. destruct (rows_in t It) as (a & -> & Ha). rewrite (Th a Ha) in E. injection E as <-. destruct (_ && _); cbn [map]; [constructor; [intros []|constructor]|constructor].
  - intros t l o t' l' o' It It' E E' Io Io' L. destruct (rows_in t It) as (a & -> & Ha). destruct (rows_in t' It') as (a' & -> & Ha'). rewrite (Th a Ha) in E. rewrite (Th a' Ha') in E'. injection E as <-. injection E' as <-.
    destruct ((a + r0 <? r1) && _); [|destruct Io]. destruct ((a' + r0 <? r1) && _); [|destruct Io']. destruct Io as [<-|[]]. destruct Io' as [<-|[]]. cbn [loc] in L. assert (a = a') as -> by (injection L; clear; lia). reflexivity.
  - split.
    + intros i Hi Hin. assert (Ha : 0 <= i - r0 < 4294967296) by (clear - H0 Hn Hi Hin; lia). pose proof (Th (i - r0) Ha) as E. replace (i - r0 + r0) with i in E by ring.
      replace (i <? r1) with true in E by (clear - Hi; lia). replace (i <? n) with true in E by (clear - Hin; lia). cbn [andb] in E.
      apply (X (i - r0, 0, 0) _ (Update [i] (val i)) (rows_mem (i - r0) ltac:(clear - H0 Hn Hi Hin; lia)) E (or_introl eq_refl)).
    + intros idx N. apply Y. intros t l o It E Io L. destruct (rows_in t It) as (a & -> & Ha). rewrite (Th a Ha) in E. injection E as <-.
      destruct (Z.ltb_spec (a + r0) r1), (Z.ltb_spec (a + r0) n); cbn [andb] in Io; try (destruct Io; fail). destruct Io as [<-|[]]. cbn [loc] in L. apply (N (a + r0)); [clear - Ha H0 H; lia|assumption|congruence].
Qed.
Lemma rows_exists : exists st' x', launch_view plus (Some k) (blocks_of n 256, 1, 1) (256, 1, 1) body SUCCESS x st' x'.
Proof using Hn Rg Th.
  clear H0. unfold launch_view. cbn [failed]. rewrite Rg. cbn [negb]. destruct (grid_ok _ _); cbn [negb]; [|eauto].
  destruct (runs_exists idx_eqb plus (threads3 (to_dim3 (blocks_of n 256, 1, 1)) (to_dim3 (256, 1, 1))) body (elem x)) as (m' & R); [|eauto 6].
  intros t I. apply rows_in in I. destruct I as (a & -> & Ha). rewrite (Th a Ha). eauto.
Qed.
End Rows.

Lemma leb_out2 a b c : (b <=? a) || (c <=? a) = negb ((a <? b) && (a <? c)).
Proof. rewrite !Z.leb_antisym. now destruct (a <? b), (a <? c). Qed.
Lemma row_in_ok inp so_d eo_d n i : shape (input1 inp so_d) = [n] -> shape (input2 inp eo_d) = [n] -> 0 <= i < n ->
  exists q, row_in inp i = Some q /\ of_in q (elem so_d [i], elem eo_d [i]) = (elem (input1 inp so_d) [i], elem (input2 inp eo_d) [i]).
Proof.
  destruct inp as [[si ei]|]; cbn [row_in input1 input2]; [|eauto]. intros S1 S2 Hi. rewrite !rd_some by (rewrite ?S1, ?S2; apply in_shape_1; lia). cbn [bind]. eauto.
Qed.
Lemma bounds_asked n s e a b i : side n -> clamp_bounds n s e = (a, b) -> 0 <= a /\ (asked s e n i <-> a <= i < b /\ i < n).
Proof. unfold side, clamp_bounds, asked. intro Hn. destruct (Z.ltb_spec s 0), (Z.ltb_spec e 0); cbn [orb]; intro E; injection E as <- <-; lia. Qed.
