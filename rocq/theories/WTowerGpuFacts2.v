From Coq Require Import Reals String Lia.
From Verif Require Import Base BaseFacts Sum CRing Loops Cplx Clamp QNum Mem Gpu GpuFacts GpuFacts2 GpuLaunch GpuLaunchFacts GpuView GpuViewFacts PhaseRotateGpu GridUtilsGpuFacts EsKernelsFacts ClampGpuFacts WTower WTowerSpec WTowerFacts WTowerGpu WTowerGpuSpec WTowerGpuFacts.
Open Scope Z_scope.

(** Two loops in step *)
Lemma for_sim {S T} (R : S -> T -> Prop) lo hi F G s t s' :
  (forall i x y x', lo <= i < hi -> R x y -> F i x = Some x' -> exists y', G i y = Some y' /\ R x' y') -> R s t -> for_ lo hi F s = Some s' -> exists t', for_ lo hi G t = Some t' /\ R s' t'.
Proof.
  intros H R0 E. destruct (Z_le_gt_dec lo hi) as [L|L]; [|rewrite for_empty in E by lia; rewrite for_empty by lia; injection E as <-; eauto].
  unfold for_ in *. assert (B : forall k l s t, lo <= l -> l + Z.of_nat k <= hi -> R s t -> for_nat k l F s = Some s' -> exists t', for_nat k l G t = Some t' /\ R s' t').
  { clear E R0 s t. induction k as [|k IH]; intros l s t L1 L2 R0 E; cbn in *; [injection E as <-; eauto|]. destruct (F l s) as [x'|] eqn:Ex; [|discriminate].
    destruct (H l s t x' ltac:(lia) R0 Ex) as (y' & -> & R'). apply (IH (l + 1) x' y'); auto; lia. }
  apply (B _ lo s t); auto; lia.
Qed.

(** ** Gridding *)
Section Grid.
Context (plan : wplan Cring) (vis : nd C).
Let n := subgrid_size plan.
Let w := w_support plan.
Context (Sq : 0 <= n <= 46340) (Hw : 0 <= w).
Notation tot := (total Z.eqb Rplus 0%R).
Definition place (a b d : Z) : Z := (a * n + b) * n + d.
Definition grid_rel (base x : nd C) (ops : list (op Z R)) : Prop :=
  shape x = [w; n; n] /\ only_adds ops /\
  forall a b d, 0 <= a < w -> 0 <= b < n -> 0 <= d < n -> elem x [a; b; d] = Cadd (elem base [a; b; d]) (tot (2 * place a b d) ops, tot (2 * place a b d + 1) ops).
Lemma place_inj a b d a' b' d' : 0 <= b < n -> 0 <= d < n -> 0 <= b' < n -> 0 <= d' < n -> place a b d = place a' b' d' -> a = a' /\ b = b' /\ d = d'.
Proof using.
  clear. unfold place. intros B D B' D' E. destruct (Z.div_mod_unique n (a * n + b) (a' * n + b') d d' (or_introl D) (or_introl D')) as (E1 & ->); [lia|].
  destruct (Z.div_mod_unique n a a' b b' (or_introl B) (or_introl B')) as (-> & ->); [lia|auto].
Qed.
Lemma place_in a b d : 0 <= a < w -> 0 <= b < n -> 0 <= d < n -> 0 <= place a b d < w * n * n.
Proof using. clear. unfold place. intros. nia. Qed.
Lemma grid_step base i c iu0 iv0 u_off v_off w_off x y x' : grid_rel base x y ->
  grid_act (A := Cring) plan vis i c iu0 iv0 u_off v_off w_off x = Some x' -> exists y', gpu_grid_act plan vis (2 * (w * n * n)) i c iu0 iv0 u_off v_off w_off y = Some y' /\ grid_rel base x' y'.
Proof using Sq.
  intros R0 E. unfold grid_act, gpu_grid_act in *. change (car Cring) with C in *. destruct (rd vis [i; c]) as [lv|]; [|discriminate]. cbn [bind] in *. cbv zeta in *.
  revert R0 E. fold w. apply (for_sim (grid_rel base)). clear x y x'. intros a x y x' Ha R0 E. destruct (@rd C (w_kernel plan) _) as [kw|]; [|discriminate]. cbn [bind] in *.
  revert R0 E. apply (for_sim (grid_rel base)). clear x y x'. intros b x y x' Hb R0 E. destruct (@rd C (uv_kernel plan) _) as [ku|]; [|discriminate]. cbn [bind] in *.
  revert R0 E. apply (for_sim (grid_rel base)). clear x y x'. intros d x y x' Hd R0 E. destruct (@rd C (uv_kernel plan) [v_off + d]) as [kv|]; [|discriminate]. cbn [bind] in *.
  destruct R0 as (S0 & O & V). destruct (rd x _) as [s|] eqn:Es; [|discriminate]. apply rd_inv in Es. destruct Es as [I ->]. cbn [bind] in E. apply wr_inv in E. destruct E as [_ ->].
  rewrite S0 in I. apply in_shape_3 in I. destruct I as (I1 & I2 & I3). unfold pixel. fold n. rewrite to_int_in by nia. cbn [bind].
  pose proof (place_in a (iu0 + b) (iv0 + d) I1 I2 I3) as Pl. replace (a * (n * n) + (iu0 + b) * n + (iv0 + d)) with (place a (iu0 + b) (iv0 + d)) by (unfold place; ring).
  set (k := place a (iu0 + b) (iv0 + d)) in *. rewrite (proj2 (in_shape_1 _ _)) by lia. rewrite (proj2 (in_shape_1 _ _)) by lia. cbn [andb]. eexists. split; [reflexivity|].
  split; [rewrite shape_upd; exact S0|]. split.
  - intros o Io. apply in_app_or in Io. destruct Io as [Io|[<-|[<-|[]]]]; [now apply O|eauto|eauto].
  - intros a' b' d' Ha' Hb' Hd'. rewrite !(total_app Z.eqb Rplus 0%R) by (intros; ring). cbn [total map added fold_right].
    destruct (idx_eqb_spec [a; iu0 + b; iv0 + d] [a'; b'; d']) as [Q|Q].
    + injection Q as <- <- <-. rewrite elem_upd_same, (V _ _ _ Ha' Hb' Hd'). fold k. rewrite !Z.eqb_refl. replace (2 * k =? 2 * k + 1) with false by lia. replace (2 * k + 1 =? 2 * k) with false by lia.
      cbn [radd rmul Cring]. csolve.
    + rewrite elem_upd_other by exact Q. rewrite (V _ _ _ Ha' Hb' Hd').
      assert (N : k <> place a' b' d'). { intro K. apply place_inj in K; try assumption. destruct K as (-> & K1 & K2). apply Q. rewrite K1, K2. reflexivity. }
      replace (2 * k =? 2 * place a' b' d') with false by lia. replace (2 * k + 1 =? 2 * place a' b' d') with false by lia. replace (2 * k =? 2 * place a' b' d' + 1) with false by lia. replace (2 * k + 1 =? 2 * place a' b' d' + 1) with false by lia. csolve.
Qed.
End Grid.
