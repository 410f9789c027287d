From Coq Require Import Reals String Lia.
From Verif Require Import Base BaseFacts Sum CRing Loops Cplx Clamp QNum Mem Gpu GpuFacts GpuFacts2 GpuLaunch GpuView PhaseRotateGpu EsKernelsFacts WTower WTowerSpec WTowerFacts WTowerGpu WTowerGpuSpec.
Open Scope Z_scope.

(** Every iteration of a loop that ends was defined *)
Lemma for_each {S} lo hi (body : Z -> S -> option S) s s' i : for_ lo hi body s = Some s' -> lo <= i < hi -> exists x x', body i x = Some x'.
Proof.
  intros E Hi. unfold for_ in E.
  assert (B : forall k l s, for_nat k l body s = Some s' -> l <= i < l + Z.of_nat k -> exists x x', body i x = Some x').
  { induction k as [|k IH]; intros l x Ex Hl; [lia|]. cbn in Ex. destruct (body l x) as [y|] eqn:Ey; [|discriminate]. cbn in Ex.
    destruct (Z.eq_dec i l) as [->|N]; [eauto|]. apply (IH (l + 1) y Ex). lia. }
  apply (B _ _ _ E). lia.
Qed.

(** One row of the loops of the CPU *)
Section Row.
Context {A : cring} (plan : wplan A) (w_plane off_u off_v off_w : Z) (freq0_hz dfreq_hz : Q) (uvws : nd Q) (start_chs end_chs : nd Z).
Definition row {S} (act : Z -> Z -> Z -> Z -> Z -> Z -> Z -> S -> option S) (i_row : Z) (vis : S) : option S :=
      let* start_ch := rd start_chs [i_row] in
      let* end_ch := rd end_chs [i_row] in
      if start_ch >=? end_ch then Some vis else
      let* uvw_0 := rd uvws [i_row; 0] in
      let* uvw_1 := rd uvws [i_row; 1] in
      let* uvw_2 := rd uvws [i_row; 2] in
      let (start_ch, end_ch) := clamp_inline uvw_2 freq0_hz dfreq_hz start_ch end_ch (inject_Z (w_plane + off_w - 1) * w_step plan)%Q (inject_Z (w_plane + off_w) * w_step plan)%Q in
      if start_ch >=? end_ch then Some vis else
      let uvw0_0 := (uvw_0 * (freq0_hz / C_0) - inject_Z off_u / theta plan)%Q in
      let uvw0_1 := (uvw_1 * (freq0_hz / C_0) - inject_Z off_v / theta plan)%Q in
      let uvw0_2 := (uvw_2 * (freq0_hz / C_0) - inject_Z (off_w + w_plane - 1) * w_step plan)%Q in
      let duvw_0 := (uvw_0 * (dfreq_hz / C_0))%Q in
      let duvw_1 := (uvw_1 * (dfreq_hz / C_0))%Q in
      let duvw_2 := (uvw_2 * (dfreq_hz / C_0))%Q in
      if (Qfloor (theta plan * (uvw0_0 + inject_Z start_ch * duvw_0)) <? - cdiv (subgrid_size plan) 2) || (Qceiling (theta plan * (uvw0_0 + inject_Z (end_ch - 1) * duvw_0)) >=? cdiv (subgrid_size plan) 2) ||
         (Qfloor (theta plan * (uvw0_1 + inject_Z start_ch * duvw_1)) <? - cdiv (subgrid_size plan) 2) || (Qceiling (theta plan * (uvw0_1 + inject_Z (end_ch - 1) * duvw_1)) >=? cdiv (subgrid_size plan) 2) then Some vis else
      for_ start_ch end_ch (fun c vis =>
        let* ru := to_int (qround ((uvw0_0 + inject_Z c * duvw_0) * (theta plan * inject_Z (oversampling plan)))) in
        let* rv := to_int (qround ((uvw0_1 + inject_Z c * duvw_1) * (theta plan * inject_Z (oversampling plan)))) in
        let* iw0_ov := to_int (qround ((uvw0_2 + inject_Z c * duvw_2) * (1 / w_step plan * inject_Z (w_oversampling plan)))) in
        let iu0_ov := ru + (cdiv (subgrid_size plan) 2 - cdiv (support plan) 2 + 1) * oversampling plan in
        let iv0_ov := rv + (cdiv (subgrid_size plan) 2 - cdiv (support plan) 2 + 1) * oversampling plan in
        act i_row c (cdiv iu0_ov (oversampling plan)) (cdiv iv0_ov (oversampling plan))
          (cmod iu0_ov (oversampling plan) * support plan) (cmod iv0_ov (oversampling plan) * support plan)
          (cmod iw0_ov (w_oversampling plan) * w_support plan) vis) vis.
Lemma skel_row r0 r1 {S} act (st : S) : skel plan w_plane off_u off_v off_w freq0_hz dfreq_hz r0 r1 uvws start_chs end_chs act st = for_ r0 r1 (fun i st => row act i st) st.
Proof. reflexivity. Qed.
Lemma thread_row r0 r1 {Op} (act : Z -> Z -> Z -> Z -> Z -> Z -> Z -> list Op -> option (list Op)) x y z : -2147483648 <= subgrid_size plan * subgrid_size plan <= 2147483647 ->
  wtower_thread plan w_plane off_u off_v off_w freq0_hz dfreq_hz r0 r1 uvws start_chs end_chs act (x, y, z) =
  if (r1 <=? u32 x + r0) || (dim uvws 0 <=? u32 x + r0) then Some [] else row act (u32 x + r0) [].
Proof. intro H. unfold wtower_thread. rewrite (to_int_in (subgrid_size plan * subgrid_size plan)) by exact H. reflexivity. Qed.

(** A row that is defined on the CPU is defined in a thread, and a relation that the iterations keep holds in the end *)
Lemma row_sim {S T} (P : Z -> S -> T -> Prop) f g i s t s' :
  (forall c a b u v w x y x', P c x y -> f i c a b u v w x = Some x' -> exists y', g i c a b u v w y = Some y' /\ P (c + 1) x' y') ->
  (forall c, P c s t) -> row f i s = Some s' -> exists t', row g i t = Some t' /\ exists c, P c s' t'.
Proof.
  intros H H0 E. unfold row in *.
  destruct (rd start_chs [i]) as [s0|]; [|discriminate]. destruct (rd end_chs [i]) as [e0|]; [|discriminate]. cbn [bind] in *.
  destruct (s0 >=? e0); [injection E as <-; exists t; split; [reflexivity|exists 0; apply H0]|].
  destruct (rd uvws [i; 0]) as [u0|]; [|discriminate]. destruct (rd uvws [i; 1]) as [u1|]; [|discriminate].
  destruct (rd uvws [i; 2]) as [u2|]; [|discriminate]. cbn [bind] in *.
  destruct (clamp_inline _ _ _ _ _ _ _) as [s1 e1].
  destruct (s1 >=? e1) eqn:Es; [injection E as <-; exists t; split; [reflexivity|exists 0; apply H0]|]. cbv zeta in *.
  destruct (_ || _); [injection E as <-; exists t; split; [reflexivity|exists 0; apply H0]|].
  rewrite Z.geb_leb in Es. apply Z.leb_gt in Es. specialize (H0 s1). unfold for_ in *.
  assert (Ek : exists k, k = Z.to_nat (e1 - s1)) by eauto. destruct Ek as (k & Ek). rewrite <- Ek in *. clear Ek Es.
  revert s1 s t H0 E. induction k as [|k IH]; intros s1 s t H0 E; cbn [for_nat] in *.
  - injection E as <-. eauto.
  - destruct (to_int _) as [ru|]; [|discriminate]. cbn [bind] in *. destruct (to_int _) as [rv|]; [|discriminate]. cbn [bind] in *. destruct (to_int _) as [rw|]; [|discriminate]. cbn [bind] in *.
    match type of E with match ?a with _ => _ end = _ => destruct a as [x'|] eqn:Ex; [|discriminate] end. destruct (H _ _ _ _ _ _ _ _ _ H0 Ex) as (y' & Ey & P'). rewrite Ey. eapply IH; eassumption.
Qed.
(** Rows of the CPU, one by one *)
Lemma rows_split {S} f r0 r1 (st st' : S) : skel plan w_plane off_u off_v off_w freq0_hz dfreq_hz r0 r1 uvws start_chs end_chs f st = Some st' ->
  exists s : Z -> S, s r0 = st /\ (r0 <= r1 -> s r1 = st') /\ (r1 < r0 -> st' = st) /\ forall i, r0 <= i < r1 -> row f i (s i) = Some (s (i + 1)).
Proof.
  rewrite skel_row. intro E. destruct (Z_lt_le_dec r1 r0) as [L|L]; [rewrite for_empty in E by lia; injection E as <-; exists (fun _ => st); repeat split; intros; lia|].
  assert (Ek : exists k, r1 = r0 + Z.of_nat k) by (exists (Z.to_nat (r1 - r0)); lia). destruct Ek as (k & ->). clear L.
  revert st' E. induction k as [|k IH]; intros st' E.
  - rewrite for_empty in E by lia. injection E as <-. exists (fun _ => st). repeat split; intros; lia.
  - replace (r0 + Z.of_nat (Datatypes.S k)) with (r0 + Z.of_nat k + 1) in * by lia. rewrite for_snoc in E by lia. destruct (for_ r0 (r0 + Z.of_nat k) _ st) as [x|] eqn:Ex; [|discriminate]. cbn [bind] in E.
    destruct (IH x eq_refl) as (s & S0 & S1 & _ & Sr). exists (fun i => if i =? r0 + Z.of_nat k + 1 then st' else s i). split; [|split; [|split]].
    + replace (r0 =? r0 + Z.of_nat k + 1) with false by lia. exact S0.
    + intros _. now rewrite Z.eqb_refl.
    + lia.
    + intros i Hi. replace (i =? r0 + Z.of_nat k + 1) with false by lia. destruct (Z.eqb_spec (i + 1) (r0 + Z.of_nat k + 1)) as [Q|Q].
      * replace i with (r0 + Z.of_nat k) by lia. rewrite S1 by lia. exact E.
      * apply Sr. lia.
Qed.
End Row.

(** ** Degridding *)
Section Degrid.
Context {A : cring} (plan : wplan A) (sg flat : nd A).
Add Ring AringD : (rth A).
Context (Fl : laid_out plan sg flat) (Sq : 0 <= subgrid_size plan <= 46340).
Lemma pixel_ok a b d : in_shape (shape sg) [a; b; d] = true -> pixel plan a b d = Some ((a * subgrid_size plan + b) * subgrid_size plan + d) /\ rd flat [(a * subgrid_size plan + b) * subgrid_size plan + d] = Some (elem sg [a; b; d]).
Proof.
  destruct Fl as (S1 & S2 & V). rewrite S1. intro I. apply in_shape_3 in I. destruct I as (Ha & Hb & Hd). unfold pixel. rewrite to_int_in by nia. cbn [bind]. split; [f_equal; ring|].
  rewrite rd_some by (rewrite S2; apply in_shape_1; split; [|]; nia). f_equal. apply V; assumption.
Qed.
(** What the kernel accesses is what the loops of the CPU access *)
Definition touches iu0 iv0 u_off v_off w_off : Prop := forall a b d, 0 <= a < w_support plan -> 0 <= b < support plan -> 0 <= d < support plan ->
  in_shape (shape sg) [a; iu0 + b; iv0 + d] = true /\ in_shape (shape (w_kernel plan)) [w_off + a] = true /\ in_shape (shape (uv_kernel plan)) [u_off + b] = true /\ in_shape (shape (uv_kernel plan)) [v_off + d] = true.
Lemma degrid_touches i c iu0 iv0 u_off v_off w_off vis vis' : degrid_act plan sg i c iu0 iv0 u_off v_off w_off vis = Some vis' -> touches iu0 iv0 u_off v_off w_off.
Proof using.
  clear. unfold degrid_act. cbv zeta. intros E a b d Ha Hb Hd.
  match type of E with bind ?L _ = _ => destruct L as [lv|] eqn:EL; [|discriminate] end. destruct (for_each _ _ _ _ _ a EL Ha) as (x & x' & E1). clear E EL. cbn beta in E1.
  match type of E1 with bind ?L _ = _ => destruct L as [lw|] eqn:EL; [|discriminate] end. cbn [bind] in E1. destruct (rd (w_kernel plan) _) as [kw|] eqn:Kw; [|discriminate]. apply rd_inv in Kw. destruct Kw as [Kw _].
  destruct (for_each _ _ _ _ _ b EL Hb) as (y & y' & E2). clear E1 EL. cbn beta in E2. match type of E2 with bind ?L _ = _ => destruct L as [lz|] eqn:EL; [|discriminate] end. cbn [bind] in E2. destruct (rd (uv_kernel plan) [u_off + b]) as [ku|] eqn:Ku; [|discriminate]. apply rd_inv in Ku. destruct Ku as [Ku _].
  destruct (for_each _ _ _ _ _ d EL Hd) as (z & z' & E3). cbn beta in E3. destruct (rd (uv_kernel plan) [v_off + d]) as [kv|] eqn:Kv; [|discriminate]. apply rd_inv in Kv. destruct Kv as [Kv _]. cbn [bind] in E3.
  destruct (rd sg _) as [s|] eqn:Es; [|discriminate]. apply rd_inv in Es. tauto.
Qed.
(** Sums *)
Lemma for_sum lo hi (F : Z -> A) body x : lo <= hi -> (forall i y, lo <= i < hi -> body i y = Some (y + F i)%cr) -> for_ lo hi body x = Some (x + rsum lo hi F)%cr.
Proof using.
  clear Fl Sq. intros L B. destruct (for_inv (fun i y => y = (x + rsum lo i F)%cr) lo hi body x L) as (y & E & ->); [|intros i y Hi ->|exact E].
  - rewrite (sum_empty radd r0 lo lo) by lia. ring.
  - exists (x + rsum lo i F + F i)%cr. split; [now apply B|]. rewrite rsum_snoc by lia. ring.
Qed.
Lemma gpu_local n m i c iu0 iv0 u_off v_off w_off ops : 1 <= w_support plan -> 1 <= support plan -> touches iu0 iv0 u_off v_off w_off -> in_shape [n; m] [i; c] = true ->
  exists f, gpu_degrid_act plan flat n m i c iu0 iv0 u_off v_off w_off ops = Some (ops ++ [Update [i; c] f]) /\ forall x, f x = (x + interp_off plan iu0 iv0 u_off v_off w_off (fun a b d => elem sg [a; b; d]))%cr.
Proof using Fl Sq.
  intros W S T I. unfold gpu_degrid_act.
  rewrite (for_sum 0 (w_support plan) (fun a => elem (w_kernel plan) [(w_off + a)%Z] * rsum 0 (support plan) (fun b => elem (uv_kernel plan) [(u_off + b)%Z] * rsum 0 (support plan) (fun d => elem (uv_kernel plan) [(v_off + d)%Z] * elem sg [a; (iu0 + b)%Z; (iv0 + d)%Z])))%cr).
  { cbn [bind]. rewrite I. eexists. split; [reflexivity|]. intro x. unfold interp_off. ring. }
  { lia. }
  intros a x Ha. destruct (T a 0 0 Ha ltac:(lia) ltac:(lia)) as (_ & Kw & _). rewrite rd_some by exact Kw. cbn [bind]. rewrite !rsum_mul_l. apply for_sum; [lia|].
  intros b y Hb. destruct (T a b 0 Ha Hb ltac:(lia)) as (_ & _ & Ku & _). rewrite rd_some by exact Ku. cbn [bind]. rewrite !rsum_mul_l. apply for_sum; [lia|].
  intros d z Hd. destruct (T a b d Ha Hb Hd) as (Is & _ & _ & Kv). rewrite rd_some by exact Kv. cbn [bind]. destruct (pixel_ok _ _ _ Is) as (-> & R). cbn [bind]. rewrite R. cbn [bind]. f_equal. ring.
Qed.
(** One row: the operations of the thread give the row of the CPU *)
Definition degrid_rel (base : nd A) (i c : Z) (x : nd A) (ops : list (op (list Z) A)) : Prop :=
  shape x = shape base /\ (forall o, In o ops -> exists c', loc o = [i; c'] /\ c' < c) /\ NoDup (map loc ops) /\
  (forall o, In o ops -> elem x (loc o) = apply radd o (elem base (loc o))) /\ (forall idx, ~ In idx (map loc ops) -> elem x idx = elem base idx).
Lemma degrid_step base i c iu0 iv0 u_off v_off w_off x y x' n m : 1 <= w_support plan -> 1 <= support plan -> shape base = [n; m] -> degrid_rel base i c x y ->
  degrid_act plan sg i c iu0 iv0 u_off v_off w_off x = Some x' -> exists y', gpu_degrid_act plan flat n m i c iu0 iv0 u_off v_off w_off y = Some y' /\ degrid_rel base i (c + 1) x' y'.
Proof using Fl Sq.
  intros W S Sb (R1 & R2 & R3 & R4 & R5) E. pose proof (degrid_touches _ _ _ _ _ _ _ _ _ E) as T. apply degrid_act_partial in E. destruct E as (I & ->). rewrite R1, Sb in I.
  destruct (gpu_local n m i c iu0 iv0 u_off v_off w_off y W S T I) as (f & -> & F). eexists. split; [reflexivity|].
  assert (N : ~ In [i; c] (map loc y)). { intro K. apply in_map_iff in K. destruct K as (o & L & Io). destruct (R2 o Io) as (c' & L' & Lt). rewrite L in L'. injection L' as <-. lia. }
  split; [now rewrite shape_upd|]. split; [|split; [|split]].
  - intros o Io. apply in_app_or in Io. destruct Io as [Io|[<-|[]]]; [destruct (R2 o Io) as (c' & ? & ?); exists c'; split; [assumption|lia]|]. exists c. split; [reflexivity|lia].
  - rewrite map_app. cbn [map loc]. apply nodup_app; [exact R3|constructor; [intros []|constructor]|]. intros l Hl [<-|[]]. exact (N Hl).
  - intros o Io. apply in_app_or in Io. destruct Io as [Io|[<-|[]]].
    + rewrite elem_upd_other; [now apply R4|]. intro K. apply N. rewrite K. now apply in_map.
    + cbn [loc apply]. rewrite elem_upd_same, F. f_equal. now apply R5.
  - intros idx H. rewrite map_app in H. rewrite elem_upd_other; [apply R5; intro K; apply H; apply in_or_app; now left|]. intros <-. apply H. apply in_or_app. right. now left.
Qed.
End Degrid.
