From Coq Require Import Reals String Lia.
From Verif Require Import Base BaseFacts Mem Checks ChecksFacts CRing Cplx Sum Loops GridUtils GridUtilsSpec GridUtilsFacts Subgrid SubgridSpec SubgridFacts Gpu GpuFacts GpuLaunch GpuLaunchFacts GpuView GpuViewFacts PhaseRotateGpu PhaseRotateGpuFacts GridUtilsGpu GridUtilsGpuSpec.
Open Scope Z_scope.

Lemma described_shape {A} m ty (x : nd A) d : described m ty x -> 0 <= d < Z.of_nat (length (shape x)) -> shape_dim m d = nth (Z.to_nat d) (shape x) 0.
Proof.
  destruct m as [m|]; [|intros []]. intros (T & L & S & N) H. unfold shape_dim. rewrite N, S. rewrite Z.geb_leb. destruct (Z.ltb_spec d 0), (Z.leb_spec (Z.of_nat (length (shape x))) d); try lia. reflexivity.
Qed.
Lemma described_type {A} m ty (x : nd A) : described m ty x -> mtype m = ty.
Proof. destruct m as [m|]; [|intros []]. intros (T & _). exact T. Qed.
Lemma described_loc {A} m ty (x : nd A) : described m ty x -> location m = MEM_GPU.
Proof. destruct m as [m|]; [|intros []]. intros (_ & L & _). exact L. Qed.
Lemma described_dims {A} m ty (x : nd A) : described m ty x -> num_dims m = Z.of_nat (length (shape x)).
Proof. destruct m as [m|]; [|intros []]. intros (_ & _ & _ & N). exact N. Qed.
Lemma view_ok {A} m ty (x : nd A) k : described m ty x -> length (shape x) = k -> writeable m -> snd (check_and_view m ty k MEM_GPU SUCCESS) = SUCCESS.
Proof.
  intros D L W. unfold check_and_view, check_type, check_num_dims, check_location, check_writeable. rewrite (described_type _ _ _ D), (described_loc _ _ _ D), (described_dims _ _ _ D), L, !Z.eqb_refl. cbn [failed negb snd].
  destruct m as [m|]; [|destruct D]. destruct W as (W & W2). unfold is_read_only, has_data. rewrite W. destruct (m_data m); [reflexivity|congruence].
Qed.
Lemma view_const_ok {A} m ty (x : nd A) k : described m ty x -> length (shape x) = k -> snd (check_and_view_const m ty k MEM_GPU SUCCESS) = SUCCESS.
Proof.
  intros D L. unfold check_and_view_const, check_type, check_num_dims, check_location. rewrite (described_type _ _ _ D), (described_loc _ _ _ D), (described_dims _ _ _ D), L, !Z.eqb_refl. reflexivity.
Qed.

Lemma fits16_grid n m : side n -> side m -> (fits_grid n m 1 16 1 = true <-> fits16 n m).
Proof. unfold side, fits_grid, fits16. intros. lia. Qed.

(** One pixel per thread in 16 x 16 blocks *)
Section Pixels.
Context {A : Type} (plus : A -> A -> A) (n : string) (nx ny : Z) (body : Z * Z * Z -> option (list (op (list Z) A))) (x : nd A).
Context (pos : Z -> Z -> list Z) (val : Z -> Z -> A -> A).
Context (Hx : side nx) (Hy : side ny) (Rg : registered n = true).
Context (Th : forall a b, 0 <= a < 2147483663 -> 0 <= b < 2147483663 ->
  exists k, body (a, b, 0) = Some k /\ if (a <? nx) && (b <? ny) then exists o, k = [o] /\ loc o = pos a b /\ forall v, apply plus o v = val a b v else k = []).
Context (Inj : forall a b a' b', 0 <= a < nx -> 0 <= b < ny -> 0 <= a' < nx -> 0 <= b' < ny -> pos a b = pos a' b' -> a = a' /\ b = b').
Lemma pixels_th a b c : 0 <= a < nx + 16 - 1 -> 0 <= b < ny + 16 - 1 -> 0 <= c < 1 + 1 - 1 ->
  exists k, body (a, b, c) = Some k /\ if in_range nx ny 1 a b c then exists o, k = [o] /\ loc o = pos a b /\ forall v, apply plus o v = val a b v else k = [].
Proof using Hx Hy Th.
  clear Inj Rg. intros Ha Hb Hc. unfold side in *. assert (c = 0) as -> by lia. unfold in_range. replace (0 <? 1) with true by reflexivity. rewrite andb_true_r. apply Th; lia.
Qed.
Lemma pixels_result st' x' : launch_view plus (Some n) (blocks_of nx 16, blocks_of ny 16, 1) (16, 16, 1) body SUCCESS x st' x' ->
  (fits16 nx ny -> st' = SUCCESS /\ shape x' = shape x /\
    (forall a b, 0 <= a < nx -> 0 <= b < ny -> elem x' (pos a b) = val a b (elem x (pos a b))) /\
    (forall idx, (forall a b, 0 <= a < nx -> 0 <= b < ny -> idx <> pos a b) -> elem x' idx = elem x idx)) /\
  (~ fits16 nx ny -> st' = ERR_RUNTIME /\ x' = x).
Proof.
  intro H. change (blocks_of nx 16, blocks_of ny 16, 1) with (blocks_of nx 16, blocks_of ny 16, blocks_of 1 1) in H.
  pose proof (fits16_grid nx ny Hx Hy) as F. unfold side in *.
  eapply (each_result plus n nx ny 1 16 16 1 body x (fun a b _ => pos a b) (fun a b _ => val a b)) in H; try lia; auto.
  - destruct (fits_grid nx ny 1 16 1); split; intro Q; try (exfalso; tauto).
    + destruct H as (E & S & V & O); auto. split; [exact E|]. split; [exact S|]. split.
      * intros a b Ha Hb. apply (V a b 0 Ha Hb). lia.
      * intros idx N. apply O. intros a b _ Ha Hb _. auto.
    + exfalso. destruct F as [_ F]. specialize (F Q). discriminate.
    + exact H.
  - exact pixels_th.
  - intros a b c a' b' c' Ha Hb Hc Ha' Hb' Hc' E. destruct (Inj a b a' b' Ha Hb Ha' Hb' E). lia.
Qed.
Lemma pixels_exists : exists st' x', launch_view plus (Some n) (blocks_of nx 16, blocks_of ny 16, 1) (16, 16, 1) body SUCCESS x st' x'.
Proof using Hx Hy Rg Th.
  clear Inj. change (blocks_of nx 16, blocks_of ny 16, 1) with (blocks_of nx 16, blocks_of ny 16, blocks_of 1 1). pose proof Hx. pose proof Hy. unfold side in *.
  eapply (each_exists plus n nx ny 1 16 16 1 body x (fun a b _ => pos a b) (fun a b _ => val a b)); try lia; auto. exact pixels_th.
Qed.
End Pixels.
Lemma launch_view_failed {A} plus n b t body st (x : nd A) st' x' : st <> SUCCESS -> launch_view plus n b t body st x st' x' -> st' = st /\ x' = x.
Proof. intro N. unfold launch_view. destruct st; [congruence|..]; auto. Qed.
Lemma u32_id x : 0 <= x < 4294967296 -> u32 x = x.
Proof. intro H. unfold u32. now apply Z.mod_small. Qed.
Lemma pos2_inj (a b a' b' : Z) : [a; b] = [a'; b'] -> a = a' /\ b = b'.
Proof. intro E. injection E. auto. Qed.

(** ** Threads *)
Lemma ltb_out n m i j : ((n <=? i) || (m <=? j)) = negb ((i <? n) && (j <? m)).
Proof. rewrite !Z.leb_antisym. now rewrite negb_andb. Qed.
Lemma rd2 {A} (x : nd A) n m i j : shape x = [n; m] -> 0 <= i < n -> 0 <= j < m -> rd x [i; j] = Some (elem x [i; j]).
Proof. intros E Hi Hj. apply rd_some. rewrite E. now apply in_shape_2. Qed.
Lemma in2 n m i j : 0 <= i < n -> 0 <= j < m -> in_shape [n; m] [i; j] = true.
Proof. intros. now apply in_shape_2. Qed.
Lemma number_value ty v : value ty v = number ty v.
Proof. reflexivity. Qed.

Lemma Cmul_1_r z : Cmul z C1 = z.
Proof. csolve. Qed.
Lemma accum_scale_th t1 n m in1 in2 in2_d e a b : shape in1 = [n; m] -> (in2 <> None -> shape in2_d = [n; m]) ->
  0 <= a < 2147483663 -> 0 <= b < 2147483663 ->
  exists k, accum_scale_thread t1 n m in1 in2_d (match in2 with Some _ => e | None => 0 end) (a, b, 0) = Some k /\
    if (a <? n) && (b <? m) then exists o, k = [o] /\ loc o = [a; b] /\ forall v, apply Cadd o v = Cadd v (Cmul (number t1 (elem in1 [a; b])) (factor in2 in2_d e a b)) else k = [].
Proof.
  intros S1 S2 Ha Hb. unfold accum_scale_thread. rewrite !u32_id by lia. rewrite ltb_out. destruct (Z.ltb_spec a n), (Z.ltb_spec b m); cbn [andb negb]; try (eexists; split; reflexivity).
  rewrite (rd2 in1 n m) by (auto; lia). cbn [bind]. rewrite number_value. unfold factor. destruct in2 as [m2|].
  - destruct (Z.eqb_spec e 0) as [-> |N0].
    + eexists. split; [reflexivity|]. eexists. split; [reflexivity|]. split; [reflexivity|]. intro v. cbn [apply]. rewrite Cpowz_0, Cmul_1_r. reflexivity.
    + rewrite (rd2 in2_d n m) by (try (apply S2; discriminate); lia). cbn [bind]. destruct (Z.eqb_spec e 1) as [-> |N1]; eexists; (split; [reflexivity|]); eexists; (split; [reflexivity|]); (split; [reflexivity|]); intro v; cbn [apply]; [now rewrite Cpowz_1|reflexivity].
  - eexists. split; [reflexivity|]. eexists. split; [reflexivity|]. split; [reflexivity|]. intro v. cbn [apply]. rewrite Cmul_1_r. reflexivity.
Qed.
Lemma accum_real_th n m in1 a b : shape in1 = [n; m] -> 0 <= a < 2147483663 -> 0 <= b < 2147483663 ->
  exists k, accum_real_thread n m in1 (a, b, 0) = Some k /\
    if (a <? n) && (b <? m) then exists o, k = [o] /\ loc o = [a; b] /\ forall v, apply Cadd o v = Cadd v (RtoC (re (elem in1 [a; b]))) else k = [].
Proof.
  intros S1 Ha Hb. unfold accum_real_thread. rewrite !u32_id by lia. rewrite ltb_out. destruct (Z.ltb_spec a n), (Z.ltb_spec b m); cbn [andb negb]; try (eexists; split; reflexivity).
  rewrite (rd2 in1 n m) by (auto; lia). cbn [bind]. eexists. split; [reflexivity|]. eexists. split; [reflexivity|]. split; [reflexivity|]. reflexivity.
Qed.
Lemma scale_inv_th t1 n m in1 in2 e a b : shape in1 = [n; m] -> shape in2 = [n; m] -> 0 <= a < 2147483663 -> 0 <= b < 2147483663 ->
  exists k, scale_inv_thread t1 n m in1 in2 e (a, b, 0) = Some k /\
    if (a <? n) && (b <? m) then exists o, k = [o] /\ loc o = [a; b] /\ forall v, apply Cadd o v = Cdiv (number t1 (elem in1 [a; b])) (Cpowz (elem in2 [a; b]) e) else k = [].
Proof.
  intros S1 S2 Ha Hb. unfold scale_inv_thread. rewrite !u32_id by lia. rewrite ltb_out. destruct (Z.ltb_spec a n), (Z.ltb_spec b m); cbn [andb negb]; try (eexists; split; reflexivity).
  rewrite (rd2 in1 n m), (rd2 in2 n m) by (auto; lia). cbn [bind]. rewrite number_value. destruct (Z.eqb_spec e 1) as [-> |N1]; eexists; (split; [reflexivity|]); eexists; (split; [reflexivity|]); (split; [reflexivity|]); intro v; cbn [apply]; [now rewrite Cpowz_1|reflexivity].
Qed.
Section Sub.
Context {A : cring}.
Lemma sub_add_th (sub : nd A) gu gv su sv ou ov (f : A) a b : shape sub = [su; sv] -> 0 < gu -> 0 < gv -> 0 <= su -> 0 <= sv -> 0 <= a < 2147483663 -> 0 <= b < 2147483663 ->
  exists k, subgrid_add_thread gu gv sub ou ov f (a, b, 0) = Some k /\
    if (a <? su) && (b <? sv) then exists o, k = [o] /\ loc o = [pixel gu su (- ou) a; pixel gv sv (- ov) b] /\ forall v, apply radd o v = (v + elem sub [a; b] * f)%cr else k = [].
Proof.
  intros S1 Gu Gv Su Sv Ha Hb. unfold subgrid_add_thread, dim. rewrite S1. cbn [nth]. rewrite !u32_id by lia. rewrite ltb_out. destruct (Z.ltb_spec a su), (Z.ltb_spec b sv); cbn [andb negb]; try (eexists; split; reflexivity).
  rewrite !wrap_lemma by lia. cbn [bind]. rewrite (rd2 sub su sv) by (auto; lia). cbn [bind]. rewrite !cdiv2 by lia.
  rewrite in2 by (apply Z.mod_pos_bound; lia). eexists. split; [reflexivity|]. eexists. split; [reflexivity|]. split; [reflexivity|]. reflexivity.
Qed.
Lemma cut_out_th (grid : nd A) gu gv su sv ou ov a b : shape grid = [gu; gv] -> 0 < gu -> 0 < gv -> 0 <= su -> 0 <= sv -> 0 <= a < 2147483663 -> 0 <= b < 2147483663 ->
  exists k, cut_out_thread grid su sv ou ov (a, b, 0) = Some k /\
    if (a <? su) && (b <? sv) then exists o, k = [o] /\ loc o = [a; b] /\ forall v, apply radd o v = elem grid [pixel gu su ou a; pixel gv sv ov b] else k = [].
Proof.
  intros S1 Gu Gv Su Sv Ha Hb. unfold cut_out_thread, dim. rewrite S1. cbn [nth]. rewrite !u32_id by lia. rewrite ltb_out. destruct (Z.ltb_spec a su), (Z.ltb_spec b sv); cbn [andb negb]; try (eexists; split; reflexivity).
  rewrite !wrap_lemma by lia. cbn [bind]. rewrite (rd2 grid gu gv) by (auto; apply Z.mod_pos_bound; lia). cbn [bind]. rewrite !cdiv2 by lia.
  eexists. split; [reflexivity|]. eexists. split; [reflexivity|]. split; [reflexivity|]. intro v. reflexivity.
Qed.
(** Shifting *)
Lemma shift_column_val s : forall k (c : Z -> A) k', shift_column s k c k' = if (k <=? k') && (k' <? k + Z.of_nat s) then c (k' + 1) else c k'.
Proof.
  induction s as [|s IH]; intros k c k'; cbn [shift_column].
  - replace ((k <=? k') && (k' <? k + Z.of_nat 0)) with false by lia. reflexivity.
  - rewrite IH. destruct (Z.leb_spec (k + 1) k'), (Z.ltb_spec k' (k + 1 + Z.of_nat s)); cbn [andb].
    + replace ((k <=? k') && (k' <? k + Z.of_nat (S s))) with true by lia. replace (k' + 1 =? k) with false by lia. reflexivity.
    + replace ((k <=? k') && (k' <? k + Z.of_nat (S s))) with false by lia. replace (k' =? k) with false by lia. reflexivity.
    + destruct (Z.eqb_spec k' k) as [-> |N].
      * replace ((k <=? k) && (k <? k + Z.of_nat (S s))) with true by lia. reflexivity.
      * replace ((k <=? k') && (k' <? k + Z.of_nat (S s))) with false by lia. reflexivity.
    + lia.
Qed.
Lemma shift_th n m a b c : 0 <= a -> 0 <= b ->
  exists k, shift_thread (A := A) n m m (a, b, c) = Some k /\
    if (a <? m) && (b <? m) && (1 <? n) then exists o, k = [o] /\ loc o = [b; a] /\ forall v, apply (fun x _ => x) o v = shift_column (Z.to_nat (n - 1)) 0 v else k = [].
Proof.
  intros Ha Hb. unfold shift_thread. rewrite ltb_out. destruct (Z.ltb_spec a m), (Z.ltb_spec b m); cbn [andb negb]; try (eexists; split; reflexivity).
  destruct (Z.leb_spec n 1), (Z.ltb_spec 1 n); try lia; [eexists; split; reflexivity|]. rewrite in2 by lia. eexists. split; [reflexivity|]. eexists. split; [reflexivity|]. split; reflexivity.
Qed.
End Sub.

Lemma idft_th uvw vis chs lmn taper su sv sw theta w_step f0 df n nc sz a b :
  shape uvw = [n; 3] -> shape lmn = [sz * sz; 3] -> shape vis = [n; nc] -> chs_shape chs n -> taper_shape taper sz -> 0 <= n -> 0 <= nc -> 0 <= sz ->
  0 <= a < 2147483663 -> 0 <= b < 2147483663 ->
  exists k, idft_thread uvw vis chs lmn taper su sv sw theta w_step f0 df [sz; sz] (a, b, 0) = Some k /\
    if (a <? sz) && (b <? sz) then exists o, k = [o] /\ loc o = [a; b] /\ forall v, apply Cadd o v =
      Cadd v (Cmul (imaged uvw lmn f0 df (offsets theta w_step su sv sw) vis chs n nc (a * sz + b)) (RtoC (taper_value taper a b))) else k = [].
Proof.
  intros S1 S2 S4 SC ST Hn Hc Hs Ha Hb. unfold idft_thread, dim. rewrite S1, S4. cbn [nth]. rewrite !u32_id by lia. rewrite ltb_out.
  destruct (Z.ltb_spec a sz), (Z.ltb_spec b sz); cbn [andb negb]; try (eexists; split; reflexivity).
  set (off := offsets theta w_step su sv sw). assert (0 <= a * sz + b < sz * sz) by nia.
  rewrite (for_ext 0 n _ (fun i acc => Some (Cadd acc (if row_on chs i then
      Csum 0 nc (fun c => Cmul (elem vis [i; c]) (cis (2 * PI * source_turns uvw lmn f0 df off i c (a * sz + b))%R)) else C0)))).
  2:{ intros i acc Hi1. rewrite (skipped_lemma chs i n SC Hi1). cbn [bind]. destruct (row_on chs i); cbn [negb].
      - rewrite (for_ext 0 nc _ (fun c acc => Some (Cadd acc (Cmul (elem vis [i; c]) (cis (2 * PI * source_turns uvw lmn f0 df off i c (a * sz + b))%R))))).
        + apply for_csum.
        + intros c acc' Hc'. rewrite (turns_lemma uvw lmn f0 df off i c _ n (sz * sz)) by auto. cbn [bind]. rewrite (rd2 vis n nc) by (auto; lia). reflexivity.
      - now rewrite Cadd_0_r. }
  rewrite for_csum. cbn [bind]. rewrite Cadd_0_l.
  assert (TV : (match taper with None => Some 1%R | Some t => let* x := rd t [a] in let* y := rd t [b] in Some (x * y)%R end) = Some (taper_value taper a b)).
  { destruct taper as [t|]; [|reflexivity]. cbn in ST. rewrite !rd_some by (rewrite ST; apply in_shape_1; lia). reflexivity. }
  rewrite TV. cbn [bind]. rewrite in2 by lia. eexists. split; [reflexivity|]. eexists. split; [reflexivity|]. split; [reflexivity|]. reflexivity.
Qed.
(** Two threads that update the same location without an atomic operation: the first update can be lost. *)
Lemma lost_update {L A} (eqb : L -> L -> bool) (eqb_spec : forall a b, reflect (a = b) (eqb a b)) (plus : A -> A -> A) {T} (ths : list T) body l (f g : A -> A) (p q : list (list (op L A))) (m : L -> A) :
  Forall2 (fun t o => body t = Some o) ths ([Update l f] :: p ++ [Update l g] :: q) -> (forall k, In k p -> k = []) -> (forall k, In k q -> k = []) ->
  exists m', runs eqb plus ths body m m' /\ m' l = g (m l).
Proof.
  intros F P Q. set (P' := map (fun o => (o, @None A)) p). set (Q' := map (fun o => (o, @None A)) q).
  exists (put eqb (put eqb m l (f (m l))) l (g (m l))). split.
  - exists ([Update l f] :: p ++ [Update l g] :: q). split; [exact F|]. exists 4%nat, (put eqb (put eqb m l (f (m l))) l (g (m l)), ([], None) :: P' ++ ([], None) :: Q').
    split; [|split; [|reflexivity]].
    + unfold initial. cbn [map]. rewrite map_app. cbn [map]. fold P' Q'.
      eapply steps_S. { apply (step_thread eqb plus m [] ([Update l f], None) (P' ++ ([Update l g], None) :: Q')). reflexivity. } cbn [app].
      eapply steps_S. { apply (step_thread eqb plus m (([Update l f], Some (m l)) :: P') ([Update l g], None) Q'). reflexivity. } cbn [app].
      eapply steps_S. { apply (step_thread eqb plus m [] ([Update l f], Some (m l)) (P' ++ ([Update l g], Some (m l)) :: Q')). reflexivity. } cbn [app].
      eapply steps_S. { apply (step_thread eqb plus (put eqb m l (f (m l))) (([], None) :: P') ([Update l g], Some (m l)) Q'). reflexivity. } cbn [app].
      constructor.
    + intros t I. cbn [snd] in I. destruct I as [<-|I]; [reflexivity|]. apply in_app_or in I. destruct I as [I|[<-|I]]; [|reflexivity|];
        apply in_map_iff in I; destruct I as (k & <- & I); cbn [fst]; auto.
  - apply put_same. exact eqb_spec.
Qed.
