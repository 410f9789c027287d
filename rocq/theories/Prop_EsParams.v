(** C56, C76, C77: parameters of the exponential-of-semicircle gridder *)
From Coq Require Import QArith Qround Lia Lqa.
From Verif Require Import Base BaseFacts GoodSize GoodSizeSpec GoodSizeFacts EsParams EsParamsSpec EsParamsFacts.
Open Scope Z_scope.

(** The FFT size: the least number that is not below [n] and has no prime factor above 11, for every n up to 97612893. *)
Theorem C77_least n : 1 <= n -> 22 * n <= 2147483647 -> exists r, good_size_complex n = Some r /\ least_smooth n r.
Proof. exact (good_size_least n). Qed.
Print Assumptions C77_least.

(** Sizes are kept, and are at most twice the request. *)
Theorem C77_bounds n r : 1 <= n -> 22 * n <= 2147483647 -> good_size_complex n = Some r -> n <= r < 2 * n /\ (smooth n -> r = n).
Proof.
  intros H B E. destruct (good_size_least n H B) as (r' & E' & L). rewrite E in E'. injection E' as <-. pose proof (least_bound n r H L). destruct L as (Sr & N & M).
  split; [lia|]. intro Sn. specialize (M n Sn ltac:(lia)). lia.
Qed.
Print Assumptions C77_bounds.

(** From 2^30 on the first statement overflows. *)
Theorem C77_overflow_refuted n : 1073741824 <= n -> good_size_complex n = None.
Proof. intro H. unfold good_size_complex. replace (n <=? 12) with false by lia. unfold Clamp.to_int. replace (_ && _) with false by lia. reflexivity. Qed.
Print Assumptions C77_overflow_refuted.

Example C77_examples : good_size_complex 13 = Some 14 /\ good_size_complex 1023 = Some 1024 /\ good_size_complex 5041 = Some 5082 /\ smooth 5082.
Proof. repeat (split; [vm_compute; reflexivity|]). exists 1%nat, 1%nat, 0%nat, 1%nat, 2%nat. reflexivity. Qed.

(** Images of at most 39999 pixels: the parameters come from one row of the table, which meets the request or is the last row, and the grid is
    the smallest among those of all rows that meet the request and of the last row. *)
Theorem C56_entry_partial epsilon image_size double : 0 <= image_size <= 39999 ->
  exists r g, candidate epsilon double r /\ In r KernelDB /\ grid_size_for image_size r g /\
    calculate_params epsilon image_size double SUCCESS = Some (SUCCESS, Some (g, k_support r, k_beta r)) /\
    forall r' g', candidate epsilon double r' -> grid_size_for image_size r' g' -> g <= g'.
Proof.
  intro H. destruct (params_ok epsilon double image_size ltac:(lia)) as [[_ None]|(r & g & C & G & _ & E & M)].
  - exfalso. assert (In last_row KernelDB) as I by (apply (row_in 243); exact row_last).
    destruct (grid_for_ok image_size ltac:(lia) last_row I) as (g & _ & G). pose proof (None last_row g (or_intror eq_refl) G) as L.
    destruct G as (h & (_ & _ & Lh) & ->).
    replace (Qfloor (inject_Z image_size * k_os last_row * (1 # 2))) with image_size in Lh.
    2:{ symmetry. rewrite <- (Qfloor_Z image_size) at 2. apply Qfloor_comp. cbn [k_os last_row]. field. }
    assert (S : smooth 40000) by (exists 6%nat, 0%nat, 4%nat, 0%nat, 0%nat; reflexivity). specialize (Lh 40000 S ltac:(lia)). lia.
  - exists r, g. split; [exact C|]. split; [|split; [exact G|split; [exact E|exact M]]]. destruct C as [(I & _)| ->]; [exact I|]. apply (row_in 243). exact row_last.
Qed.
Print Assumptions C56_entry_partial.

(** For all image sizes: an access outside the table happens exactly when no usable row gives a grid of at most 80000 pixels. *)
Theorem C56_out_of_table epsilon image_size double : 0 <= image_size <= 78000000 ->
  (calculate_params epsilon image_size double SUCCESS = None <-> forall r g, candidate epsilon double r -> grid_size_for image_size r g -> 80000 < g).
Proof.
  intro H. destruct (params_ok epsilon double image_size H) as [[E None]|(r & g & C & G & L & E & M)]; rewrite E; [tauto|]. split; [discriminate|].
  intro X. specialize (X r g C G). lia.
Qed.
Print Assumptions C56_out_of_table.

(** It does happen: for every accuracy with images of 66667 pixels or more, and from 40000 pixels on when only the last row is left. *)
Theorem C56_large_refuted : (forall epsilon image_size double, 66667 <= image_size <= 78000000 -> calculate_params epsilon image_size double SUCCESS = None) /\
  (forall epsilon double, (epsilon < 50563492 # 10000000000000000000000)%Q -> calculate_params epsilon 40000 double SUCCESS = None).
Proof.
  split.
  - intros epsilon img double H. apply C56_out_of_table; [lia|]. intros r g C (h & (_ & Lh & _) & ->).
    assert (12 # 10 <= k_os r)%Q as O. { destruct C as [(I & _ & _ & Co)| ->]; [now apply (fine r I)|]. cbn [k_os last_row]. unfold Qle. cbn. lia. }
    assert (40000 <= Qfloor (inject_Z img * k_os r * (1 # 2))); [|lia]. change 40000 with (Qfloor 40000). apply Qfloor_resp_le.
    assert (66667 <= inject_Z img)%Q by (change 66667%Q with (inject_Z 66667); rewrite <- Zle_Qle; lia). nra.
  - intros epsilon double He. apply C56_out_of_table; [lia|]. intros r g C (h & (_ & Lh & _) & ->).
    assert (r = last_row) as ->.
    { destruct C as [(I & _ & Ce & _)|]; [|assumption]. exfalso. assert (T : forallb (fun r => Qle_bool (50563492 # 10000000000000000000000) (k_epsilon r)) KernelDB = true) by (vm_compute; reflexivity).
      rewrite forallb_forall in T. specialize (T r I). apply Qle_bool_iff in T. lra. }
    change (Qfloor (inject_Z 40000 * k_os last_row * (1 # 2))) with 40000 in Lh. lia.
Qed.
Print Assumptions C56_large_refuted.

(** Accuracy: when the request is not below the accuracy of the last row, the chosen kernel meets it. *)
Theorem C76_accuracy epsilon image_size double g s b : 0 <= image_size <= 78000000 -> (50563492 # 10000000000000000000000 <= epsilon)%Q ->
  calculate_params epsilon image_size double SUCCESS = Some (SUCCESS, Some (g, s, b)) ->
  exists r, In r KernelDB /\ s = k_support r /\ b = k_beta r /\ (k_epsilon r <= epsilon)%Q /\ (k_corr r <= 10)%Q /\
    (exists h, g = 2 * h /\ smooth h) /\ (inject_Z image_size * k_os r < inject_Z g)%Q /\ (12 # 10 <= k_os r)%Q.
Proof.
  intros H He E. destruct (params_ok epsilon double image_size H) as [[E' _]|(r & g' & C & G & L & E' & M)]; rewrite E in E'; [discriminate|]. injection E' as -> -> ->.
  exists r. assert (I : In r KernelDB) by (destruct C as [(I & _)| ->]; [exact I|apply (row_in 243); exact row_last]).
  assert (X : (k_epsilon r <= epsilon)%Q /\ (k_corr r <= 10)%Q). { destruct C as [(_ & _ & A & B)| ->]; [auto|]. split; [exact He|]. cbn [k_corr last_row]. unfold Qle. cbn. lia. }
  destruct X as [X1 X2]. destruct (fine r I) as (_ & _ & _ & F). destruct G as (h & (Sh & Lh & _) & ->).
  split; [exact I|]. split; [reflexivity|]. split; [reflexivity|]. split; [exact X1|]. split; [exact X2|]. split; [exists h; auto|]. split; [|now apply F].
  pose proof (Qlt_floor (inject_Z image_size * k_os r * (1 # 2))) as Q. assert (inject_Z (Qfloor (inject_Z image_size * k_os r * (1 # 2)) + 1) <= inject_Z h)%Q by (rewrite <- Zle_Qle; exact Lh).
  rewrite inject_Z_mult. change (inject_Z 2) with 2%Q. lra.
Qed.
Print Assumptions C76_accuracy.

(** No error below the accuracy of the last row: the last row is used without notice. *)
Theorem C76_accuracy_refuted : exists g, calculate_params (1 # 10 ^ 20) 1024 true SUCCESS = Some (SUCCESS, Some (g, 16, k_beta last_row)) /\ (1 # 10 ^ 20 < k_epsilon last_row)%Q.
Proof. eexists. split; [vm_compute; reflexivity|]. vm_compute. reflexivity. Qed.
Print Assumptions C76_accuracy_refuted.

(** The support limit of 8 for single precision: kept by the rows that meet the request, broken by the last row, which is also preferred to
    usable rows with more oversampling. *)
Theorem C76_support_refuted : (exists g b, calculate_params (1 # 100000000) 1024 false SUCCESS = Some (SUCCESS, Some (g, 16, b))) /\
  (exists g b, calculate_params (2 # 100000000) 1024 false SUCCESS = Some (SUCCESS, Some (g, 16, b))) /\
  (exists r, acceptable (2 # 100000000) false r) /\ (exists g b, calculate_params (1 # 100000) 1024 false SUCCESS = Some (SUCCESS, Some (g, 8, b))).
Proof.
  split; [eexists _, _; vm_compute; reflexivity|]. split; [eexists _, _; vm_compute; reflexivity|]. split; [|eexists _, _; vm_compute; reflexivity].
  exists (mk_row 8 (250 # 100) (16752523 # 1000000000000000) (23321309669 # 10000000000) (185985 # 100000)). split.
  - apply (nth_error_In KernelDB 138). vm_compute. reflexivity.
  - cbn. unfold Qle. cbn. lia.
Qed.
Print Assumptions C76_support_refuted.

Example C76_hyps : calculate_params (1 # 100000) 1024 true SUCCESS = Some (SUCCESS, Some (1540, 8, 19213040541 # 10000000000)).
Proof. vm_compute. reflexivity. Qed.
