(** The two directions of the direct gridder (proofs only). *)
From Coq Require Import Lia Lra.
From Verif Require Import Base BaseFacts Mem Checks ChecksFacts Sum CRing Cplx GridUtils GridUtilsSpec GridUtilsFacts Flmn FlmnSpec FlmnFacts Direct DirectSpec DirectFacts.
Open Scope Z_scope.

Lemma scratch_mtype ty loc sh : mtype (scratch ty loc sh) = ty. Proof. reflexivity. Qed.
Lemma pixel_flmn ty : pixel_type ty -> flmn_types ty MEM_DOUBLE MEM_DOUBLE = true.
Proof. intros [-> |[-> | ->]]; reflexivity. Qed.
Lemma pixel_count ty : pixel_type ty -> is_complex_type ty || (ty =? MEM_DOUBLE) || (ty =? MEM_FLOAT) = true.
Proof. intros [-> |[-> | ->]]; reflexivity. Qed.
Lemma offsets_pos theta w su sv sw : (0 < theta)%R -> offsets theta w su sv sw = (IZR su / theta, IZR sv / theta, IZR sw * w)%R.
Proof. intro H. unfold offsets. destruct (Rlt_dec 0 theta); [reflexivity|contradiction]. Qed.

Section Degrid.
Context (p : plan) (image uvws start end_ vis : option mem) (image_d : nd C) (uvw_d : nd R) (start_d end_d : nd Z) (vis_d : nd C) (su sv sw : Z) (freq0 dfreq : R) (ty n nc : Z).
Let S := p_subgrid_size p.
Let img := as_type ty image_d.
Let num := total img S S.
Context (Ht : (0 < p_theta p)%R) (HS : 0 <= S) (Sp : shape (p_pswf p) = [S]) (Im : in_cpu image ty image_d) (Si : shape image_d = [S; S]) (Ty : pixel_type ty).
Context (Iu : in_cpu uvws MEM_DOUBLE uvw_d) (Su : shape uvw_d = [n; 3]) (Iv : in_cpu vis MEM_COMPLEX_DOUBLE vis_d) (Sv : shape vis_d = [n; nc]) (Hn : 0 <= n) (Hc : 0 <= nc).
Context (Wv : can_write vis) (Rg : ranges_ok start end_ start_d end_d n).

Lemma count_ok : count_pixels image image_d SUCCESS = Some (SUCCESS, num).
Proof using Im Si Ty.
  unfold count_pixels. cbn [failed]. cbv zeta. rewrite (in_type _ _ _ Im), (pixel_count ty Ty). rewrite (view_const_pass _ _ image_d 2 Im) by (rewrite Si; reflexivity). cbn [failed].
  fold img. rewrite (count_lemma img S) by exact Si. reflexivity.
Qed.
Lemma num_nonneg : 0 <= num.
Proof using. unfold num, total. apply zs_nonneg. intros. apply rowsum_nonneg. Qed.
Lemma degrid_zero : num = 0 -> direct_degrid p image uvws start end_ vis image_d uvw_d start_d end_d vis_d su sv sw freq0 dfreq SUCCESS = Some (ERR_INVALID_ARGUMENT, vis_d).
Proof using Im Si Ty Iu Iv.
  intro Z0. unfold direct_degrid. cbn [failed]. rewrite count_ok, Z0. cbn [bind]. unfold make_flmn. cbn [failed]. cbv zeta.
  rewrite (in_type _ _ _ Im), (in_type _ _ _ Iu). change (mtype (scratch MEM_DOUBLE (location vis) [0; 3])) with MEM_DOUBLE.
  replace (match scratch MEM_DOUBLE (location vis) [0] with Some _ => mtype (scratch MEM_DOUBLE (location vis) [0]) | None => MEM_DOUBLE end) with MEM_DOUBLE by reflexivity.
  rewrite (pixel_flmn ty Ty). rewrite (scratch_view_none MEM_DOUBLE (location vis) [0; 3] 2) by (try reflexivity; exact (in_loc _ _ _ Iv)).
  rewrite view_const_stop by reflexivity. cbn [failed bind]. reflexivity.
Qed.
Definition sum_ok (r : nd C) : Prop := shape r = [n; nc] /\ forall i c, 0 <= i < n -> 0 <= c < nc -> elem r [i; c] = Cadd (elem vis_d [i; c])
  (if row_used start end_ start_d end_d i then over_pixels S (fun x y => Cmul (RtoC (re (elem img [x; y]) * taper_at p x y)) (cis (-2 * PI * pixel_turns p S uvw_d su sv sw freq0 dfreq i c x y)%R)) else C0).
Lemma degrid_result : num <> 0 -> exists r, direct_degrid p image uvws start end_ vis image_d uvw_d start_d end_d vis_d su sv sw freq0 dfreq SUCCESS = Some (SUCCESS, r) /\ sum_ok r.
Proof using Ht HS Sp Im Si Ty Iu Su Iv Sv Hn Hc Wv Rg.
  intro NZ. pose proof num_nonneg as NN. unfold direct_degrid. cbn [failed]. rewrite count_ok. cbn [bind]. unfold make_flmn. cbn [failed]. cbv zeta.
  rewrite (in_type _ _ _ Im), (in_type _ _ _ Iu), (in_loc _ _ _ Iv). change (mtype (scratch MEM_DOUBLE MEM_CPU [num; 3])) with MEM_DOUBLE.
  replace (match scratch MEM_DOUBLE MEM_CPU [num] with Some _ => mtype (scratch MEM_DOUBLE MEM_CPU [num]) | None => MEM_DOUBLE end) with MEM_DOUBLE by reflexivity.
  rewrite (pixel_flmn ty Ty). rewrite (scratch_view MEM_DOUBLE MEM_CPU [num; 3] 2) by (try reflexivity; cbn [fold_right]; lia).
  rewrite (scratch_view_const MEM_DOUBLE MEM_CPU [p_subgrid_size p] 1) by reflexivity. cbn [failed].
  unfold scratch at 1. cbv zeta. rewrite (view_const_pass _ _ image_d 2 Im) by (rewrite Si; reflexivity). fold (scratch MEM_DOUBLE MEM_CPU [num]).
  rewrite (scratch_view MEM_DOUBLE MEM_CPU [num] 1) by (try reflexivity; cbn [fold_right]; lia). cbn [failed]. fold img.
  destruct (flmn_lemma img (p_theta p) (p_shear_u p) (p_shear_v p) (Some (p_pswf p)) (mk_nd [num] (fun _ => 0%R)) (mk_nd [num; 3] (fun _ => 0%R)) S S) as (fl & ln & E & S1 & S2 & V); try assumption; try reflexivity.
  { intros t Q. injection Q as <-. rewrite Z.max_id. exact Sp. }
  rewrite E. cbn [bind fst snd]. cbn [shape] in S1, S2. unfold dft_call. cbn [failed]. rewrite (in_loc _ _ _ Iv). cbv zeta.
  change (mtype (scratch MEM_DOUBLE MEM_CPU [num; 3])) with MEM_DOUBLE. rewrite (in_type _ _ _ Iu), (in_type _ _ _ Iv). rewrite (ranges_pass _ _ _ _ _ Rg).
  rewrite (view_const_pass _ _ uvw_d 2 Iu) by (rewrite Su; reflexivity). rewrite (scratch_view_const MEM_DOUBLE MEM_CPU [num] 1) by reflexivity. rewrite (scratch_view_const MEM_DOUBLE MEM_CPU [num; 3] 2) by reflexivity.
  rewrite (view_pass _ _ vis_d 2 Iv Wv) by (rewrite Sv; reflexivity). cbn [failed]. change (negb (MEM_CPU =? MEM_CPU)) with false. change ((MEM_DOUBLE =? MEM_DOUBLE) && (MEM_DOUBLE =? MEM_DOUBLE) && (MEM_DOUBLE =? MEM_DOUBLE) && (MEM_COMPLEX_DOUBLE =? MEM_COMPLEX_DOUBLE)) with true. cbn [orb].
  destruct (dft_lemma uvw_d (ranges start end_ (start_d, end_d)) (to_real fl) ln su sv sw (p_theta p) (p_w_step p) freq0 dfreq vis_d n nc num) as (r & Er & Sr & Vr); try assumption; [now apply ranges_shape|].
  rewrite Er. cbn [bind]. exists r. split; [reflexivity|]. split; [exact Sr|]. intros i c Hi Hj. rewrite Vr by assumption. rewrite ranges_row. destruct (row_used start end_ start_d end_d i); [|reflexivity].
  f_equal. unfold predicted, num. rewrite total_rank. rewrite (rank_sum img S S _ S) by lia. unfold over_pixels.
  apply (sum_ext Cadd C0). intros x Hx. apply (sum_ext Cadd C0). intros y Hy. destruct (nonzero (elem img [x; y])) eqn:N.
  - destruct (V x y ltac:(lia) ltac:(lia) N) as (F & L0 & L1 & L2). unfold to_real. cbn [elem]. rewrite F. f_equal. f_equal. f_equal. unfold source_turns, pixel_turns. cbv zeta.
    rewrite L0, L1, L2, offsets_pos by exact Ht. reflexivity.
  - rewrite (nonzero_false _ N). cbn [re C0 fst]. generalize (cis (-2 * PI * pixel_turns p S uvw_d su sv sw freq0 dfreq i c x y)%R). intro z. change (re C0) with 0%R. rewrite Rmult_0_l. csolve.
Qed.
End Degrid.

Section Grid.
Context (p : plan) (image uvws start end_ vis : option mem) (image_d : nd C) (uvw_d : nd R) (start_d end_d : nd Z) (vis_d : nd C) (su sv sw : Z) (freq0 dfreq : R) (n nc : Z).
Let S := p_subgrid_size p.
Context (Ht : (0 < p_theta p)%R) (HS : 1 <= S) (Sp : shape (p_pswf p) = [S]) (Im : in_cpu image MEM_COMPLEX_DOUBLE image_d) (Si : shape image_d = [S; S]) (Wi : can_write image).
Context (Iu : in_cpu uvws MEM_DOUBLE uvw_d) (Su : shape uvw_d = [n; 3]) (Iv : in_cpu vis MEM_COMPLEX_DOUBLE vis_d) (Sv : shape vis_d = [n; nc]) (Hn : 0 <= n) (Hc : 0 <= nc).
Context (Rg : ranges_ok start end_ start_d end_d n).
Definition image_ok (r : nd C) : Prop := shape r = [S; S] /\ forall x y, 0 <= x < S -> 0 <= y < S -> elem r [x; y] = Cadd (elem image_d [x; y])
  (Cmul (over_vis (row_used start end_ start_d end_d) n nc (fun i c => Cmul (elem vis_d [i; c]) (cis (2 * PI * pixel_turns p S uvw_d su sv sw freq0 dfreq i c x y)%R))) (RtoC (taper_at p x y))).
Lemma grid_result : exists r, direct_grid p vis uvws start end_ image vis_d uvw_d start_d end_d image_d su sv sw freq0 dfreq SUCCESS = Some (SUCCESS, r) /\ image_ok r.
Proof using Ht HS Sp Im Si Wi Iu Su Iv Sv Hn Hc Rg.
  unfold direct_grid. cbn [failed]. cbv zeta. replace (match image with Some m => m_num_elements m | None => 0 end) with (S * S).
  2:{ destruct image as [m|]; [|destruct Im]. destruct Im as (_ & _ & _ & _ & E & _). rewrite E, Si. cbn [fold_right]. ring. }
  unfold make_flmn. cbn [failed]. cbv zeta. rewrite (in_type _ _ _ Im), (in_type _ _ _ Iu), (in_loc _ _ _ Iv). change (mtype (scratch MEM_DOUBLE MEM_CPU [S * S; 3])) with MEM_DOUBLE.
  change (flmn_types MEM_COMPLEX_DOUBLE MEM_DOUBLE MEM_DOUBLE) with true. cbv iota. rewrite (scratch_view MEM_DOUBLE MEM_CPU [S * S; 3] 2) by (try reflexivity; cbn [fold_right]; nia).
  rewrite (scratch_view_const MEM_DOUBLE MEM_CPU [p_subgrid_size p] 1) by reflexivity. cbn [failed].
  destruct (lmn_list S (p_theta p) (p_shear_u p) (p_shear_v p) image_d (mk_nd [S * S; 3] (fun _ => 0%R)) Si ltac:(lia) eq_refl) as (ln & E & Sl & V).
  rewrite E. cbn [bind fst snd]. unfold idft_call. cbn [failed]. cbv zeta. change (mtype (scratch MEM_DOUBLE MEM_CPU [S * S; 3])) with MEM_DOUBLE.
  rewrite (in_type _ _ _ Iu), (in_type _ _ _ Iv), (in_type _ _ _ Im). rewrite (ranges_pass _ _ _ _ _ Rg).
  rewrite (view_const_pass _ _ uvw_d 2 Iu) by (rewrite Su; reflexivity). rewrite (view_const_pass _ _ vis_d 2 Iv) by (rewrite Sv; reflexivity). rewrite (scratch_view_const MEM_DOUBLE MEM_CPU [S * S; 3] 2) by reflexivity.
  rewrite (view_pass _ _ image_d 2 Im Wi) by (rewrite Si; reflexivity). rewrite (scratch_view_const MEM_DOUBLE MEM_CPU [p_subgrid_size p] 1) by reflexivity. cbn [failed].
  change ((MEM_DOUBLE =? MEM_DOUBLE) && (MEM_COMPLEX_DOUBLE =? MEM_COMPLEX_DOUBLE) && (MEM_DOUBLE =? MEM_DOUBLE) && (MEM_COMPLEX_DOUBLE =? MEM_COMPLEX_DOUBLE)) with true. cbn [orb].
  destruct (idft_lemma uvw_d vis_d (ranges start end_ (start_d, end_d)) ln (Some (p_pswf p)) su sv sw (p_theta p) (p_w_step p) freq0 dfreq image_d n nc S) as (r & Er & Sr & Vr); try assumption; [now apply ranges_shape|lia|].
  rewrite Er. cbn [bind]. exists r. split; [reflexivity|]. split; [exact Sr|]. intros x y Hx Hy. rewrite Vr by assumption. f_equal. cbn [taper_value]. f_equal. unfold imaged, over_vis.
  apply (sum_ext Cadd C0). intros i Hi. rewrite ranges_row. destruct (row_used start end_ start_d end_d i); [|reflexivity]. apply (sum_ext Cadd C0). intros c Hj. f_equal. f_equal. f_equal.
  unfold source_turns, pixel_turns. cbv zeta. destruct (V x y Hx Hy) as (L0 & L1 & L2). rewrite L0, L1, L2, offsets_pos by exact Ht. reflexivity.
Qed.
End Grid.
