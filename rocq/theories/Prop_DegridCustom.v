(** C55 and C75: degridding with user-supplied kernels.  Exact arithmetic; values in any commutative ring. *)
From Coq Require Import QArith Qabs Lia Lqa.
From Verif Require Import Base BaseFacts Sum Mem MemSpec Checks CRing QNum Clamp Sets DftFacts2 DegridCustom DegridCustomSpec DegridCustomFacts.
Open Scope Z_scope.

Lemma vis_md_shape (m : mem) nt nb nc np st md st' : mem_wf m -> m_shape m = [nt; nb; nc; np] -> get_vis_metadata (Some m) st = (md, st') -> st' = SUCCESS ->
  st = SUCCESS /\ md = Some (m_type m, m_loc m, nt, nb, nc, np).
Proof.
  intros W S E ->. destruct (failed st) eqn:F.
  { unfold get_vis_metadata in E. rewrite F in E. injection E as _ ->. discriminate. }
  apply failed_false in F. subst st. split; [reflexivity|]. destruct (vis_md_ok m md W E) as (a & b & c & d & S' & _ & ->). rewrite S in S'. now injection S' as -> -> -> ->.
Qed.

(** Every access is in range, errors change nothing, and every visibility whose kernel support is inside the grid becomes the kernel-weighted
    sum of the grid around its position, conjugated on request; the others keep their value. *)
Theorem C75_values {A : cring} (conj : A -> A) grid uvw uv_kernel w_kernel vis grid_d uvw_d uvk_d wk_d vis_d ks wks nt nb nc np os osw theta wstep f0 df conjugate st :
  let zs := shape_dim (Some grid) 1 in let ys := shape_dim (Some grid) 2 in let xs := shape_dim (Some grid) 3 in
  fits grid uvw uv_kernel w_kernel vis grid_d uvw_d uvk_d wk_d vis_d ks wks nt nb nc np os osw ->
  geometry ks wks xs ys zs nt nb nc np os osw wstep -> positions_ok qround xs nt nb nc os osw uvw_d theta wstep f0 df ->
  exists st' r, degrid_api conj (Some grid) (Some uvw) (Some uv_kernel) (Some w_kernel) (Some vis) grid_d uvw_d uvk_d wk_d theta wstep f0 df conjugate vis_d st = Some (st', r) /\
    (st' <> SUCCESS -> r = vis_d) /\
    (st' = SUCCESS -> forall t b c p, 0 <= t < nt -> 0 <= b < nb -> 0 <= c < nc -> 0 <= p < np ->
      vis_at nb nc np r t b c p = if inside qround ks xs ys nb os uvw_d theta f0 df t b c
        then degridded qround conj ks wks xs ys zs nb np os osw grid_d uvw_d uvk_d wk_d theta wstep f0 df conjugate t b c p
        else vis_at nb nc np vis_d t b c p).
Proof.
  intros zs ys xs [(W1 & W2 & W3 & W4 & W5) Sv Sk Sw Dg Du Dk Dw Dv] G P. unfold degrid_api. destruct (failed st) eqn:F.
  { eexists _, _. split; [reflexivity|]. split; [auto|]. intros ->. discriminate. }
  destruct (get_vis_metadata (Some vis) st) as [md s1] eqn:M.
  destruct (match md with Some d => d | None => _ end) as [[[[[ty loc] a] b] c] d] eqn:D. cbv zeta. fold zs ys xs.
  match goal with |- context [if failed ?s then _ else _] => destruct (failed s) eqn:F1 end.
  { eexists _, _. split; [reflexivity|]. split; [auto|]. intro X. rewrite X in F1. discriminate. }
  apply failed_false in F1. rewrite F1. apply shape_ok in F1; [|exact W1|discriminate]. destruct F1 as [F1 Sg]. apply uvw_ok in F1; [|exact W2]. destruct F1 as [F1 Su].
  apply writeable_ok in F1. destruct F1 as [F1 _]. destruct (vis_md_shape vis nt nb nc np st md s1 W5 Sv M F1) as [_ ->]. injection D as <- <- <- <- <- <-.
  destruct (_ || _ || _). { eexists _, _. split; [reflexivity|]. split; [auto|]. discriminate. }
  destruct (_ || _ || _ || _ || _). { eexists _, _. split; [reflexivity|]. split; [auto|]. discriminate. }
  assert (K : shape_dim (Some uv_kernel) 0 = os /\ shape_dim (Some uv_kernel) 1 = ks) by (unfold shape_dim; destruct W3 as (_ & -> & _); rewrite Sk; cbn; auto).
  assert (K' : shape_dim (Some w_kernel) 0 = osw /\ shape_dim (Some w_kernel) 1 = wks) by (unfold shape_dim; destruct W4 as (_ & -> & _); rewrite Sw; cbn; auto).
  destruct K as [-> ->]. destruct K' as [-> ->].
  destruct (degrid_ok qround conj ks wks xs ys zs nt nb nc np os osw grid_d uvw_d uvk_d wk_d theta wstep f0 df conjugate G) with (vis := vis_d) as (r & -> & _ & Q); auto.
  - rewrite Du, Su. unfold product. cbn [fold_right]. f_equal. ring.
  - rewrite Dg, Sg. unfold product. cbn [fold_right]. f_equal. ring.
  - cbn [bind]. eexists _, _. split; [reflexivity|]. split; [congruence|]. auto.
Qed.
Print Assumptions C75_values.

(** The part of C55 that holds *)
Theorem C55_in_bounds_partial {A : cring} (conj : A -> A) grid uvw uv_kernel w_kernel vis grid_d uvw_d uvk_d wk_d vis_d ks wks nt nb nc np os osw theta wstep f0 df conjugate st :
  let zs := shape_dim (Some grid) 1 in let ys := shape_dim (Some grid) 2 in let xs := shape_dim (Some grid) 3 in
  fits grid uvw uv_kernel w_kernel vis grid_d uvw_d uvk_d wk_d vis_d ks wks nt nb nc np os osw ->
  geometry ks wks xs ys zs nt nb nc np os osw wstep -> positions_ok qround xs nt nb nc os osw uvw_d theta wstep f0 df ->
  degrid_api conj (Some grid) (Some uvw) (Some uv_kernel) (Some w_kernel) (Some vis) grid_d uvw_d uvk_d wk_d theta wstep f0 df conjugate vis_d st <> None.
Proof.
  intros zs ys xs Fi G P. destruct (C75_values conj grid uvw uv_kernel w_kernel vis grid_d uvw_d uvk_d wk_d vis_d ks wks nt nb nc np os osw theta wstep f0 df conjugate st Fi G P) as (s & r & E & _).
  rewrite E. discriminate.
Qed.
Print Assumptions C55_in_bounds_partial.

(** Grid point and kernel row of a coordinate: the grid point minus row / oversampling is the centre of the grid plus the coordinate in
    pixels, to half a step of the oversampled kernel, and the row is a row of the kernel. *)
Theorem C75_position size os (pixels : Q) : 1 <= os -> let k := qround (pixels * inject_Z os) in
  0 <= fraction os k < os /\
  (Qabs (inject_Z (point size os k) - inject_Z (fraction os k) / inject_Z os - (inject_Z (size / 2) + pixels)) <= 1 / (2 * inject_Z os))%Q.
Proof.
  intros Ho k. split; [now apply fraction_range|]. pose proof (point_fraction size os k Ho) as E. pose proof (qround_near (pixels * inject_Z os)) as N. fold k in N.
  assert (0 < inject_Z os)%Q as Po by (rewrite <- (Zlt_Qlt 0); lia). set (o := inject_Z os) in *.
  assert (E' : (inject_Z (point size os k) * o - inject_Z (fraction os k) == inject_Z (size / 2) * o + inject_Z k)%Q).
  { unfold o. rewrite <- !inject_Z_mult, <- inject_Z_plus. unfold Qminus. rewrite <- inject_Z_opp, <- inject_Z_plus. apply inject_Z_injective. exact E. }
  assert (X : (inject_Z (point size os k) - inject_Z (fraction os k) / o - (inject_Z (size / 2) + pixels) == (inject_Z k - pixels * o) / o)%Q).
  { setoid_replace (inject_Z (point size os k) - inject_Z (fraction os k) / o - (inject_Z (size / 2) + pixels))%Q
      with ((inject_Z (point size os k) * o - inject_Z (fraction os k) - (inject_Z (size / 2) + pixels) * o) / o)%Q by (field; lra). rewrite E'. field. lra. }
  rewrite X. unfold Qdiv. rewrite Qabs_Qmult. rewrite (Qabs_pos (/ o)) by (apply Qlt_le_weak; now apply Qinv_lt_0_compat).
  setoid_replace (1 * / (2 * o))%Q with ((1 # 2) * / o)%Q by (field; lra).
  apply Qmult_le_compat_r; [|apply Qlt_le_weak; now apply Qinv_lt_0_compat]. apply Qabs_Qle_condition. lra.
Qed.
Print Assumptions C75_position.

Definition arr (ty : Z) (sh : list Z) : mem := fst (create_wrapper (Some (1, 0)) ty MEM_CPU sh None SUCCESS).
Definition dat {A} (d : A) (l : list A) : nd A := mk_nd [Z.of_nat (length l)] (fun i => nth (Z.to_nat (nth 0 i 0)) l d).
Definition fl {A} (sh : list Z) (f : Z -> A) : nd A := mk_nd [fold_right Z.mul 1 sh] (fun i => f (nth 0 i 0)).
(** One time, baseline, channel and polarisation; theta = 1 / 16, wstep = 1, channel at the speed of light in Hz (coordinates in metres are
    wavelengths).  Grid values are their positions. *)
Definition run (u v w : Q) (zs ys xs os ks osw wks : Z) : option (error * nd Z) :=
  degrid_api (A := Zring) (fun x => x) (Some (arr MEM_COMPLEX_DOUBLE [1; zs; ys; xs; 1])) (Some (arr MEM_DOUBLE [1; 1; 3]))
    (Some (arr MEM_DOUBLE [os; ks])) (Some (arr MEM_DOUBLE [osw; wks])) (Some (arr MEM_COMPLEX_DOUBLE [1; 1; 1; 1]))
    (fl [1; zs; ys; xs; 1] (fun i => i)) (dat 0%Q [u; v; w]) (fl [os; ks] (fun i => i + 1)) (fl [osw; wks] (fun _ => 1))
    (1 # 16) 1 299792458 0 false (fl [1] (fun _ => 7)) SUCCESS.

(** w below -2 steps of the w kernel: a row after the last of the w kernel *)
Theorem C55_negative_w_refuted : run 0 0 (-3) 4 8 8 4 2 4 2 = None /\ run 0 0 (-1) 4 8 8 4 2 4 2 <> None /\ run 0 0 3 4 8 8 4 2 4 2 <> None.
Proof. split; [vm_compute; reflexivity|]. split; vm_compute; discriminate. Qed.
Print Assumptions C55_negative_w_refuted.

(** A w kernel that is deeper than the grid; kernels without rows *)
Theorem C55_geometry_refuted : run 0 0 0 2 8 8 4 2 4 3 = None /\ run 0 0 0 2 8 8 0 2 4 2 = None /\ run 0 0 0 2 8 8 4 2 0 2 = None /\ run 0 0 0 2 8 8 4 2 4 2 <> None.
Proof. repeat (split; [vm_compute; reflexivity|]). vm_compute. discriminate. Qed.
Print Assumptions C55_geometry_refuted.

(** On a grid with y_size different from x_size the v axis is not centred: with a kernel that is 1 at its centre and 0 elsewhere the visibility
    at v = 0 is the value of row x_size / 2, not of row y_size / 2. *)
Theorem C75_nonsquare_refuted : exists r, degrid_api (A := Zring) (fun x => x) (Some (arr MEM_COMPLEX_DOUBLE [1; 1; 16; 8; 1])) (Some (arr MEM_DOUBLE [1; 1; 3]))
    (Some (arr MEM_DOUBLE [1; 3])) (Some (arr MEM_DOUBLE [1; 1])) (Some (arr MEM_COMPLEX_DOUBLE [1; 1; 1; 1]))
    (fl [1; 1; 16; 8; 1] (fun i => i)) (dat 0%Q [0; 0; 0]%Q) (dat 0 [0; 1; 0]) (dat 0 [1]) (1 # 16) 1 299792458 0 false (fl [1] (fun _ => 7)) SUCCESS = Some (SUCCESS, r) /\
  elem r [0] = (8 / 2) * 8 + 8 / 2 /\ elem r [0] <> (16 / 2) * 8 + 8 / 2.
Proof. eexists. split; [vm_compute; reflexivity|]. vm_compute. split; [reflexivity|discriminate]. Qed.
Print Assumptions C75_nonsquare_refuted.

Example C75_hyps : let grid := arr MEM_COMPLEX_DOUBLE [1; 2; 8; 8; 1] in let uvw := dat 0%Q [5; -3; (1 # 2); 40; 0; -1]%Q in
  fits grid (arr MEM_DOUBLE [1; 2; 3]) (arr MEM_DOUBLE [4; 2]) (arr MEM_DOUBLE [4; 2]) (arr MEM_COMPLEX_DOUBLE [1; 2; 1; 1])
    (fl [1; 2; 8; 8; 1] (fun i => i)) uvw (fl [4; 2] (fun i => i)) (fl [4; 2] (fun i => i)) (fl [2] (fun _ => 7)) 2 2 1 2 1 1 4 4 /\
  geometry 2 2 (shape_dim (Some grid) 3) (shape_dim (Some grid) 2) (shape_dim (Some grid) 1) 1 2 1 1 4 4 1 /\
  positions_ok qround (shape_dim (Some grid) 3) 1 2 1 4 4 uvw (1 # 16) 1 299792458 0 /\
  inside qround 2 8 8 2 4 uvw (1 # 16) 299792458 0 0 0 0 = true /\ inside qround 2 8 8 2 4 uvw (1 # 16) 299792458 0 0 1 0 = false.
Proof.
  cbv zeta. split; [|split; [|split; [|split; reflexivity]]].
  - constructor; try reflexivity. unfold mem_wf; repeat split; try reflexivity; repeat constructor.
  - constructor; try (vm_compute; repeat split; discriminate).
  - intros t b c Ht Hb Hc. assert (t = 0) as -> by lia. assert (c = 0) as -> by lia. unfold in_int.
    assert (b = 0 \/ b = 1) as [-> | ->] by lia; (split; [intros k [-> | ->]; vm_compute; repeat split; discriminate|vm_compute; repeat split; discriminate]).
Qed.
