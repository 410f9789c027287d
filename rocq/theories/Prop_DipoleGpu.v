(** C105: dipole element patterns on the GPU. *)
From Coq Require Import Reals String Lia Lra.
From Verif Require Import Base BaseFacts CRing Cplx Clamp Gpu GpuFacts GpuFacts2 GpuLaunch GpuLaunchFacts Mem Sets SphericalWave Station StationSpec StationFacts Prop_Station DipoleGpu DipoleGpuSpec StationGpuSpec.
Open Scope Z_scope.

Lemma up_facts n : 0 <= n <= 2147483392 -> n <= rounded_up n < n + 256 /\ rounded_up n <= 2147483392 + 255 /\ blocks_of n 256 * 256 = rounded_up n.
Proof.
  intro H. rewrite (blocks_of_ok n 256) by lia. unfold rounded_up. replace (n + 256 - 1) with (n + 255) by ring. pose proof (cover n 256 ltac:(lia) ltac:(lia)) as Cv. replace (n + 256 - 1) with (n + 255) in Cv by ring. lia.
Qed.
Lemma points_grid n : 0 <= n <= 2147483392 -> grid_ok (to_dim3 (blocks_of n 256, 1, 1)) (to_dim3 (256, 1, 1)) = (1 <=? n).
Proof.
  intro H. rewrite (blocks_of_ok n 256) by lia. pose proof (cover n 256 ltac:(lia) ltac:(lia)) as Cv. unfold to_dim3, grid_ok. rewrite (Z.mod_small ((n + 256 - 1) / 256)) by lia. rewrite <- (some_blocks n 256) by lia.
  set (q := (n + 256 - 1) / 256) in *. clearbody q. change (1 mod 4294967296) with 1. change (256 mod 4294967296) with 256. replace (q <=? 2147483647) with true by lia.
  rewrite !andb_true_r. reflexivity.
Qed.
Lemma points_threads n a b c : 0 <= n <= 2147483392 -> In (a, b, c) (threads3 (to_dim3 (blocks_of n 256, 1, 1)) (to_dim3 (256, 1, 1))) <-> 0 <= a < rounded_up n /\ b = 0 /\ c = 0.
Proof.
  intro H. destruct (up_facts n H) as (U1 & U2 & U3). unfold to_dim3. change (1 mod 4294967296) with 1. change (256 mod 4294967296) with 256.
  rewrite Z.mod_small by (clear - H U1 U2 U3; lia). rewrite threads3_in, U3. lia.
Qed.
Lemma dipole_name beam : is_complex (Some beam) = true -> m_type beam = MEM_COMPLEX_FLOAT \/ m_type beam = MEM_COMPLEX_DOUBLE -> exists name, dipole_kernel (m_type beam) (is_complex4 (Some beam)) = Some name /\ registered name = true.
Proof. intros _ [ -> | -> ]; unfold dipole_kernel; destruct (is_complex4 (Some beam)); (eexists; split; [reflexivity|vm_compute; reflexivity]). Qed.

Section Calls.
Context (num_points : Z) (theta phi beam : mem) (theta_d phi_d : nd R) (freq len : R) (stride offset : Z) (beam_d : nd C) (n : Z).
Let kL := (PI * len * freq / 299792458)%R.
Let call := gpu_element_dipole num_points (Some theta) (Some phi) (Some beam) theta_d phi_d freq len stride offset beam_d.
Lemma kL_eq : (len * (PI * freq / 299792458))%R = kL.
Proof. unfold kL. field. Qed.
Let pol := is_complex4 (Some beam).
Let body := (if pol then dipole_thread theta_d phi_d kL (cos kL) stride offset (offset + 1) (dim beam_d 0) else dipole_scalar_thread theta_d phi_d kL (cos kL) stride offset (dim beam_d 0)).
Lemma call_launch : ready theta phi beam -> exists name, registered name = true /\ forall st' r, call SUCCESS st' r <-> launch_kernel Cadd (Some name) (blocks_of num_points 256, 1, 1) (256, 1, 1) body SUCCESS beam_d st' r.
Proof.
  intros (L1 & L2 & Cx & Ty). destruct (dipole_name beam Cx Ty) as (name & En & Rg). exists name. split; [exact Rg|]. intros st' r. unfold call, gpu_element_dipole. cbn [failed location mtype]. rewrite L1, L2, Cx. change (MEM_GPU =? MEM_GPU) with true. cbn [negb orb].
  rewrite kL_eq, En. unfold body, pol. tauto.
Qed.
End Calls.

(** Polarised output.  The kernel evaluates as many points as there are threads: the number of points rounded up to a multiple of 256.  With arrays for all of them,
    in every schedule, these are the values of C80 and nothing else changes.  Partial: arrays that only hold the points asked for (C105_outside_refuted). *)
Theorem C105_pattern_partial num_points theta phi beam theta_d phi_d freq len stride offset beam_d n : ready theta phi beam -> is_complex4 (Some beam) = true -> 1 <= num_points <= 2147483392 ->
  at_least theta_d (rounded_up num_points) -> at_least phi_d (rounded_up num_points) -> shape beam_d = [n] -> n <= 2147483647 -> 0 <= offset -> 2 <= stride -> rounded_up num_points * stride + offset <= n ->
  let kL := (PI * len * freq / 299792458)%R in
  let call := gpu_element_dipole num_points (Some theta) (Some phi) (Some beam) theta_d phi_d freq len stride offset beam_d SUCCESS in
  (exists st' r, call st' r) /\ forall st' r, call st' r -> st' = SUCCESS /\ shape r = [n] /\
    (forall i, 0 <= i < rounded_up num_points -> elem r [i * stride + offset] = fst (value_at kL (elem theta_d [i]) (elem phi_d [i])) /\
       elem r [i * stride + offset + 1] = snd (value_at kL (elem theta_d [i]) (elem phi_d [i]))) /\
    (forall l, (forall i, 0 <= i < rounded_up num_points -> l <> i * stride + offset /\ l <> i * stride + offset + 1) -> elem r [l] = elem beam_d [l]).
Proof.
  intros Rd Pl Hn At Ap Sb Nb Ho Hs Hl kL call. destruct (call_launch num_points theta phi beam theta_d phi_d freq len stride offset beam_d Rd) as (name & Rg & Eq). fold kL in Eq. rewrite Pl in Eq.
  destruct (up_facts num_points ltac:(lia)) as (U1 & U2 & _). assert (Dm : dim beam_d 0 = n) by (unfold dim; now rewrite Sb). rewrite Dm in Eq.
  pose (body := dipole_thread theta_d phi_d kL (cos kL) stride offset (offset + 1) n). fold body in Eq.
  pose (dom := fun (t : Z * Z * Z) l => let '(a, _, _) := t in l = a * stride + offset \/ l = a * stride + offset + 1).
  pose (val := fun (t : Z * Z * Z) l (_ : C) => let '(a, _, _) := t in if l =? a * stride + offset then fst (value_at kL (elem theta_d [a]) (elem phi_d [a])) else snd (value_at kL (elem theta_d [a]) (elem phi_d [a]))).
  assert (Th : forall t, In t (threads3 (to_dim3 (blocks_of num_points 256, 1, 1)) (to_dim3 (256, 1, 1))) -> thread_sets Cadd body dom val t).
  { intros [[a b] c] I. apply points_threads in I; [|lia]. destruct I as (Ha & -> & ->).
    assert (Bn : 0 <= a * stride /\ a * stride + stride <= rounded_up num_points * stride) by nia.
    unfold thread_sets, body, dipole_thread. rewrite to_int_in by lia. cbn [bind]. rewrite (rd_least phi_d (rounded_up num_points)), (rd_least theta_d (rounded_up num_points)) by assumption. cbn [bind].
    unfold dom, val, value_at. destruct (dipole _ _ _ _ _) as [et ep]. rewrite (to_int_in (a * stride)) by lia. cbn [bind]. rewrite (to_int_in (a * stride + offset)) by lia. cbn [bind]. rewrite (to_int_in (a * stride + (offset + 1))) by lia. cbn [bind].
    rewrite (proj2 (in_shape_1 _ _)) by lia. rewrite (proj2 (in_shape_1 _ _)) by lia. cbn [andb]. eexists. split; [reflexivity|]. cbn [map loc fst snd]. split; [|split].
    - constructor; [intros [K|[]]; lia|]. constructor; [intros []|constructor].
    - intro l. split; [intros [<-|[<-|[]]]; [now left|right; ring]|intros [-> | ->]; [now left|right; left; ring]].
    - intros o x [<-|[<-|[]]]; cbn [apply loc]; [now rewrite Z.eqb_refl|]. replace (a * stride + (offset + 1) =? a * stride + offset) with false by lia. reflexivity. }
  assert (Dj : forall t t' l, In t (threads3 (to_dim3 (blocks_of num_points 256, 1, 1)) (to_dim3 (256, 1, 1))) -> In t' (threads3 (to_dim3 (blocks_of num_points 256, 1, 1)) (to_dim3 (256, 1, 1))) -> dom t l -> dom t' l -> t = t').
  { intros [[a b] c] [[a' b'] c'] l I I' D D'. apply points_threads in I; [|lia]. apply points_threads in I'; [|lia]. destruct I as (Ha & -> & ->). destruct I' as (Ha' & -> & ->). cbn in D, D'.
    assert (a = a') as ->; [|reflexivity]. clear - D D' Hs. destruct (Z_lt_le_dec a a'); [nia|]. destruct (Z_lt_le_dec a' a); [nia|lia]. }
  split.
  - destruct (launch_exists Cadd name (blocks_of num_points 256, 1, 1) (256, 1, 1) body beam_d dom val Rg (fun _ => Th)) as (st' & r & L). exists st', r. now apply Eq.
  - intros st' r L. apply Eq in L. pose proof (launch_result Cadd name (blocks_of num_points 256, 1, 1) (256, 1, 1) body beam_d dom val Rg (fun _ => Th) Dj st' r L) as Q.
    rewrite points_grid in Q by lia. replace (1 <=? num_points) with true in Q by lia. destruct Q as (-> & S & V & N). split; [reflexivity|]. split; [congruence|]. split.
    + intros i Hi. assert (I : In (i, 0, 0) (threads3 (to_dim3 (blocks_of num_points 256, 1, 1)) (to_dim3 (256, 1, 1)))) by (apply points_threads; [lia|auto]). split.
      * rewrite (V (i, 0, 0) (i * stride + offset) I); [|now left]. unfold val. now rewrite Z.eqb_refl.
      * rewrite (V (i, 0, 0) (i * stride + offset + 1) I); [|now right]. unfold val. replace (i * stride + offset + 1 =? i * stride + offset) with false by lia. reflexivity.
    + intros l H. apply N. intros [[a b] c] I. apply points_threads in I; [|lia]. cbn. destruct I as (Ha & _). specialize (H a Ha). tauto.
Qed.
Print Assumptions C105_pattern_partial.

(** Scalar output, in the same way *)
Theorem C105_scalar_partial num_points theta phi beam theta_d phi_d freq len stride offset beam_d n : ready theta phi beam -> is_complex4 (Some beam) = false -> 1 <= num_points <= 2147483392 ->
  at_least theta_d (rounded_up num_points) -> at_least phi_d (rounded_up num_points) -> shape beam_d = [n] -> n <= 2147483647 -> 0 <= offset -> 1 <= stride -> rounded_up num_points * stride + offset <= n ->
  let kL := (PI * len * freq / 299792458)%R in
  let call := gpu_element_dipole num_points (Some theta) (Some phi) (Some beam) theta_d phi_d freq len stride offset beam_d SUCCESS in
  (exists st' r, call st' r) /\ forall st' r, call st' r -> st' = SUCCESS /\ shape r = [n] /\
    (forall i, 0 <= i < rounded_up num_points -> let size p := (Cnorm2 (fst (value_at kL (elem theta_d [i]) p)) + Cnorm2 (snd (value_at kL (elem theta_d [i]) p)))%R in
       elem r [i * stride + offset] = RtoC (sqrt ((size (elem phi_d [i]) + size (elem phi_d [i] + PI / 2)%R) / 2))) /\
    (forall l, (forall i, 0 <= i < rounded_up num_points -> l <> i * stride + offset) -> elem r [l] = elem beam_d [l]).
Proof.
  intros Rd Pl Hn At Ap Sb Nb Ho Hs Hl kL call. destruct (call_launch num_points theta phi beam theta_d phi_d freq len stride offset beam_d Rd) as (name & Rg & Eq). fold kL in Eq. rewrite Pl in Eq.
  destruct (up_facts num_points ltac:(lia)) as (U1 & U2 & _). assert (Dm : dim beam_d 0 = n) by (unfold dim; now rewrite Sb). rewrite Dm in Eq.
  pose (body := dipole_scalar_thread theta_d phi_d kL (cos kL) stride offset n). fold body in Eq.
  pose (size := fun a p => (Cnorm2 (fst (value_at kL (elem theta_d [a]) p)) + Cnorm2 (snd (value_at kL (elem theta_d [a]) p)))%R).
  pose (dom := fun (t : Z * Z * Z) l => let '(a, _, _) := t in l = a * stride + offset).
  pose (val := fun (t : Z * Z * Z) (l : Z) (_ : C) => let '(a, _, _) := t in RtoC (sqrt ((size a (elem phi_d [a]) + size a (elem phi_d [a] + PI / 2)%R) / 2))).
  assert (Th : forall t, In t (threads3 (to_dim3 (blocks_of num_points 256, 1, 1)) (to_dim3 (256, 1, 1))) -> thread_sets Cadd body dom val t).
  { intros [[a b] c] I. apply points_threads in I; [|lia]. destruct I as (Ha & -> & ->).
    assert (Bn : 0 <= a * stride /\ a * stride + stride <= rounded_up num_points * stride) by nia.
    unfold thread_sets, body, dipole_scalar_thread. rewrite to_int_in by lia. cbn [bind]. rewrite (rd_least phi_d (rounded_up num_points)), (rd_least theta_d (rounded_up num_points)) by assumption. cbn [bind].
    unfold dom, val, size, value_at.
    pose proof (C80_dipole kL (elem theta_d [a]) (elem phi_d [a])) as D1. pose proof (C80_dipole kL (elem theta_d [a]) (elem phi_d [a] + PI / 2)) as D2. cbv zeta in D1, D2.
    destruct (dipole kL (cos kL) (elem phi_d [a]) _ _) as [xt xp]. destruct (dipole kL (cos kL) (elem phi_d [a] + PI / 2) _ _) as [yt yp]. destruct D1 as (X1 & X2 & _). destruct D2 as (Y1 & Y2 & _).
    rewrite (to_int_in (a * stride)) by lia. cbn [bind]. rewrite (to_int_in (a * stride + offset)) by lia. cbn [bind].
    rewrite (proj2 (in_shape_1 _ _)) by lia. eexists. split; [reflexivity|]. cbn [map loc fst snd]. split; [|split].
    - constructor; [intros []|constructor].
    - intro l. split; [intros [<-|[]]; reflexivity|intros ->; now left].
    - intros o x [<-|[]]; cbn [apply loc]. f_equal. f_equal. unfold Cnorm2. rewrite X1, X2, Y1, Y2. lra. }
  assert (Dj : forall t t' l, In t (threads3 (to_dim3 (blocks_of num_points 256, 1, 1)) (to_dim3 (256, 1, 1))) -> In t' (threads3 (to_dim3 (blocks_of num_points 256, 1, 1)) (to_dim3 (256, 1, 1))) -> dom t l -> dom t' l -> t = t').
  { intros [[a b] c] [[a' b'] c'] l I I' D D'. apply points_threads in I; [|lia]. apply points_threads in I'; [|lia]. destruct I as (Ha & -> & ->). destruct I' as (Ha' & -> & ->). cbn in D, D'.
    assert (a = a') as ->; [|reflexivity]. clear - D D' Hs. nia. }
  split.
  - destruct (launch_exists Cadd name (blocks_of num_points 256, 1, 1) (256, 1, 1) body beam_d dom val Rg (fun _ => Th)) as (st' & r & L). exists st', r. now apply Eq.
  - intros st' r L. apply Eq in L. pose proof (launch_result Cadd name (blocks_of num_points 256, 1, 1) (256, 1, 1) body beam_d dom val Rg (fun _ => Th) Dj st' r L) as Q.
    rewrite points_grid in Q by lia. replace (1 <=? num_points) with true in Q by lia. destruct Q as (-> & S & V & N). split; [reflexivity|]. split; [congruence|]. split.
    + intros i Hi. assert (I : In (i, 0, 0) (threads3 (to_dim3 (blocks_of num_points 256, 1, 1)) (to_dim3 (256, 1, 1)))) by (apply points_threads; [lia|auto]). cbv zeta.
      rewrite (V (i, 0, 0) (i * stride + offset) I) by reflexivity. reflexivity.
    + intros l H. apply N. intros [[a b] c] I. apply points_threads in I; [|lia]. cbn. destruct I as (Ha & _). exact (H a Ha).
Qed.
Print Assumptions C105_scalar_partial.

Lemma forall2_left {X Y} (P : X -> Y -> Prop) l k t : Forall2 P l k -> In t l -> exists o, P t o.
Proof. induction 1 as [|a b l k H F IH]; [intros []|]. intros [<-|I]; eauto. Qed.
(** For a multiple of 256 points: the result of the CPU *)
Theorem C105_cpu_partial num_points theta phi beam theta_d phi_d freq len stride offset beam_d n : ready theta phi beam -> 1 <= num_points <= 2147483392 -> num_points mod 256 = 0 ->
  at_least theta_d num_points -> at_least phi_d num_points -> shape beam_d = [n] -> n <= 2147483647 -> 0 <= offset -> 2 <= stride -> num_points * stride + offset <= n ->
  let kL := (PI * len * freq / 299792458)%R in
  forall st' r rc, gpu_element_dipole num_points (Some theta) (Some phi) (Some beam) theta_d phi_d freq len stride offset beam_d SUCCESS st' r ->
  (if is_complex4 (Some beam) then dipole_pattern num_points theta_d phi_d kL (cos kL) stride offset (offset + 1) beam_d
     else dipole_pattern_scalar num_points theta_d phi_d kL (cos kL) stride offset beam_d) = Some rc -> st' = SUCCESS /\ nd_eq r rc.
Proof.
  intros Rd Hn Md At Ap Sb Nb Ho Hs Hl kL st' r rc G E.
  assert (U : rounded_up num_points = num_points). { unfold rounded_up. pose proof (Z.div_mod num_points 256 ltac:(lia)) as D. rewrite Md in D. replace ((num_points + 255) / 256) with (num_points / 256); [lia|]. apply (Z.div_unique _ _ _ 255); lia. }
  destruct (is_complex4 (Some beam)) eqn:Pl.
  - destruct (C105_pattern_partial num_points theta phi beam theta_d phi_d freq len stride offset beam_d n) as (_ & P); rewrite ?U; auto. destruct (P st' r G) as (-> & S & V & N). split; [reflexivity|]. rewrite U in *.
    destruct (C80_pattern num_points theta_d phi_d kL stride offset beam_d n) as (q & F & Sq & Vq & Nq); auto; try lia. rewrite F in E. injection E as <-. split; [congruence|].
    intros ix Hix. rewrite S in Hix. destruct ix as [|l [|? ?]]; [discriminate Hix| |cbn in Hix; rewrite andb_false_r in Hix; discriminate Hix].
    destruct (own_all 0 num_points (fun i ix => idx_eqb [i * stride + offset] ix || idx_eqb [i * stride + offset + 1] ix) [l]) eqn:O.
    + apply own_all_true in O. destruct O as (i & Hi & O). apply orb_prop in O. destruct (V i Hi) as (V1 & V2). destruct (Vq i Hi) as (W1 & W2).
      destruct O as [O|O]; (match type of O with idx_eqb ?a ?b = true => destruct (idx_eqb_spec a b) as [<-|]; [|discriminate] end); [rewrite V1, W1|rewrite V2, W2]; reflexivity.
    + assert (M : forall i, 0 <= i < num_points -> l <> i * stride + offset /\ l <> i * stride + offset + 1).
      { intros i Hi. pose proof (proj1 (own_all_false _ _ _ _) O i Hi) as Oi. apply orb_false_iff in Oi. destruct Oi as [O1 O2]. split; intros ->; [rewrite idx_eqb_refl in O1|rewrite idx_eqb_refl in O2]; discriminate. }
      rewrite (N l M), Nq; [reflexivity|]. intros i Hi. destruct (M i Hi). split; congruence.
  - destruct (C105_scalar_partial num_points theta phi beam theta_d phi_d freq len stride offset beam_d n) as (_ & P); rewrite ?U; auto; try lia. destruct (P st' r G) as (-> & S & V & N). split; [reflexivity|]. rewrite U in *.
    destruct (C80_scalar num_points theta_d phi_d kL stride offset beam_d n) as (q & F & Sq & Vq & Nq); auto; try lia. rewrite F in E. injection E as <-. split; [congruence|].
    intros ix Hix. rewrite S in Hix. destruct ix as [|l [|? ?]]; [discriminate Hix| |cbn in Hix; rewrite andb_false_r in Hix; discriminate Hix].
    destruct (own_all 0 num_points (fun i ix => idx_eqb [i * stride + offset] ix) [l]) eqn:O.
    + apply own_all_true in O. destruct O as (i & Hi & O). specialize (V i Hi). specialize (Vq i Hi). cbv zeta in *.
      (match type of O with idx_eqb ?a ?b = true => destruct (idx_eqb_spec a b) as [<-|]; [|discriminate] end). rewrite V, Vq. reflexivity.
    + assert (M : forall i, 0 <= i < num_points -> l <> i * stride + offset).
      { intros i Hi. pose proof (proj1 (own_all_false _ _ _ _) O i Hi) as Oi. intros ->. rewrite idx_eqb_refl in Oi. discriminate. }
      rewrite (N l M), Nq; [reflexivity|]. intros i Hi. specialize (M i Hi). congruence.
Qed.
Print Assumptions C105_cpu_partial.

(** The number of points is not tested in the kernels: unless it is a multiple of 256, threads beyond the last point read outside of the arrays of directions, and no
    defined run exists, whatever the size of the output. *)
Theorem C105_outside_refuted num_points theta phi beam theta_d phi_d freq len stride offset beam_d : ready theta phi beam -> 1 <= num_points <= 2147483392 -> num_points mod 256 <> 0 ->
  shape theta_d = [num_points] -> forall st' r, ~ gpu_element_dipole num_points (Some theta) (Some phi) (Some beam) theta_d phi_d freq len stride offset beam_d SUCCESS st' r.
Proof.
  intros Rd Hn Md St st' r G. destruct (call_launch num_points theta phi beam theta_d phi_d freq len stride offset beam_d Rd) as (name & Rg & Eq). apply Eq in G. clear Eq.
  unfold launch_kernel in G. cbn [failed] in G. rewrite Rg, points_grid in G by lia. replace (1 <=? num_points) with true in G by lia. cbn [negb] in G. destruct G as (_ & m' & (per & F & _) & _).
  destruct (up_facts num_points ltac:(lia)) as (U1 & U2 & _).
  assert (Lt : num_points < rounded_up num_points). { destruct (Z.eq_dec (rounded_up num_points) num_points) as [E|N]; [|lia]. exfalso. apply Md. rewrite <- E. unfold rounded_up. rewrite Z.mul_comm. apply Z.mod_mul. lia. }
  assert (I : In (num_points, 0, 0) (threads3 (to_dim3 (blocks_of num_points 256, 1, 1)) (to_dim3 (256, 1, 1)))) by (apply points_threads; [lia|auto with zarith]).
  destruct (forall2_left _ _ _ _ F I) as (k & E). destruct (is_complex4 (Some beam)).
  - unfold dipole_thread in E. rewrite to_int_in in E by lia. cbn [bind] in E. destruct (rd phi_d [num_points]) in E; [cbn [bind] in E|discriminate E].
    unfold rd in E. rewrite St in E. replace (in_shape [num_points] [num_points]) with false in E; [discriminate E|]. symmetry. apply not_true_is_false. rewrite in_shape_1. lia.
  - unfold dipole_scalar_thread in E. rewrite to_int_in in E by lia. cbn [bind] in E.
    unfold rd at 1 in E. rewrite St in E. replace (in_shape [num_points] [num_points]) with false in E; [discriminate E|]. symmetry. apply not_true_is_false. rewrite in_shape_1. lia.
Qed.
Print Assumptions C105_outside_refuted.

Definition gpu_mem (ty : Z) (sh : list Z) : mem := fst (create_wrapper (Some (1, 0)) ty MEM_GPU sh None SUCCESS).
(** With larger arrays the values beyond the points asked for are overwritten: one point asked for, the output of another is changed. *)
Theorem C105_beyond_refuted : exists theta phi beam theta_d phi_d beam_d, ready theta phi beam /\ (exists st' r, gpu_element_dipole 1 (Some theta) (Some phi) (Some beam) theta_d phi_d 1 1 1 0 beam_d SUCCESS st' r) /\
  forall st' r, gpu_element_dipole 1 (Some theta) (Some phi) (Some beam) theta_d phi_d 1 1 1 0 beam_d SUCCESS st' r -> elem r [1] <> elem beam_d [1].
Proof.
  exists (gpu_mem MEM_DOUBLE [256]), (gpu_mem MEM_DOUBLE [256]), (gpu_mem MEM_COMPLEX_DOUBLE [256]), (dat 0%R 256), (dat 0%R 256), (dat (0%R, 1%R) 256).
  assert (Rd : ready (gpu_mem MEM_DOUBLE [256]) (gpu_mem MEM_DOUBLE [256]) (gpu_mem MEM_COMPLEX_DOUBLE [256])) by (repeat split; right; reflexivity).
  assert (U : rounded_up 1 = 256) by reflexivity. assert (A : at_least (dat 0%R 256) (rounded_up 1)) by (rewrite U; exists 256; split; [reflexivity|lia]).
  split; [exact Rd|].
  pose proof (C105_scalar_partial 1 _ _ _ (dat 0%R 256) (dat 0%R 256) 1 1 1 0 (dat (0%R, 1%R) 256) 256 Rd eq_refl ltac:(lia) A A eq_refl ltac:(lia) ltac:(lia) ltac:(lia) ltac:(rewrite U; lia)) as (Ex & P). rewrite U in P.
  split; [exact Ex|]. intros st' r G. destruct (P st' r G) as (_ & _ & V & _). specialize (V 1 ltac:(lia)). cbv zeta in V. change (1 * 1 + 0) with 1 in V. rewrite V. cbn [dat elem]. unfold RtoC. intro Q. injection Q as _ Q. lra.
Qed.
Print Assumptions C105_beyond_refuted.

(** Refused calls change nothing: an earlier error is passed on, directions elsewhere and outputs of other types are errors, as is a call without points. *)
Theorem C105_refused num_points theta phi beam theta_d phi_d freq len stride offset beam_d :
  let call := gpu_element_dipole num_points (Some theta) (Some phi) (Some beam) theta_d phi_d freq len stride offset beam_d in
  (forall st st' r, st <> SUCCESS -> call st st' r <-> st' = st /\ r = beam_d) /\
  (~ ready theta phi beam -> exists e, e <> SUCCESS /\ forall st' r, call SUCCESS st' r <-> st' = e /\ r = beam_d) /\
  (ready theta phi beam -> num_points = 0 -> forall st' r, call SUCCESS st' r <-> st' = ERR_RUNTIME /\ r = beam_d).
Proof.
  intro call. split; [|split].
  - intros st st' r N. unfold call, gpu_element_dipole. replace (failed st) with true by (destruct st; cbn; congruence). tauto.
  - intro N. unfold call, gpu_element_dipole. cbn [failed location mtype]. unfold ready in N.
    destruct (Z.eqb_spec (m_loc theta) MEM_GPU); cbn [negb orb]; [|exists ERR_MEM_LOCATION; split; [discriminate|tauto]].
    destruct (Z.eqb_spec (m_loc phi) MEM_GPU); cbn [negb orb]; [|exists ERR_MEM_LOCATION; split; [discriminate|tauto]].
    destruct (is_complex (Some beam)) eqn:E; cbn [negb]; [|exists ERR_DATA_TYPE; split; [discriminate|tauto]].
    assert (K : dipole_kernel (m_type beam) (is_complex4 (Some beam)) = None).
    { unfold dipole_kernel. destruct (Z.eqb_spec (m_type beam) MEM_COMPLEX_FLOAT), (Z.eqb_spec (m_type beam) MEM_COMPLEX_DOUBLE); try tauto. destruct (is_complex4 _); reflexivity. }
    rewrite K. unfold launch_kernel. cbn [failed]. exists ERR_DATA_TYPE. split; [discriminate|tauto].
  - intros Rd -> st' r. destruct (call_launch 0 theta phi beam theta_d phi_d freq len stride offset beam_d Rd) as (name & Rg & Eq). unfold call. rewrite Eq. unfold launch_kernel. cbn [failed]. rewrite Rg, points_grid by lia. cbn [Z.leb Z.compare negb]. tauto.
Qed.
Print Assumptions C105_refused.

(** 300 points, in arrays for 512 *)
Example C105_hyps : rounded_up 300 = 512 /\ exists st' r, gpu_element_dipole 300 (Some (gpu_mem MEM_DOUBLE [512])) (Some (gpu_mem MEM_DOUBLE [512])) (Some (gpu_mem MEM_COMPLEX_DOUBLE [512; 4])) (dat 1%R 512) (dat 1%R 512) 1 1 4 2 (dat C0 2050) SUCCESS st' r.
Proof.
  assert (U : rounded_up 300 = 512) by reflexivity. split; [exact U|]. assert (A : at_least (dat 1%R 512) (rounded_up 300)) by (rewrite U; exists 512; split; [reflexivity|lia]).
  assert (Rd : ready (gpu_mem MEM_DOUBLE [512]) (gpu_mem MEM_DOUBLE [512]) (gpu_mem MEM_COMPLEX_DOUBLE [512; 4])) by (repeat split; right; reflexivity).
  pose proof (C105_pattern_partial 300 _ _ _ (dat 1%R 512) (dat 1%R 512) 1 1 4 2 (dat C0 2050) 2050 Rd eq_refl ltac:(lia) A A eq_refl ltac:(lia) ltac:(lia) ltac:(lia) ltac:(rewrite U; lia)) as (E & _). exact E.
Qed.
