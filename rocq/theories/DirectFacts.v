(** The direct gridder (proofs only). *)
From Coq Require Import Lia Lra.
From Verif Require Import Base BaseFacts Mem Checks ChecksFacts Sum CRing Cplx GridUtils GridUtilsSpec GridUtilsFacts Flmn FlmnSpec FlmnFacts Direct DirectSpec.
Open Scope Z_scope.

(** *** Checks *)
Lemma view_const_pass {A} m ty (x : nd A) rank : in_cpu m ty x -> Z.of_nat rank = Z.of_nat (length (shape x)) -> snd (check_and_view_const m ty rank MEM_CPU SUCCESS) = SUCCESS.
Proof.
  destruct m as [m|]; [|intros []]. intros (T & L & S & D & _ & _) E. unfold check_and_view_const, check_type, check_num_dims, check_location, mtype, num_dims, location. cbn [failed snd].
  rewrite T, D, L, E. rewrite !Z.eqb_refl. cbn [negb failed]. reflexivity.
Qed.
Lemma view_pass {A} m ty (x : nd A) rank : in_cpu m ty x -> can_write m -> Z.of_nat rank = Z.of_nat (length (shape x)) -> snd (check_and_view m ty rank MEM_CPU SUCCESS) = SUCCESS.
Proof.
  destruct m as [m|]; [|intros []]. intros (T & L & S & D & _ & H) W E. cbn in W. unfold check_and_view, check_type, check_num_dims, check_location, check_writeable, is_read_only, has_data, mtype, num_dims, location. cbn [failed snd].
  rewrite T, D, L, E. rewrite !Z.eqb_refl. cbn [negb failed]. rewrite W. destruct (m_data m); [reflexivity|now destruct H].
Qed.
Lemma ranges_pass start end_ sd ed n : ranges_ok start end_ sd ed n -> check_ranges start end_ SUCCESS = SUCCESS.
Proof.
  unfold ranges_ok, check_ranges. intros [[-> | ->]|(I1 & I2 & S1 & S2)]; [reflexivity|destruct start; reflexivity|].
  destruct start as [a|]; [|destruct I1]. destruct end_ as [b|]; [|destruct I2].
  rewrite (view_const_pass _ _ sd 1 I1) by (rewrite S1; reflexivity). rewrite (view_const_pass _ _ ed 1 I2) by (rewrite S2; reflexivity). reflexivity.
Qed.
Lemma ranges_shape start end_ sd ed n : ranges_ok start end_ sd ed n -> chs_shape (ranges start end_ (sd, ed)) n.
Proof. unfold ranges_ok, ranges, chs_shape. intros [[-> | ->]|(I1 & I2 & S1 & S2)]; [exact I|destruct start; exact I|]. destruct start, end_; auto. Qed.
Lemma ranges_row start end_ sd ed i : row_on (ranges start end_ (sd, ed)) i = row_used start end_ sd ed i.
Proof. unfold row_on, ranges, row_used. destruct start, end_; reflexivity. Qed.
Lemma scratch_view ty loc sh rank : loc = MEM_CPU -> fold_right Z.mul 1 sh <> 0 -> Z.of_nat rank = Z.of_nat (length sh) -> snd (check_and_view (scratch ty loc sh) ty rank MEM_CPU SUCCESS) = SUCCESS.
Proof.
  intros -> N E. unfold scratch, check_and_view, check_type, check_num_dims, check_location, check_writeable, is_read_only, has_data, mtype, num_dims, location. cbn [m_type m_num_dims m_loc m_ro m_data].
  rewrite E. rewrite !Z.eqb_refl. cbn [failed negb snd]. rewrite (proj2 (Z.eqb_neq _ _) N). reflexivity.
Qed.
Lemma scratch_view_none ty loc sh rank : loc = MEM_CPU -> fold_right Z.mul 1 sh = 0 -> Z.of_nat rank = Z.of_nat (length sh) -> snd (check_and_view (scratch ty loc sh) ty rank MEM_CPU SUCCESS) = ERR_INVALID_ARGUMENT.
Proof.
  intros -> N E. unfold scratch, check_and_view, check_type, check_num_dims, check_location, check_writeable, is_read_only, has_data, mtype, num_dims, location. cbn [m_type m_num_dims m_loc m_ro m_data].
  rewrite E. rewrite !Z.eqb_refl. cbn [failed negb snd]. rewrite N. reflexivity.
Qed.
Lemma scratch_view_const ty loc sh rank : loc = MEM_CPU -> Z.of_nat rank = Z.of_nat (length sh) -> snd (check_and_view_const (scratch ty loc sh) ty rank MEM_CPU SUCCESS) = SUCCESS.
Proof.
  intros -> E. unfold scratch, check_and_view_const, check_type, check_num_dims, check_location, mtype, num_dims, location. cbn [m_type m_num_dims m_loc].
  rewrite E. rewrite !Z.eqb_refl. reflexivity.
Qed.
Lemma view_const_stop m ty rank loc st : failed st = true -> snd (check_and_view_const m ty rank loc st) = st.
Proof. intro F. unfold check_and_view_const, check_type, check_num_dims, check_location. cbn [snd]. destruct st; try discriminate; reflexivity. Qed.
Lemma in_type {A} m ty (x : nd A) : in_cpu m ty x -> mtype m = ty.
Proof. destruct m as [m|]; [|intros []]. intros (T & _). exact T. Qed.
Lemma in_loc {A} m ty (x : nd A) : in_cpu m ty x -> location m = MEM_CPU.
Proof. destruct m as [m|]; [|intros []]. intros (_ & L & _). exact L. Qed.

(** *** Sums over the list of sources *)
Lemma rank_sum image n m (F : Z -> C) x : 0 <= x <= n -> 0 <= m ->
  Csum 0 (rank image m x 0) F = Csum 0 x (fun a => Csum 0 m (fun b => if nonzero (elem image [a; b]) then F (rank image m a b) else C0)).
Proof.
  intros Hx Hm. assert (R0 : forall a, 0 <= a -> forall b, 0 <= b -> 0 <= rank image m a b).
  { intros a Ha b Hb. pose proof (rank_le image m a 0 b ltac:(lia) ltac:(lia)). pose proof (rank_row_le image m 0 a ltac:(lia) ltac:(lia)).
    assert (Z0 : rank image m 0 0 = 0) by (unfold rank; rewrite !sum_empty by lia; reflexivity). lia. }
  assert (Row : forall a, 0 <= a -> forall k, 0 <= k -> k <= m -> Csum 0 (rank image m a k) F = Cadd (Csum 0 (rank image m a 0) F) (Csum 0 k (fun b => if nonzero (elem image [a; b]) then F (rank image m a b) else C0))).
  { intros a Ha. apply (natlike_ind (fun k => k <= m -> Csum 0 (rank image m a k) F = Cadd (Csum 0 (rank image m a 0) F) (Csum 0 k (fun b => if nonzero (elem image [a; b]) then F (rank image m a b) else C0)))).
    - intros _. rewrite (sum_empty _ _ 0 0) by lia. csolve.
    - intros k Hk IH L. replace (Z.succ k) with (k + 1) in * by lia. rewrite (sum_snoc _ _ Ccm 0 k) by lia. rewrite rank_next by lia. unfold nz. destruct (nonzero (elem image [a; k])) eqn:N.
      + rewrite (sum_snoc _ _ Ccm 0 (rank image m a k)) by (now apply R0). rewrite IH by lia. csolve.
      + rewrite Z.add_0_r, IH by lia. csolve. }
  destruct Hx as (Hx & HL). revert x Hx HL.
  apply (natlike_ind (fun x => x <= n -> Csum 0 (rank image m x 0) F = Csum 0 x (fun a => Csum 0 m (fun b => if nonzero (elem image [a; b]) then F (rank image m a b) else C0)))).
  - intros _. assert (Z0 : rank image m 0 0 = 0) by (unfold rank; rewrite !sum_empty by lia; reflexivity). rewrite Z0. rewrite !(sum_empty _ _ 0 0) by lia. reflexivity.
  - intros k Hk IH L. replace (Z.succ k) with (k + 1) in * by lia. rewrite (sum_snoc _ _ Ccm 0 k) by lia. rewrite <- IH by lia. rewrite <- rank_row by lia. now apply Row.
Qed.
Lemma total_rank image n m : total image n m = rank image m n 0.
Proof. unfold total, rank. rewrite (sum_empty _ _ 0 0) by lia. lia. Qed.
Lemma nonzero_false z : nonzero z = false -> z = C0.
Proof. destruct z as [a b]. unfold nonzero. cbn [re im fst snd]. destruct (Req_EM_T a 0) as [->|]; [|discriminate]. destruct (Req_EM_T b 0) as [->|]; [|discriminate]. reflexivity. Qed.

(** All pixels *)
Lemma lmn_list S theta hu hv (img : nd C) lmn : shape img = [S; S] -> 0 <= S -> shape lmn = [S * S; 3] ->
  exists lmn', image_to_lmn img theta hu hv lmn = Some (lmn', S * S) /\ shape lmn' = [S * S; 3] /\
    forall x y, 0 <= x < S -> 0 <= y < S -> elem lmn' [x * S + y; 0] = pixel_coord x S theta /\ elem lmn' [x * S + y; 1] = pixel_coord y S theta /\
      elem lmn' [x * S + y; 2] = lm_to_n (pixel_coord x S theta) (pixel_coord y S theta) hu hv.
Proof.
  intros Si HS Sl. unfold image_to_lmn, dim. rewrite Si. cbn [nth].
  set (ok := fun (l : nd R) (k : Z) => forall x y, 0 <= x < S -> 0 <= y < S -> x * S + y < k -> elem l [x * S + y; 0] = pixel_coord x S theta /\ elem l [x * S + y; 1] = pixel_coord y S theta /\
      elem l [x * S + y; 2] = lm_to_n (pixel_coord x S theta) (pixel_coord y S theta) hu hv).
  destruct (for_inv (fun x (st : nd R * Z) => snd st = x * S /\ shape (fst st) = [S * S; 3] /\ ok (fst st) (x * S)) 0 S
    (fun il => for_ 0 S (fun im st => let '(lmn, k) := st in let* lmn := flmn_put lmn k (pix_coord il S theta) (pix_coord im S theta) hu hv in Some (lmn, k + 1))) (lmn, 0) HS) as (st & E & I).
  - cbn [fst snd]. split; [lia|]. split; [exact Sl|]. intros x y Hx Hy L. nia.
  - intros x [l k] Hx (K & Sh & O). cbn [fst snd] in K, Sh, O.
    destruct (for_inv (fun y (st : nd R * Z) => snd st = x * S + y /\ shape (fst st) = [S * S; 3] /\ ok (fst st) (x * S + y)) 0 S
      (fun im st => let '(lmn, k) := st in let* lmn := flmn_put lmn k (pix_coord x S theta) (pix_coord im S theta) hu hv in Some (lmn, k + 1)) (l, k) HS) as (st & E & I).
    + cbn [fst snd]. rewrite Z.add_0_r. split; [lia|]. split; assumption.
    + intros y [l1 k1] Hy (K1 & Sh1 & O1). cbn [fst snd] in K1, Sh1, O1. rewrite K1.
      destruct (flmn_put_lemma l1 (x * S + y) (pix_coord x S theta) (pix_coord y S theta) hu hv (S * S) Sh1) as (l2 & E2 & Sh2 & V0 & V1 & V2 & F); [nia|].
      rewrite E2. cbn [bind]. eexists. split; [reflexivity|]. cbn [fst snd]. split; [lia|]. split; [exact Sh2|].
      intros a b Ha Hb L. destruct (Z.eq_dec (a * S + b) (x * S + y)) as [Q|Q].
      * assert (a = x) as -> by nia. assert (b = y) as -> by lia. rewrite V0, V1, V2, !pix_coord_eq by lia. repeat split.
      * rewrite !F by exact Q. apply O1; lia.
    + exists st. split; [exact E|]. destruct I as (I1 & I2 & I3). replace ((x + 1) * S) with (x * S + S) by ring. split; [exact I1|]. split; [exact I2|exact I3].
  - exists (fst st). destruct I as (I1 & I2 & I3). split; [rewrite E; rewrite <- I1; destruct st; reflexivity|]. split; [exact I2|]. intros x y Hx Hy. apply I3; try assumption. nia.
Qed.
