(** Adding sub-grids with threads (proofs only). *)
From Coq Require Import Lia Permutation.
From Verif Require Import Base BaseFacts Sum CRing Subgrid SubgridSpec SubgridFacts Prop_Subgrid WStack SharedAdd SharedAddSpec SharedAddFacts SharedAddSpec2.

Section Grid.
Context {A : cring}.
Notation Acm := (Rcm (A := A)).
Lemma idx_ok i j : idx_eqb i j = true <-> i = j. Proof. destruct (idx_eqb_spec i j); split; congruence. Qed.
Lemma tot_map idx (f : Z -> list Z * A) l : tot idx_eqb radd r0 idx (map f l) = fold_right radd r0 (map (fun j => if idx_eqb (fst (f j)) idx then snd (f j) else r0) l).
Proof. induction l as [|j l IH]; [reflexivity|]. cbn [map tot fold_right]. unfold tot in IH. rewrite IH. destruct (idx_eqb (fst (f j)) idx); [reflexivity|]. symmetry. apply (cm_unit _ _ Acm). Qed.
Lemma tot_rows idx (f : Z -> list (list Z * A)) l : tot idx_eqb radd r0 idx (concat (map f l)) = fold_right radd r0 (map (fun j => tot idx_eqb radd r0 idx (f j)) l).
Proof. induction l as [|j l IH]; [reflexivity|]. cbn [map concat fold_right]. rewrite (tot_app _ _ _ Acm). now rewrite IH. Qed.

Lemma add_is_apply (grid sub : nd A) gu gv su sv ou ov factor g' : shape grid = [gu; gv] -> shape sub = [su; sv] -> 0 < gu -> 0 < gv -> 0 <= su -> 0 <= sv ->
  subgrid_add grid ou ov sub factor = Some g' -> shape g' = [gu; gv] /\ forall x y, elem g' [x; y] = apply idx_eqb radd (concat (sub_rows gu gv su sv ou ov sub factor)) (elem grid) [x; y].
Proof.
  intros S1 S2 H1 H2 H3 H4 E. destruct (C29_add A grid sub gu gv su sv ou ov factor S1 S2 H1 H2 H3 H4) as (g & E' & S & V). rewrite E' in E. injection E as <-.
  split; [exact S|]. intros x y. rewrite V, (apply_tot _ idx_ok _ _ Acm). f_equal. unfold sub_rows. rewrite tot_rows. unfold rsum, sum. f_equal. apply map_ext. intro i. unfold sub_row. rewrite tot_map. f_equal. apply map_ext. intro j.
  cbn [fst snd]. cbn [idx_eqb]. now rewrite andb_true_r.
Qed.

Lemma apply_app us vs (M : list Z -> A) : apply idx_eqb radd (us ++ vs) M = apply idx_eqb radd vs (apply idx_eqb radd us M).
Proof. unfold apply. apply fold_left_app. Qed.
Lemma apply_ext us (M M' : list Z -> A) i : M i = M' i -> apply idx_eqb radd us M i = apply idx_eqb radd us M' i.
Proof. intro H. rewrite !(apply_tot _ idx_ok _ _ Acm). now rewrite H. Qed.

Lemma each_add gu gv (factor : A) (subs : list (Z * Z * nd A)) : 0 < gu -> 0 < gv -> (forall q, In q subs -> exists su sv, shape (snd q) = [su; sv] /\ 0 <= su /\ 0 <= sv) -> forall grid : nd A, shape grid = [gu; gv] ->
  exists g', each subs (fun q g => subgrid_add g (fst (fst q)) (snd (fst q)) (snd q) factor) grid = Some g' /\ shape g' = [gu; gv] /\
    forall x y, elem g' [x; y] = apply idx_eqb radd (concat (map (sub_piece gu gv factor) subs)) (elem grid) [x; y].
Proof.
  intros H1 H2. induction subs as [|q l IH]; intros H grid S.
  - exists grid. split; [reflexivity|]. split; [exact S|]. reflexivity.
  - destruct (H q ltac:(now left)) as (su & sv & Sq & B1 & B2).
    destruct (C29_add A grid (snd q) gu gv su sv (fst (fst q)) (snd (fst q)) factor S Sq H1 H2 B1 B2) as (g1 & E1 & _).
    destruct (add_is_apply grid (snd q) gu gv su sv _ _ factor g1 S Sq H1 H2 B1 B2 E1) as (S1 & V1).
    destruct (IH ltac:(intros; apply H; now right) g1 S1) as (g2 & E2 & S2 & V2). exists g2. cbn [each]. rewrite E1. cbn [bind]. split; [exact E2|]. split; [exact S2|].
    intros x y. rewrite V2. cbn [map concat]. rewrite apply_app. apply apply_ext. rewrite V1. unfold sub_piece, dim. rewrite Sq. reflexivity.
Qed.

Lemma nodup_apart (rows : Z -> list Z) n : NoDup (concat (map rows (zrange 0 n))) -> forall t u x, 0 <= t < n -> 0 <= u < n -> t <> u -> In x (rows t) -> In x (rows u) -> False.
Proof.
  intros N t u x Ht Hu D. assert (In t (zrange 0 n)) as It by now apply in_zrange. assert (In u (zrange 0 n)) as Iu by now apply in_zrange.
  assert (G : forall l, NoDup (concat (map rows l)) -> In t l -> In u l -> In x (rows t) -> In x (rows u) -> False); [|now apply (G (zrange 0 n))].
  clear -D. induction l as [|a l IH]; intros N It Iu Xt Xu; [destruct It|]. cbn [map concat] in N.
  assert (AP : forall b, In b l -> In x (rows a) -> In x (rows b) -> False).
  { intros b Hb Xa Xb. revert N. generalize (rows a), Xa. intro r. induction r as [|z r IHr]; intros Xr N; [destruct Xr|]. cbn in N. apply NoDup_cons_iff in N. destruct N as (N1 & N2). destruct Xr as [->|Xr]; [|now apply IHr].
    apply N1. apply in_or_app. right. apply in_concat. exists (rows b). split; [now apply in_map|exact Xb]. }
  destruct It as [->|It], Iu as [->|Iu]; [contradiction| | |].
  - now apply (AP u).
  - now apply (AP t).
  - apply IH; auto. clear -N. induction (rows a) as [|z r IHr]; [exact N|]. cbn in N. apply NoDup_cons_iff in N. apply IHr, N.
Qed.
Lemma rows_separate gu gv su sv ou ov (sub : nd A) factor nt rows : 0 < gu -> su <= gu -> Permutation (concat (map rows (zrange 0 nt))) (zrange 0 su) ->
  separate nt (fun t => map (sub_row gu gv su sv ou ov sub factor) (rows t)).
Proof.
  intros H1 H2 P t u i x y Ht Hu N It Iu.
  assert (R : forall t x, 0 <= t < nt -> In (i, x) (concat (map (sub_row gu gv su sv ou ov sub factor) (rows t))) -> exists r, In r (rows t) /\ 0 <= r < su /\ exists j, i = [pixel gu su (- ou) r; j]).
  { clear -P. intros t x Ht It. apply in_concat in It. destruct It as (row & Ir & Ix). apply in_map_iff in Ir. destruct Ir as (r & <- & Hr). exists r. split; [exact Hr|]. split.
    - apply in_zrange. eapply Permutation_in; [exact P|]. apply in_concat. exists (rows t). split; [apply in_map; now apply in_zrange|exact Hr].
    - unfold sub_row in Ix. apply in_map_iff in Ix. destruct Ix as (j & E & _). injection E as <- _. eauto. }
  destruct (R t x Ht It) as (r & Hr & Br & j & ->). destruct (R u y Hu Iu) as (r' & Hr' & Br' & j' & E). injection E as E _. apply pixel_inj in E; try lia. subst r'.
  apply (nodup_apart rows nt) with (t := t) (u := u) (x := r); auto. eapply Permutation_NoDup; [apply Permutation_sym, P|apply NoDup_zrange].
Qed.
Lemma map_concat_rows {B D} (f : B -> D) (rows : Z -> list B) l : concat (map (fun t => map f (rows t)) l) = map f (concat (map rows l)).
Proof. induction l as [|t l IH]; [reflexivity|]. cbn [map concat]. rewrite map_app. now rewrite IH. Qed.
End Grid.
