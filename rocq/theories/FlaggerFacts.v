From Coq Require Import QArith Lia.
From Verif Require Import Base BaseFacts Sum Loops Sets Flagger FlaggerSpec.
Open Scope Z_scope.

Lemma nth_zrange lo hi n d : (n < Z.to_nat (hi - lo))%nat -> nth n (zrange lo hi) d = lo + Z.of_nat n.
Proof.
  intro H. unfold zrange. rewrite (nth_indep _ d (lo + Z.of_nat 0)) by (rewrite map_length, seq_length; lia).
  rewrite (map_nth (fun k => lo + Z.of_nat k)). rewrite seq_nth by lia. lia.
Qed.

(** An array that holds a list *)
Definition arr_is {B} (arr : nd B) (L : list B) : Prop :=
  shape arr = [Z.of_nat (length L)] /\ forall i d, 0 <= i < Z.of_nat (length L) -> elem arr [i] = nth (Z.to_nat i) L d.

Lemma arr_is_intro {B} (arr : nd B) n (h : Z -> B) : 0 <= n -> shape arr = [n] -> (forall i, 0 <= i < n -> elem arr [i] = h i) -> arr_is arr (map h (zrange 0 n)).
Proof.
  intros Hn S P. unfold arr_is. rewrite map_length, zrange_length. replace (Z.of_nat (Z.to_nat (n - 0))) with n by lia. split; [exact S|].
  intros i d Hi. rewrite P by auto. rewrite (nth_indep _ d (h 0)) by (rewrite map_length, zrange_length; lia). rewrite map_nth. f_equal. rewrite nth_zrange by lia. lia.
Qed.

Lemma arr_is_list {B} (arr : nd B) L : arr_is arr L -> map (fun i => elem arr [i]) (zrange 0 (Z.of_nat (length L))) = L.
Proof.
  intros [_ P]. destruct L as [|d L0]; [reflexivity|]. set (L := d :: L0) in *. apply nth_ext with (d := elem arr [0]) (d' := d).
  - rewrite map_length, zrange_length. lia.
  - intros n Hn. rewrite map_length, zrange_length in Hn. rewrite (map_nth (fun i => elem arr [i])). rewrite nth_zrange by lia.
    rewrite (P _ d) by lia. f_equal. lia.
Qed.

Section Stats.
Context {A : num} (sort_len : forall l : list A, length (nsort l) = length l).

Lemma qsort_ok (arr : nd A) L n : arr_is arr L -> n = Z.of_nat (length L) -> exists arr', qsort arr n = Some arr' /\ arr_is arr' (nsort L).
Proof.
  intros H ->. unfold qsort. pose proof (arr_is_list arr L H) as E. destruct H as [S P]. unfold dim. rewrite S. cbn [nth].
  replace ((0 <=? Z.of_nat (length L)) && (Z.of_nat (length L) <=? Z.of_nat (length L))) with true by lia. eexists. split; [reflexivity|].
  rewrite E. split; [cbn [shape]; now rewrite sort_len|]. intros i d Hi. rewrite sort_len in Hi. cbn [elem].
  replace ((0 <=? i) && (i <? Z.of_nat (length L))) with true by lia. apply nth_indep. rewrite sort_len. lia.
Qed.

Lemma mid_eq n (L : list A) : n = Z.of_nat (length L) -> Z.to_nat (cdiv (n + 1) 2) = ((length L + 1) / 2)%nat.
Proof.
  intros ->. unfold cdiv. rewrite Z.quot_div_nonneg by lia. replace (Z.of_nat (length L) + 1) with (Z.of_nat (length L + 1)) by lia.
  change 2 with (Z.of_nat 2). rewrite <- Nat2Z.inj_div. now rewrite Nat2Z.id.
Qed.
Lemma mid_range n : 2 <= n -> 0 <= cdiv (n + 1) 2 < n.
Proof. intro H. unfold cdiv. rewrite Z.quot_div_nonneg by lia. split; [apply Z.div_pos; lia|apply Z.div_lt_upper_bound; lia]. Qed.

Lemma median_ok junk (arr : nd A) l n : arr_is arr (nsort l) -> n = Z.of_nat (length l) -> 2 <= n -> median_calc junk arr n = Some (median_of l).
Proof.
  intros [S P] En Hn. unfold median_calc, rd_or, median_of. pose proof (mid_range n Hn) as M.
  rewrite rd_some by (rewrite S, sort_len; apply in_shape_1; lia). f_equal. rewrite (P _ (nq 0)) by (rewrite sort_len; lia).
  f_equal. apply mid_eq. now rewrite sort_len.
Qed.

Lemma new_array_ok n : 0 <= n -> exists a : nd A, new_array n = Some a /\ shape a = [n].
Proof. intro H. unfold new_array. destruct (Z.ltb_spec n 0); [lia|]. eauto. Qed.

(** The sorted deviations *)
Lemma devs_ok (arr : nd A) l n c : arr_is arr (nsort l) -> n = Z.of_nat (length l) ->
  exists devs, (let* devs := new_array n in
    let* devs := for_ 0 n (fun i devs => let* x := rd arr [i] in wr devs [i] (nabs (nsub x c))) devs in qsort devs n) = Some devs /\
    arr_is devs (nsort (map (fun x => nabs (nsub x c)) (nsort l))).
Proof.
  intros H En. destruct (new_array_ok n ltac:(lia)) as (a & -> & Sa). cbn [bind]. pose proof (arr_is_list arr _ H) as EL. destruct H as [S P]. rewrite sort_len in *.
  match goal with |- context [for_ 0 n ?b a] => destruct (for_set1 n (fun i _ => nabs (nsub (elem arr [i]) c)) b 0 n a) as (d & E & Sd & Pd & _) end; auto; try lia.
  { intros i st Hi Si. rewrite rd_some by (rewrite S; apply in_shape_1; lia). cbn [bind]. rewrite wr_some by (rewrite Si; apply in_shape_1; lia). reflexivity. }
  rewrite E. cbn [bind]. destruct (qsort_ok d (map (fun i => nabs (nsub (elem arr [i]) c)) (zrange 0 n)) n) as (d' & E' & A').
  { apply arr_is_intro; [lia|exact Sd|exact Pd]. } { rewrite map_length, zrange_length. lia. }
  exists d'. split; [exact E'|]. rewrite <- EL, map_map, <- En. exact A'.
Qed.

Lemma median_dev_ok junk (arr : nd A) l n c : arr_is arr (nsort l) -> n = Z.of_nat (length l) -> 2 <= n -> median_dev_calc junk arr n c = Some (deviation_of l c).
Proof.
  intros H En Hn. unfold median_dev_calc. cbv zeta. destruct (devs_ok arr l n c H En) as (d & E & D).
  destruct (new_array n) as [a|]; [|discriminate]. cbn [bind] in *. destruct (for_ 0 n _ a) as [a'|]; [|discriminate]. cbn [bind] in *. rewrite E. cbn [bind].
  apply (median_ok junk d (map (fun x => nabs (nsub x c)) (nsort l)) n D); [rewrite map_length, sort_len; lia|lia].
Qed.

(** One element: the read is outside the array. *)
Lemma median_one j (arr : nd A) : shape arr = [1] -> median_calc (Some j) arr 1 = Some j.
Proof. intro S. unfold median_calc, rd_or. change (cdiv (1 + 1) 2) with 1. unfold rd. now rewrite S. Qed.
Lemma median_dev_one j (arr : nd A) l c : arr_is arr (nsort l) -> length l = 1%nat -> median_dev_calc (Some j) arr 1 c = Some j.
Proof.
  intros H Hl. unfold median_dev_calc. cbv zeta. destruct (devs_ok arr l 1 c H) as (d & E & D); [now rewrite Hl|].
  destruct (new_array 1) as [a|]; [|discriminate]. cbn [bind] in *. destruct (for_ 0 1 _ a) as [a'|]; [|discriminate]. cbn [bind] in *. rewrite E. cbn [bind].
  apply median_one. destruct D as [-> _]. rewrite sort_len, map_length, sort_len, Hl. reflexivity.
Qed.
End Stats.
