(** The norm of a created plan is positive *)
From Coq Require Import QArith Qreals Reals Lia Lra.
From Verif Require Import Base BaseFacts Sum Clamp Cplx Legendre EsKernels EsKernelsSpec EsKernelsFacts EsScreenFacts2 EsParams EsParamsSpec EsParamsFacts EsPipe EsPipeSpec EsPlan EsPlanSpec EsPlanFacts QuadratureFacts2.
Open Scope Z_scope.

Lemma made_support rows chan image px epsilon dbl mn mx do_w P : made rows chan image px epsilon dbl mn mx do_w P -> 4 <= p_support P <= 16.
Proof. intros (r & xp & _ & I & _ & _ & _ & _ & _ & _ & -> & _). now apply (fine r I). Qed.

Lemma rsumf_pos lo hi f : lo < hi -> (forall i, lo <= i < hi -> (0 < f i)%R) -> (0 < rsumf lo hi f)%R.
Proof.
  intros H P. assert (G : forall m, 0 <= m -> lo + m + 1 <= hi -> (0 < rsumf lo (lo + m + 1) f)%R).
  { apply (natlike_ind (fun m => lo + m + 1 <= hi -> (0 < rsumf lo (lo + m + 1) f)%R)).
    - intro Q. rewrite rsumf_snoc by lia. rewrite Z.add_0_r. rewrite (rsumf_none lo lo) by (intros; lia). pose proof (P lo ltac:(lia)). lra.
    - intros m Hm IH Q. replace (lo + Z.succ m + 1) with ((lo + m + 1) + 1) by lia. rewrite rsumf_snoc by lia. pose proof (P (lo + m + 1) ltac:(lia)). specialize (IH ltac:(lia)). lra. }
  replace hi with (lo + (hi - lo - 1) + 1) by lia. apply G; lia.
Qed.

Section Plan.
Context (rows chan image : Z) (px : R) (epsilon : Q) (dbl : bool) (mn mx : R) (do_w : bool) (P : es_plan) (M : made rows chan image px epsilon dbl mn mx do_w P).
Lemma entry_ok i : 0 <= i < host_points (p_support P) -> (0 < elem (p_qn P) [i] < 1 /\ 0 < elem (p_qw P) [i] /\ 0 < elem (p_qk P) [i])%R.
Proof.
  intro Hi. pose proof (made_support _ _ _ _ _ _ _ _ _ _ M) as Hs. destruct M as (ro & xp & _ & _ & _ & _ & _ & _ & _ & _ & _ & _ & _ & _ & _ & _ & _ & _ & _ & En & _).
  destruct (nodes (p_support P) (1 / 10 ^ 16) (fun i => elem (p_qn P) [i]) (fun i => elem (p_qw P) [i]) Hs ltac:(cbn [pow]; lra)) with (i := i) as [[N W] _]; [|exact Hi|].
  - intros j Hj. exact (proj1 (En j Hj)).
  - split; [exact N|]. split; [exact W|]. rewrite (proj2 (En i Hi)). apply exp_pos.
Qed.
Lemma norm_pos : (0 < p_norm P)%R.
Proof.
  pose proof (made_support _ _ _ _ _ _ _ _ _ _ M) as Hs. pose proof (points _ Hs). pose proof entry_ok as En. destruct M as (ro & xp & _ & _ & _ & _ & _ & _ & _ & _ & _ & _ & _ & _ & _ & _ & _ & _ & _ & _ & _ & -> & _).
  apply Rmult_lt_0_compat; [|apply IZR_lt; lia]. apply rsumf_pos; [lia|]. intros i Hi. destruct (En i Hi) as (_ & W & K). apply Rmult_lt_0_compat; assumption.
Qed.
End Plan.
