(** Rounding of exact rationals: std::round (half away from zero), std::floor, std::ceil are
    [qround], [Qfloor], [Qceiling]. *)
From Verif Require Import Base.
From Coq Require Export QArith Qabs Qround.
From Coq Require Import Lqa.
Open Scope Z_scope.

Definition qround (q : Q) : Z :=
  if Qle_bool 0 q then Qfloor (q + (1 # 2)) else - Qfloor (- q + (1 # 2)).

Lemma Qfloor_unique q z : (inject_Z z <= q)%Q -> (q < inject_Z (z + 1))%Q -> Qfloor q = z.
Proof.
  intros A B. pose proof (Qfloor_le q). pose proof (Qlt_floor q).
  assert (inject_Z (Qfloor q) < inject_Z (z + 1))%Q by lra.
  assert (inject_Z z < inject_Z (Qfloor q + 1))%Q by lra.
  rewrite <- Zlt_Qlt in *. lia.
Qed.

(** |round q - q| <= 1/2 *)
Lemma qround_near q : (inject_Z (qround q) - (1 # 2) <= q <= inject_Z (qround q) + (1 # 2))%Q.
Proof.
  unfold qround. destruct (Qle_bool 0 q) eqn:E.
  - pose proof (Qfloor_le (q + (1 # 2))). pose proof (Qlt_floor (q + (1 # 2))).
    rewrite inject_Z_plus in H0. change (inject_Z 1) with 1%Q in H0. split; lra.
  - pose proof (Qfloor_le (- q + (1 # 2))). pose proof (Qlt_floor (- q + (1 # 2))).
    rewrite inject_Z_plus in H0. change (inject_Z 1) with 1%Q in H0. rewrite inject_Z_opp. split; lra.
Qed.

Lemma qround_Z z : qround (inject_Z z) = z.
Proof.
  pose proof (qround_near (inject_Z z)) as [A B].
  assert (inject_Z (qround (inject_Z z)) < inject_Z (z + 1))%Q by (rewrite inject_Z_plus; change (inject_Z 1) with 1%Q; lra).
  assert (inject_Z z < inject_Z (qround (inject_Z z) + 1))%Q by (rewrite inject_Z_plus; change (inject_Z 1) with 1%Q; lra).
  rewrite <- Zlt_Qlt in *. lia.
Qed.

Lemma qround_mono a b : (a <= b)%Q -> qround a <= qround b.
Proof.
  intro H. unfold qround. destruct (Qle_bool 0 a) eqn:E1, (Qle_bool 0 b) eqn:E2.
  - apply Qfloor_resp_le. lra.
  - apply Qle_bool_iff in E1. assert (0 <= b)%Q by lra. apply Qle_bool_iff in H0. congruence.
  - assert (0 <= Qfloor (- a + (1 # 2))).
    { rewrite <- (Qfloor_Z 0). apply Qfloor_resp_le.
      destruct (Qlt_le_dec a 0); [change (inject_Z 0) with 0%Q; lra|]. apply Qle_bool_iff in q. congruence. }
    assert (0 <= Qfloor (b + (1 # 2))).
    { rewrite <- (Qfloor_Z 0). apply Qfloor_resp_le. apply Qle_bool_iff in E2. change (inject_Z 0) with 0%Q; lra. }
    lia.
  - assert (Qfloor (- b + (1 # 2)) <= Qfloor (- a + (1 # 2))) by (apply Qfloor_resp_le; lra). lia.
Qed.
