From Coq Require Import String Ascii.
From Verif Require Import Base BaseFacts Logging LoggingSpec.
Local Open Scope string_scope.
Local Open Scope Z_scope.

Lemma strncmp_prefix b : forall a, strncmp_eq a b (String.length b) = true <-> exists r, a = b ++ r.
Proof.
  induction b as [|y b IH]; intro a; cbn [strncmp_eq String.length]; [split; [intros _; now exists a|reflexivity]|].
  destruct a as [|x a]; [split; [discriminate|intros [r E]; discriminate]|].
  destruct (Ascii.eqb_spec x y) as [->|N].
  - rewrite IH. split; intros [r E]; exists r; [now rewrite E|]. cbn in E. congruence.
  - split; [discriminate|]. intros [r E]. cbn in E. congruence.
Qed.
(** lookup decides what is asked; UNDEF when nothing is *)
Lemma lookup_asks e l : asks e l <-> lookup e = l /\ l <> 0.
Proof.
  destruct e as [e|].
  2:{ split; [intro A; inversion A; split; [reflexivity|lia]|]. intros [<- _]. constructor. }
  assert (A : asks (Some e) l <-> exists n r, In (n, l) names /\ e = n ++ r).
  { split; [intro H; inversion H; subst; eauto|]. intros (n & r & I & ->). now constructor. }
  rewrite A. clear A. unfold lookup.
  pose proof (strncmp_prefix "debug" e) as D1. pose proof (strncmp_prefix "DEBUG" e) as D2. pose proof (strncmp_prefix "info" e) as I1. pose proof (strncmp_prefix "INFO" e) as I2.
  pose proof (strncmp_prefix "warn" e) as W1. pose proof (strncmp_prefix "WARN" e) as W2. pose proof (strncmp_prefix "err" e) as E1. pose proof (strncmp_prefix "ERR" e) as E2.
  pose proof (strncmp_prefix "crit" e) as C1. pose proof (strncmp_prefix "CRIT" e) as C2. cbn [String.length] in *.
  unfold LEVEL_UNDEF, LEVEL_DEBUG, LEVEL_INFO, LEVEL_WARNING, LEVEL_ERROR, LEVEL_CRITICAL.
  split.
  - intros (n & r & I & E). cbn [names In] in I. split; [|intuition (congruence || lia)].
    repeat (destruct I as [I|I]; [injection I as <- <-; subst e; reflexivity|]). destruct I.
  - intros [L N].
    repeat match type of L with (if ?b || ?c then _ else _) = _ => destruct b eqn:?; [|destruct c eqn:?]; cbn [orb] in L end; subst l; try lia;
    match goal with H : strncmp_eq e ?s _ = true |- _ => exists s; cut (exists r, e = s ++ r); [intros [r Hr]; exists r; split; [cbn; tauto|exact Hr]|tauto] end.
Qed.
Lemma asks_dec e : (exists l, asks e l) \/ (forall l, ~ asks e l).
Proof.
  destruct (Z.eq_dec (lookup e) 0) as [E|N]; [right|left].
  - intros l A. apply lookup_asks in A. lia.
  - exists (lookup e). now apply lookup_asks.
Qed.
Lemma asks_range e l : asks e l -> 1 <= l <= 5.
Proof. intro A. inversion A as [|n l' r I]; subst; [lia|]. cbn [names In] in I. intuition (match goal with H : (_, _) = (_, _) |- _ => injection H as <- <- end; lia). Qed.
Lemma asks_det e l l' : asks e l -> asks e l' -> l = l'.
Proof. rewrite !lookup_asks. lia. Qed.
