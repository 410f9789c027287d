(** Commutative rings (real or complex numbers in exact arithmetic, integers, ...) and sums over
    integer ranges in them.  Theorems about linear operations are stated for every commutative
    ring and so hold for real and for complex data. *)
From Verif Require Import Base BaseFacts Sum.
From Coq Require Import Permutation.
From Coq Require Export Ring_theory Ring.

Record cring := mk_cring {
  car :> Type;
  r0 : car; r1 : car;
  radd : car -> car -> car; rmul : car -> car -> car; rsub : car -> car -> car; ropp : car -> car;
  rth : ring_theory r0 r1 radd rmul rsub ropp eq }.
Arguments r0 {_}. Arguments r1 {_}. Arguments radd {_}. Arguments rmul {_}. Arguments rsub {_}. Arguments ropp {_}.

Declare Scope cr_scope.
Delimit Scope cr_scope with cr.
Infix "+" := radd : cr_scope.
Infix "*" := rmul : cr_scope.
Infix "-" := rsub : cr_scope.
Notation "- x" := (ropp x) : cr_scope.

(** The sum of f i for lo <= i < hi. *)
Notation rsum := (sum radd r0).

Definition Zring : cring := mk_cring Z 0 1 Z.add Z.mul Z.sub Z.opp InitialRing.Zth.

Fixpoint rpow {A : cring} (x : A) (n : nat) : A :=
  match n with O => r1 | S k => (x * rpow x k)%cr end.

Section Facts.
  Context {A : cring}.
  Add Ring Aring : (rth A).
  Local Open Scope cr_scope.

  Lemma Rcm : cmonoid (@radd A) r0.
  Proof. split; intros; ring. Qed.

  Lemma rsum_mul_l (c : A) lo hi f : c * rsum lo hi f = rsum lo hi (fun i => c * f i).
  Proof. unfold sum. induction (zrange lo hi) as [|x l IH]; cbn; [ring|]. rewrite <- IH. ring. Qed.
  Lemma rsum_mul_r (c : A) lo hi f : rsum lo hi f * c = rsum lo hi (fun i => f i * c).
  Proof. unfold sum. induction (zrange lo hi) as [|x l IH]; cbn; [ring|]. rewrite <- IH. ring. Qed.
  Lemma rsum_add lo hi (f g : Z -> A) : rsum lo hi (fun i => f i + g i) = rsum lo hi f + rsum lo hi g.
  Proof. apply (sum_op _ _ Rcm). Qed.
  Lemma rsum_sub lo hi (f g : Z -> A) : rsum lo hi (fun i => f i - g i) = rsum lo hi f - rsum lo hi g.
  Proof. unfold sum. induction (zrange lo hi) as [|x l IH]; cbn; [ring|]. rewrite IH. ring. Qed.
  Lemma rsum_opp lo hi (f : Z -> A) : rsum lo hi (fun i => - f i) = - rsum lo hi f.
  Proof. unfold sum. induction (zrange lo hi) as [|x l IH]; cbn; [ring|]. rewrite IH. ring. Qed.
  Lemma rsum_zero lo hi : rsum lo hi (fun _ => @r0 A) = r0.
  Proof. apply (sum_unit _ _ Rcm). Qed.
  Lemma rsum_swap lo hi lo' hi' (f : Z -> Z -> A) :
    rsum lo hi (fun i => rsum lo' hi' (fun j => f i j)) = rsum lo' hi' (fun j => rsum lo hi (fun i => f i j)).
  Proof. apply (sum_swap _ _ Rcm). Qed.
  Lemma rsum_one lo hi k (f : Z -> A) : (lo <= k < hi)%Z -> (forall i, (lo <= i < hi)%Z -> i <> k -> f i = r0) ->
    rsum lo hi f = f k.
  Proof. apply (sum_one _ _ Rcm). Qed.
  Lemma rsum_none lo hi (f : Z -> A) : (forall i, (lo <= i < hi)%Z -> f i = r0) -> rsum lo hi f = r0.
  Proof. apply (sum_none _ _ Rcm). Qed.
  Lemma rsum_ext lo hi (f g : Z -> A) : (forall i, (lo <= i < hi)%Z -> f i = g i) -> rsum lo hi f = rsum lo hi g.
  Proof. apply sum_ext. Qed.
  Lemma rsum_snoc lo hi (f : Z -> A) : (lo <= hi)%Z -> rsum lo (hi + 1)%Z f = rsum lo hi f + f hi.
  Proof. apply (sum_snoc _ _ Rcm). Qed.

  (** A loop accumulating into a variable computes a sum. *)
  Lemma for_rsum lo hi (f : Z -> A) a : for_ lo hi (fun i acc => Some (acc + f i)) a = Some (a + rsum lo hi f).
  Proof. apply (for_sum _ _ Rcm). Qed.

  Lemma rpow_add (x : A) m n : rpow x (m + n) = rpow x m * rpow x n.
  Proof. induction m as [|m IH]; cbn; [ring|]. rewrite IH. ring. Qed.
  Lemma rpow_mul (x : A) m n : rpow x (m * n) = rpow (rpow x m) n.
  Proof.
    induction n as [|n IH]; [now rewrite Nat.mul_0_r|].
    rewrite Nat.mul_succ_r, Nat.add_comm, rpow_add, IH. reflexivity.
  Qed.
  Lemma rpow_1 n : rpow (@r1 A) n = r1.
  Proof. induction n as [|n IH]; cbn; [reflexivity|]. rewrite IH. ring. Qed.
  Lemma rpow_mulb (x y : A) n : rpow (x * y) n = rpow x n * rpow y n.
  Proof. induction n as [|n IH]; cbn; [ring|]. rewrite IH. ring. Qed.
End Facts.
