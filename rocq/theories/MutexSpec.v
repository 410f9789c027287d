(** What a mutex is for. *)
From Verif Require Import Base Mutex.

Section Spec.
Context {S L : Type} (prog : L -> action S L).
(** [inside] says at which places of its program a thread is between locking and unlocking.  A client uses the mutex as intended: it locks outside, unlocks and accesses what is
    shared inside, and does not return inside. *)
Definition bracketed (inside : L -> bool) : Prop := forall l,
  match prog l with
  | Lock l' => inside l = false /\ inside l' = true
  | Unlock l' => inside l = true /\ inside l' = false
  | Access f => inside l = true /\ forall x, inside (snd (f x)) = true
  | Private l' => inside l' = inside l
  | Return => inside l = false
  end.
(** Running a thread alone, from l to l', between its locks and unlocks *)
Inductive alone : S -> L -> S -> L -> Prop :=
| a_none x l : alone x l x l
| a_access x l x1 l1 f x2 l2 : alone x l x1 l1 -> prog l1 = Access f -> f x1 = (x2, l2) -> alone x l x2 l2
| a_private x l x1 l1 l2 : alone x l x1 l1 -> prog l1 = Private l2 -> alone x l x1 l2.
(** Executions without a mutex in which nothing happens while a thread is between lock and unlock *)
Inductive serial (n : Z) (x0 : S) (f0 : Z -> L) : S -> (Z -> L) -> Prop :=
| r_start : serial n x0 f0 x0 f0
| r_section x f t l1 x' l2 l3 : serial n x0 f0 x f -> 0 <= t < n -> prog (f t) = Lock l1 -> alone x l1 x' l2 -> prog l2 = Unlock l3 -> serial n x0 f0 x' (set_local f t l3)
| r_private x f t l : serial n x0 f0 x f -> 0 <= t < n -> prog (f t) = Private l -> serial n x0 f0 x (set_local f t l).
(** All threads are outside *)
Definition all_outside (inside : L -> bool) (n : Z) (f : Z -> L) : Prop := forall t, 0 <= t < n -> inside (f t) = false.
End Spec.
