(** What a call on GPU memory should do, given what the same call does in CPU memory. *)
From Verif Require Import Base.
Open Scope Z_scope.

(** CPU: status [sc] and result [rc]; GPU: status [st'] and result [r].  [fits]: the work fits in a grid of threads; [out]: the array before the call.
    Errors are the same, and leave the array alone; without an error the result is the same, if the work fits, and an error is reported otherwise. *)
Definition agrees {A} (fits : Prop) (out : nd A) (sc : error) (rc : nd A) (st' : error) (r : nd A) : Prop :=
  (sc <> SUCCESS -> st' = sc /\ r = out) /\ (sc = SUCCESS -> ~ fits -> st' = ERR_RUNTIME /\ r = out) /\ (sc = SUCCESS -> fits -> st' = SUCCESS /\ nd_eq r rc).
