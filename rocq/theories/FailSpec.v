(** A failing call leaves the arrays alone: when a call with some contents of the input arrays (i) and output arrays (o) reports an error, the call with the
    same arguments and any other contents reports the same error and returns its outputs as they were.  So nothing was read and nothing was written. *)
From Verif Require Import Base Mem.
Definition clean {I O} (call : I -> O -> option (error * O)) : Prop :=
  forall i o e o', call i o = Some (e, o') -> e <> SUCCESS -> forall i2 o2, call i2 o2 = Some (e, o2).
