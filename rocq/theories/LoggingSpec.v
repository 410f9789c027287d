(** What the value of SKA_SDP_FUNC_LOG_LEVEL asks for *)
From Coq Require Import String.
From Verif Require Import Base.
Local Open Scope string_scope.
Local Open Scope Z_scope.

(** The five names, in either case; what follows the name is ignored.  None: the value is not one of them. *)
Definition names : list (string * Z) :=
  [("debug", 1); ("DEBUG", 1); ("info", 2); ("INFO", 2); ("warn", 3); ("WARN", 3); ("err", 4); ("ERR", 4); ("crit", 5); ("CRIT", 5)].
Inductive asks : option string -> Z -> Prop :=
| asks_unset : asks None 2
| asks_name name level rest : In (name, level) names -> asks (Some (name ++ rest)) level.
(** The first environment of a sequence that asks for a level decides *)
Inductive decided : list (option string) -> Z -> Prop :=
| decided_now e es level : asks e level -> decided (e :: es) level
| decided_later e es level : (forall l, ~ asks e l) -> decided es level -> decided (e :: es) level.
