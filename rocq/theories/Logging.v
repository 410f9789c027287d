(** Model of utility/sdp_logging.c: the level filter of sdp_log_message.
    A call is given the value of the environment variable at that moment; the result is what it printed: the level name of the message, or nothing.
    Not modelled: the time stamp, gmtime returning NULL, the text itself, and calls racing on the static variable. *)
From Coq Require Import String Ascii.
From Verif Require Import Base.
Local Open Scope string_scope.
Local Open Scope Z_scope.

(** enum sdp_LogLevel, sdp_logging.h 72-80 *)
Definition LEVEL_UNDEF := 0.
Definition LEVEL_DEBUG := 1.
Definition LEVEL_INFO := 2.
Definition LEVEL_WARNING := 3.
Definition LEVEL_ERROR := 4.
Definition LEVEL_CRITICAL := 5.

(** !strncmp(a, b, n): the strings agree up to n characters or the end of both *)
Fixpoint strncmp_eq (a b : string) (n : nat) {struct n} : bool :=
  match n with
  | O => true
  | S n =>
    match a, b with
    | EmptyString, EmptyString => true
    | String x a, String y b => if Ascii.eqb x y then strncmp_eq a b n else false
    | _, _ => false
    end
  end.

(** sdp_logging.c lines 25-54: the value of log_filter after the look-up *)
Definition lookup (env : option string) : Z :=
  match env with
  | Some env =>
      if strncmp_eq env "debug" 5 || strncmp_eq env "DEBUG" 5 then LEVEL_DEBUG
      else if strncmp_eq env "info" 4 || strncmp_eq env "INFO" 4 then LEVEL_INFO
      else if strncmp_eq env "warn" 4 || strncmp_eq env "WARN" 4 then LEVEL_WARNING
      else if strncmp_eq env "err" 3 || strncmp_eq env "ERR" 3 then LEVEL_ERROR
      else if strncmp_eq env "crit" 4 || strncmp_eq env "CRIT" 4 then LEVEL_CRITICAL
      else LEVEL_UNDEF
  | None => LEVEL_INFO
  end.

(** Lines 76-101: the name of a level *)
Definition level_str (level : Z) : string :=
  if level =? LEVEL_UNDEF then "UNDEF"
  else if level =? LEVEL_DEBUG then "DEBUG"
  else if level =? LEVEL_INFO then "INFO"
  else if level =? LEVEL_WARNING then "WARNING"
  else if level =? LEVEL_ERROR then "ERROR"
  else if level =? LEVEL_CRITICAL then "CRITICAL"
  else "UNKNOWN".

(** sdp_log_message, lines 14-113: the static log_filter (line 11) is the state *)
Definition log_message (log_filter : Z) (env : option string) (level : Z) : Z * option string :=
  let log_filter := if log_filter =? LEVEL_UNDEF then lookup env else log_filter in
  if level <? log_filter then (log_filter, None) else (log_filter, Some (level_str level)).

(** A sequence of calls, from some state; each with the environment at that time *)
Fixpoint log_calls (log_filter : Z) (calls : list (option string * Z)) : list (option string) :=
  match calls with
  | [] => []
  | (env, level) :: calls => let '(log_filter, out) := log_message log_filter env level in out :: log_calls log_filter calls
  end.
