(** Syslog sink (src/sink/syslog.cpp), severity filter (src/filter/severity.cpp), blocking handler
    (src/handler/blocking.cpp). *)
From Verif Require Import Base ConsoleModel.

(** ** Syslog *)

(** [LOG_ERR] of <syslog.h>. *)
Definition LOG_ERR : Z := 3.

(** src/sink/syslog.cpp:50-57: the conversion of the severity ([int]) to [size_t], the bounds check, the lookup. *)
Definition syslog_priority (priorities : list Z) (severity : Z) : Z :=
  let index := Z.to_N (severity mod 2 ^ 64)%Z in
  if (index <? N.of_nat (length priorities))%N then nth (N.to_nat index) priorities 0%Z else LOG_ERR.

(** Conversion of an integer to [int]. *)
Definition to_int (z : Z) : Z := ((z + 2 ^ 31) mod 2 ^ 32 - 2 ^ 31)%Z.

(** src/sink/syslog.cpp:72-79, the factory: [vector<int>::emplace_back] of each [to_sint64()]. *)
Definition config_priorities (values : list Z) : list Z := map to_int values.

Fixpoint until_nul (s : bytes) : bytes :=
  match s with [] => [] | c :: s' => if Ascii.eqb c NUL then [] else c :: until_nul s' end.

(** src/sink/syslog.cpp:59, the text printf makes of ["%.*s"]: at most so many bytes, up to a NUL; a negative
    precision is as if omitted, so without a NUL it reads past the view ([None]: undefined). *)
Definition syslog_text (formatted : bytes) : option bytes :=
  let precision := to_int (Z.of_nat (length formatted)) in
  if (precision <? 0)%Z
  then if existsb (Ascii.eqb NUL) formatted then Some (until_nul formatted) else None
  else Some (until_nul (firstn (Z.to_nat precision) formatted)).

(** ** Severity filter *)

(** src/filter/severity.cpp:22-28. *)
Definition severity_filter (threshold severity : Z) : action :=
  if (threshold <=? severity)%Z then Neutral else Deny.

(** src/filter/severity.cpp:37-45, the factory: [None] is std::invalid_argument. *)
Definition severity_factory (threshold : option Z) : option (Z -> action) :=
  match threshold with Some t => Some (severity_filter t) | None => None end.

(** src/filter/zen.hpp:11-13. *)
Definition zen_filter (severity : Z) : action := Neutral.

(** ** Blocking handler *)

Inductive hevent := HFormat | HEmit (sink : nat) (text : bytes).

(** src/handler/blocking.cpp:31-34: the loop over the sinks, numbered from [i]; each emit throws or not. *)
Fixpoint emit_all (i : nat) (text : bytes) (sinks : list bool) : list hevent * bool :=
  match sinks with
  | [] => ([], false)
  | throws :: sinks' =>
      if throws then ([HEmit i text], true)
      else let '(evs, t) := emit_all (S i) text sinks' in (HEmit i text :: evs, t)
  end.

(** src/handler/blocking.cpp:26-35 [handle]: the formatter's text ([None]: it throws), then the sinks. Returns
    whether an exception leaves the handler. *)
Definition handle (formatter : option bytes) (sinks : list bool) : list hevent * bool :=
  match formatter with
  | None => ([HFormat], true)
  | Some text => let '(evs, t) := emit_all 0 text sinks in (HFormat :: evs, t)
  end.
