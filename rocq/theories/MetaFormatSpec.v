(** What precompiled patterns and the facade should do. *)
From Verif Require Import Base FmtModel FmtSpec MetaFormatModel.
Open Scope N_scope.

(** A value its C++ type can have. *)
Definition proper (v : value) : Prop :=
  match v with
  | VBool _ | VChar _ | VDouble _ | VString _ => True
  | VSchar z => (- 2 ^ 7 <= z < 2 ^ 7)%Z
  | VUchar n => n < 2 ^ 8
  | VShort z => (- 2 ^ 15 <= z < 2 ^ 15)%Z
  | VUshort n => n < 2 ^ 16
  | VInt z => (- 2 ^ 31 <= z < 2 ^ 31)%Z
  | VUint n => n < 2 ^ 32
  | VLong z | VLongLong z => (- 2 ^ 63 <= z < 2 ^ 63)%Z
  | VUlong n | VUlongLong n => n < 2 ^ 64
  | VCString (Some m) => In NUL m
  | VCString None => False
  | VRef m size => size <= length_N m
  end.

(** The values the two formatters write differently: booleans, characters of explicit sign, empty references with something else than a NUL behind them. *)
Definition treated_differently (v : value) : Prop :=
  match v with
  | VBool _ | VSchar _ | VUchar _ => True
  | VRef m size => size = 0 /\ hd_error m <> Some NUL
  | _ => False
  end.

(** Patterns the compile-time parser is meant for: placeholders without specification. *)
Definition bare (p : piece) : Prop := match p with Next (Some _) => False | _ => True end.

(** How many braces the text of a pattern contains. *)
Definition is_brace (c : ascii) : bool := Ascii.eqb c LBRACE || Ascii.eqb c RBRACE.
Fixpoint braces (ps : list piece) : nat :=
  match ps with
  | [] => 0
  | Text s :: ps' => length (filter is_brace s) + braces ps'
  | Next _ :: ps' => braces ps'
  end.
