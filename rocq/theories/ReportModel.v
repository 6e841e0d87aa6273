(** What the string formatter's constructor throws for a pattern it does not understand: src/formatter/string/error.cpp with src/formatter/string.cpp:299-308,
    src/formatter/string/parser.cpp:318-325 and grammar.cpp:155-177; and what the constructor of the spin lock throws: src/spinlock.linux.hpp:12-17. *)
From Verif Require Import Base ParserModel.

(** src/formatter/string/error.hpp:13-25: the text of [std::runtime_error], the position and the text of [detail]. *)
Record parser_error := ParserError { e_what : bytes; e_position : nat; e_detail : bytes }.

(** error.cpp:8-15. *)
Definition make_error (pos : nat) (pattern reason : bytes) : parser_error :=
  ParserError (B "parser error: " ++ reason) pos
    (B "parser error: " ++ reason ++ [NL] ++ pattern ++ [NL] ++ repeat "~"%char pos ++ B "^").

(** error.cpp:29-39. *)
Definition reason (f : failure) : bytes :=
  match f with
  | Broken => B "broken parser"
  | Illformed => B "illformed pattern"
  | InvalidPlaceholder => B "invalid placeholder name (only [a-zA-Z0-9_] allowed)"
  end.

(** What leaves the constructor: nothing, an error of the parser, or another [std::runtime_error]. *)
Inductive thrown := Nothing | Parser_error (e : parser_error) | Runtime_error (what : bytes) | Assertion | Undefined_behaviour.

(** The specification a call of [next] reads from state [p], if it reads one (parser.cpp:269-272). *)
Definition spec_read (p : parser) : bytes := B "{:" ++ fst (parse_spec 1 (skipn 1 (snd (parse_name (p_rest (enter p)))))).

(** One call of [next] that did [o]: parser.cpp:318-325 has the pattern, grammar.cpp:165-167 the specification; grammar.cpp:176. *)
Definition throws (pattern : bytes) (p : parser) (o : outcome) : thrown :=
  match o with
  | OToken _ | OEnd => Nothing
  | OError f k => Parser_error (make_error k pattern (reason f))
  | OThrown (Some k) => Parser_error (make_error k (spec_read p) (B "malformed input pattern"))
  | OThrown None => Runtime_error (B "NIY")
  | OAssert => Assertion
  | OUndefined => Undefined_behaviour
  end.

(** src/formatter/string.cpp:299-308, 317-319: the first call of [next] that throws ends the constructor. *)
Fixpoint first_thrown (ld : bytes -> bool) (nd : bool) (fuel : nat) (pattern : bytes) (p : parser) : option thrown :=
  match fuel with
  | O => None
  | S k =>
      let '(o, p') := next ld nd p in
      match o with
      | OToken _ => first_thrown ld nd k pattern p'
      | _ => Some (throws pattern p o)
      end
  end.
Definition construct (ld : bytes -> bool) (nd : bool) (pattern : bytes) : option thrown :=
  first_thrown ld nd (S (length pattern)) pattern (parser_new pattern).

(** src/spinlock.linux.hpp:12-17: what [pthread_spin_init] returned, and what is in [errno] then - it is not set by that function. *)
Inductive lock_made := Locked_ok | System_error (code : Z).
Definition spinlock (rc errno : Z) : lock_made := if Z.eqb rc 0 then Locked_ok else System_error errno.
