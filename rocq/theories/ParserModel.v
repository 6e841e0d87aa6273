(** Model of the pattern parser of the string formatter:
    src/formatter/string/{parser.hpp,parser.cpp,token.hpp,token.cpp,grammar.cpp,grammar.inl.hpp}. *)
From Verif Require Import Base Decimal.

(** ** Characters *)

(** [std::isdigit], and [qi::digit]: '0'..'9'. *)
Definition is_digit (c : ascii) : bool := (48 <=? N_of_ascii c)%N && (N_of_ascii c <=? 57)%N.

(** [std::isalpha] for a byte below 128 (every locale of the platforms agrees there). *)
Definition is_alpha (c : ascii) : bool :=
  ((65 <=? N_of_ascii c)%N && (N_of_ascii c <=? 90)%N) || ((97 <=? N_of_ascii c)%N && (N_of_ascii c <=? 122)%N).

(** parser.cpp:265: [std::isalpha(ch)] of a [char]: a byte of 128 and more is a negative [int] on the platforms where
    [char] is signed, for which the function is not defined. *)
Definition is_high (c : ascii) : bool := (128 <=? N_of_ascii c)%N.

(** parser.cpp:265: the characters of a placeholder's name. *)
Definition name_char (c : ascii) : bool :=
  is_alpha c || is_digit c || Ascii.eqb c "_" || Ascii.eqb c ".".

(** [boost::starts_with] as used by [exact] (parser.cpp:306-316) and [qi::lit] on a string. *)
Fixpoint starts_with (p s : bytes) : bool :=
  match p, s with
  | [], _ => true
  | x :: p', y :: s' => Ascii.eqb x y && starts_with p' s'
  | _ :: _, [] => false
  end.

(** ** Tokens (token.hpp:25-177) *)

(** token.hpp:51-55: the alternatives of [otherwise]. A double is kept as the text it was read from. *)
Inductive default := DInt (n : Z) | DDouble (text : bytes) | DString (text : bytes).

(** token.hpp:132-137: the parts of the pattern of [leftover_t]; [format] of an attribute part (token.cpp:74-84). *)
Inductive subtoken := SLiteral (text : bytes) | SName (format : bytes) | SValue (format : bytes).

(** token.hpp:132-147. [prefix] and [suffix] are never set by the parser. *)
Record leftover := Leftover { lo_spec : bytes; lo_separator : bytes; lo_tokens : list subtoken }.

(** token.hpp:162-177. [prefix] and [suffix] of an optional placeholder (token.hpp:48-49) are never set by the parser;
    the date generator made from [pattern] is modelled elsewhere. *)
Inductive token :=
  | TLiteral (text : bytes)
  | TRequired (name spec : bytes)
  | TOptional (name spec : bytes) (otherwise : default)
  | TLeftover (l : leftover)
  | TProcessId (spec : bytes)
  | TProcessName (spec : bytes)
  | TThreadId (spec : bytes)
  | TThreadHex (spec : bytes)
  | TThreadName (spec : bytes)
  | TMessage (spec : bytes)
  | TSeverityNum (spec : bytes)
  | TSeverityUser (spec : bytes)
  | TTimestampNum (spec : bytes)
  | TTimestampUser (pattern spec : bytes) (gmtime : bool).

(** token.cpp:74-84. *)
Definition attribute_format (spec : bytes) : bytes := B "{:" ++ spec ++ B "}".

(** token.cpp:86-90. *)
Definition default_leftover : leftover :=
  Leftover (B "{:}") (B ", ") [SName (attribute_format []); SLiteral (B ": "); SValue (attribute_format [])].

(** token.cpp:46. *)
Definition default_time_pattern : bytes := B "%Y-%m-%d %H:%M:%S.%f".

(** ** The Spirit grammars (grammar.cpp). A parser takes the input and returns its attribute and the rest. *)

(** [*(qi::char_ - (qi::lit(stop) >> !qi::lit('}'))) >> stop]: the text up to the first [stop] not followed by a closing
    brace. The list operator around it ([% '}']) cannot repeat: the next character is not a closing brace. *)
Fixpoint text_until (stop : bytes) (s : bytes) : option (bytes * bytes) :=
  if starts_with stop s && negb (starts_with (B "}") (skipn (length stop) s)) then Some ([], skipn (length stop) s)
  else match s with
       | [] => None
       | c :: s' => match text_until stop s' with
                    | Some (t, r) => Some (c :: t, r)
                    | None => None
                    end
       end.

(** [qi::lit(c)] for one character, and [-qi::char_("...")]. *)
Definition eat (c : ascii) (s : bytes) : option bytes :=
  match s with x :: s' => if Ascii.eqb x c then Some s' else None | [] => None end.
Definition maybe (p : ascii -> bool) (s : bytes) : bytes * bytes :=
  match s with x :: s' => if p x then ([x], s') else ([], s) | [] => ([], []) end.

(** [*qi::digit]; [-width] with [width = +digit] reads the same. *)
Fixpoint digits (s : bytes) : bytes * bytes :=
  match s with
  | x :: s' => if is_digit x then let '(d, r) := digits s' in (x :: d, r) else ([], s)
  | [] => ([], [])
  end.

Definition is_align (c : ascii) : bool := Ascii.eqb c "<" || Ascii.eqb c "^" || Ascii.eqb c ">".

(** grammar.cpp:130-133, 149-152: [spec %= -align >> -width >> type] with the allowed types. *)
Definition short_spec (types : ascii -> bool) (s : bytes) : option (bytes * bytes) :=
  let '(a, s1) := maybe is_align s in
  let '(w, s2) := digits s1 in
  match s2 with
  | t :: s3 => if types t then Some (a ++ w ++ [t], s3) else None
  | [] => None
  end.

(** grammar.cpp:82-89: [spec] of the optional placeholder; every part is optional. A character is a fill only before an
    alignment; a precision needs a digit after the point. *)
Definition long_spec (s : bytes) : bytes * bytes :=
  let '(f, s1) := match s with
                  | c :: s' => if match s' with a :: _ => is_align a | [] => false end then ([c], s') else ([], s)
                  | [] => ([], []) end in
  let '(a, s2) := maybe is_align s1 in
  let '(h, s3) := maybe (Ascii.eqb "#") s2 in
  let '(z, s4) := maybe (Ascii.eqb "0") s3 in
  let '(w, s5) := digits s4 in
  let '(p, s6) := match s5 with
                  | c :: s' => if Ascii.eqb c "." then match digits s' with ([], _) => ([], s5) | (d, r) => (c :: d, r) end
                               else ([], s5)
                  | [] => ([], []) end in
  let '(t, s7) := maybe (fun c => Ascii.eqb c "s" || Ascii.eqb c "d" || Ascii.eqb c "f" || Ascii.eqb c "x") s6 in
  (f ++ a ++ h ++ z ++ w ++ p ++ t, s7).

(** grammar.cpp:77-81: [parse<optional_grammar_t>] on a specification that starts with "{:" (parser.cpp:187), so that the
    alternative "{}" does not arise. [None]: an exception, which the caller catches. *)
Definition parse_otherwise (s : bytes) : option (bytes * bytes) :=
  match eat "{" s with
  | None => None
  | Some s1 =>
      match eat ":" s1 with
      | None => None
      | Some s2 =>
          match eat "{" s2 with
          | None => None
          | Some s3 =>
              match text_until (B ":default}") s3 with
              | None => None
              | Some (d, s4) =>
                  let '(sp, s5) := long_spec s4 in
                  match eat "}" s5 with Some [] => Some (d, sp) | _ => None end
              end
          end
      end
  end.

(** The value of a run of digits. *)
Definition digits_value (s : bytes) : N := fold_left (fun v c => (v * 10 + (N_of_ascii c - 48))%N) s 0%N.

(** [boost::lexical_cast<std::int64_t>]: an optional sign and digits, in range. (The classic locale: no grouping.) *)
Definition lexical_int (s : bytes) : option Z :=
  let '(neg, d) := match s with
                   | c :: s' => if Ascii.eqb c "-" then (true, s') else if Ascii.eqb c "+" then (false, s') else (false, s)
                   | [] => (false, []) end in
  match d with
  | [] => None
  | _ => if forallb is_digit d then
           let v := Z.of_N (digits_value d) in
           if neg then (if (v <=? 2 ^ 63)%Z then Some (- v)%Z else None)
           else (if (v <? 2 ^ 63)%Z then Some v else None)
         else None
  end.

Section Parser.
(** Whether [boost::lexical_cast<double>] accepts a text; not modelled further. *)
Variable lexical_double : bytes -> bool.
(** Whether the library is compiled with NDEBUG, which removes [BOOST_ASSERT]. *)
Variable ndebug : bool.

(** grammar.cpp:189-207. *)
Definition parse_optional (name spec : bytes) : option token :=
  match parse_otherwise spec with
  | None => None
  | Some (d, sp) =>
      Some (TOptional name (B "{:" ++ sp ++ B "}")
             (match lexical_int d with
              | Some n => DInt n
              | None => if lexical_double d then DDouble d else DString d
              end))
  end.

(** grammar.cpp:128-129: the extensions. *)
Definition extension (stop : bytes) (s : bytes) : option (bytes * bytes) :=
  match eat "{" s with Some s1 => text_until stop s1 | None => None end.

(** grammar.cpp:126: [-(pattern ^ separator)]: at each step the pattern is tried before the separator; each at most
    once. *)
Definition extensions (s : bytes) : (option bytes * option bytes) * bytes :=
  match extension (B ":p}") s with
  | Some (p, s1) =>
      match extension (B ":s}") s1 with
      | Some (q, s2) => ((Some p, Some q), s2)
      | None => ((Some p, None), s1)
      end
  | None =>
      match extension (B ":s}") s with
      | Some (q, s1) =>
          match extension (B ":p}") s1 with
          | Some (p, s2) => ((Some p, Some q), s2)
          | None => ((None, Some q), s1)
          end
      | None => ((None, None), s)
      end
  end.

(** grammar.cpp:124-133, 181-183: [parse<grammar_t>] on a specification that starts with "{:". *)
Definition parse_grammar (s : bytes) : option ((option bytes * option bytes) * bytes) :=
  match eat "{" s with
  | None => None
  | Some s1 =>
      match eat ":" s1 with
      | None => None
      | Some s2 =>
          let '(e, s3) := extensions s2 in
          match short_spec (Ascii.eqb "s") s3 with
          | None => None
          | Some (sp, s4) => match eat "}" s4 with Some [] => Some (e, sp) | _ => None end
          end
      end
  end.

(** grammar.cpp:140-141: [qi::lit("{name") >> -(qi::lit(':') >> spec) >> '}'] and the same for "{value". *)
Definition sub_placeholder (word : bytes) (s : bytes) : option (bytes * bytes) :=
  if starts_with word s then
    let s1 := skipn (length word) s in
    let '(sp, s2) := match eat ":" s1 with
                     | Some s' => match short_spec (fun c => Ascii.eqb c "s" || Ascii.eqb c "d") s' with
                                  | Some (sp, r) => (sp, r)
                                  | None => ([], s1)
                                  end
                     | None => ([], s1)
                     end in
    match eat "}" s2 with Some r => Some (sp, r) | None => None end
  else None.

(** grammar.cpp:142-148: a run of characters other than braces and of doubled braces. *)
Fixpoint sub_literal (s : bytes) : bytes * bytes :=
  match s with
  | [] => ([], [])
  | c :: s1 =>
      if Ascii.eqb c LBRACE || Ascii.eqb c RBRACE then
        match s1 with
        | c' :: s2 => if Ascii.eqb c c' then let '(t, r) := sub_literal s2 in (c :: t, r) else ([], s)
        | [] => ([], s)
        end
      else let '(t, r) := sub_literal s1 in (c :: t, r)
  end.

(** grammar.cpp:139: [*(name | value | lit) >> qi::eoi], [None] when input is left over (grammar.cpp:175-176). Every round
    consumes a character, so [length s] rounds suffice: see [sub_parse_fuel] in the proofs. *)
Fixpoint sub_parse (fuel : nat) (s : bytes) : option (list subtoken) :=
  match s with
  | [] => Some []
  | _ :: _ =>
      match fuel with
      | O => None
      | S k =>
          match sub_placeholder (B "{name") s with
          | Some (sp, r) => option_map (cons (SName (attribute_format sp))) (sub_parse k r)
          | None =>
              match sub_placeholder (B "{value") s with
              | Some (sp, r) => option_map (cons (SValue (attribute_format sp))) (sub_parse k r)
              | None =>
                  match sub_literal s with
                  | ([], _) => None
                  | (t, r) => option_map (cons (SLiteral t)) (sub_parse k r)
                  end
              end
          end
      end
  end.
Definition parse_pattern (s : bytes) : option (list subtoken) := sub_parse (length s) s.

(** What one call of [next] does. [OThrown at]: an exception out of [parse_leftover], which does not go through [throw_]:
    [parser_error_t] with the end of the specification as position (grammar.cpp:165-167), or [std::runtime_error]
    (grammar.cpp:176). *)
Inductive failure := Broken | Illformed | InvalidPlaceholder.
Inductive outcome :=
  | OToken (t : token)
  | OEnd
  | OError (f : failure) (position : nat)
  | OThrown (at_ : option nat)
  | OAssert
  | OUndefined.

(** grammar.cpp:209-224. *)
Definition parse_leftover (spec : bytes) : outcome :=
  match parse_grammar spec with
  | None => OThrown (Some (length spec))
  | Some ((p, q), sp) =>
      let sep := match q with Some x => x | None => lo_separator default_leftover end in
      match p with
      | None => OToken (TLeftover (Leftover (B "{:" ++ sp ++ B "}") sep (lo_tokens default_leftover)))
      | Some pat => match parse_pattern pat with
                    | Some ts => OToken (TLeftover (Leftover (B "{:" ++ sp ++ B "}") sep ts))
                    | None => OThrown None
                    end
      end
  end.

(** ** The factories (parser.cpp:31-148) *)

(** parser.cpp:45, 62, 82, 99: [spec.at(spec.size() - 2)]; the specification has at least two characters. *)
Definition type_char (spec : bytes) : ascii := nth (length spec - 2) spec NUL.

(** parser.cpp:105: [spec[spec.size() - 2] = 's']. *)
Definition set_type (c : ascii) (spec : bytes) : bytes :=
  firstn (length spec - 2) spec ++ c :: skipn (length spec - 1) spec.

(** parser.cpp:123-133: the text up to the first closing brace, and what follows it. *)
Fixpoint until_brace (s : bytes) : bytes * bytes :=
  match s with
  | [] => ([], [])
  | c :: s' => if Ascii.eqb c RBRACE then ([], s') else let '(t, r) := until_brace s' in (c :: t, r)
  end.

(** parser.cpp:112-139, and token.cpp:52-57. *)
Definition extract (gmtime : bool) (spec : bytes) : token :=
  let s := skipn 2 spec in
  let '(pattern, rest) := match s with
                          | c :: s' => if Ascii.eqb c LBRACE then until_brace s' else ([], s)
                          | [] => ([], [])
                          end in
  TTimestampUser (match pattern with [] => default_time_pattern | _ => pattern end) (B "{:" ++ rest) gmtime.

(** parser.cpp:43, 60, 80, 97: [BOOST_ASSERT(spec.size() > 2)]. *)
Definition asserted (spec : bytes) (t : token) : outcome :=
  if negb ndebug && Nat.leb (length spec) 2 then OAssert else OToken t.

(** parser.cpp:155-160 with the [match] functions (:34-36, 42-53, 59-73, 79-90, 96-110, 145-147) and, for a name without
    factory, parser.cpp:277-281. *)
Definition token_with_spec (name spec : bytes) : outcome :=
  if bytes_eqb name (B "message") then OToken (TMessage spec)
  else if bytes_eqb name (B "process") then
    asserted spec (if Ascii.eqb (type_char spec) "s" then TProcessName spec else TProcessId spec)
  else if bytes_eqb name (B "thread") then
    asserted spec (if Ascii.eqb (type_char spec) "d" then TThreadId spec
                   else if Ascii.eqb (type_char spec) "s" then TThreadName spec
                   else TThreadHex spec)
  else if bytes_eqb name (B "severity") then
    asserted spec (if Ascii.eqb (type_char spec) "d" then TSeverityNum spec else TSeverityUser spec)
  else if bytes_eqb name (B "timestamp") then
    asserted spec (if Ascii.eqb (type_char spec) "d" then TTimestampNum spec
                   else if Ascii.eqb (type_char spec) "l" then extract false (set_type "s" spec)
                   else extract true spec)
  else if bytes_eqb name (B "...") then parse_leftover spec
  else match parse_optional name spec with
       | Some t => OToken t
       | None => OToken (TRequired name spec)
       end.

(** parser.cpp:22-25 ([initialize], the default constructors of token.cpp) and parser.cpp:291. *)
Definition token_without_spec (name : bytes) : token :=
  if bytes_eqb name (B "message") then TMessage (B "{}")
  else if bytes_eqb name (B "process") then TProcessId (B "{}")
  else if bytes_eqb name (B "thread") then TThreadHex (B "{:#x}")
  else if bytes_eqb name (B "severity") then TSeverityUser (B "{}")
  else if bytes_eqb name (B "timestamp") then TTimestampUser default_time_pattern (B "{}") true
  else if bytes_eqb name (B "...") then TLeftover default_leftover
  else TRequired name (B "{}").

(** ** The parser (parser.hpp:26-46, parser.cpp:150-325) *)

(** parser.hpp:26-35. *)
Inductive pstate := Unknown | InLiteral | InPlaceholder | IsBroken.

(** The state, the characters from [pos] to the end of the pattern, and the offset of [pos] in the pattern. *)
Record parser := Parser { p_state : pstate; p_rest : bytes; p_pos : nat }.

(** parser.cpp:150-161. *)
Definition parser_new (pattern : bytes) : parser := Parser Unknown pattern 0.

(** parser.cpp:185-212: with [open] braces open; the characters pushed, and the rest. *)
Fixpoint parse_spec (open : nat) (s : bytes) : bytes * bytes :=
  match s with
  | [] => ([], [])
  | c :: s' =>
      if Ascii.eqb c LBRACE then let '(b, r) := parse_spec (S open) s' in (c :: b, r)
      else if Ascii.eqb c RBRACE then
        match open with
        | 1%nat => ([c], s')
        | _ => let '(b, r) := parse_spec (Nat.pred open) s' in (c :: b, r)
        end
      else let '(b, r) := parse_spec open s' in (c :: b, r)
  end.

(** parser.cpp:231-256: what is pushed, and how the loop is left: at the end, at an opening brace (which is skipped), or
    at a single closing brace, which is an error. *)
Inductive literal_end := LEnd | LOpen (rest : bytes) | LClose (rest : bytes).
Fixpoint parse_literal (s : bytes) : bytes * literal_end :=
  match s with
  | [] => ([], LEnd)
  | c :: s1 =>
      if Ascii.eqb c LBRACE then
        match s1 with
        | c' :: s2 => if Ascii.eqb c' LBRACE then let '(t, e) := parse_literal s2 in (c :: t, e) else ([], LOpen s1)
        | [] => ([], LOpen s1)
        end
      else if Ascii.eqb c RBRACE then
        match s1 with
        | c' :: s2 => if Ascii.eqb c' RBRACE then let '(t, e) := parse_literal s2 in (c :: t, e) else ([], LClose s)
        | [] => ([], LClose s)
        end
      else let '(t, e) := parse_literal s1 in (c :: t, e)
  end.

(** parser.cpp:258-304: the name, and the rest from the character that ends it. *)
Fixpoint parse_name (s : bytes) : bytes * bytes :=
  match s with
  | c :: s' => if name_char c then let '(n, r) := parse_name s' in (c :: n, r) else ([], s)
  | [] => ([], [])
  end.

(** The offset of a rest of the pattern, given the offset of [s] of which it is a suffix. *)
Definition advance (pos : nat) (s rest : bytes) : nat := (pos + (length s - length rest))%nat.

(** parser.cpp:258-304. *)
Definition parse_placeholder (p : parser) : outcome * parser :=
  let s := p_rest p in
  let '(name, s1) := parse_name s in
  let at1 := advance (p_pos p) s s1 in
  match s1 with
  | [] => (OError Illformed at1, Parser IsBroken s1 at1)
  | c :: s2 =>
      if is_high c then (OUndefined, Parser IsBroken s1 at1)
      else if Ascii.eqb c ":" then
        let '(body, s3) := parse_spec 1 s2 in
        (token_with_spec name (B "{:" ++ body), Parser Unknown s3 (advance (p_pos p) s s3))
      else if Ascii.eqb c RBRACE then
        (OToken (token_without_spec name), Parser Unknown s2 (advance (p_pos p) s s2))
      else (OError InvalidPlaceholder at1, Parser IsBroken s1 at1)
  end.

(** parser.cpp:231-256 within [next]. *)
Definition next_literal (p : parser) : outcome * parser :=
  let s := p_rest p in
  match parse_literal s with
  | (t, LEnd) => (OToken (TLiteral t), Parser InLiteral [] (advance (p_pos p) s []))
  | (t, LOpen r) => (OToken (TLiteral t), Parser InPlaceholder r (advance (p_pos p) s r))
  | (_, LClose r) => (OError Illformed (advance (p_pos p) s r), Parser IsBroken r (advance (p_pos p) s r))
  end.

(** parser.cpp:163-183 for a state other than unknown. *)
Definition next_known (p : parser) : outcome * parser :=
  match p_state p with
  | IsBroken => (OError Broken (p_pos p), p)
  | _ =>
      match p_rest p with
      | [] => (OEnd, p)
      | _ => match p_state p with
             | InPlaceholder => parse_placeholder p
             | _ => next_literal p
             end
      end
  end.

(** parser.cpp:214-226: the state and the position with which [next] is called again. *)
Definition enter (p : parser) : parser :=
  match p_rest p with
  | c :: s1 =>
      if Ascii.eqb c LBRACE then
        if starts_with (B "{") s1 then Parser InLiteral (p_rest p) (p_pos p)
        else Parser InPlaceholder s1 (S (p_pos p))
      else Parser InLiteral (p_rest p) (p_pos p)
  | [] => p
  end.

(** parser.cpp:163-183, 228. *)
Definition next (p : parser) : outcome * parser :=
  match p_state p, p_rest p with
  | Unknown, [] => (OEnd, p)
  | Unknown, _ :: _ => next_known (enter p)
  | _, _ => next_known p
  end.

(** [n] calls of [next], whatever they do. *)
Fixpoint calls (n : nat) (p : parser) : list outcome :=
  match n with
  | O => []
  | S k => let '(o, p') := next p in o :: calls k p'
  end.

(** src/formatter/string.cpp:299-308: the tokens, or the outcome that ended the loop. [None]: more than [fuel] calls. *)
Inductive tokenized := Tokens (ts : list token) | Failed (o : outcome).
Fixpoint tokenize_from (fuel : nat) (p : parser) : option tokenized :=
  match fuel with
  | O => None
  | S k =>
      let '(o, p') := next p in
      match o with
      | OToken t => match tokenize_from k p' with
                    | Some (Tokens ts) => Some (Tokens (t :: ts))
                    | r => r
                    end
      | OEnd => Some (Tokens [])
      | _ => Some (Failed o)
      end
  end.
Definition tokenize (pattern : bytes) : option tokenized := tokenize_from (S (length pattern)) (parser_new pattern).
End Parser.
