(** Specification of patterns, independent of how they are parsed: a pattern is what a list of pieces writes. *)
From Verif Require Import Base ParserModel.

(** A text with its braces doubled. *)
Definition doubled (t : bytes) : bytes :=
  flat_map (fun c => if Ascii.eqb c LBRACE || Ascii.eqb c RBRACE then [c; c] else [c]) t.

(** The characters of a placeholder's name. *)
Definition name_alphabet : bytes := B "abcdefghijklmnopqrstuvwxyzABCDEFGHIJKLMNOPQRSTUVWXYZ0123456789_.".
Definition is_name (n : bytes) : Prop := forall c, In c n -> In c name_alphabet.

(** How often a character occurs. *)
Fixpoint count (c : ascii) (s : bytes) : nat :=
  match s with [] => 0 | x :: s' => ((if Ascii.eqb c x then 1 else 0) + count c s')%nat end.

(** No closing brace of [s] is without its opening brace; [s] is balanced if no opening brace is without its closing one
    either. *)
Definition never_closes (s : bytes) : Prop := forall a b, s = a ++ b -> (count RBRACE a <= count LBRACE a)%nat.
Definition balanced (s : bytes) : Prop := never_closes s /\ count RBRACE s = count LBRACE s.

(** A literal text, a placeholder, a placeholder with a specification. *)
Inductive piece := Text (t : bytes) | Hole (name : bytes) | HoleSpec (name body : bytes).

Definition write_piece (p : piece) : bytes :=
  match p with
  | Text t => doubled t
  | Hole n => B "{" ++ n ++ B "}"
  | HoleSpec n b => B "{" ++ n ++ B ":" ++ b ++ B "}"
  end.
Definition write (ps : list piece) : bytes := flat_map write_piece ps.

Definition is_text (p : piece) : bool := match p with Text _ => true | _ => false end.

(** Texts are not empty and not next to each other, names are names, specifications are balanced. *)
Fixpoint well_formed (ps : list piece) : Prop :=
  match ps with
  | [] => True
  | p :: ps' =>
      match p with
      | Text t => t <> [] /\ match ps' with q :: _ => is_text q = false | [] => True end
      | Hole n => is_name n
      | HoleSpec n b => is_name n /\ balanced b
      end /\ well_formed ps'
  end.

(** What stands after the pieces: nothing; one opening brace; an unclosed specification; an unclosed name; a name broken
    off by a wrong character (below 128 or not); a single closing brace. *)
Inductive ending :=
  | Complete
  | OpenBrace
  | OpenSpec (name body : bytes)
  | OpenName (name : bytes)
  | BadName (name : bytes) (c : ascii) (rest : bytes)
  | HighName (name : bytes) (c : ascii) (rest : bytes)
  | CloseBrace (rest : bytes).
Definition write_ending (e : ending) : bytes :=
  match e with
  | Complete => []
  | OpenBrace => B "{"
  | OpenSpec n b => B "{" ++ n ++ B ":" ++ b
  | OpenName n => B "{" ++ n
  | BadName n c r | HighName n c r => B "{" ++ n ++ c :: r
  | CloseBrace r => RBRACE :: r
  end.
Definition well_ended (e : ending) : Prop :=
  match e with
  | Complete | OpenBrace => True
  | OpenSpec n b => is_name n /\ never_closes b
  | OpenName n => is_name n /\ n <> []
  | BadName n c _ => is_name n /\ ~ In c name_alphabet /\ c <> ":"%char /\ c <> RBRACE /\ (n = [] -> c <> LBRACE) /\
                     (N_of_ascii c < 128)%N
  | HighName n c _ => is_name n /\ (128 <= N_of_ascii c)%N
  | CloseBrace r => forall r', r <> RBRACE :: r'
  end.

(** What a pattern parses to: the pieces' tokens up to the first that is none, then what its end gives. *)
Section Meaning.
Variable lexical_double : bytes -> bool.
Variable ndebug : bool.
Definition piece_outcome (p : piece) : outcome :=
  match p with
  | Text t => OToken (TLiteral t)
  | Hole n => OToken (token_without_spec n)
  | HoleSpec n b => token_with_spec lexical_double ndebug n (B "{:" ++ b ++ B "}")
  end.
Fixpoint collect (os : list outcome) (last : tokenized) : tokenized :=
  match os with
  | [] => last
  | OToken t :: os' => match collect os' last with Tokens ts => Tokens (t :: ts) | x => x end
  | o :: _ => Failed o
  end.
Definition ending_result (at_ : nat) (e : ending) : tokenized :=
  match e with
  | Complete | OpenBrace => Tokens []
  | OpenSpec n b => collect [token_with_spec lexical_double ndebug n (B "{:" ++ b)] (Tokens [])
  | OpenName n => Failed (OError Illformed (at_ + 1 + length n))
  | BadName n _ _ => Failed (OError InvalidPlaceholder (at_ + 1 + length n))
  | HighName _ _ _ => Failed OUndefined
  | CloseBrace _ => Failed (OError Illformed at_)
  end.
Definition meaning (ps : list piece) (e : ending) : tokenized :=
  collect (map piece_outcome ps) (ending_result (length (write ps)) e).
End Meaning.

(** ** The pattern of `{...}` as the README's grammar has it *)

(** [Align? Width? Type]. *)
Definition is_short_spec (types s : bytes) : Prop :=
  exists a w t, s = a ++ w ++ [t] /\ (a = [] \/ exists c, a = [c] /\ In c (B "<^>")) /\
  (forall c, In c w -> In c (B "0123456789")) /\ In t types.

Inductive subpiece := PText (t : bytes) | PName (spec : option bytes) | PValue (spec : option bytes).
Definition write_subpiece (p : subpiece) : bytes :=
  match p with
  | PText t => doubled t
  | PName None => B "{name}"
  | PName (Some s) => B "{name:" ++ s ++ B "}"
  | PValue None => B "{value}"
  | PValue (Some s) => B "{value:" ++ s ++ B "}"
  end.
Definition write_sub (ps : list subpiece) : bytes := flat_map write_subpiece ps.
Definition is_ptext (p : subpiece) : bool := match p with PText _ => true | _ => false end.
Fixpoint sub_well_formed (ps : list subpiece) : Prop :=
  match ps with
  | [] => True
  | p :: ps' =>
      match p with
      | PText t => t <> [] /\ match ps' with q :: _ => is_ptext q = false | [] => True end
      | PName (Some s) | PValue (Some s) => is_short_spec (B "sd") s
      | _ => True
      end /\ sub_well_formed ps'
  end.

(** The part that each sub-piece stands for. *)
Definition opt_spec (s : option bytes) : bytes := match s with Some x => x | None => [] end.
Definition sub_meaning (p : subpiece) : subtoken :=
  match p with
  | PText t => SLiteral t
  | PName s => SName (B "{:" ++ opt_spec s ++ B "}")
  | PValue s => SValue (B "{:" ++ opt_spec s ++ B "}")
  end.
Definition occurs (x s : bytes) : Prop := exists a b, s = a ++ x ++ b.
Definition no_braces (s : bytes) : Prop := ~ In LBRACE s /\ ~ In RBRACE s.
