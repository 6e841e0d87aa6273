(** Patterns parsed at compile time (include/blackhole/extensions/metaformat.hpp) and the logging facade
    (include/blackhole/extensions/facade.hpp). *)
From Verif Require Import Base FmtModel.
From Verif Require StringViewModel.
Open Scope N_scope.

(** ---- arguments ---- *)

(** The arguments of a call with their C++ types: the integer types, [float] and [double] (bit pattern of the double),
    [const char*] and character arrays, std::string, fmt::StringRef. *)
Inductive value :=
| VBool (b : bool)
| VChar (c : ascii) | VSchar (z : Z) | VUchar (n : N)
| VShort (z : Z) | VUshort (n : N)
| VInt (z : Z) | VUint (n : N)
| VLong (z : Z) | VUlong (n : N)
| VLongLong (z : Z) | VUlongLong (n : N)
| VDouble (bits : N)
| VCString (p : option memory)
| VString (s : bytes)
| VRef (m : memory) (size : N).

(** format.hpp:1027-1082, the constructors of [MakeValue]; [long] has 64 bits. A std::string is NUL-terminated. *)
Definition make_value (v : value) : arg :=
  match v with
  | VBool b => ABool b
  | VChar c => AChar (StringViewModel.signed_char c)
  | VSchar z => AChar z
  | VUchar n => AChar (Z.of_N n)
  | VShort z => AInt z
  | VUshort n => AUint n
  | VInt z => AInt z
  | VUint n => AUint n
  | VLong z | VLongLong z => ALong z
  | VUlong n | VUlongLong n => AUlong n
  | VDouble bits => ADouble bits
  | VCString p => ACString p
  | VString s => AString (Some (s ++ [NUL])) (length_N s)
  | VRef m size => AString (Some m) size
  end.

(** format.hpp:1951-1970 [write_unsigned_decimal] and [write_decimal]: grow the buffer, store the digits from the right
    end, then the sign. *)
Definition write_unsigned_decimal (w : word) (n : N) (prefix_size : N) : option cells :=
  match count_digits w n, decimal_back 65 n with
  | Some nd, Some back => put_back (blank (prefix_size + nd)) (N.to_nat (prefix_size + nd)) back
  | _, _ => None
  end.
Definition write_decimal (w : word) (z : Z) : result bytes :=
  let cs := if (z <? 0)%Z
            then match write_unsigned_decimal w (Z.to_N ((- z) mod 2 ^ Z.of_N (bits_of w))) 1 with
                 | Some cs => put cs 0 "-"
                 | None => None
                 end
            else write_unsigned_decimal w (Z.to_N z) 0 in
  match cs with
  | Some cs => match all_stored cs with Some out => Ok out | None => Undefined end
  | None => Undefined
  end.

Section WithDoubles.
(** As in FmtModel. *)
Variable dbl : spec -> N -> bytes.

(** metaformat.hpp:162-169 [format_traits] with the overloads of [operator<<] (format.hpp:2099-2180). [bool], the small
    integers and the explicitly signed characters are promoted to [int]; unsigned numbers are written by [write_int]
    with a specification that asks for nothing; strings of all types are converted to a StringRef
    (format.hpp:296-305). *)
Definition stream (v : value) : result bytes :=
  match v with
  | VBool b => write_decimal W32 (if b then 1 else 0)%Z
  | VChar c => Ok [c]
  | VSchar z => write_decimal W32 z
  | VUchar n => write_decimal W32 (Z.of_N n)
  | VShort z => write_decimal W32 z
  | VUshort n => write_decimal W32 (Z.of_N n)
  | VInt z => write_decimal W32 z
  | VUint n => write_int W32 (Z.of_N n) empty_spec
  | VLong z | VLongLong z => write_decimal W64 z
  | VUlong n | VUlongLong n => write_int W64 (Z.of_N n) empty_spec
  | VDouble bits => Ok (dbl empty_spec bits)
  | VCString None => Undefined
  | VCString (Some m) => match strlen m with Some n => read m n | None => Undefined end
  | VString s => Ok s
  | VRef m size => read m size
  end.

(** ---- patterns ---- *)

(** Views are the bytes they show, positions are the rest of the view from there. [None]: an exception, hence no constant
    expression, hence no program. *)

(** metaformat.hpp:14-23 [parse_argument]: the only argument is an empty one; reading at the end throws as well. *)
Definition parse_argument (s : bytes) : option bytes :=
  match s with
  | c :: s' => if Ascii.eqb c RBRACE then Some s' else None
  | [] => None
  end.

(** metaformat.hpp:31-91 [literal_count]. *)
Fixpoint count_go (s : bytes) (result : N) : option N :=
  match s with
  | [] => Some result
  | c :: s1 =>
      if Ascii.eqb c LBRACE then
        match s1 with
        | [] => None
        | d :: s2 =>
            if Ascii.eqb d LBRACE then count_go s2 (result + 1)
            else match parse_argument s1 with Some _ => count_go s2 (result + 1) | None => None end
        end
      else if Ascii.eqb c RBRACE then
        match s1 with
        | [] => None
        | d :: s2 => if Ascii.eqb d RBRACE then count_go s2 (result + 1) else None
        end
      else count_go s1 result
  end.
Definition literal_count (format : bytes) : option N := count_go format 1.

(** metaformat.hpp:114-156 [next_literal]: the length of the literal and whether a placeholder follows. *)
Fixpoint next_go (s : bytes) (pos : N) : option (N * bool) :=
  match s with
  | [] => Some (pos, false)
  | c :: s1 =>
      if Ascii.eqb c LBRACE then
        match s1 with
        | [] => None
        | d :: _ => if Ascii.eqb d LBRACE then Some (pos + 1, false) else Some (pos, true)
        end
      else if Ascii.eqb c RBRACE then
        match s1 with
        | [] => None
        | d :: s2 => if Ascii.eqb d RBRACE then Some (pos + 1, false) else next_go s2 (pos + 2)
        end
      else next_go s1 (pos + 1)
  end.
Definition next_literal (s : bytes) : option (bytes * bool) :=
  match next_go s 0 with
  | Some (size, placeholder_next) => Some (firstn (N.to_nat size) s, placeholder_next)
  | None => None
  end.

(** metaformat.hpp:172-183, 212-220: the constructors of [formatter<N>], as the list of the nested literals. *)
Fixpoint construct (n : nat) (format : bytes) : option (list (bytes * bool)) :=
  match n with
  | O => None
  | S O => Some [(format, false)]
  | S n' =>
      match next_literal format with
      | None => None
      | Some (data, placeholder_next) =>
          let pos := if placeholder_next then length_N data + 2 else length_N data + 1 in
          if pos <=? length_N format
          then option_map (cons (data, placeholder_next)) (construct n' (skipn (N.to_nat pos) format))
          else None
      end
  end.

(** metaformat.hpp:185-197, 224-229: whether [format] of [formatter<N>] with [k] arguments can be instantiated. Both
    branches of the condition are, and [formatter<N>] with N > 1 takes at least one argument. *)
Fixpoint instantiates (n k : nat) : bool :=
  match n with
  | O => false
  | S O => true
  | S n' => match k with
            | O => false
            | S k' => instantiates n' k' && instantiates n' k
            end
  end.

(** metaformat.hpp:185-197, 224-229 [format]. *)
Fixpoint format (literals : list (bytes * bool)) (args : list value) : result bytes :=
  match literals with
  | [] => Undefined
  | [(data, _)] => Ok data
  | (data, placeholder_next) :: next =>
      match args with
      | [] => Undefined
      | a :: args' =>
          if placeholder_next
          then t <- stream a; out <- format next args'; Ok (data ++ t ++ out)
          else out <- format next args; Ok (data ++ out)
      end
  end.

(** bench/cpp14formatter.cpp:16-22, the use: [formatter<literal_count(pattern)>(pattern)] and [format] of some arguments.
    [None]: this does not compile. *)
Definition precompiled (pattern : bytes) (args : list value) : option (result bytes) :=
  match literal_count pattern with
  | None => None
  | Some n =>
      match construct (N.to_nat n) pattern with
      | None => None
      | Some literals => if instantiates (N.to_nat n) (length args) then Some (format literals args) else None
      end
  end.

(** ---- the facade ---- *)

(** What the wrapped logger is called with: the pattern it is told and the text its function supplies (for a pattern
    without arguments there is no function, the text is the pattern). *)
Record logged := Logged { l_pattern : StringViewModel.view; l_text : result bytes }.

Definition viewed (v : StringViewModel.view) : result bytes :=
  match StringViewModel.load_many (StringViewModel.v_data v) (StringViewModel.v_size v) with
  | StringViewModel.Done s => Ok s
  | _ => Undefined
  end.

(** facade.inl.hpp:19-24 [write_all]: the pattern has become a pointer to a C string. *)
Definition write_all (p : option memory) (args : list value) : result bytes :=
  match p with
  | None => Undefined
  | Some m => match strlen m with Some _ => write dbl m (map make_value args) | None => Undefined end
  end.

(** facade.hpp:94-115 and the two [select] (:137-159): without arguments, or with arguments, in both cases with or
    without an attribute list behind them. *)
Definition facade_log (pattern : StringViewModel.view) (args : list value) : logged :=
  match args with
  | [] => Logged pattern (viewed pattern)
  | _ => Logged pattern (write_all (StringViewModel.v_data pattern) args)
  end.

(** facade.hpp:119-133: with a precompiled pattern; at least one argument. *)
Definition facade_log_precompiled (pattern : bytes) (args : list value) : option logged :=
  match args with
  | [] => None
  | _ => option_map (Logged (StringViewModel.view_array [NUL])) (precompiled pattern args)
  end.
End WithDoubles.
