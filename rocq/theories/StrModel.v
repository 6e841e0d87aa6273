(** The string formatter (src/formatter/string.cpp): from tokens and a record to text, on top of the formatting library
    (FmtModel) and the pattern parser (ParserModel). *)
From Verif Require Import Base ParserModel FmtModel.
Open Scope N_scope.

(** include/blackhole/stdext/string_view.hpp:40-45: a pointer (null or into an object) and a size. *)
Record view := View { v_data : option memory; v_size : N }.
(** The viewed bytes. *)
Definition viewed (v : view) : bytes :=
  match v_data v with Some m => firstn (N.to_nat (v_size v)) m | None => [] end.

(** include/blackhole/attribute.hpp:181-213 [view_t]: Values.value with strings as views into memory. A function value
    is the text it writes (it is assumed not to throw). *)
Inductive aval :=
| ANull
| ABoolean (b : bool)
| ASigned (z : Z)
| AUnsigned (n : N)
| AReal (bits : N)
| AText (v : view)
| ALazy (text : bytes).

(** include/blackhole/attributes.hpp:43-76. *)
Definition pack := list (list (view * aval)).

(** src/record.hpp:8-20, as far as this formatter reads it, and what it asks the system for: src/record.cpp:52-62 (the
    process and the thread), src/procname.cpp:25-27, pthread_getname_np ([None] if it fails). [r_stamp] is the text the
    date generator makes of the record's time for a pattern, in UTC or local time; [r_nanoseconds] is the time since the
    epoch; [r_junk] is what the storage of an empty MemoryWriter holds. *)
Record srecord := SRec {
  r_formatted : view;
  r_severity : Z;
  r_nanoseconds : Z;
  r_tid : N;
  r_pack : pack;
  r_pid : N;
  r_lwp : N;
  r_procname : bytes;
  r_thread_name : option bytes;
  r_stamp : bytes -> bool -> bytes;
  r_junk : memory
}.

(** How a call ends: normally, with a [FormatError], with the [std::logic_error] of a missing attribute, or undefined. *)
Inductive formatted := Done (out : bytes) | Refused (e : error) | Missing (name : bytes) | Undef.
Definition lift (r : result bytes) : formatted :=
  match r with Ok s => Done s | Error e => Refused e | Undefined => Undef end.
(** Append to what was written before. *)
Definition before (s : bytes) (r : formatted) : formatted := match r with Done t => Done (s ++ t) | x => x end.
Definition then_ (r : formatted) (k : formatted) : formatted := match r with Done s => before s k | x => x end.

(** A NUL-terminated array. *)
Definition terminated (s : bytes) : option memory := Some (s ++ [NUL]).

Section StringFormatter.
(** The text of a double for a specification; the double a text denotes. *)
Variable dbl : spec -> N -> bytes.
Variable double_of : bytes -> N.

(** include/blackhole/extensions/format.hpp:1073-1080: how a C string, a string reference and a [std::string] are passed. *)
Definition arg_of_view (v : view) : arg := AString (v_data v) (v_size v).
Definition arg_of_string (s : bytes) : arg := AString (terminated s) (length_N s).
Definition arg_of_literal (s : bytes) : arg := ACString (terminated s).

(** src/formatter/string.cpp:61-91 [view_visitor]; the same class is in src/formatter/tskv.cpp:27-53 and, for attributes
    with a format, in src/formatter/json.cpp:78-107. *)
Definition write_value (spec : bytes) (v : aval) : result bytes :=
  match v with
  | ANull => write dbl spec [arg_of_literal (B "none")]
  | ABoolean b => write dbl spec [ABool b]
  | ASigned z => write dbl spec [ALong z]
  | AUnsigned n => write dbl spec [AUlong n]
  | AReal bits => write dbl spec [ADouble bits]
  | AText v => write dbl spec [ACString (v_data v)]
  | ALazy text => Ok text
  end.

(** src/formatter/string.cpp:93-107 [otherwise_visitor]. *)
Definition write_otherwise (spec : bytes) (d : default) : result bytes :=
  match d with
  | DInt z => write dbl spec [ALong z]
  | DDouble text => write dbl spec [ADouble (double_of text)]
  | DString s => write dbl spec [arg_of_string s]
  end.

(** src/formatter/string.cpp:286-296 [find]. *)
Fixpoint find_in (name : bytes) (l : list (view * aval)) : option aval :=
  match l with
  | [] => None
  | (n, v) :: l' => if bytes_eqb (viewed n) name then Some v else find_in name l'
  end.
Fixpoint find (name : bytes) (p : pack) : option aval :=
  match p with
  | [] => None
  | l :: p' => match find_in name l with Some v => Some v | None => find name p' end
  end.

(** src/formatter/string.cpp:109-132 [pattern_visitor_t]. *)
Definition write_sub (a : view * aval) (t : subtoken) : result bytes :=
  match t with
  | SLiteral s => Ok s
  | SName f => write dbl f [arg_of_view (fst a)]
  | SValue f => write_value f (snd a)
  end.
Fixpoint write_subs (a : view * aval) (ts : list subtoken) : result bytes :=
  match ts with
  | [] => Ok []
  | t :: ts' => s <- write_sub a t; r <- write_subs a ts'; Ok (s ++ r)
  end.

(** src/formatter/string.cpp:134-165 [evaluator_t::eval]; [first] is threaded through the two loops. [prefix] and
    [suffix] are empty (never set by the parser). *)
Fixpoint eval_list (lo : leftover) (first : bool) (l : list (view * aval)) : result (bytes * bool) :=
  match l with
  | [] => Ok ([], first)
  | a :: l' =>
      s <- write_subs a (lo_tokens lo);
      r <- eval_list lo false l';
      let (t, f) := r : bytes * bool in
      Ok ((if first then [] else lo_separator lo) ++ s ++ t, f)
  end.
Fixpoint eval (lo : leftover) (first : bool) (p : pack) : result bytes :=
  match p with
  | [] => Ok []
  | l :: p' =>
      r <- eval_list lo first l;
      let (s, f) := r : bytes * bool in
      t <- eval lo f p'; Ok (s ++ t)
  end.

(** include/blackhole/formatter/string.hpp:20 [severity_map]. *)
Definition severity_map := Z -> bytes -> result bytes.
(** src/formatter/string.cpp:319-325: the default one. *)
Definition number_map : severity_map := fun severity spec => write dbl spec [AInt severity].
(** src/formatter/string.cpp:383-395: the configured one; the [int] is converted to [std::size_t]. *)
Definition list_map (names : list bytes) : severity_map := fun severity spec =>
  let n := Z.to_N (severity mod 2 ^ 64)%Z in
  if n <? length_N names then write dbl spec [arg_of_string (nth (N.to_nat n) names [])]
  else write dbl spec [AUlong n].

Variable sevmap : severity_map.

(** src/formatter/string.cpp:167-283 [visitor_t]. The prefix and suffix of an optional placeholder (:265, 267) are empty.
    The thread id is a number (Linux). *)
Definition write_token (r : srecord) (t : token) : formatted :=
  match t with
  | TLiteral s => Done s
  | TMessage spec => lift (write dbl spec [arg_of_view (r_formatted r)])
  | TProcessId spec => lift (write dbl spec [AUlong (r_pid r)])
  | TProcessName spec => lift (write dbl spec [arg_of_literal (r_procname r)])
  | TThreadId spec => lift (write dbl spec [AUlong (r_lwp r)])
  | TThreadHex spec => lift (write dbl spec [AUlong (r_tid r)])
  | TThreadName spec =>
      lift (write dbl spec [arg_of_literal (match r_thread_name r with Some s => s | None => B "<unnamed>" end)])
  | TSeverityNum spec => lift (write dbl spec [AInt (r_severity r)])
  | TSeverityUser spec => lift (sevmap (r_severity r) spec)
  | TTimestampNum spec => lift (write dbl spec [ALong (Z.quot (r_nanoseconds r) 1000)])
  | TTimestampUser pattern spec gmtime =>
      let s := r_stamp r pattern gmtime in
      lift (write dbl spec [AString (Some (s ++ r_junk r)) (length_N s)])
  | TRequired name spec =>
      match find name (r_pack r) with
      | Some v => lift (write_value spec v)
      | None => Missing name
      end
  | TOptional name spec otherwise =>
      match find name (r_pack r) with
      | Some v => lift (write_value spec v)
      | None => lift (write_otherwise spec otherwise)
      end
  | TLeftover lo =>
      lift (s <- eval lo true (r_pack r);
            if length_N s =? 0 then Ok [] else write dbl (lo_spec lo) [AString (Some s) (length_N s)])
  end.

(** src/formatter/string.cpp:332-338 [format]: what is written to the writer. *)
Fixpoint format (r : srecord) (ts : list token) : formatted :=
  match ts with
  | [] => Done []
  | t :: ts' => then_ (write_token r t) (format r ts')
  end.
End StringFormatter.
