(** The development handler (src/handler/dev.cpp): it prints records on the standard output itself, without a formatter
    and a sink. The colours are those of ConsoleModel, the date generator that of DateModel. *)
From Verif Require Import Base Decimal FmtModel.
From Verif Require ConsoleModel StrModel DateModel.
Open Scope N_scope.

(** What a function value (include/blackhole/attribute.hpp:191-202) does when it is called: write to the writer, throw, or
    log a record with a logger that has this handler. *)
Inductive effect := Writes (text : bytes) | Throws | Logs.

(** include/blackhole/attribute.hpp:181-213 [view_t]. *)
Inductive dval :=
| DNull
| DBool (b : bool)
| DInt (z : Z)
| DUint (n : N)
| DDouble (bits : N)
| DString (v : StrModel.view)
| DFun (f : effect).

(** src/record.hpp:8-20 as far as this handler reads it; [d_pid] is what getpid(2) returns. *)
Record drecord := DRec {
  d_formatted : StrModel.view;
  d_severity : Z;
  d_nanoseconds : Z;
  d_tid : N;
  d_pid : N;
  d_pack : list (list (StrModel.view * dval))
}.

(** [std::cout], shared with the rest of the program: is it a terminal, and two of its format flags (std::hex and
    std::boolalpha). Not modelled: the other flags, the width, a stream in an error state. *)
Record stream := Stream { st_tty : bool; st_hex : bool; st_boolalpha : bool }.

(** How a call ends and what it has written: normally, by an exception, or undefined. *)
Inductive written := Out (s : bytes) | Thrown (s : bytes) | Undef.
Definition then_ (a : written) (k : written) : written :=
  match a with
  | Out s => match k with Out t => Out (s ++ t) | Thrown t => Thrown (s ++ t) | Undef => Undef end
  | Thrown s => Thrown s
  | Undef => Undef
  end.

Section Dev.
(** The text of a double in the formatting library and on the stream; the C library and the zone. *)
Variable dbl : spec -> N -> bytes.
Variable streamed : stream -> N -> bytes.
Variable lib : DateModel.clib.
Variable z : DateModel.zone.

(** [operator<<] of the standard streams for numbers: with std::hex the representation of a signed number. *)
Definition put_unsigned (st : stream) (n : N) : written := Out (if st_hex st then hex n else dec n).
Definition put_signed (st : stream) (v : Z) : written := Out (if st_hex st then hex (Z.to_N (v mod 2 ^ 64)) else sdec v).
Definition put_bool (st : stream) (b : bool) : written :=
  Out (if st_boolalpha st then (if b then B "true" else B "false") else (if b then B "1" else B "0")).

(** include/blackhole/stdext/string_view.hpp:172-177 [operator<<]: a copy of the viewed bytes. *)
Definition put_view (v : StrModel.view) : written :=
  match StrModel.v_data v with
  | Some m => if StrModel.v_size v <=? length_N m then Out (firstn (N.to_nat (StrModel.v_size v)) m) else Undef
  | None => if StrModel.v_size v =? 0 then Out [] else Undef
  end.

(** src/handler/dev.cpp:196-200 [colorize] with 37-57. *)
Definition colorize (st : stream) (c : ConsoleModel.termcolor) : written :=
  Out (if st_tty st then ConsoleModel.print_color c else []).

(** src/handler/dev.cpp:76-80. The handler holds its mutex (187) while the function runs: logging to the same handler
    locks a [std::mutex] its thread already owns. *)
Definition put_function (f : effect) : written :=
  match f with Writes text => Out text | Throws => Thrown [] | Logs => Undef end.

(** src/handler/dev.cpp:59-81 [view_visitor]. *)
Definition put_value (st : stream) (v : dval) : written :=
  match v with
  | DNull => Out (B "none")
  | DBool b => put_bool st b
  | DInt x => put_signed st x
  | DUint n => put_unsigned st n
  | DDouble bits => Out (streamed st bits)
  | DString s => put_view s
  | DFun f => put_function f
  end.

(** src/handler/dev.cpp:176. A view is a custom argument of the formatting library: it is printed on a string stream and
    the resulting [std::string] is formatted (include/blackhole/extensions/format.hpp:2667-2677, src/format.cpp:1066-1070). *)
Definition put_key (k : StrModel.view) : written :=
  match put_view k with
  | Out s =>
      match write dbl (B "    {:<16.16}: ") [AString (Some (s ++ [NUL])) (length_N s)] with
      | Ok t => Out t
      | Error _ => Thrown []
      | Undefined => Undef
      end
  | w => w
  end.

(** src/handler/dev.cpp:174-178. *)
Definition put_attribute (st : stream) (a : StrModel.view * dval) : written :=
  then_ (Out [NL])
  (then_ (colorize st ConsoleModel.gray)
  (then_ (put_key (fst a))
  (then_ (colorize st ConsoleModel.reset)
         (put_value st (snd a))))).

Fixpoint put_all {A} (put : A -> written) (l : list A) : written :=
  match l with [] => Out [] | a :: l' => then_ (put a) (put_all put l') end.

(** src/handler/dev.cpp:117-140. *)
Definition put_severity (st : stream) (severity : Z) : written :=
  match severity with
  | 0%Z => then_ (colorize st ConsoleModel.gray) (Out (B "D"))
  | 1%Z => then_ (colorize st ConsoleModel.green) (Out (B "I"))
  | 2%Z => then_ (colorize st ConsoleModel.yellow) (Out (B "W"))
  | 3%Z => then_ (colorize st ConsoleModel.red) (Out (B "E"))
  | _ => then_ (colorize st ConsoleModel.gray) (Out (B "T"))
  end.

(** src/handler/dev.cpp:98-111 with 92. The time is computed as in the JSON formatter. *)
Definition put_time (ns : Z) : written :=
  match DateModel.json_stamp dbl lib z (B "%Y-%m-%d %H:%M:%S.%f") ns with
  | Ok s => Out s
  | Error _ => Thrown []
  | Undefined => Undef
  end.

(** src/handler/dev.cpp:91-182: the tokens in their order. *)
Definition tokens : list (stream -> drecord -> written) :=
  [ (fun st _ => colorize st ConsoleModel.gray);                                                          (* 94-96 *)
    (fun _ r => put_time (d_nanoseconds r));                                                              (* 98-111 *)
    (fun _ _ => Out (B " "));                                                                             (* 113-115 *)
    (fun st r => put_severity st (d_severity r));                                                         (* 117-140 *)
    (fun st r => then_ (Out (B " ")) (then_ (put_unsigned st (d_tid r))
                 (then_ (Out (B "/")) (put_unsigned st (d_pid r)))));                                     (* 142-144 *)
    (fun st _ => then_ (colorize st ConsoleModel.reset) (colorize st ConsoleModel.gray));                 (* 146-149 *)
    (fun _ _ => Out (B " - "));                                                                           (* 151-153 *)
    (fun st _ => colorize st ConsoleModel.reset);                                                         (* 155-157 *)
    (fun _ r => put_view (d_formatted r));                                                                (* 159-161 *)
    (fun st _ => colorize st ConsoleModel.reset);                                                         (* 163-165 *)
    (fun st r => put_all (put_all (put_attribute st)) (d_pack r)) ].                                      (* 167-181 *)

(** src/handler/dev.cpp:184-193 [handle], the bytes written while it holds its mutex. *)
Definition handle (st : stream) (r : drecord) : written :=
  then_ (put_all (fun token => token st r) tokens) (Out [NL]).
End Dev.
