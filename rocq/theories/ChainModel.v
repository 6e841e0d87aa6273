(** Values written one after the other with [operator<<] and its helpers, and the functions that print to a file:
    include/blackhole/extensions/format.hpp and src/format.cpp. *)
From Verif Require Import Base FmtModel MetaFormatModel.
From Verif Require StringViewModel PrintfModel.
Open Scope N_scope.

(** ---- [operator<<] ---- *)

(** include/blackhole/extensions/format.hpp:1541-1561 [bin], [oct], [hex], [hexu] and the type letters of their specifications. *)
Inductive code := Bin | Oct | Hex | Hexu.
Definition letter_of (c : code) : ascii := match c with Bin => "b" | Oct => "o" | Hex => "x" | Hexu => "X" end.

(** include/blackhole/extensions/format.hpp:1582-1641: these functions and [pad] exist for six integer types; smaller ones are promoted to
    [int]; [long] has 64 bits. [None]: there is no such function and the program does not compile. *)
Definition overload (v : value) : option (word * Z) :=
  match v with
  | VBool b => Some (W32, if b then 1 else 0)%Z
  | VChar c => Some (W32, StringViewModel.signed_char c)
  | VSchar z | VShort z | VInt z => Some (W32, z)
  | VUchar n | VUshort n | VUint n => Some (W32, Z.of_N n)
  | VLong z | VLongLong z => Some (W64, z)
  | VUlong n | VUlongLong n => Some (W64, Z.of_N n)
  | VDouble _ | VCString _ | VString _ | VRef _ _ => None
  end.

(** What can be written with [operator<<]: a value, [hex(value)] and the like, [pad(hex(value), width, fill)] and
    [pad(value, width, fill)], [pad("text", width, fill)]. Without a fill the functions use a space. *)
Inductive item :=
| Value (v : value)
| Coded (c : code) (v : value)
| Pad (c : option code) (v : value) (width : N) (fill : ascii)
| PadText (p : option memory) (width : N) (fill : ascii).

(** include/blackhole/extensions/format.hpp:1451-1493 [TypeSpec], [AlignSpec] and [AlignTypeSpec] as specifications. The fill is kept as a
    [wchar_t] and becomes the same [char] again. *)
Definition int_format (c : option code) (width : N) (fill : ascii) : spec :=
  Spec width fill ADefault false false false false None (match c with Some c => letter_of c | None => NUL end).

Section WithDoubles.
(** As in FmtModel. *)
Variable dbl : spec -> N -> bytes.

(** include/blackhole/extensions/format.hpp:2099-2187. *)
Definition put (i : item) : option (result bytes) :=
  match i with
  | Value v => Some (stream dbl v)
  | Coded c v => option_map (fun wz => write_int (fst wz) (snd wz) (int_format (Some c) 0 " ")) (overload v)
  | Pad c v width fill => option_map (fun wz => write_int (fst wz) (snd wz) (int_format c width fill)) (overload v)
  | PadText p width fill =>
      Some match p with
           | None => Undefined
           | Some m => match strlen m with
                       | Some n => s <- read m n; Ok (pad_str s (int_format None width fill))
                       | None => Undefined
                       end
           end
  end.

(** [writer << i1 << i2 << ...]: what it appends. *)
Fixpoint chain (is : list item) : option (result bytes) :=
  match is with
  | [] => Some (Ok [])
  | i :: is' =>
      match put i, chain is' with
      | Some r, Some r' => Some (t <- r; out <- r'; Ok (t ++ out))
      | _, _ => None
      end
  end.

(** ---- printing to files ---- *)

(** A [FILE]: what it was given so far, and how many more bytes it takes ([None]: any number). *)
Record file := File { f_data : bytes; f_room : option N }.

(** [fwrite] and [fputs]: how many bytes were taken. *)
Definition fwrite (s : bytes) (f : file) : file * N :=
  let n := match f_room f with Some r => N.min r (length_N s) | None => length_N s end in
  (File (f_data f ++ firstn (N.to_nat n) s) (option_map (fun r => r - n) (f_room f)), n).

(** How a call ends. *)
Inductive outcome (A : Type) := Returned (f : file) (a : A) | Threw (f : file) (e : error) | Crashed.
Arguments Returned {A} f a.
Arguments Threw {A} f e.
Arguments Crashed {A}.

(** src/format.cpp:1263-1277 [print] to a file, to stdout, and to a stream. Whether everything was taken is not looked at. *)
Definition print (format : bytes) (args : list arg) (f : file) : outcome unit :=
  match write dbl format args with
  | Ok s => Returned (fst (fwrite s f)) tt
  | Error e => Threw f e
  | Undefined => Crashed
  end.

(** include/blackhole/extensions/format.hpp:2730 [Color]. *)
Inductive color := Black | Red | Green | Yellow | Blue | Magenta | Cyan | White.
Definition color_number (c : color) : N :=
  match c with Black => 0 | Red => 1 | Green => 2 | Yellow => 3 | Blue => 4 | Magenta => 5 | Cyan => 6 | White => 7 end.
(** src/format.cpp:161, 1280-1281. *)
Definition ESC : ascii := chr 27.
Definition RESET_COLOR : bytes := ESC :: B "[0m".
Definition escape (c : color) : bytes := ESC :: B "[3" ++ [chr (48 + color_number c)] ++ B "m".
(** src/format.cpp:1279-1285 [print_colored]. *)
Definition print_colored (c : color) (format : bytes) (args : list arg) (f : file) : outcome unit :=
  match print format args (fst (fwrite (escape c) f)) with
  | Returned f' _ => Returned (fst (fwrite RESET_COLOR f')) tt
  | r => r
  end.

(** src/format.cpp:1287-1292 [fprintf]; the conversion to [int] is modulo 2^32. *)
Definition to_int (n : N) : Z := let m := (Z.of_N n mod 2 ^ 32)%Z in (if m <? 2 ^ 31 then m else m - 2 ^ 32)%Z.
Definition fprintf (format : bytes) (args : list arg) (f : file) : outcome Z :=
  match PrintfModel.sprintf dbl format args with
  | Ok s => let (f', n) := fwrite s f in Returned f' (if n <? length_N s then (-1)%Z else to_int (length_N s))
  | Error e => Threw f e
  | Undefined => Crashed
  end.

(** ---- the error text for unknown type letters ---- *)

(** [std::isprint] in the C locale. *)
Definition isprint (c : ascii) : bool := (32 <=? N_of_ascii c) && (N_of_ascii c <=? 126).
(** src/format.cpp:624-633 [report_unknown_type]: the text of the exception. A [char] is signed. *)
Definition report_unknown_type (c : ascii) (type : bytes) : result bytes :=
  if isprint c then
    write dbl (B "unknown format code '{}' for {}") [AChar (StringViewModel.signed_char c); ACString (Some (type ++ [NUL]))]
  else
    write dbl (B "unknown format code '\x{:02x}' for {}")
      [AUint (Z.to_N (StringViewModel.signed_char c mod 2 ^ 32)); ACString (Some (type ++ [NUL]))].
End WithDoubles.
Arguments Returned {A} f a.
Arguments Threw {A} f e.
Arguments Crashed {A}.
