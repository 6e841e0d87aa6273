(** The formatting library (src/format.cpp, include/blackhole/extensions/format.hpp, a copy of cppformat): format
    strings, argument selection, integers and strings. The output of a call is the bytes it appends to the buffer. *)
From Verif Require Import Base.
Open Scope N_scope.

(** What a pointer sees: the bytes from it to the end of the object it points into. Reading further is undefined. *)
Definition memory := bytes.

(** include/blackhole/extensions/format.hpp:862-907 [Arg]. [int], [unsigned], [long long], [unsigned long long],
    [bool], [char] (as an int), [double] (its bit pattern), [const char*] and [StringRef]. Not modelled: long double,
    wide strings, pointers, named and custom arguments. *)
Inductive arg :=
| AInt (z : Z)
| AUint (n : N)
| ALong (z : Z)
| AUlong (n : N)
| ABool (b : bool)
| AChar (z : Z)
| ADouble (bits : N)
| ACString (p : option memory)
| AString (p : option memory) (size : N).

(** The messages of [FormatError]. *)
Inductive error :=
| EUnmatchedBrace | EMissingBrace | EInvalidString | ENumberTooBig | EIndexRange | EAutoFromManual | EManualFromAuto
| ENotFound | EInvalidFill | ENeedsNumeric | ENeedsSigned | ENegativeWidth | EWidthNotInteger | ENegativePrecision
| EPrecisionNotInteger | EMissingPrecision | EPrecisionNotAllowed | EUnknownType | EBadCharSpec | ENullString.

(** [Undefined]: a read outside of an object, a write outside of the buffer or an output byte never written. *)
Inductive result (A : Type) := Ok (a : A) | Error (e : error) | Undefined.
Arguments Ok {A} a.
Arguments Error {A} e.
Arguments Undefined {A}.

Definition bind {A C : Type} (r : result A) (f : A -> result C) : result C :=
  match r with Ok a => f a | Error e => Error e | Undefined => Undefined end.
Notation "x <- r ; f" := (bind r (fun x => f)) (at level 61, r at next level, right associativity).

(** include/blackhole/extensions/format.hpp:1437-1508 [Alignment] and [FormatSpec]; the flags one by one;
    [sp_precision] is [None] for -1; [sp_type] is NUL for none. [CHAR_FLAG] only selects an error text. *)
Inductive alignment := ALeft | ARight | ANumeric | ACenter | ADefault.
Record spec := Spec {
  sp_width : N;
  sp_fill : ascii;
  sp_align : alignment;
  sp_sign : bool;
  sp_plus : bool;
  sp_minus : bool;
  sp_hash : bool;
  sp_precision : option N;
  sp_type : ascii
}.
(** include/blackhole/extensions/format.hpp:1501-1503. *)
Definition empty_spec : spec := Spec 0 " " ADefault false false false false None NUL.

(** ---- integers ---- *)

(** include/blackhole/extensions/format.hpp:704-717: the width of [UnsignedType] for each argument type. *)
Inductive word := W32 | W64.
Definition bits_of (w : word) : N := match w with W32 => 32 | W64 => 64 end.

(** src/format.cpp:597-622: the tables of powers; entry 0 is zero. *)
Definition power_of_10 (w : word) (t : N) : option N :=
  if t =? 0 then Some 0
  else if t <=? (match w with W32 => 9 | W64 => 19 end) then Some (10 ^ t) else None.

(** include/blackhole/extensions/format.hpp:753-786 [count_digits] with the builtins: [64 - clzll(n | 1)] is the
    number of binary digits of [n | 1]. [None]: the table is read outside. *)
Definition count_digits (w : word) (n : N) : option N :=
  let t := (N.size (N.lor n 1) * 1233) / 2 ^ 12 in
  match power_of_10 w t with
  | None => None
  | Some p => Some (t + 1 - (if n <? p then 1 else 0))
  end.

(** src/format.cpp:590-596 [DIGITS]. *)
Definition DIGITS : bytes := B
  "00010203040506070809101112131415161718192021222324252627282930313233343536373839404142434445464748495051525354555657585960616263646566676869707172737475767778798081828384858687888990919293949596979899".
Definition digits_at (i : N) : option ascii := nth_error DIGITS (N.to_nat i).

(** include/blackhole/extensions/format.hpp:789-811 [format_decimal]: the characters in the order they are stored,
    each one position to the left of the previous one. *)
Fixpoint decimal_back (fuel : nat) (value : N) : option bytes :=
  match fuel with
  | O => None
  | S fuel' =>
      if 100 <=? value then
        let index := value mod 100 * 2 in
        match digits_at (index + 1), digits_at index, decimal_back fuel' (value / 100) with
        | Some a, Some b, Some s => Some (a :: b :: s)
        | _, _, _ => None
        end
      else if value <? 10 then Some [chr (48 + value)]
      else match digits_at (value * 2 + 1), digits_at (value * 2) with
           | Some a, Some b => Some [a; b]
           | _, _ => None
           end
  end.

(** include/blackhole/extensions/format.hpp:2322-2325, 2342-2345, 2357-2360: count the digits by shifting. *)
Fixpoint count_shifts (fuel : nat) (shift n : N) : option N :=
  match fuel with
  | O => None
  | S fuel' => let n' := N.shiftr n shift in
      if n' =? 0 then Some 1 else option_map N.succ (count_shifts fuel' shift n')
  end.

(** include/blackhole/extensions/format.hpp:2328-2333, 2347-2350, 2362-2365: store the digits, going left. *)
Fixpoint shift_back (fuel : nat) (digit : N -> ascii) (shift n : N) : option bytes :=
  match fuel with
  | O => None
  | S fuel' => let n' := N.shiftr n shift in
      let c := digit (N.land n (2 ^ shift - 1)) in
      if n' =? 0 then Some [c] else option_map (cons c) (shift_back fuel' digit shift n')
  end.
Definition lower_hex (d : N) : ascii := nth (N.to_nat d) (B "0123456789abcdef") NUL.
Definition upper_hex (d : N) : ascii := nth (N.to_nat d) (B "0123456789ABCDEF") NUL.
Definition low_digit (d : N) : ascii := chr (48 + d).

(** The part of the buffer a call appends; [None] is a byte not stored yet. *)
Definition cells := list (option ascii).
Definition stored (s : bytes) : cells := map Some s.
Definition filled (c : ascii) (n : N) : cells := repeat (Some c) (N.to_nat n).
Definition blank (n : N) : cells := repeat None (N.to_nat n).

Definition length_N {A} (l : list A) : N := N.of_nat (length l).

(** include/blackhole/extensions/format.hpp:2230-2291 [prepare_int_buffer] without precision (refused for integers,
    src/format.cpp:1210-1214): the appended cells and one more than the index of the returned pointer. *)
Definition prepare_int_buffer (num_digits : N) (sp : spec) (prefix : bytes) : cells * N :=
  let size := length_N prefix + num_digits in
  let width := sp_width sp in
  let fill := sp_fill sp in
  if width <=? size then (stored prefix ++ blank num_digits, size)
  else
    let padding := width - size in
    match sp_align sp with
    | ALeft => (stored prefix ++ blank num_digits ++ filled fill padding, size)
    | ACenter =>
        let left := padding / 2 in
        (filled fill left ++ stored prefix ++ blank num_digits ++ filled fill (padding - left), left + size)
    | ANumeric => (stored prefix ++ filled fill padding ++ blank num_digits, width)
    | ARight | ADefault => (filled fill padding ++ stored prefix ++ blank num_digits, width)
    end.

Fixpoint put (cs : cells) (i : nat) (c : ascii) : option cells :=
  match cs, i with
  | [], _ => None
  | _ :: cs', O => Some (Some c :: cs')
  | x :: cs', S i' => option_map (cons x) (put cs' i' c)
  end.

(** Store characters going left from [last] - 1. *)
Fixpoint put_back (cs : cells) (last : nat) (s : bytes) {struct s} : option cells :=
  match s with
  | [] => Some cs
  | c :: s' => match last with
               | O => None
               | S i => match put cs i c with Some cs' => put_back cs' i s' | None => None end
               end
  end.

Fixpoint all_stored (cs : cells) : option bytes :=
  match cs with
  | [] => Some []
  | Some c :: cs' => option_map (cons c) (all_stored cs')
  | None :: _ => None
  end.

Definition fill_digits (num_digits : option N) (back : option bytes) (sp : spec) (prefix : bytes) : result bytes :=
  match num_digits, back with
  | Some nd, Some s =>
      let (cs, last) := prepare_int_buffer nd sp prefix in
      match put_back cs (N.to_nat last) s with
      | Some cs' => match all_stored cs' with Some out => Ok out | None => Undefined end
      | None => Undefined
      end
  | _, _ => Undefined
  end.

(** include/blackhole/extensions/format.hpp:2293-2373 [write_int]. [value] is in the range of its type; the
    absolute value is computed modulo the width of [UnsignedType]. *)
Definition write_int (w : word) (value : Z) (sp : spec) : result bytes :=
  let abs_value := Z.to_N (if (value <? 0)%Z then (- value) mod 2 ^ Z.of_N (bits_of w) else value) in
  let sign := if (value <? 0)%Z then B "-" else if sp_sign sp then (if sp_plus sp then B "+" else B " ") else [] in
  let fuel := 65%nat in
  match N_of_ascii (sp_type sp) with
  | 0 | 100 => fill_digits (count_digits w abs_value) (decimal_back fuel abs_value) sp sign
  | 120 => fill_digits (count_shifts fuel 4 abs_value) (shift_back fuel lower_hex 4 abs_value) sp
             (if sp_hash sp then sign ++ B "0x" else sign)
  | 88 => fill_digits (count_shifts fuel 4 abs_value) (shift_back fuel upper_hex 4 abs_value) sp
             (if sp_hash sp then sign ++ B "0X" else sign)
  | 98 => fill_digits (count_shifts fuel 1 abs_value) (shift_back fuel low_digit 1 abs_value) sp
             (if sp_hash sp then sign ++ B "0b" else sign)
  | 66 => fill_digits (count_shifts fuel 1 abs_value) (shift_back fuel low_digit 1 abs_value) sp
             (if sp_hash sp then sign ++ B "0B" else sign)
  | 111 => fill_digits (count_shifts fuel 3 abs_value) (shift_back fuel low_digit 3 abs_value) sp
             (if sp_hash sp then sign ++ B "0" else sign)
  | _ => Error EUnknownType
  end.

(** ---- strings ---- *)

(** include/blackhole/extensions/format.hpp:2192-2213 [write_str] and :2215-2228 [fill_padding]. *)
Definition pad_str (s : bytes) (sp : spec) : bytes :=
  let size := length_N s in
  if size <? sp_width sp then
    let padding := sp_width sp - size in
    match sp_align sp with
    | ARight => repeat (sp_fill sp) (N.to_nat padding) ++ s
    | ACenter =>
        let left := padding / 2 in
        repeat (sp_fill sp) (N.to_nat left) ++ s ++ repeat (sp_fill sp) (N.to_nat (padding - left))
    | _ => s ++ repeat (sp_fill sp) (N.to_nat padding)
    end
  else s.

(** [strlen]; [None]: there is no NUL before the end of the object. *)
Fixpoint strlen (m : memory) : option N :=
  match m with
  | [] => None
  | c :: m' => if Ascii.eqb c NUL then Some 0 else option_map N.succ (strlen m')
  end.

Definition read (m : memory) (size : N) : result bytes :=
  if length_N m <? size then Undefined else Ok (firstn (N.to_nat size) m).

(** src/format.cpp:788-810 [write_str] of a [StringValue]: for size 0 the size is looked for with [strlen]. *)
Definition write_string (p : option memory) (size : N) (sp : spec) : result bytes :=
  if negb (Ascii.eqb (sp_type sp) NUL) && negb (Ascii.eqb (sp_type sp) "s") then Error EUnknownType
  else
    str_size <- (if size =? 0 then
                   match p with
                   | None => Error ENullString
                   | Some m => match m with
                               | [] => Undefined
                               | c :: _ => if Ascii.eqb c NUL then Ok 0
                                           else match strlen m with Some n => Ok n | None => Undefined end
                               end
                   end
                 else Ok size);
    let str_size := match sp_precision sp with
                    | Some q => if q <? str_size then q else str_size
                    | None => str_size
                    end in
    match p with
    | None => Undefined
    | Some m => s <- read m str_size; Ok (pad_str s sp)
    end.

(** src/format.cpp:449-476 [visit_char]: the cast to [char] keeps the low byte. *)
Definition write_char (value : Z) (sp : spec) : result bytes :=
  if negb (Ascii.eqb (sp_type sp) NUL) && negb (Ascii.eqb (sp_type sp) "c") then write_int W32 value sp
  else if (match sp_align sp with ANumeric => true | _ => false end)
          || sp_sign sp || sp_plus sp || sp_minus sp || sp_hash sp then Error EBadCharSpec
  else Ok (pad_str [chr (Z.to_N (value mod 256))] sp).

(** src/format.cpp:439-447 [visit_bool]. *)
Definition write_bool (b : bool) (sp : spec) : result bytes :=
  if negb (Ascii.eqb (sp_type sp) NUL) then write_int W32 (if b then 1 else 0)%Z sp
  else let s := if b then B "true" else B "false" in write_string (Some (s ++ [NUL])) (length_N s) sp.

Definition is_float_type (c : ascii) : bool :=
  existsb (Ascii.eqb c) (NUL :: B "efgaFEGA").

(** ---- format strings ---- *)

Section WithDoubles.
(** The text of a double for a specification of a known type (snprintf, infinities, NaN and padding:
    include/blackhole/extensions/format.hpp:2375-2523). *)
Variable dbl : spec -> N -> bytes.

(** src/format.cpp:417-511 [ArgFormatter] with ArgVisitor::visit (include/blackhole/extensions/format.hpp:1215-1250). *)
Definition format_arg (sp : spec) (a : arg) : result bytes :=
  match a with
  | AInt z => write_int W32 z sp
  | AUint n => write_int W32 (Z.of_N n) sp
  | ALong z => write_int W64 z sp
  | AUlong n => write_int W64 (Z.of_N n) sp
  | ABool b => write_bool b sp
  | AChar z => write_char z sp
  | ADouble bits => if is_float_type (sp_type sp) then Ok (dbl sp bits) else Error EUnknownType
  | ACString p => write_string p 0 sp
  | AString p size => write_string p size sp
  end.

(** src/format.cpp:293-299 and the order of include/blackhole/extensions/format.hpp:892-899. *)
Definition is_integer (a : arg) : bool :=
  match a with AInt _ | AUint _ | ALong _ | AUlong _ | ABool _ | AChar _ => true | _ => false end.
Definition is_numeric (a : arg) : bool := match a with ADouble _ => true | _ => is_integer a end.
Definition require_numeric (a : arg) : result unit := if is_numeric a then Ok tt else Error ENeedsNumeric.
(** src/format.cpp:301-311 [check_sign]. *)
Definition check_sign (a : arg) : result unit :=
  _ <- require_numeric a;
  match a with AUint _ | AUlong _ => Error ENeedsSigned | _ => Ok tt end.

(** Reading [*s]; the format string is a C string, the end of the list is its NUL. *)
Definition peek (s : bytes) : ascii := hd NUL s.
Definition is_digit (c : ascii) : bool := (48 <=? N_of_ascii c) && (N_of_ascii c <=? 57).

(** src/format.cpp:268-286 [parse_nonnegative_int], called on a digit; [value] is an unsigned 32-bit number. *)
Definition INT_MAX : N := 2 ^ 31 - 1.
Fixpoint parse_int_go (value : N) (s : bytes) : N * bytes :=
  match s with
  | c :: s' =>
      if is_digit c then
        let new_value := (value * 10 + (N_of_ascii c - 48)) mod 2 ^ 32 in
        if new_value <? value then (2 ^ 32 - 1, s') else parse_int_go new_value s'
      else (value, s)
  | [] => (value, s)
  end.
Definition parse_int (s : bytes) : result (N * bytes) :=
  let (value, s') := parse_int_go 0 s in
  if INT_MAX <? value then Error ENumberTooBig else Ok (value, s').

(** src/format.cpp:288-291. *)
Definition is_name_start (c : ascii) : bool :=
  let n := N_of_ascii c in ((97 <=? n) && (n <=? 122)) || ((65 <=? n) && (n <=? 90)) || (n =? 95).

(** [next_arg_index_]; [None] is -1. *)
Definition index := option N.

Section WithArgs.
Variable args : list arg.

(** src/format.cpp:852-887: [do_get_arg], [next_arg], [check_no_auto_index], [get_arg]. *)
Definition do_get_arg (i : N) : result arg :=
  match nth_error args (N.to_nat i) with Some a => Ok a | None => Error EIndexRange end.

(** src/format.cpp:825-835 [parse_arg_index]; the thrown text depends on the following character. *)
Definition parse_arg_index (ix : index) (s : bytes) : result (arg * index * bytes) :=
  let fail (s : bytes) (e : error) : result (arg * index * bytes) :=
    Error (if negb (Ascii.eqb (peek s) RBRACE) && negb (Ascii.eqb (peek s) ":") then EInvalidString else e) in
  if is_digit (peek s) then
    ns <- parse_int s;
    let (n, s') := ns : N * bytes in
    match ix with
    | Some (N.pos _) => fail s' EManualFromAuto
    | _ => match do_get_arg n with Ok a => Ok (a, None, s') | Error e => fail s' e | Undefined => Undefined end
    end
  else
    match ix with
    | None => fail s EAutoFromManual
    | Some i => match do_get_arg i with
                | Ok a => Ok (a, Some (i + 1), s)
                | Error e => fail s e
                | Undefined => Undefined
                end
    end.

(** src/format.cpp:837-850 [parse_arg_name] with get_arg (:812-823): there are no named arguments. *)
Definition parse_arg_name (ix : index) : error :=
  match ix with Some (N.pos _) => EManualFromAuto | _ => ENotFound end.

Definition parse_arg (ix : index) (s : bytes) : result (arg * index * bytes) :=
  if is_name_start (peek s) then Error (parse_arg_name ix) else parse_arg_index ix s.

(** src/format.cpp:1139-1168, 1177-1205: the value of a width or precision given by an argument. *)
Definition int_of_arg (negative not_integer : error) (a : arg) : result N :=
  match a with
  | AInt z | ALong z => if (z <? 0)%Z then Error negative
                        else if INT_MAX <? Z.to_N z then Error ENumberTooBig else Ok (Z.to_N z)
  | AUint n | AUlong n => if INT_MAX <? n then Error ENumberTooBig else Ok n
  | _ => Error not_integer
  end.

Definition parse_nested (ix : index) (negative not_integer : error) (s : bytes) : result (N * index * bytes) :=
  r <- parse_arg ix s;
  let '(a, ix', s') := r : arg * index * bytes in
  match s' with
  | c :: s'' => if Ascii.eqb c RBRACE then n <- int_of_arg negative not_integer a; Ok (n, ix', s'') else Error EInvalidString
  | [] => Error EInvalidString
  end.

(** src/format.cpp:1072-1104: fill and alignment. *)
Definition align_char (c : ascii) : option alignment :=
  if Ascii.eqb c "<" then Some ALeft
  else if Ascii.eqb c ">" then Some ARight
  else if Ascii.eqb c "=" then Some ANumeric
  else if Ascii.eqb c "^" then Some ACenter
  else None.
Definition check_align (a : arg) (al : alignment) : result unit :=
  match al with ANumeric => require_numeric a | _ => Ok tt end.
Definition parse_align (a : arg) (s : bytes) : result (alignment * ascii * bytes) :=
  match s with
  | [] => Ok (ADefault, " "%char, s)
  | c :: s1 =>
      match align_char (peek s1) with
      | Some al =>
          if Ascii.eqb c RBRACE then Ok (al, " "%char, s)
          else if Ascii.eqb c LBRACE then Error EInvalidFill
          else _ <- check_align a al; Ok (al, c, tl s1)
      | None =>
          match align_char c with
          | Some al => _ <- check_align a al; Ok (al, " "%char, s1)
          | None => Ok (ADefault, " "%char, s)
          end
      end
  end.

(** src/format.cpp:1106-1120: the sign; the three flags it sets. *)
Definition parse_sign (a : arg) (s : bytes) : result (bool * bool * bool * bytes) :=
  match s with
  | c :: s' =>
      if Ascii.eqb c "+" then _ <- check_sign a; Ok (true, true, false, s')
      else if Ascii.eqb c "-" then _ <- check_sign a; Ok (false, false, true, s')
      else if Ascii.eqb c " " then _ <- check_sign a; Ok (true, false, false, s')
      else Ok (false, false, false, s)
  | [] => Ok (false, false, false, s)
  end.

(** src/format.cpp:1122-1134: a flag that needs a numeric argument. *)
Definition parse_flag (flag : ascii) (a : arg) (s : bytes) : result (bool * bytes) :=
  match s with
  | c :: s' => if Ascii.eqb c flag then _ <- require_numeric a; Ok (true, s') else Ok (false, s)
  | [] => Ok (false, s)
  end.

(** src/format.cpp:1136-1169: the width. *)
Definition parse_width (ix : index) (s : bytes) : result (N * index * bytes) :=
  if is_digit (peek s) then ns <- parse_int s; Ok (fst ns, ix, snd ns)
  else match s with
       | c :: s' => if Ascii.eqb c LBRACE then parse_nested ix ENegativeWidth EWidthNotInteger s' else Ok (0, ix, s)
       | [] => Ok (0, ix, s)
       end.

(** src/format.cpp:1171-1215: the precision. *)
Definition parse_precision (a : arg) (ix : index) (s : bytes) : result (option N * index * bytes) :=
  match s with
  | c :: s' =>
      if Ascii.eqb c "." then
        r <- (if is_digit (peek s') then ns <- parse_int s'; Ok (fst ns, ix, snd ns)
              else match s' with
                   | c' :: s'' => if Ascii.eqb c' LBRACE then parse_nested ix ENegativePrecision EPrecisionNotInteger s''
                                  else Error EMissingPrecision
                   | [] => Error EMissingPrecision
                   end);
        let '(n, ix', s'') := r : N * index * bytes in
        if is_integer a then Error EPrecisionNotAllowed else Ok (Some n, ix', s'')
      else Ok (None, ix, s)
  | [] => Ok (None, ix, s)
  end.

(** src/format.cpp:1063-1220: the specification, up to the closing brace. *)
Definition parse_spec (a : arg) (ix : index) (s : bytes) : result (spec * index * bytes) :=
  match s with
  | c :: s0 =>
      if Ascii.eqb c ":" then
        r1 <- parse_align a s0;
        let '(al, fill, s1) := r1 : alignment * ascii * bytes in
        r2 <- parse_sign a s1;
        let '(sign, plus, minus, s2) := r2 : bool * bool * bool * bytes in
        r3 <- parse_flag "#" a s2;
        let (hash, s3) := r3 : bool * bytes in
        r4 <- parse_flag "0" a s3;
        let (zero, s4) := r4 : bool * bytes in
        r5 <- parse_width ix s4;
        let '(width, ix5, s5) := r5 : N * index * bytes in
        r6 <- parse_precision a ix5 s5;
        let '(precision, ix6, s6) := r6 : option N * index * bytes in
        let (type, s7) := match s6 with
                          | c :: s7 => if Ascii.eqb c RBRACE then (NUL, s6) else (c, s7)
                          | [] => (NUL, s6)
                          end in
        Ok (Spec width (if zero then "0"%char else fill) (if zero then ANumeric else al) sign plus minus hash
              precision type, ix6, s7)
      else Ok (empty_spec, ix, s)
  | [] => Ok (empty_spec, ix, s)
  end.

(** src/format.cpp:1061-1228 [format(format_str, arg)]: one placeholder from behind its argument selector. *)
Definition format_placeholder (a : arg) (ix : index) (s : bytes) : result (bytes * index * bytes) :=
  r <- parse_spec a ix s;
  let '(sp, ix', s') := r : spec * index * bytes in
  match s' with
  | c :: s'' => if Ascii.eqb c RBRACE then out <- format_arg sp a; Ok (out, ix', s'') else Error EMissingBrace
  | [] => Error EMissingBrace
  end.

(** src/format.cpp:1230-1249 [format(format_str)]: what is appended. A thrown error leaves the text written before
    it in the buffer; the callers here all abandon the buffer then. [fuel] is more than the length of the string. *)
Fixpoint format_go (fuel : nat) (ix : index) (s : bytes) : result bytes :=
  match fuel with
  | O => Undefined
  | S fuel' =>
      match s with
      | [] => Ok []
      | c :: s' =>
          if negb (Ascii.eqb c LBRACE) && negb (Ascii.eqb c RBRACE) then
            out <- format_go fuel' ix s'; Ok (c :: out)
          else if Ascii.eqb (peek s') c then
            out <- format_go fuel' ix (tl s'); Ok (c :: out)
          else if Ascii.eqb c RBRACE then Error EUnmatchedBrace
          else
            r1 <- parse_arg ix s';
            let '(a, ix1, s1) := r1 : arg * index * bytes in
            r2 <- format_placeholder a ix1 s1;
            let '(text, ix2, s2) := r2 : bytes * index * bytes in
            out <- format_go fuel' ix2 s2; Ok (text ++ out)
      end
  end.
End WithArgs.

Fixpoint c_string (s : bytes) : bytes :=
  match s with [] => [] | c :: s' => if Ascii.eqb c NUL then [] else c :: c_string s' end.

(** include/blackhole/extensions/format.hpp:2093-2096 [write(format, args...)]: the format is taken as a C string. *)
Definition write (format : bytes) (args : list arg) : result bytes :=
  let s := c_string format in format_go args (S (length s)) (Some 0) s.
End WithDoubles.
