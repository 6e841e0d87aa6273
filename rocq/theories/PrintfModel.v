(** The printf-like functions of the formatting library (src/format.cpp:313-412, 513-548, 885-1058,
    include/blackhole/extensions/format.hpp:1385-1405, 2783-2806): format strings with percent signs. The writer's buffer is modelled
    with its capacity, because a pointer into it is used after it may have moved. *)
From Verif Require Import Base FmtModel.
Open Scope N_scope.

(** ---- the writer ---- *)

(** include/blackhole/extensions/format.hpp:433-441: the contents of the buffer of a MemoryWriter and its capacity. *)
Record out := Out { o_text : bytes; o_capacity : N }.
(** include/blackhole/extensions/format.hpp:413, 525-526: a new buffer. *)
Definition start : out := Out [] 500.
(** include/blackhole/extensions/format.hpp:476-479 [reserve] and 566-583 [grow]: the capacity that is there when [n] elements are needed.
    The allocator never fails here. *)
Definition grown (capacity n : N) : N := if capacity <? n then N.max n (wrap64 (capacity + capacity / 2)) else capacity.
Definition reserve (o : out) (n : N) : out := Out (o_text o) (grown (o_capacity o) n).
(** include/blackhole/extensions/format.hpp:499-505 [append], 1945-1949 [grow_buffer] with what is stored there. *)
Definition add (o : out) (s : bytes) : out := Out (o_text o ++ s) (grown (o_capacity o) (length_N (o_text o) + length_N s)).
(** include/blackhole/extensions/format.hpp:1378-1382 [FormatterBase::write]. *)
Definition write_literal (o : out) (s : bytes) : out := match s with [] => o | _ => add o s end.

(** ---- integers with a precision ---- *)

(** include/blackhole/extensions/format.hpp:2293-2373 [write_int]: the number of digits, the digits in the order they are stored, going
    left, and the prefix. *)
Definition int_parts (w : word) (value : Z) (sp : spec) : result (option N * option bytes * bytes) :=
  let abs_value := Z.to_N (if (value <? 0)%Z then (- value) mod 2 ^ Z.of_N (bits_of w) else value) in
  let sign := if (value <? 0)%Z then B "-" else if sp_sign sp then (if sp_plus sp then B "+" else B " ") else [] in
  let marked (mark : bytes) := if sp_hash sp then sign ++ mark else sign in
  let fuel := 65%nat in
  match N_of_ascii (sp_type sp) with
  | 0 | 100 => Ok (count_digits w abs_value, decimal_back fuel abs_value, sign)
  | 120 => Ok (count_shifts fuel 4 abs_value, shift_back fuel lower_hex 4 abs_value, marked (B "0x"))
  | 88 => Ok (count_shifts fuel 4 abs_value, shift_back fuel upper_hex 4 abs_value, marked (B "0X"))
  | 98 => Ok (count_shifts fuel 1 abs_value, shift_back fuel low_digit 1 abs_value, marked (B "0b"))
  | 66 => Ok (count_shifts fuel 1 abs_value, shift_back fuel low_digit 1 abs_value, marked (B "0B"))
  | 111 => Ok (count_shifts fuel 3 abs_value, shift_back fuel low_digit 3 abs_value, marked (B "0"))
  | _ => Error EUnknownType
  end.

(** include/blackhole/extensions/format.hpp:2238-2241: the prefix without the zero of an octal number. *)
Definition drop_zero (prefix : bytes) : bytes :=
  if Ascii.eqb (last prefix NUL) "0" then removelast prefix else prefix.

(** include/blackhole/extensions/format.hpp:2230-2291 [prepare_int_buffer] and the digits put at the pointer it returns. With left
    alignment and a precision the pointer is taken before the last [grow_buffer]: if that moves the buffer, the digits go to the old
    place, [Undefined]. [reserve] (2246) is asked for the width and not for the size and the width. *)
Definition fill_int (nd : option N) (back : option bytes) (sp : spec) (prefix : bytes) (o : out) : result out :=
  let plain := t <- fill_digits nd back sp prefix; Ok (add o t) in
  match nd, sp_precision sp with
  | Some n, Some q =>
      if n <? q then
        let prefix' := drop_zero prefix in
        let number_size := length_N prefix' + q in
        let subspec := Spec number_size "0" ANumeric false false false false None NUL in
        number <- fill_digits nd back subspec prefix';
        if sp_width sp <=? number_size then Ok (add o number)
        else
          let o1 := reserve o (sp_width sp) in
          let fill := repeat (sp_fill sp) (N.to_nat (sp_width sp - number_size)) in
          match sp_align sp with
          | ALeft => let o2 := add o1 number in
                     let o3 := add o2 fill in
                     if o_capacity o2 =? o_capacity o3 then Ok o3 else Undefined
          | _ => Ok (add (add o1 fill) number)
          end
      else plain
  | _, _ => plain
  end.

Definition write_int (w : word) (value : Z) (sp : spec) (o : out) : result out :=
  p <- int_parts w value sp;
  let '(nd, back, prefix) := p : option N * option bytes * bytes in
  fill_int nd back sp prefix o.

(** ---- arguments ---- *)

Definition with_align (sp : spec) (al : alignment) : spec :=
  Spec (sp_width sp) (sp_fill sp) al (sp_sign sp) (sp_plus sp) (sp_minus sp) (sp_hash sp) (sp_precision sp) (sp_type sp).
Definition with_fill (sp : spec) (c : ascii) : spec :=
  Spec (sp_width sp) c (sp_align sp) (sp_sign sp) (sp_plus sp) (sp_minus sp) (sp_hash sp) (sp_precision sp) (sp_type sp).
Definition with_width (sp : spec) (n : N) : spec :=
  Spec n (sp_fill sp) (sp_align sp) (sp_sign sp) (sp_plus sp) (sp_minus sp) (sp_hash sp) (sp_precision sp) (sp_type sp).
Definition with_sign (sp : spec) (plus : bool) : spec :=
  Spec (sp_width sp) (sp_fill sp) (sp_align sp) true (plus || sp_plus sp) (sp_minus sp) (sp_hash sp) (sp_precision sp) (sp_type sp).
Definition with_hash (sp : spec) (b : bool) : spec :=
  Spec (sp_width sp) (sp_fill sp) (sp_align sp) (sp_sign sp) (sp_plus sp) (sp_minus sp) b (sp_precision sp) (sp_type sp).
Definition with_precision (sp : spec) (p : option N) : spec :=
  Spec (sp_width sp) (sp_fill sp) (sp_align sp) (sp_sign sp) (sp_plus sp) (sp_minus sp) (sp_hash sp) p (sp_type sp).
Definition with_type (sp : spec) (c : ascii) : spec :=
  Spec (sp_width sp) (sp_fill sp) (sp_align sp) (sp_sign sp) (sp_plus sp) (sp_minus sp) (sp_hash sp) (sp_precision sp) c.

(** include/blackhole/extensions/format.hpp:1215-1232: the value [visit_any_int] gets and the bits of the unsigned type that goes with its
    type (704-735; for [bool] the value is kept). *)
Definition int_value (a : arg) : option (Z * N) :=
  match a with
  | AInt z => Some (z, 32)
  | AUint n => Some (Z.of_N n, 32)
  | ALong z => Some (z, 64)
  | AUlong n => Some (Z.of_N n, 64)
  | ABool b => Some ((if b then 1 else 0)%Z, 32)
  | AChar z => Some (z, 32)
  | _ => None
  end.

(** src/format.cpp:313-339 [WidthHandler]. *)
Definition width_of (sp : spec) (a : arg) : result spec :=
  match int_value a with
  | None => Error EWidthNotInteger
  | Some (value, bits) =>
      let negative := (value <? 0)%Z in
      let width := Z.to_N (if negative then (- value) mod 2 ^ Z.of_N bits else value) in
      let sp := if negative then with_align sp ALeft else sp in
      if INT_MAX <? width then Error ENumberTooBig else Ok (with_width sp width)
  end.

(** src/format.cpp:341-354 [PrecisionHandler] with [IntChecker] (142-159). A negative precision acts like none: every reader asks first
    whether it is at least zero (format.hpp:2237, 2467, src/format.cpp:806). *)
Definition precision_of (sp : spec) (a : arg) : result spec :=
  match int_value a with
  | None => Error EPrecisionNotInteger
  | Some (value, _) =>
      if ((- 2 ^ 31 <=? value) && (value <=? 2 ^ 31 - 1))%Z
      then Ok (with_precision sp (if (value <? 0)%Z then None else Some (Z.to_N value)))
      else Error ENumberTooBig
  end.

(** A number as a signed number of so many bits. *)
Definition signed (bits : N) (z : Z) : Z :=
  let m := (2 ^ Z.of_N bits)%Z in
  let r := (z mod m)%Z in if (2 * r <? m)%Z then r else (r - m)%Z.

(** The types an argument is converted to: [signed char], [short], [int] and the types of 64 bits ([long], [long long], [intmax_t],
    [size_t], [ptrdiff_t]). *)
Inductive length_modifier := LChar | LShort | LInt | LWide.
(** src/format.cpp:356-395 [ArgConverter]; other arguments stay as they are. *)
Definition convert (l : length_modifier) (type : ascii) (a : arg) : arg :=
  match int_value a with
  | None => a
  | Some (value, bits) =>
      let is_signed := Ascii.eqb type "d" || Ascii.eqb type "i" in
      let narrow n := if is_signed then AInt (signed n value) else AUint (Z.to_N (value mod 2 ^ Z.of_N n)) in
      match l with
      | LChar => narrow 8
      | LShort => narrow 16
      | LInt => narrow 32
      | LWide => let u := (value mod 2 ^ Z.of_N bits)%Z in
                 if is_signed then ALong (signed 64 u) else AUlong (Z.to_N u)
      end
  end.

(** src/format.cpp:397-412 [CharConverter]. *)
Definition to_char (a : arg) : arg :=
  match int_value a with None => a | Some (value, _) => AChar (signed 8 value) end.

(** src/format.cpp:521-541 [PrintfArgFormatter::visit_char]: with another type than [c] the number and then the character. *)
Definition write_char (value : Z) (sp : spec) (o : out) : result out :=
  o1 <- (if negb (Ascii.eqb (sp_type sp) NUL) && negb (Ascii.eqb (sp_type sp) "c") then write_int W32 value sp o else Ok o);
  let c := chr (Z.to_N (value mod 256)) in
  let fill := repeat " "%char (N.to_nat (sp_width sp - 1)) in
  Ok (add o1 (match sp_align sp with ALeft => c :: fill | _ => fill ++ [c] end)).

Section WithDoubles.
(** The text of a double, as in FmtModel. *)
Variable dbl : spec -> N -> bytes.

(** include/blackhole/extensions/format.hpp:2412-2520: NaN and infinities like strings; for other numbers room for the sign is reserved
    first, and snprintf needs one byte more than it writes. *)
Definition add_double (sp : spec) (bits : N) (o : out) : out :=
  let t := dbl sp bits in
  if (bits / 2 ^ 52) mod 2 ^ 11 =? 2047 then add o t
  else
    let size := length_N (o_text o) in
    let o1 := if (2 ^ 63 <=? bits) || sp_sign sp then reserve o (size + N.max (sp_width sp) 1) else o in
    let o2 := if size + length_N t <? o_capacity o1 then o1 else reserve o1 (size + length_N t + 1) in
    add o2 t.

(** src/format.cpp:513-548 [PrintfArgFormatter] with BasicArgFormatter (417-493). *)
Definition print_arg (sp : spec) (a : arg) (o : out) : result out :=
  match a with
  | AInt z => write_int W32 z sp o
  | AUint n => write_int W32 (Z.of_N n) sp o
  | ALong z => write_int W64 z sp o
  | AUlong n => write_int W64 (Z.of_N n) sp o
  | ABool b => if negb (Ascii.eqb (sp_type sp) NUL) then write_int W32 (if b then 1 else 0)%Z sp o
               else t <- write_bool b sp; Ok (add o t)
  | AChar z => write_char z sp o
  | ADouble bits => if is_float_type (sp_type sp) then Ok (add_double sp bits o) else Error EUnknownType
  | ACString p => t <- write_string p 0 sp; Ok (add o t)
  | AString p size => t <- write_string p size sp; Ok (add o t)
  end.

(** ---- conversions ---- *)

(** src/format.cpp:891-915 [parse_flags]. *)
Fixpoint parse_flags (sp : spec) (s : bytes) : spec * bytes :=
  match s with
  | [] => (sp, s)
  | c :: s' =>
      if Ascii.eqb c "-" then parse_flags (with_align sp ALeft) s'
      else if Ascii.eqb c "+" then parse_flags (with_sign sp true) s'
      else if Ascii.eqb c "0" then parse_flags (with_fill sp "0") s'
      else if Ascii.eqb c " " then parse_flags (with_sign sp false) s'
      else if Ascii.eqb c "#" then parse_flags (with_hash sp true) s'
      else (sp, s)
  end.

Section WithArgs.
Variable args : list arg.

(** src/format.cpp:917-928 [get_arg] with FormatterBase (852-889); [None] is [UINT_MAX]. Index 0 becomes [UINT_MAX], behind the arguments.
    At the end of the format every error has the same text. *)
Definition get_arg (ix : index) (s : bytes) (n : option N) : result (arg * index) :=
  let fail (e : error) : result (arg * index) := Error (match s with [] => EInvalidString | _ => e end) in
  match n with
  | None =>
      match ix with
      | None => fail EAutoFromManual
      | Some i => match do_get_arg args i with Ok a => Ok (a, Some (i + 1)) | Error e => fail e | Undefined => Undefined end
      end
  | Some n =>
      match ix with
      | Some (N.pos _) => fail EManualFromAuto
      | _ => if n =? 0 then fail EIndexRange
             else match do_get_arg args (n - 1) with Ok a => Ok (a, None) | Error e => fail e | Undefined => Undefined end
      end
  end.

(** src/format.cpp:949-957: flags and width. *)
Definition parse_width (ix : index) (sp : spec) (s : bytes) : result (spec * index * bytes) :=
  let (sp1, s1) := parse_flags sp s in
  if is_digit (peek s1) then ns <- parse_int s1; Ok (with_width sp1 (fst ns), ix, snd ns)
  else match s1 with
       | c :: s2 => if Ascii.eqb c "*" then
                      ai <- get_arg ix s2 None;
                      sp2 <- width_of sp1 (fst ai); Ok (sp2, snd ai, s2)
                    else Ok (sp1, ix, s1)
       | [] => Ok (sp1, ix, s1)
       end.

(** src/format.cpp:930-959 [parse_header]: the argument's index, and flags and width in the specification. *)
Definition parse_header (ix : index) (sp : spec) (s : bytes) : result (option N * spec * index * bytes) :=
  if is_digit (peek s) then
    ns <- parse_int s;
    let (value, s1) := ns : N * bytes in
    if Ascii.eqb (peek s1) "$" then
      r <- parse_width ix sp (tl s1); let '(sp2, ix2, s2) := r : spec * index * bytes in Ok (Some value, sp2, ix2, s2)
    else
      let sp1 := if Ascii.eqb (peek s) "0" then with_fill sp "0" else sp in
      if value =? 0 then
        r <- parse_width ix sp1 s1; let '(sp2, ix2, s2) := r : spec * index * bytes in Ok (None, sp2, ix2, s2)
      else Ok (None, with_width sp1 value, ix, s1)
  else
    r <- parse_width ix sp s; let '(sp2, ix2, s2) := r : spec * index * bytes in Ok (None, sp2, ix2, s2).

(** src/format.cpp:983-992: the precision. *)
Definition parse_precision (ix : index) (sp : spec) (s : bytes) : result (spec * index * bytes) :=
  match s with
  | c :: s1 =>
      if Ascii.eqb c "." then
        if is_digit (peek s1) then ns <- parse_int s1; Ok (with_precision sp (Some (fst ns)), ix, snd ns)
        else match s1 with
             | c' :: s2 => if Ascii.eqb c' "*" then
                             ai <- get_arg ix s2 None;
                             sp2 <- precision_of sp (fst ai); Ok (sp2, snd ai, s2)
                           else Ok (sp, ix, s1)
             | [] => Ok (sp, ix, s1)
             end
      else Ok (sp, ix, s)
  | [] => Ok (sp, ix, s)
  end.

(** src/format.cpp:995-1002 with [IsZeroInt] (261-266): the flags and the argument. *)
Definition adjust (sp : spec) (a : arg) : spec :=
  let zero := match int_value a with Some (z, _) => (z =? 0)%Z | None => false end in
  let sp := if sp_hash sp && zero then with_hash sp false else sp in
  if Ascii.eqb (sp_fill sp) "0" then
    if is_numeric a then with_align sp ANumeric else with_fill sp " "
  else sp.

(** src/format.cpp:1004-1034: the length modifier and the conversion of the argument. *)
Definition parse_length (a : arg) (s : bytes) : arg * bytes :=
  match s with
  | [] => (convert LInt NUL a, s)
  | c :: s1 =>
      if Ascii.eqb c "h" then
        if Ascii.eqb (peek s1) "h" then (convert LChar (peek (tl s1)) a, tl s1) else (convert LShort (peek s1) a, s1)
      else if Ascii.eqb c "l" then
        if Ascii.eqb (peek s1) "l" then (convert LWide (peek (tl s1)) a, tl s1) else (convert LWide (peek s1) a, s1)
      else if Ascii.eqb c "j" || Ascii.eqb c "z" || Ascii.eqb c "t" then (convert LWide (peek s1) a, s1)
      else if Ascii.eqb c "L" then (a, s1)
      else (convert LInt c a, s)
  end.

(** src/format.cpp:1036-1050: the type letter. *)
Definition normalize (a : arg) (type : ascii) : arg * ascii :=
  if is_integer a then
    if Ascii.eqb type "i" || Ascii.eqb type "u" then (a, "d"%char)
    else if Ascii.eqb type "c" then (to_char a, type)
    else (a, type)
  else (a, type).

(** src/format.cpp:976-1055: one conversion from behind its percent sign. *)
Definition first_spec : spec := with_align empty_spec ARight.
Definition format_conversion (ix : index) (s : bytes) (o : out) : result (out * index * bytes) :=
  r1 <- parse_header ix first_spec s;
  let '(n, sp1, ix1, s1) := r1 : option N * spec * index * bytes in
  r2 <- parse_precision ix1 sp1 s1;
  let '(sp2, ix2, s2) := r2 : spec * index * bytes in
  ai <- get_arg ix2 s2 n;
  let (a, ix3) := ai : arg * index in
  let sp3 := adjust sp2 a in
  let (a1, s3) := parse_length a s2 in
  match s3 with
  | [] => Error EInvalidString
  | type :: s4 =>
      let (a2, type') := normalize a1 type in
      o' <- print_arg (with_type sp3 type') a2 o;
      Ok (o', ix3, s4)
  end.

(** src/format.cpp:961-1058 [format]. [literal]: the characters since [start]. [fuel] is more than the length of the string. *)
Fixpoint format_go (fuel : nat) (ix : index) (literal s : bytes) (o : out) : result out :=
  match fuel with
  | O => Undefined
  | S fuel' =>
      match s with
      | [] => Ok (write_literal o literal)
      | c :: s' =>
          if negb (Ascii.eqb c "%") then format_go fuel' ix (literal ++ [c]) s' o
          else if Ascii.eqb (peek s') "%" then format_go fuel' ix [] (tl s') (write_literal o (literal ++ [c]))
          else
            r <- format_conversion ix s' (write_literal o literal);
            let '(o', ix', s'') := r : out * index * bytes in
            format_go fuel' ix' [] s'' o'
      end
  end.
End WithArgs.

(** include/blackhole/extensions/format.hpp:2783-2801 [printf] and [sprintf]: into a new writer; [str()] gives its contents. *)
Definition sprintf (format : bytes) (args : list arg) : result bytes :=
  let s := c_string format in
  o <- format_go args (S (length s)) (Some 0) [] s start;
  Ok (o_text o).
End WithDoubles.
