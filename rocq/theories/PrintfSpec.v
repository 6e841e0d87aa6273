(** What the printf functions should do: the rules of ISO C (7.21.6.1) for format strings, and positions as in POSIX, without reference to the
    library's way of reading them. *)
From Verif Require Import Base FmtModel FmtSpec.
Open Scope N_scope.

(** ---- conversions as text ---- *)

(** A number in a conversion: none, one written there with its digits, or an asterisk for an argument. *)
Inductive amount := NoAmount | Given (n : N) (ds : bytes) | Asterisk.
Record conversion := Conversion {
  c_position : option (N * bytes);
  c_flags : bytes;
  c_width : amount;
  c_precision : option amount;
  c_length : bytes;
  c_letter : ascii
}.

Definition amount_text (a : amount) : bytes := match a with NoAmount => [] | Given _ ds => ds | Asterisk => B "*" end.
(** Behind the percent sign and the position. *)
Definition tail_text (c : conversion) : bytes :=
  c_flags c ++ amount_text (c_width c)
   ++ match c_precision c with Some a => "."%char :: amount_text a | None => [] end
   ++ c_length c ++ [c_letter c].
Definition conversion_text (c : conversion) : bytes :=
  "%"%char :: match c_position c with Some (_, ds) => ds ++ B "$" | None => [] end ++ tail_text c.

Definition written (n : N) (ds : bytes) : Prop := ds <> [] /\ read_digits 10 0 ds = Some n /\ n < 2 ^ 31.
Definition flag_char (c : ascii) : bool := existsb (Ascii.eqb c) (B "-+ #0").
Definition lengths : list bytes := [B ""; B "hh"; B "h"; B "l"; B "ll"; B "j"; B "z"; B "t"; B "L"].

(** Well-formed: flags, numbers that fit in an [int] (a width does not begin with a zero, which would be a flag), one of the length
    modifiers of C, and a letter that is not one of these. *)
Definition well_formed (c : conversion) : Prop :=
  match c_position c with Some (n, ds) => written n ds /\ 0 < n | None => True end
  /\ Forall (fun x => flag_char x = true) (c_flags c)
  /\ match c_width c with Given n ds => written n ds /\ hd NUL ds <> "0"%char | _ => True end
  /\ match c_precision c with Some (Given n ds) => written n ds | _ => True end
  /\ In (c_length c) lengths
  /\ letter (c_letter c) = true /\ existsb (Ascii.eqb (c_letter c)) (B "hlLjzt") = false.

Definition flag (f : ascii) (c : conversion) : bool := existsb (Ascii.eqb f) (c_flags c).

(** ---- arguments of a conversion ---- *)

(** The number an integer argument is. *)
Definition number_of (a : arg) : option Z :=
  match a with
  | AInt z | ALong z | AChar z => Some z
  | AUint n | AUlong n => Some (Z.of_N n)
  | ABool b => Some (if b then 1 else 0)%Z
  | ADouble _ | ACString _ | AString _ _ => None
  end.

(** The arguments an asterisk takes come first. *)
Definition stars (c : conversion) : nat :=
  (match c_width c with Asterisk => 1 | _ => 0 end + match c_precision c with Some Asterisk => 1 | _ => 0 end)%nat.

(** Whether the field is left-justified, its width, the precision and the argument. A negative width is the flag [-] and a width, a negative
    precision is none, a dot alone is precision zero. *)
Record wanted := Wanted { left_side : bool; wide : N; precise : option N; subject : arg }.
Definition an_int (z : Z) : bool := ((- 2 ^ 31 <? z) && (z <? 2 ^ 31))%Z.

Definition take_width (c : conversion) (args : list arg) : option (bool * N * list arg) :=
  match c_width c with
  | NoAmount => Some (flag "-" c, 0, args)
  | Given n _ => Some (flag "-" c, n, args)
  | Asterisk =>
      match args with
      | a :: args' =>
          match number_of a with
          | Some z => if an_int z then Some (flag "-" c || (z <? 0)%Z, Z.abs_N z, args') else None
          | None => None
          end
      | [] => None
      end
  end.
Definition take_precision (c : conversion) (args : list arg) : option (option N * list arg) :=
  match c_precision c with
  | None => Some (None, args)
  | Some NoAmount => Some (Some 0, args)
  | Some (Given n _) => Some (Some n, args)
  | Some Asterisk =>
      match args with
      | a :: args' =>
          match number_of a with
          | Some z => if an_int z then Some (if (z <? 0)%Z then None else Some (Z.to_N z), args') else None
          | None => None
          end
      | [] => None
      end
  end.
Definition wants (c : conversion) (args : list arg) : option wanted :=
  match take_width c args with
  | Some (l, w, args1) =>
      match take_precision c args1 with
      | Some (p, [a]) => Some (Wanted l w p a)
      | _ => None
      end
  | None => None
  end.

(** ---- memory ---- *)

(** Arguments that are values of their types, and strings that can be read. *)
Definition valid (a : arg) : Prop :=
  match a with
  | AInt z | AChar z => (- 2 ^ 31 <= z < 2 ^ 31)%Z
  | AUint n => n < 2 ^ 32
  | ALong z => (- 2 ^ 63 <= z < 2 ^ 63)%Z
  | AUlong n => n < 2 ^ 64
  | ABool _ | ADouble _ => True
  | ACString p => match p with Some m => In NUL m | None => True end
  | AString p size => match p with Some m => if size =? 0 then In NUL m else size <= length_N m | None => size = 0 end
  end.

(** ---- integers ---- *)

(** The bits of the type a length modifier names, and whether a letter is for signed numbers. *)
Definition bits_named (l : bytes) : option N :=
  if bytes_eqb l (B "hh") then Some 8
  else if bytes_eqb l (B "h") then Some 16
  else if bytes_eqb l (B "") then Some 32
  else if existsb (bytes_eqb l) [B "l"; B "ll"; B "j"; B "z"; B "t"] then Some 64
  else None.
Definition for_signed (l : ascii) : bool := Ascii.eqb l "d" || Ascii.eqb l "i".
(** The number of that type that is congruent to [z]. *)
Definition as_type (bits : N) (sgn : bool) (z v : Z) : Prop :=
  (exists k, z = v + k * 2 ^ Z.of_N bits)%Z /\
  (if sgn then - 2 ^ Z.of_N bits <= 2 * v < 2 ^ Z.of_N bits else 0 <= v < 2 ^ Z.of_N bits)%Z.

Definition base_of (l : ascii) : option (N * bool) :=
  if Ascii.eqb l "d" || Ascii.eqb l "i" || Ascii.eqb l "u" then Some (10, false)
  else if Ascii.eqb l "o" then Some (8, false)
  else if Ascii.eqb l "x" then Some (16, false)
  else if Ascii.eqb l "X" then Some (16, true)
  else None.

(** The sign, for signed conversions only. *)
Definition sign_for (c : conversion) (v : Z) : bytes :=
  if (v <? 0)%Z then B "-"
  else if for_signed (c_letter c) then (if flag "+" c then B "+" else if flag " " c then B " " else [])
  else [].
(** [#] and a hexadecimal number that is not zero. *)
Definition mark_for (c : conversion) (v : Z) : bytes :=
  if flag "#" c && negb (v =? 0)%Z then
    (if Ascii.eqb (c_letter c) "x" then B "0x" else if Ascii.eqb (c_letter c) "X" then B "0X" else [])
  else [].
Definition zeros (n : N) : bytes := repeat "0"%char (N.to_nat n).
(** At least as many digits as the precision says; none for zero with precision zero; [#] and an octal number begin with a zero. *)
Definition digits_for (c : conversion) (p : option N) (v : Z) (ds : bytes) : bytes :=
  let d := match p with Some 0 => if (v =? 0)%Z then [] else ds | _ => ds end in
  let d := match p with Some q => zeros (q - length_N d) ++ d | None => d end in
  if flag "#" c && Ascii.eqb (c_letter c) "o" && negb (Ascii.eqb (hd NUL d) "0") then "0"%char :: d else d.

(** Zero padding does not go with left-justification or with a precision. *)
Definition zero_padded (c : conversion) (w : wanted) : bool :=
  flag "0" c && negb (left_side w) && match precise w with None => true | Some _ => false end.

(** The texts of an integer conversion of the number [v]. *)
Definition integer_text (c : conversion) (w : wanted) (v : Z) (out : bytes) : Prop :=
  exists base upper ds, base_of (c_letter c) = Some (base, upper) /\ numeral base upper (Z.abs_N v) ds /\
    field true (if left_side w then ALeft else if zero_padded c w then ANumeric else ARight)
      (if zero_padded c w then "0"%char else " "%char) (wide w)
      (sign_for c v ++ mark_for c v) (digits_for c (precise w) v ds) out.

(** An integer conversion [c] of the arguments [args]: it wants [w], the argument is the number [z], which becomes [v]. *)
Definition asked (c : conversion) (args : list arg) (w : wanted) (z v : Z) : Prop :=
  well_formed c /\ c_position c = None /\ wants c args = Some w /\ valid (subject w) /\ number_of (subject w) = Some z
  /\ base_of (c_letter c) <> None
  /\ exists bits, bits_named (c_length c) = Some bits /\ as_type bits (for_signed (c_letter c)) z v.

(** The conversions the library prints as C says; of the others the properties show that it does not.
    No [0] together with [-] or a precision; no dot alone; not zero with precision zero; no sign flags with unsigned letters; [#] not for a
    number that becomes zero only by its conversion; a negative argument of a 64-bit conversion is a 64-bit number. *)
Definition ordinary (c : conversion) (w : wanted) (z v : Z) : Prop :=
  (flag "0" c = true -> left_side w = false /\ precise w = None)
  /\ c_precision c <> Some NoAmount
  /\ (precise w = Some 0 -> v <> 0%Z)
  /\ (for_signed (c_letter c) = false -> flag "+" c = false /\ flag " " c = false)
  /\ (flag "#" c = true -> v = 0%Z -> z = 0%Z)
  /\ (bits_named (c_length c) = Some 64 -> (z < 0)%Z -> subject w = ALong z).

(** ---- characters and strings ---- *)

Definition char_text (w : wanted) (v : N) (out : bytes) : Prop :=
  field false (if left_side w then ALeft else ARight) " "%char (wide w) [] [chr v] out.

Definition string_text (w : wanted) (s : bytes) (out : bytes) : Prop :=
  field false (if left_side w then ALeft else ARight) " "%char (wide w) []
    (match precise w with Some q => firstn (N.to_nat q) s | None => s end) out.

(** The bytes of a string argument: up to the first NUL of an array, or as many as the string has. *)
Definition text_of (a : arg) (s : bytes) : Prop :=
  match a with
  | ACString (Some m) => ~ In NUL s /\ exists rest, m = s ++ NUL :: rest
  | AString (Some m) size => length_N s = size /\ exists rest, m = s ++ rest /\ (s = [] -> hd " "%char m = NUL)
  | _ => False
  end.

(** ---- format strings ---- *)

Inductive piece := Literal (s : bytes) | Convert (c : conversion).
Definition percent_text (c : ascii) : bytes := if Ascii.eqb c "%" then B "%%" else [c].
Definition piece_text (p : piece) : bytes :=
  match p with Literal s => flat_map percent_text s | Convert c => conversion_text c end.
Definition format_text (ps : list piece) : bytes := flat_map piece_text ps.

(** Conversions without positions take the arguments in turn. *)
Definition needs (c : conversion) : nat := S (stars c).
Fixpoint share (ps : list piece) (args : list arg) : list (bytes + (conversion * list arg)) :=
  match ps with
  | [] => []
  | Literal s :: ps' => inl s :: share ps' args
  | Convert c :: ps' => inr (c, firstn (needs c) args) :: share ps' (skipn (needs c) args)
  end.
Fixpoint all_needs (ps : list piece) : nat :=
  match ps with [] => 0 | Literal _ :: ps' => all_needs ps' | Convert c :: ps' => needs c + all_needs ps' end.

Definition good_piece (p : piece) : Prop :=
  match p with Literal s => ~ In NUL s | Convert c => well_formed c /\ c_position c = None end.

(** Literal text is copied, conversions print what they print alone; the first failure is the result. *)
Fixpoint in_turn (alone : conversion -> list arg -> result bytes) (xs : list (bytes + (conversion * list arg))) : result bytes :=
  match xs with
  | [] => Ok []
  | x :: xs' =>
      match (match x with inl s => Ok s | inr (c, args) => alone c args end) with
      | Ok t => match in_turn alone xs' with Ok out => Ok (t ++ out) | Error e => Error e | Undefined => Undefined end
      | Error e => Error e
      | Undefined => Undefined
      end
  end.

(** Left-justified with a precision. *)
Definition left_precise (c : conversion) : bool :=
  match c_precision c with None => false | Some _ => flag "-" c || match c_width c with Asterisk => true | _ => false end end.
Definition piece_left_precise (p : piece) : bool := match p with Literal _ => false | Convert c => left_precise c end.

(** The same conversion without its position, and the place of its argument. *)
Definition unplaced (c : conversion) : conversion :=
  Conversion None (c_flags c) (c_width c) (c_precision c) (c_length c) (c_letter c).
Definition unplaced_piece (p : piece) : piece := match p with Literal s => Literal s | Convert c => Convert (unplaced c) end.
Definition place (c : conversion) : nat := match c_position c with Some (n, _) => N.to_nat (n - 1) | None => 0%nat end.
Fixpoint places (ps : list piece) : list nat :=
  match ps with [] => [] | Literal _ :: ps' => places ps' | Convert c :: ps' => place c :: places ps' end.

Definition placed_piece (p : piece) : Prop :=
  match p with Literal s => ~ In NUL s | Convert c => well_formed c /\ c_position c <> None /\ stars c = 0%nat end.
Definition is_conversion (p : piece) : bool := match p with Literal _ => false | Convert _ => true end.

(** ---- refusals ---- *)

(** The letters that go with an argument; [b] and [B] (binary) are the library's own. *)
Definition fits (l : ascii) (a : arg) : bool :=
  match a with
  | ADouble _ => existsb (Ascii.eqb l) (B "eEfFgGaA")
  | ACString _ | AString _ _ => Ascii.eqb l "s"
  | AInt _ | AUint _ | ALong _ | AUlong _ | ABool _ | AChar _ => existsb (Ascii.eqb l) (B "diuoxXcbB")
  end.
Definition null (a : arg) : bool := match a with ACString None | AString None _ => true | _ => false end.
