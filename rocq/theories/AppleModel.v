(** The other date generator, compiled on Apple systems: src/datetime/generator.other.cpp with src/datetime/stream.hpp.
    The clock and the C library are those of DateModel. *)
From Verif Require Import Base Decimal TimeModel FmtModel DateModel.
Open Scope N_scope.

(** [int] arithmetic: an overflow is undefined. *)
Definition int_of (z : Z) : result Z := if ((- 2 ^ 31 <=? z) && (z <? 2 ^ 31))%Z then Ok z else Undefined.

(** src/datetime/generator.other.cpp:45-52 [fill]: the loop, storing digits from the right into [room] places; [stored] is
    what has been stored. [Undefined]: a store in front of the buffer. The buffer (59) has 11 bytes. *)
Fixpoint fill_digits (room : nat) (value : Z) (stored : bytes) : result (nat * bytes) :=
  match room with
  | O => Undefined
  | S room' =>
      let stored := chr (Z.to_N ((Z.rem value 10 + 48) mod 256)) :: stored in
      let value := Z.quot value 10 in
      if (value =? 0)%Z then Ok (room', stored) else fill_digits room' value stored
  end.
(** src/datetime/generator.other.cpp:54, 57-62: what is left of the buffer is filled. *)
Definition fill (length : nat) (filler : ascii) (value : Z) : result bytes :=
  r <- fill_digits length value []; Ok (repeat filler (fst r) ++ snd r).

(** The functions a token can point to. *)
Inductive token :=
| KLiteral                                                                                  (* 240-243 *)
| KYear | KYear2 | KCentury                                                                 (* 82-92 *)
| KMonth                                                                                    (* 98-100 *)
| KWeekSunday | KWeekMonday                                                                 (* 109-117 *)
| KYearDay                                                                                  (* 125-127 *)
| KMonthDay (filler : ascii)                                                                (* 133-136 *)
| KHour | KHour12                                                                           (* 146-153 *)
| KMinute | KSecond | KEpoch | KUsec                                                        (* 159-181 *)
| KLocalized (letter : ascii)                                                               (* 71-78, 187-191 *)
| KStandard | KDateMdy | KDateIso | KTimeIso.                                               (* 193-236 *)

(** src/datetime/generator.other.cpp:25-41 [context_t]: the copy of the fields that mktime changes, and the next literal. *)
Record context := Context { x_clock : clock; x_usec : N; x_literals : list bytes }.

Section Generator.
Variable lib : clib.

(** src/datetime/generator.other.cpp:71-78: the facet prints what strftime prints for the letter. *)
Definition localized (c : context) (letter : ascii) : result bytes := directive lib (x_clock c) ["%"%char; letter].

(** src/datetime/generator.other.cpp:82-92. *)
Definition year_full (t : tm) : result bytes := y <- int_of (tm_year t + 1900); fill 4 "0" y.
Definition year_last (t : tm) : result bytes := fill 2 "0" (Z.rem (tm_year t) 100).
Definition year_first (t : tm) : result bytes := fill 2 "0" (Z.quot (tm_year t) 100 + 19).
(** src/datetime/generator.other.cpp:98-100, 125-136. *)
Definition month_numeric (t : tm) : result bytes := m <- int_of (tm_mon t + 1); fill 2 "0" m.
Definition year_day (t : tm) : result bytes := d <- int_of (tm_yday t + 1); fill 3 "0" d.
Definition month_day (filler : ascii) (t : tm) : result bytes := fill 2 filler (tm_mday t).
(** src/datetime/generator.other.cpp:109-117. *)
Definition week_sunday (t : tm) : result bytes := n <- int_of (tm_yday t - tm_wday t + 7); fill 2 "0" (Z.quot n 7).
Definition week_monday (t : tm) : result bytes :=
  n <- int_of (tm_yday t - tm_wday t + (if (tm_wday t =? 0)%Z then 1 else 8)); fill 2 "0" (Z.quot n 7).
(** src/datetime/generator.other.cpp:146-153. *)
Definition hour24 (t : tm) : result bytes := fill 2 "0" (tm_hour t).
Definition hour12 (t : tm) : result bytes := let m := Z.rem (tm_hour t) 12 in fill 2 "0" (if (m =? 0)%Z then 12 else m).
(** src/datetime/generator.other.cpp:159-169, 179-181. *)
Definition minute (t : tm) : result bytes := fill 2 "0" (tm_min t).
Definition second (t : tm) : result bytes := fill 2 "0" (tm_sec t).
Definition usecond (usec : N) : result bytes := fill 6 "0" (i32 (Z.of_N usec)).

(** Append a character, then go on. *)
Definition put (c : ascii) (r : result bytes) : result bytes := s <- r; Ok (c :: s).
Definition both (a b : result bytes) : result bytes := s <- a; t <- b; Ok (s ++ t).

(** src/datetime/generator.other.cpp:193-236. *)
Definition standard (c : context) : result bytes :=
  let t := c_tm (x_clock c) in
  both (localized c "a") (put " " (both (localized c "b") (put " " (both (month_day "0" t) (put " " (both (hour24 t)
    (put ":" (both (minute t) (put ":" (both (second t) (put " " (year_full t)))))))))))).
Definition date_mdy (t : tm) : result bytes := both (month_numeric t) (put "/" (both (month_day "0" t) (put "/" (year_last t)))).
Definition date_iso (t : tm) : result bytes := both (year_full t) (put "-" (both (month_numeric t) (put "-" (month_day "0" t)))).
Definition time_iso (t : tm) : result bytes := both (hour24 t) (put ":" (both (minute t) (put ":" (second t)))).

(** src/datetime/generator.other.cpp:601, the call of one token: the bytes it appends and the context it leaves. *)
Definition call (k : token) (c : context) : result (bytes * context) :=
  let t := c_tm (x_clock c) in
  let same (r : result bytes) := s <- r; Ok (s, c) in
  match k with
  | KLiteral => match x_literals c with [] => Undefined | s :: l => Ok (s, Context (x_clock c) (x_usec c) l) end
  | KYear => same (year_full t)
  | KYear2 => same (year_last t)
  | KCentury => same (year_first t)
  | KMonth => same (month_numeric t)
  | KWeekSunday => same (week_sunday t)
  | KWeekMonday => same (week_monday t)
  | KYearDay => same (year_day t)
  | KMonthDay filler => same (month_day filler t)
  | KHour => same (hour24 t)
  | KHour12 => same (hour12 t)
  | KMinute => same (minute t)
  | KSecond => same (second t)
  | KEpoch => let '(e, clk) := mktime lib (x_clock c) in Ok (sdec e, Context clk (x_usec c) (x_literals c))
  | KUsec => same (usecond (x_usec c))
  | KLocalized letter => same (localized c letter)
  | KStandard => same (standard c)
  | KDateMdy => same (date_mdy t)
  | KDateIso => same (date_iso t)
  | KTimeIso => same (time_iso t)
  end.

(** src/datetime/generator.other.cpp:597-603 [generator_t::operator()]. *)
Fixpoint calls (ks : list token) (c : context) : result bytes :=
  match ks with
  | [] => Ok []
  | k :: ks' => r <- call k c; s <- calls ks' (snd r); Ok (fst r ++ s)
  end.
End Generator.

(** src/datetime/generator.other.cpp:245-257 [generator_handler_t]. *)
Record handler := Handler { h_tokens : list token; h_literals : list bytes; h_buffer : bytes }.

(** src/datetime/generator.other.cpp:261-275. *)
Definition partial_literal (h : handler) (s : bytes) : handler := Handler (h_tokens h) (h_literals h) (h_buffer h ++ s).
Definition literal (h : handler) (s : bytes) : handler := Handler (h_tokens h ++ [KLiteral]) (h_literals h ++ [s]) (h_buffer h).
Definition end_partial_literal (h : handler) : handler :=
  match h_buffer h with
  | [] => h
  | s => let h' := literal h s in Handler (h_tokens h') (h_literals h') []
  end.
(** src/datetime/generator.other.cpp:277-279. *)
Definition placeholder (h : handler) (s : bytes) : handler := literal h s.
(** src/datetime/generator.other.cpp:281-407: every other method ends the literal and pushes its function. *)
Definition push (h : handler) (k : token) : handler :=
  let h := end_partial_literal h in Handler (h_tokens h ++ [k]) (h_literals h) (h_buffer h).

(** src/datetime/generator.other.cpp:412-440 [through_t], [common], 442-477 [time], 479-559 [date]: the cases by the letter; [common]'s case is behind that of [date]. *)
Definition known (c : ascii) : option token :=
  if Ascii.eqb c "Y" then Some KYear else if Ascii.eqb c "y" then Some KYear2 else if Ascii.eqb c "C" then Some KCentury
  else if Ascii.eqb c "m" then Some KMonth
  else if Ascii.eqb c "b" then Some (KLocalized "b") else if Ascii.eqb c "h" then Some (KLocalized "b")
  else if Ascii.eqb c "B" then Some (KLocalized "B")
  else if Ascii.eqb c "U" then Some KWeekSunday else if Ascii.eqb c "W" then Some KWeekMonday
  else if Ascii.eqb c "j" then Some KYearDay
  else if Ascii.eqb c "d" then Some (KMonthDay "0") else if Ascii.eqb c "e" then Some (KMonthDay " ")
  else if Ascii.eqb c "a" then Some (KLocalized "a") else if Ascii.eqb c "A" then Some (KLocalized "A")
  else if Ascii.eqb c "c" then Some KStandard else if Ascii.eqb c "D" then Some KDateMdy
  else if Ascii.eqb c "F" then Some KDateIso else if Ascii.eqb c "T" then Some KTimeIso
  else if Ascii.eqb c "z" then Some (KLocalized "z") else if Ascii.eqb c "Z" then Some (KLocalized "Z")
  else if Ascii.eqb c "H" then Some KHour else if Ascii.eqb c "I" then Some KHour12
  else if Ascii.eqb c "M" then Some KMinute else if Ascii.eqb c "S" then Some KSecond
  else if Ascii.eqb c "s" then Some KEpoch else if Ascii.eqb c "f" then Some KUsec
  else if Ascii.eqb c "p" then Some (KLocalized "p")
  else None.
Definition parse_directive (h : handler) (c : ascii) : handler :=
  if Ascii.eqb c "%" then literal h (B "%")
  else match known c with Some k => push h k | None => placeholder h ["%"%char; c] end.

(** src/datetime/generator.other.cpp:563-588 [parser_t::parse]; the text up to the next percent sign is taken a character at
    a time. *)
Fixpoint parse (h : handler) (format : bytes) : handler :=
  match format with
  | [] => end_partial_literal h
  | c :: rest =>
      if Ascii.eqb c "%" then
        match rest with
        | d :: rest' => parse (parse_directive h d) rest'
        | [] => end_partial_literal (partial_literal h [c])
        end
      else parse (partial_literal h [c]) rest
  end.

(** src/datetime/generator.other.cpp:605-614 [make_generator] and the call of the generator. *)
Definition generate (lib : clib) (pattern : bytes) (c : clock) (usec : N) : result bytes :=
  let h := parse (Handler [] [] []) pattern in calls lib (h_tokens h) (Context c usec (h_literals h)).
