(** Time patterns of the second generator: the texts of the directives, from the calendar. *)
From Verif Require Import Base Decimal TimeModel FmtModel DateModel DateSpec.
From Verif Require StrSpec.
Open Scope N_scope.

(** A character, `%%`, a directive nobody knows, a directive. *)
Inductive item := Plain (c : ascii) | Percent | Unknown (c : ascii) | Directive (c : ascii).

Definition letters : bytes := B "YyCmbhBUWjdeaAcDFTzZHIMSsfp".
Definition item_ok (i : item) : Prop :=
  match i with
  | Plain c => c <> "%"%char
  | Percent => True
  | Unknown c => ~ In c letters /\ c <> "%"%char
  | Directive c => In c letters
  end.
Definition item_text (i : item) : bytes :=
  match i with
  | Plain c => [c]
  | Percent => B "%%"
  | Unknown c => ["%"%char; c]
  | Directive c => ["%"%char; c]
  end.
(** [tail]: a percent sign may end the pattern. *)
Definition pattern_text (is : list item) (tail : bool) : bytes := flat_map item_text is ++ (if tail then B "%" else []).

(** It is printed like a character. *)
Definition tail_items (tail : bool) : list item := if tail then [Plain "%"] else [].

(** Fields in the ranges of the C standard, from the year 1900 to 9999. *)
Definition proper (t : tm) : Prop :=
  (0 <= tm_sec t <= 60 /\ 0 <= tm_min t <= 59 /\ 0 <= tm_hour t <= 23 /\ 1 <= tm_mday t <= 31 /\ 0 <= tm_mon t <= 11
   /\ 0 <= tm_year t <= 8099 /\ 0 <= tm_wday t <= 6 /\ 0 <= tm_yday t <= 365)%Z.

(** How many days of the year up to this one are the weekday [w]. *)
Definition weekdays (t : tm) (w : Z) : nat :=
  length (filter (fun i => (tm_wday t - (tm_yday t - Z.of_nat i)) mod 7 =? w)%Z (seq 0 (S (Z.to_nat (tm_yday t))))).

(** The text of a directive. *)
Inductive prints (lib : clib) (c : clock) (usec : N) : ascii -> bytes -> Prop :=
| prints_Y : prints lib c usec "Y" (fixed 4 (Z.to_N (tm_year (c_tm c) + 1900)))
| prints_y : prints lib c usec "y" (fixed 2 (Z.to_N ((tm_year (c_tm c) + 1900) mod 100)))
| prints_C : prints lib c usec "C" (fixed 2 (Z.to_N ((tm_year (c_tm c) + 1900) / 100)))
| prints_m : prints lib c usec "m" (fixed 2 (Z.to_N (tm_mon (c_tm c) + 1)))
| prints_U : prints lib c usec "U" (fixed 2 (N.of_nat (weekdays (c_tm c) 0)))
| prints_W : prints lib c usec "W" (fixed 2 (N.of_nat (weekdays (c_tm c) 1)))
| prints_j : prints lib c usec "j" (fixed 3 (Z.to_N (tm_yday (c_tm c) + 1)))
| prints_d : prints lib c usec "d" (fixed 2 (Z.to_N (tm_mday (c_tm c))))
| prints_e_one d : tm_mday (c_tm c) = Z.of_N d -> d < 10 -> prints lib c usec "e" [" "%char; digit d]
| prints_e_two : (10 <= tm_mday (c_tm c))%Z -> prints lib c usec "e" (fixed 2 (Z.to_N (tm_mday (c_tm c))))
| prints_H : prints lib c usec "H" (fixed 2 (Z.to_N (tm_hour (c_tm c))))
| prints_I h k : 1 <= h <= 12 -> (tm_hour (c_tm c) = Z.of_N h + 12 * k)%Z -> prints lib c usec "I" (fixed 2 h)
| prints_M : prints lib c usec "M" (fixed 2 (Z.to_N (tm_min (c_tm c))))
| prints_S : prints lib c usec "S" (fixed 2 (Z.to_N (tm_sec (c_tm c))))
| prints_f : prints lib c usec "f" (fixed 6 usec)
| prints_D m d y : prints lib c usec "m" m -> prints lib c usec "d" d -> prints lib c usec "y" y ->
    prints lib c usec "D" (m ++ B "/" ++ d ++ B "/" ++ y)
| prints_F y m d : prints lib c usec "Y" y -> prints lib c usec "m" m -> prints lib c usec "d" d ->
    prints lib c usec "F" (y ++ B "-" ++ m ++ B "-" ++ d)
| prints_T h m s : prints lib c usec "H" h -> prints lib c usec "M" m -> prints lib c usec "S" s ->
    prints lib c usec "T" (h ++ B ":" ++ m ++ B ":" ++ s)
| prints_c a b d h y : prints lib c usec "a" a -> prints lib c usec "b" b -> prints lib c usec "d" d ->
    prints lib c usec "T" h -> prints lib c usec "Y" y ->
    prints lib c usec "c" (a ++ B " " ++ b ++ B " " ++ d ++ B " " ++ h ++ B " " ++ y)
| prints_h b : prints lib c usec "b" b -> prints lib c usec "h" b
| prints_locale x t : In x (B "bBaAzZp") -> directive lib c ["%"%char; x] = Ok t -> prints lib c usec x t.

(** What a list of items prints: after `%s` the clock is the one [mktime] leaves. *)
Inductive shows (lib : clib) (usec : N) : clock -> list item -> bytes -> Prop :=
| shows_end c : shows lib usec c [] []
| shows_plain c x is out : shows lib usec c is out -> shows lib usec c (Plain x :: is) (x :: out)
| shows_percent c is out : shows lib usec c is out -> shows lib usec c (Percent :: is) ("%"%char :: out)
| shows_unknown c x is out : shows lib usec c is out -> shows lib usec c (Unknown x :: is) ("%"%char :: x :: out)
| shows_directive c d t is out : d <> "s"%char -> prints lib c usec d t -> shows lib usec c is out ->
    shows lib usec c (Directive d :: is) (t ++ out)
| shows_epoch c t c' s is out : mktime lib c = (t, c') -> StrSpec.decimal t s -> shows lib usec c' is out ->
    shows lib usec c (Directive "s" :: is) (s ++ out).

(** The fields are in range wherever they are read, and so are those that the locale's texts need. *)
Definition readable (lib : clib) (c : clock) (d : ascii) : Prop :=
  proper (c_tm c) /\ (d = "z"%char -> c_gmtoff c <> None) /\ (d = "Z"%char -> c_zone c <> None).
Fixpoint ready (lib : clib) (c : clock) (is : list item) : Prop :=
  match is with
  | [] => True
  | Directive d :: is =>
      (d = "s"%char -> ready lib (snd (mktime lib c)) is) /\ (d <> "s"%char -> readable lib c d /\ ready lib c is)
  | _ :: is => ready lib c is
  end.

(** `%%` and unknown directives. *)
Definition verbatim (i : item) : Prop := match i with Percent | Unknown _ => True | _ => False end.
Definition plain (i : item) : Prop := match i with Plain _ => True | _ => False end.
(** One of them moves to the front of the characters before it. *)
Inductive moved : list item -> list item -> Prop :=
| moved_not is : moved is is
| moved_one a x y b is : plain x -> verbatim y -> moved (a ++ y :: x :: b) is -> moved (a ++ x :: y :: b) is.
(** None of them stands right behind a character. *)
Definition in_order (is : list item) : Prop := forall a x y b, is = a ++ x :: y :: b -> plain x -> ~ verbatim y.

(** The items both generators take, as those of DateSpec. *)
Definition shared : bytes := B "YmdHMSsfbBaAzZp".
Definition other_item (i : item) : DateSpec.item :=
  match i with
  | Plain c => DateSpec.Plain c
  | Percent => DateSpec.Directive (B "%%")
  | Unknown c => DateSpec.Directive ["%"%char; c]
  | Directive c => if Ascii.eqb c "f" then DateSpec.Micro else if Ascii.eqb c "s" then DateSpec.Epoch else DateSpec.Directive ["%"%char; c]
  end.
Definition shared_item (i : item) : Prop :=
  match i with Plain c => c <> "%"%char /\ c <> NUL | Percent => True | Unknown _ => False | Directive c => In c shared end.
