(** Time patterns as lists of items, and the text of a time. *)
From Verif Require Import Base Decimal TimeModel TimeSpec FmtModel DateModel.
From Verif Require StrSpec.
Open Scope N_scope.

(** A number with exactly [k] decimal digits. *)
Fixpoint fixed (k : nat) (n : N) : bytes :=
  match k with O => [] | S k' => fixed k' (n / 10) ++ [digit (n mod 10)] end.

(** ---- patterns ---- *)

(** A character, a directive of strftime(3), `%f`, `%s`. *)
Inductive item := Plain (c : ascii) | Directive (d : bytes) | Micro | Epoch.

(** `%`, flags, a width, a modifier, a letter. *)
Definition complete (d : bytes) : Prop := exists flags width modifier letter,
  d = "%"%char :: flags ++ width ++ modifier ++ [letter]
  /\ (forall c, In c flags -> In c (B "_-0^#")) /\ (forall c, In c width -> In c (B "0123456789"))
  /\ (modifier = [] \/ modifier = B "E" \/ modifier = B "O")
  /\ ~ In letter (B "_-0^#123456789EO").

Definition item_ok (i : item) : Prop :=
  match i with
  | Plain c => c <> "%"%char /\ c <> NUL
  | Directive d => complete d /\ ~ In NUL d /\ d <> B "%f" /\ d <> B "%s"
  | _ => True
  end.
(** No escaped percent sign stands in front of an `f` or an `s`. *)
Fixpoint no_escape (is : list item) : Prop :=
  match is with
  | [] => True
  | i :: rest =>
      match i, rest with
      | Directive d, Plain c :: _ => last d NUL = "%"%char -> c <> "f"%char /\ c <> "s"%char
      | _, _ => True
      end /\ no_escape rest
  end.
Definition item_text (i : item) : bytes :=
  match i with Plain c => [c] | Directive d => d | Micro => B "%f" | Epoch => B "%s" end.
Definition pattern_text (is : list item) : bytes := flat_map item_text is.

(** What a list of items prints: after `%s` the clock is the one [mktime] leaves. *)
Inductive shows (lib : clib) (usec : N) : clock -> list item -> bytes -> Prop :=
| shows_end c : shows lib usec c [] []
| shows_plain c x is out : shows lib usec c is out -> shows lib usec c (Plain x :: is) (x :: out)
| shows_directive c d t is out : directive lib c d = Ok t -> shows lib usec c is out ->
    shows lib usec c (Directive d :: is) (t ++ out)
| shows_micro c is out : shows lib usec c is out -> shows lib usec c (Micro :: is) (fixed 6 usec ++ out)
| shows_epoch c t c' s is out : mktime lib c = (t, c') -> StrSpec.decimal t s -> shows lib usec c' is out ->
    shows lib usec c (Epoch :: is) (s ++ out).

(** Directives are defined, and what stands between two of `%f` and `%s` expands to fewer than 1024 bytes ([used] of
    them so far). *)
Fixpoint fits (lib : clib) (c : clock) (used : N) (is : list item) : Prop :=
  match is with
  | [] => True
  | Plain _ :: is => used + 1 < 1024 /\ fits lib c (used + 1) is
  | Directive d :: is => exists t, directive lib c d = Ok t /\ used + length_N t < 1024 /\ fits lib c (used + length_N t) is
  | Micro :: is => fits lib c 0 is
  | Epoch :: is => (- 2 ^ 63 <= fst (mktime lib c) < 2 ^ 63)%Z /\ fits lib (snd (mktime lib c)) 0 is
  end.

(** ---- the default pattern ---- *)

(** Year, month, day, time of day and microseconds of a time in nanoseconds since the epoch. *)
Definition stamp_text (ns : Z) : bytes :=
  let us := (ns / 1000)%Z in
  let s := (us / 1000000)%Z in
  let d := civil_day (Z.to_N (s / 86400)) in
  fixed 4 (Z.to_N (d_year d)) ++ B "-" ++ fixed 2 (Z.to_N (d_month d)) ++ B "-" ++ fixed 2 (Z.to_N (d_day d)) ++ B " "
  ++ fixed 2 (Z.to_N ((s / 3600) mod 24)) ++ B ":" ++ fixed 2 (Z.to_N ((s / 60) mod 60)) ++ B ":" ++ fixed 2 (Z.to_N (s mod 60))
  ++ B "." ++ fixed 6 (Z.to_N (us mod 1000000)).

(** Alphabetical order. *)
Inductive sorts_before : bytes -> bytes -> Prop :=
| sorts_end c t : sorts_before [] (c :: t)
| sorts_here c d s t : N_of_ascii c < N_of_ascii d -> sorts_before (c :: s) (d :: t)
| sorts_later c s t : sorts_before s t -> sorts_before (c :: s) (c :: t).

(** ---- the C library ---- *)

(** [mktime] in a zone [o] seconds east of Greenwich, all year round. *)
Definition in_zone (o : Z) (lib : clib) : Prop := forall c, fst (mktime lib c) =
  (posix_seconds {| f_sec := tm_sec (c_tm c); f_min := tm_min (c_tm c); f_hour := tm_hour (c_tm c);
                    f_yday := tm_yday (c_tm c); f_year := tm_year (c_tm c) |} - o)%Z.

(** Only `%z` and `%Z` depend on the zone of the clock. *)
Definition zone_blind (lib : clib) : Prop := forall t g g' z z' d, last d NUL <> "z"%char -> last d NUL <> "Z"%char ->
  libc lib (Clock t g z) d = libc lib (Clock t g' z') d.
(** [mktime] sets the zone and does not read it. *)
Definition mktime_blind (lib : clib) : Prop := forall t g g' z z', mktime lib (Clock t g z) = mktime lib (Clock t g' z').
Definition mktime_sets (lib : clib) : Prop :=
  forall c, c_gmtoff (snd (mktime lib c)) <> None /\ c_zone (snd (mktime lib c)) <> None.
