(** The Gregorian calendar by counting days, one at a time. *)
From Verif Require Import Base.
Open Scope Z_scope.

(** A civil day: year, month 1-12, day of month, weekday (0 = Sunday), day of year from 0. *)
Record day := Day { d_year : Z; d_month : Z; d_day : Z; d_week : Z; d_yday : Z }.

Definition leap_year (y : Z) : bool := (y mod 4 =? 0) && (negb (y mod 100 =? 0) || (y mod 400 =? 0)).

Definition days_in_month (y m : Z) : Z :=
  if m =? 2 then (if leap_year y then 29 else 28)
  else if (m =? 4) || (m =? 6) || (m =? 9) || (m =? 11) then 30 else 31.

(** The day after. *)
Definition next_day (d : day) : day :=
  let w := (d_week d + 1) mod 7 in
  if d_day d <? days_in_month (d_year d) (d_month d)
  then Day (d_year d) (d_month d) (d_day d + 1) w (d_yday d + 1)
  else if d_month d <? 12 then Day (d_year d) (d_month d + 1) 1 w (d_yday d + 1)
  else Day (d_year d + 1) 1 1 w 0.

(** Thursday, January 1, 1970. *)
Definition epoch_day : day := Day 1970 1 1 4 0.

(** The civil day [n] days after the epoch. *)
Definition civil_day (n : N) : day := N.iter n next_day epoch_day.

(** A day of the calendar (month and day of month in range). *)
Definition valid_day (d : day) : Prop :=
  1 <= d_month d <= 12 /\ 1 <= d_day d <= days_in_month (d_year d) (d_month d).

(** Fields of broken-down time as POSIX describes them. *)
Record fields := { f_sec : Z; f_min : Z; f_hour : Z; f_yday : Z; f_year : Z }.

(** POSIX.1-2008, Base Definitions 4.15, "Seconds Since the Epoch". *)
Definition posix_seconds (f : fields) : Z :=
  f_sec f + f_min f * 60 + f_hour f * 3600 + f_yday f * 86400 + (f_year f - 70) * 31536000 +
  ((f_year f - 69) / 4) * 86400 - ((f_year f - 1) / 100) * 86400 + ((f_year f + 299) / 400) * 86400.

(** The first second that [tm_year] cannot express: January 1 of the year 2^31 + 1900. *)
Definition year_limit : Z := 67768036191676800.
