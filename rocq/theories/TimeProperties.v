(** C37, C38, C39: broken-down time. *)
From Verif Require Import Base TimeModel TimeSpec TimeProofs.
Open Scope Z_scope.

(** C37. Up to the last second that [tm_year] can express, [gmtime] is the civil calendar obtained by
    counting days from Thursday, January 1, 1970. *)
Theorem C37_gmtime_civil : forall t, 0 <= t < year_limit ->
  let d := civil_day (Z.to_N (t / 86400)) in
  gmtime t = {| tm_sec := t mod 60; tm_min := (t / 60) mod 60; tm_hour := (t / 3600) mod 24;
                tm_mday := d_day d; tm_mon := d_month d - 1; tm_year := d_year d - 1900;
                tm_wday := d_week d; tm_yday := d_yday d; tm_isdst := 0 |}.
Proof. exact gmtime_civil_lemma. Qed.
Print Assumptions C37_gmtime_civil.

(** C37. The POSIX formula applied to the fields gives the argument back. *)
Theorem C37_gmtime_posix_round_trip : forall t, 0 <= t < year_limit ->
  posix_seconds {| f_sec := tm_sec (gmtime t); f_min := tm_min (gmtime t); f_hour := tm_hour (gmtime t);
                   f_yday := tm_yday (gmtime t); f_year := tm_year (gmtime t) |} = t.
Proof. exact gmtime_posix_lemma. Qed.
Print Assumptions C37_gmtime_posix_round_trip.

(** C37. Different instants have different broken-down times. *)
Theorem C37_gmtime_injective : forall t u, 0 <= t < year_limit -> 0 <= u < year_limit ->
  gmtime t = gmtime u -> t = u.
Proof. exact gmtime_injective_lemma. Qed.
Print Assumptions C37_gmtime_injective.

(** C37. The days of the specification are days of the calendar: the counting definition never
    produces a day outside its month or its year. *)
Theorem C37_civil_day_valid : forall n, let d := civil_day n in
  valid_day d /\ 0 <= d_yday d < 365 + (if leap_year (d_year d) then 1 else 0) /\ 0 <= d_week d < 7.
Proof. exact civil_day_valid_lemma. Qed.
Print Assumptions C37_civil_day_valid.

(** C37. Not for the whole range of [time_t]: past the limit [tm_year] overflows silently. *)
Theorem C37_gmtime_year_overflow_refuted : exists t, 0 <= t < 2 ^ 63 /\
  tm_year (gmtime t) <> d_year (civil_day (Z.to_N (t / 86400))) - 1900.
Proof. exact gmtime_year_overflow_lemma. Qed.
Print Assumptions C37_gmtime_year_overflow_refuted.

(** February 29, 2000, 23:59:59 (Tuesday) and the first second of March 1, 2100 (Monday, no leap day). *)
Example C37_case :
  gmtime 951868799 = {| tm_sec := 59; tm_min := 59; tm_hour := 23; tm_mday := 29; tm_mon := 1; tm_year := 100;
                        tm_wday := 2; tm_yday := 59; tm_isdst := 0 |} /\
  gmtime 4107542400 = {| tm_sec := 0; tm_min := 0; tm_hour := 0; tm_mday := 1; tm_mon := 2; tm_year := 200;
                         tm_wday := 1; tm_yday := 59; tm_isdst := 0 |} /\
  civil_day 11016 = Day 2000 2 29 2 59 /\ 0 <= 4107542400 < year_limit.
Proof. repeat split; vm_compute; congruence. Qed.

(** C38. Before the epoch the result is wrong for every argument: already the seconds are 16 off. *)
Theorem C38_gmtime_negative_refuted : exists t, - 2 ^ 63 <= t < 0 /\ tm_sec (gmtime t) <> t mod 60.
Proof. exists (-1). split; [vm_compute; split; congruence|]. apply gmtime_negative_wrong_lemma. vm_compute; split; congruence. Qed.
Print Assumptions C38_gmtime_negative_refuted.

Theorem C38_gmtime_negative_always_wrong : forall t, - 2 ^ 63 <= t < 0 ->
  tm_sec (gmtime t) = (t + 16) mod 60 /\ tm_sec (gmtime t) <> t mod 60.
Proof. intros t H. split; [exact (gmtime_negative_lemma t H)|exact (gmtime_negative_wrong_lemma t H)]. Qed.
Print Assumptions C38_gmtime_negative_always_wrong.

Example C38_case : tm_sec (gmtime (-1)) = 15 /\ (-1) mod 60 = 59.
Proof. split; reflexivity. Qed.

(** C39. With a correct [gmtime_r], local fields minus the reported offset give the instant only in a
    zone whose standard time is UTC: the sign of [tm_gmtoff] is wrong. *)
Theorem C39_localtime_offset_only_utc : forall gmtime_r env t,
  let u := gmtime_r (t - timezone env) in
  posix_seconds {| f_sec := tm_sec u; f_min := tm_min u; f_hour := tm_hour u; f_yday := tm_yday u; f_year := tm_year u |}
    = t - timezone env ->
  let r := localtime gmtime_r env t in
  (posix_seconds {| f_sec := tm_sec (l_tm r); f_min := tm_min (l_tm r); f_hour := tm_hour (l_tm r);
                    f_yday := tm_yday (l_tm r); f_year := tm_year (l_tm r) |} - tm_gmtoff r = t
   <-> timezone env = 0).
Proof. exact localtime_offset_lemma. Qed.
Print Assumptions C39_localtime_offset_only_utc.

(** C39. The wall clock is right only while no daylight saving correction is in force. *)
Theorem C39_localtime_wall_clock_only_standard : forall gmtime_r env t,
  let u := gmtime_r (t - timezone env) in
  posix_seconds {| f_sec := tm_sec u; f_min := tm_min u; f_hour := tm_hour u; f_yday := tm_yday u; f_year := tm_year u |}
    = t - timezone env ->
  let r := localtime gmtime_r env t in
  (posix_seconds {| f_sec := tm_sec (l_tm r); f_min := tm_min (l_tm r); f_hour := tm_hour (l_tm r);
                    f_yday := tm_yday (l_tm r); f_year := tm_year (l_tm r) |} = t - timezone env + dst env
   <-> dst env = 0).
Proof. exact localtime_dst_lemma. Qed.
Print Assumptions C39_localtime_wall_clock_only_standard.

Theorem C39_localtime_offset_refuted : exists env t,
  let r := localtime gmtime env t in
  posix_seconds {| f_sec := tm_sec (l_tm r); f_min := tm_min (l_tm r); f_hour := tm_hour (l_tm r);
                   f_yday := tm_yday (l_tm r); f_year := tm_year (l_tm r) |} - tm_gmtoff r <> t.
Proof. exists {| timezone := -10800; dst := 0 |}, 1000000000. vm_compute. discriminate. Qed.
Print Assumptions C39_localtime_offset_refuted.

(** Moscow: the hypothesis of the two theorems holds with this library's own [gmtime] as [gmtime_r]. *)
Example C39_case : let u := gmtime (1000000000 - -10800) in
  posix_seconds {| f_sec := tm_sec u; f_min := tm_min u; f_hour := tm_hour u; f_yday := tm_yday u; f_year := tm_year u |}
    = 1000000000 - -10800
  /\ tm_gmtoff (localtime gmtime {| timezone := -10800; dst := 0 |} 1000000000) = -10800.
Proof. split; reflexivity. Qed.
