(** Broken-down time: src/util/time.hpp. *)
From Verif Require Import Base.
Open Scope Z_scope.

(** Fields of [struct tm] that the code assigns. *)
Record tm := Tm { tm_sec : Z; tm_min : Z; tm_hour : Z; tm_mday : Z; tm_mon : Z; tm_year : Z;
                  tm_wday : Z; tm_yday : Z; tm_isdst : Z }.

(** Conversion to a 64-bit unsigned integer ([uintptr_t], [unsigned long]). *)
Definition u64 (x : Z) : Z := x mod 2 ^ 64.

(** [static_cast<int>]: 32-bit two's complement (implementation defined before C++20; this is what
    gcc and clang do). *)
Definition i32 (x : Z) : Z := let r := x mod 2 ^ 32 in if r <? 2 ^ 31 then r else r - 2 ^ 32.

(** src/util/time.hpp:8-71 [gmtime]; every intermediate of type [uintptr_t] is reduced mod 2^64.
    The argument is a signed 64-bit [time_t]. *)
Definition gmtime (t : Z) : tm :=
  let n0 := u64 t in                                            (* 13 *)
  let days0 := n0 / 86400 in                                    (* 14 *)
  let wday := u64 (4 + days0) mod 7 in                          (* 17 *)
  let n1 := n0 mod 86400 in                                     (* 18 *)
  let hour := n1 / 3600 in                                      (* 19 *)
  let n2 := n1 mod 3600 in                                      (* 20 *)
  let min := n2 / 60 in                                         (* 21 *)
  let sec := n2 mod 60 in                                       (* 22 *)
  let days := u64 (u64 (days0 - (31 + 28)) + 719527) in         (* 26 *)
  let year0 := u64 (u64 (days + 2) * 400) / (365 * 400 + 100 - 4 + 1) in  (* 31 *)
  let yday0 := i32 (u64 (days - u64 (365 * year0 + year0 / 4 - year0 / 100 + year0 / 400))) in  (* 32 *)
  let leap := if (year0 mod 4 =? 0) && (negb (year0 mod 100 =? 0) || (year0 mod 400 =? 0)) then 1 else 0 in (* 34 *)
  let yday1 := if yday0 <? 0 then i32 (u64 (365 + leap + u64 yday0)) else yday0 in   (* 36-37 *)
  let year1 := if yday0 <? 0 then u64 (year0 - 1) else year0 in                      (* 38 *)
  let mon0 := u64 (Z.quot ((yday1 + 31) * 10) 306) in                                (* 46 *)
  let mday := u64 (u64 yday1 - u64 (u64 (367 * mon0) / 12 - 30) + 1) in              (* 49 *)
  let '(year2, mon1, yday2) :=
    if 306 <=? yday1 then (u64 (year1 + 1), u64 (mon0 - 10), yday1 - 306)            (* 51-54 *)
    else (year1, u64 (mon0 + 2), yday1 + (31 + 28 + leap)) in                        (* 55-58 *)
  {| tm_sec := i32 sec; tm_min := i32 min; tm_hour := i32 hour; tm_mday := i32 mday;
     tm_mon := i32 (u64 (mon1 - 1)); tm_year := i32 (u64 (year2 - 1900)); tm_yday := yday2;
     tm_wday := i32 wday; tm_isdst := 0 |}.                                          (* 60-68 *)

(** The C library's environment used by [localtime]: [timezone] is "seconds west of UTC" of standard
    time (tzset(3)); [dst] is the daylight saving correction in force at the instant, in seconds. *)
Record tzenv := { timezone : Z; dst : Z }.

(** Result of [localtime]: the broken-down fields and [tm_gmtoff]. [tm_zone] is not modelled. *)
Record ltm := { l_tm : tm; tm_gmtoff : Z }.

(** src/util/time.hpp:85-92 [localtime]. [gmtime_r] is the C library's function, a parameter here. *)
Definition localtime (gmtime_r : Z -> tm) (env : tzenv) (t : Z) : ltm :=
  let time := t - timezone env in
  {| l_tm := gmtime_r time; tm_gmtoff := timezone env |}.
