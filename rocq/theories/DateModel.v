(** Time patterns: src/datetime/generator.linux.cpp and its callers. *)
From Verif Require Import Base Decimal TimeModel FmtModel.
Open Scope N_scope.

(** [std::tm] with the two fields [strftime] also reads; [None] for a field nobody has assigned. *)
Record clock := Clock { c_tm : tm; c_gmtoff : option Z; c_zone : option bytes }.

(** src/datetime/generator.linux.hpp:16-22. *)
Inductive token := TkLiteral (s : bytes) | TkEpoch | TkUsec.

(** src/datetime/generator.linux.cpp:44-70 [generator_t::generator_t]. [literal] is the text collected so far. *)
Fixpoint split (literal pattern : bytes) {struct pattern} : list token :=
  match pattern with
  | [] => match literal with [] => [] | _ => [TkLiteral literal] end
  | c :: rest =>
      match rest with
      | d :: rest' =>
          if Ascii.eqb c "%" && Ascii.eqb d "f" then TkLiteral literal :: TkUsec :: split [] rest'
          else if Ascii.eqb c "%" && Ascii.eqb d "s" then TkLiteral literal :: TkEpoch :: split [] rest'
          else split (literal ++ [c]) rest
      | [] => split (literal ++ [c]) rest
      end
  end.
(** src/datetime/generator.linux.cpp:80-82. *)
Definition make_generator (pattern : bytes) : list token := split [] pattern.

(** ---- the C library ---- *)

(** What is not in the repository: [libc c d] is the text of the directive [d] for the directives not given below (it
    depends on the locale), [mktime c] the time and the normalised argument. *)
Record clib := Clib { libc : clock -> bytes -> bytes; mktime : clock -> Z * clock }.

(** A number with at least [k] digits. *)
Definition padded (k : nat) (z : Z) : bytes :=
  let s := sdec z in repeat "0"%char (k - length s) ++ s.

(** strftime(3): the text of a directive. [%z] and [%Z] read the fields that may not have been assigned. *)
Definition directive (lib : clib) (c : clock) (d : bytes) : result bytes :=
  if bytes_eqb d (B "%Y") then Ok (sdec (tm_year (c_tm c) + 1900)%Z)
  else if bytes_eqb d (B "%m") then Ok (padded 2 (tm_mon (c_tm c) + 1)%Z)
  else if bytes_eqb d (B "%d") then Ok (padded 2 (tm_mday (c_tm c)))
  else if bytes_eqb d (B "%H") then Ok (padded 2 (tm_hour (c_tm c)))
  else if bytes_eqb d (B "%M") then Ok (padded 2 (tm_min (c_tm c)))
  else if bytes_eqb d (B "%S") then Ok (padded 2 (tm_sec (c_tm c)))
  else if bytes_eqb d (B "%%") then Ok (B "%")
  else if Ascii.eqb (last d NUL) "z" then match c_gmtoff c with Some _ => Ok (libc lib c d) | None => Undefined end
  else if Ascii.eqb (last d NUL) "Z" then match c_zone c with Some _ => Ok (libc lib c d) | None => Undefined end
  else Ok (libc lib c d).

(** glibc's scanner: a directive is `%`, flags, a width, a modifier and a letter; an unfinished one is copied. *)
Inductive stage := Flags | Width | Letter.
Definition is_flag (c : ascii) : bool := existsb (Ascii.eqb c) (B "_-0^#").
Definition is_digit (c : ascii) : bool := (48 <=? N_of_ascii c) && (N_of_ascii c <=? 57).
Definition is_modifier (c : ascii) : bool := Ascii.eqb c "E" || Ascii.eqb c "O".
(** [None]: the directive ends with [c]. *)
Definition advance (st : stage) (c : ascii) : option stage :=
  match st with
  | Flags => if is_flag c then Some Flags else if is_digit c then Some Width else if is_modifier c then Some Letter else None
  | Width => if is_digit c then Some Width else if is_modifier c then Some Letter else None
  | Letter => None
  end.
Fixpoint expand (lib : clib) (c : clock) (open : option (stage * bytes)) (format : bytes) : result bytes :=
  match format with
  | [] => Ok match open with Some (_, d) => d | None => [] end
  | x :: rest =>
      match open with
      | None =>
          if Ascii.eqb x "%" then expand lib c (Some (Flags, [x])) rest
          else s <- expand lib c None rest; Ok (x :: s)
      | Some (st, d) =>
          match advance st x with
          | Some st' => expand lib c (Some (st', d ++ [x])) rest
          | None => t <- directive lib c (d ++ [x]); s <- expand lib c None rest; Ok (t ++ s)
          end
      end
  end.
(** The format is a C string; what does not fit [max] bytes with its NUL is not written, zero is returned. *)
Definition strftime (lib : clib) (c : clock) (max : N) (format : bytes) : result bytes :=
  s <- expand lib c None (c_string format);
  Ok (if length_N s <? max then s else []).

(** ---- the generator ---- *)

(** src/datetime/generator.linux.cpp:17-40 [visitor_t]: it keeps its own copy of the fields, which [mktime] changes.
    [dbl] is the formatting library's parameter for doubles. *)
Fixpoint generate (dbl : spec -> N -> bytes) (lib : clib) (c : clock) (usec : N) (ts : list token) : result bytes :=
  match ts with
  | [] => Ok []
  | TkLiteral s :: ts => a <- strftime lib c 1024 s; r <- generate dbl lib c usec ts; Ok (a ++ r)
  | TkEpoch :: ts =>
      let '(t, c') := mktime lib c in
      a <- write dbl (B "{}") [ALong t]; r <- generate dbl lib c' usec ts; Ok (a ++ r)
  | TkUsec :: ts => a <- write dbl (B "{:06d}") [AUlong usec]; r <- generate dbl lib c usec ts; Ok (a ++ r)
  end.

(** ---- the callers ---- *)

(** A time point in nanoseconds as [to_time_t] and as the microseconds of the second, cast to an unsigned number. *)
Definition seconds (ns : Z) : Z := Z.quot ns 1000000000.
Definition usec_of (ns : Z) : N := Z.to_N (u64 (Z.rem (Z.quot ns 1000) 1000000)).

(** The zone: the variables of tzset(3), the first entry of [tzname], and [gmtime_r] and [localtime_r]. *)
Record zone := Zone { z_env : tzenv; z_name : bytes; z_gmtime_r : Z -> tm; z_localtime_r : Z -> clock }.

(** src/formatter/string.cpp:236-254: [gmtime] and [localtime] are those of src/util/time.hpp. *)
Definition string_clock (z : zone) (utc : bool) (ns : Z) : clock :=
  if utc then Clock (gmtime (seconds ns)) None None
  else let l := localtime (z_gmtime_r z) (z_env z) (seconds ns) in Clock (l_tm l) (Some (tm_gmtoff l)) (Some (z_name z)).
Definition string_stamp dbl lib (z : zone) (pattern : bytes) (utc : bool) (ns : Z) : result bytes :=
  generate dbl lib (string_clock z utc ns) (usec_of ns) (make_generator pattern).

(** src/formatter/tskv.cpp:161-178: [gmtime_r] and [localtime_r] of the C library; the former gives "GMT". *)
Definition tskv_clock (z : zone) (utc : bool) (ns : Z) : clock :=
  if utc then Clock (z_gmtime_r z (seconds ns)) (Some 0%Z) (Some (B "GMT")) else z_localtime_r z (seconds ns).
Definition tskv_stamp dbl lib (z : zone) (pattern : bytes) (utc : bool) (ns : Z) : result bytes :=
  generate dbl lib (tskv_clock z utc ns) (usec_of ns) (make_generator pattern).

(** src/formatter/json.cpp:469-485. *)
Definition json_stamp dbl lib (z : zone) (pattern : bytes) (ns : Z) : result bytes :=
  generate dbl lib (Clock (z_gmtime_r z (seconds ns)) (Some 0%Z) (Some (B "GMT"))) (usec_of ns) (make_generator pattern).
