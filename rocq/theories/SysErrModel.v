(** The texts of system errors in the bundled formatting library: src/format.cpp:161-260, 717-739, 1251-1254. *)
From Verif Require Import Base FmtModel MetaFormatModel MembufModel.
Open Scope N_scope.

(** errno.h. *)
Definition ERANGE : Z := 34.

(** What strerror_r does with a buffer of a given size: the GNU version gives a text in the buffer or another one,
    the XSI version a result, [errno] and the text in the buffer. *)
Inductive answer := Placed (s : bytes) | Elsewhere (s : bytes) | Returned (result errno : Z) (s : bytes).

(** src/format.cpp:173-228 [safe_strerror] for systems with strerror_r: the result, and the text [buffer] then points to. *)
Definition safe_strerror (env : N -> answer) (size : N) : Z * bytes :=
  match env size with
  | Returned result errno s => ((if (result =? -1)%Z then errno else result), s)
  | Placed s => if length_N s =? size - 1 then (ERANGE, s) else (0%Z, s)
  | Elsewhere s => (0%Z, s)
  end.

(** Appending a text, and an [int] (format.hpp:2099-2101, 2162-2166). The digits of an [int] are stored in place once the
    buffer has been resized, which needs the same room as appending them. *)
Definition put_text (s : bytes) : list op := [OAppend (Other s)].
Definition put_int (z : Z) : option (list op) := match write_decimal W32 z with Ok s => Some (put_text s) | _ => None end.

(** src/format.cpp:230-247 [format_error_code]. It is [noexcept], hence [Thrown] is the end of the program; so is the
    assertion. *)
Definition format_error_code (limit : N) (out : buf) (code : Z) (message : bytes) : outcome buf :=
  match count_digits W32 (Z.to_N (code mod 2 ^ 32)), put_int code with
  | Some digits, Some number =>
      let error_code_size := 3 + 7 - 2 + digits in
      let head := if length_N message <=? wrap64 (inline_size + two64 - error_code_size) then put_text message ++ put_text (B ": ") else [] in
      next (run (grow limit) (OClear :: head ++ put_text (B "error ") ++ number) out) (fun out =>
        if b_size out <=? inline_size then Done out else Thrown out)
  | _, _ => Bad
  end.

(** src/format.cpp:721-736: the loop of [format_system_error]. *)
Inductive attempt := Text (s : bytes) | NoText | Spent | Broken.
Fixpoint attempts (fuel : nat) (limit : N) (env : N -> answer) (scratch : buf) : attempt :=
  match fuel with
  | O => Spent
  | S fuel' =>
      let (result, s) := safe_strerror env (b_size scratch) in
      if (result =? 0)%Z then Text s
      else if negb (result =? ERANGE)%Z then NoText
      else match resize (grow limit) scratch (wrap64 (b_size scratch * 2)) with
           | Done scratch' => attempts fuel' limit env scratch'
           | Thrown _ => NoText
           | Bad => Broken
           end
  end.
(** src/format.cpp:717-739 [format_system_error]. [None]: the loop has not ended after 64 rounds. *)
Definition format_system_error (limit : N) (env : N -> answer) (out : buf) (code : Z) (message : bytes) : option (outcome buf) :=
  match resize (grow limit) fresh inline_size with
  | Done scratch =>
      match attempts 64 limit env scratch with
      | Text s =>
          match run (grow limit) (put_text message ++ put_text (B ": ") ++ put_text s) out with
          | Thrown out' => Some (format_error_code limit out' code message)
          | r => Some r
          end
      | NoText => Some (format_error_code limit out code message)
      | Spent => None
      | Broken => Some Bad
      end
  | Thrown _ => Some (format_error_code limit out code message)
  | Bad => Some Bad
  end.

(** src/format.cpp:249-257 [report_error], 1251-1254 [report_system_error]: what is written to the standard error stream; [None]: the program
    ends or is undefined, or the loop does not end. *)
Definition report_system_error (limit : N) (env : N -> answer) (code : Z) (message : bytes) : option cells :=
  match format_system_error limit env fresh code message with
  | Some (Done out) => match contents out with Some c => Some (c ++ [Some NL]) | None => None end
  | _ => None
  end.
