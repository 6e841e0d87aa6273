(** Reading a log file again. *)
From Verif Require Import Base Values RootModel FactoriesModel SystemModel SystemSpec.
From Verif Require FmtModel TskvModel TskvSpec JsonFmtModel JsonFmtSpec JsonTextSpec StrSpec.

(** Cutting at newlines; the last piece is what is behind the last newline. *)
Fixpoint cut (s : bytes) : list bytes :=
  match s with
  | [] => [[]]
  | c :: s' =>
      match cut s' with
      | l :: ls => if Ascii.eqb c NL then [] :: l :: ls else (c :: l) :: ls
      | [] => []
      end
  end.

(** What is in a log file, line by line: there is nothing behind the last newline, and all lines can be read. *)
Fixpoint read_lines {A} (reader : bytes -> option A) (pieces : list bytes) : option (list A) :=
  match pieces with
  | [] => None
  | [[]] => Some []
  | [_] => None
  | l :: ls => match reader l, read_lines reader ls with Some x, Some xs => Some (x :: xs) | _, _ => None end
  end.
Definition read_log {A} (reader : bytes -> option A) (s : bytes) : option (list A) := read_lines reader (cut s).

(** The entries of one thread among those of all. *)
Definition entries_of {A} (t : nat) (l : list (nat * A)) : list A := map snd (filter (fun x => Nat.eqb (fst x) t) l).

(** The entry of a call in a TSKV log: the mark and the fields C27 speaks of. *)
Definition tskv_entry (dbl : FmtModel.spec -> N -> bytes) (bc : list TskvModel.call) (c : call) (x : bytes * list (bytes * bytes)) : Prop :=
  exists r cs ts all, record_of c r /\ TskvSpec.lists (TskvSpec.constant bc) cs /\ TskvSpec.lists (TskvSpec.stamp_of bc) ts /\
    TskvSpec.raw_fields (fun bits => dbl FmtModel.empty_spec bits) (fun p utc => e_stamp (c_env c) p utc (r_timestamp r)) (e_pid (c_env c)) cs ts r all /\
    TskvSpec.shown bc all (snd x) /\ fst x = B "tskv".

(** A name the format can carry under its new name, if it is not removed. *)
Definition name_fits (bc : list TskvModel.call) (n : bytes) : Prop :=
  TskvSpec.removed bc n \/ (TskvSpec.plain_key (TskvSpec.new_name bc n) /\ ~ In NL (TskvSpec.new_name bc n)).
(** What the TSKV formatter must be configured like: the thread id is left alone (C28), names and constants can be carried. *)
Definition tskv_fits (bc : list TskvModel.call) : Prop :=
  ~ TskvSpec.removed bc (B "tid") /\ TskvSpec.new_name bc (B "tid") = B "tid" /\
  Forall (name_fits bc) [B "severity"; B "pid"; B "message"] /\
  (forall n v, TskvSpec.constant bc n = Some v -> name_fits bc n /\ (TskvSpec.removed bc n \/ (TskvSpec.plain_text v /\ ~ In NL v))) /\
  (forall n v, TskvSpec.stamp_of bc n = Some v -> name_fits bc n).

(** The entry of a call in a JSON log: the document that holds the fields C29 speaks of, as a tree. *)
Definition json_surroundings (e : surroundings) (r : record) : JsonFmtModel.environment :=
  JsonFmtModel.Env (e_pid e) (e_lwp e) (fun p => e_json_stamp e p (r_timestamp r)) (Z.quot (r_timestamp r) 1000).
Definition json_entry (dbl_json : N -> bytes) (json_fmt : bytes -> value -> option bytes) (bc : list JsonFmtModel.call) (c : call) (x : JsonTextSpec.tree) : Prop :=
  exists r t builtins attrs fb fa, record_of c r /\ JsonFmtSpec.reported (json_surroundings (c_env c) r) bc r builtins attrs /\
    Forall2 (JsonFmtSpec.field_of json_fmt bc false) builtins fb /\ Forall2 (JsonFmtSpec.field_of json_fmt bc true) attrs fa /\
    JsonFmtSpec.holds_exactly t (fb ++ fa) /\ x = JsonTextSpec.tree_of dbl_json t.
(** What the fields of a record must be like for that: they can be formatted, and no route meets a field. *)
Definition json_fits (json_fmt : bytes -> value -> option bytes) (bc : list JsonFmtModel.call) (c : call) : Prop :=
  exists r builtins attrs fb fa, record_of c r /\ (- 2 ^ 31 <= r_severity r < 2 ^ 31)%Z /\
    JsonFmtSpec.reported (json_surroundings (c_env c) r) bc r builtins attrs /\
    Forall2 (JsonFmtSpec.field_of json_fmt bc false) builtins fb /\ Forall2 (JsonFmtSpec.field_of json_fmt bc true) attrs fa /\
    JsonFmtSpec.no_conflict (fb ++ fa).

(** The line of a call in a log made by a pattern: the items of the pattern for the call's record (C44, C94). *)
Definition pattern_entry dbl double_of ld (items : list StrSpec.item) (sevmap : option (list bytes)) (c : call) (line : bytes) : Prop :=
  exists r outs, record_of c r /\
    Forall2 (StrSpec.item_shows dbl double_of ld (severity_names dbl sevmap) (srecord_of (c_env c) r)) items outs /\ line = concat outs.
