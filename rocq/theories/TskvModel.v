(** The TSKV formatter (src/formatter/tskv.cpp). *)
From Verif Require Import Base Decimal Values StdMap.

Fixpoint c_string (s : bytes) : bytes :=
  match s with [] => [] | c :: s' => if Ascii.eqb c NUL then [] else c :: c_string s' end.

(** src/formatter/tskv.cpp:27-53 [view_visitor] with the spec "{}". The text of a double (cppformat, "%g") is the
    parameter [dbl]. A string goes through [value.data()], a C string: it ends at the first NUL; the byte behind
    the viewed characters is taken to be a NUL. *)
Definition render (dbl : N -> bytes) (v : value) : bytes :=
  match v with
  | VNull => B "none"
  | VBool b => if b then B "true" else B "false"
  | VInt z => sdec z
  | VUint n => dec n
  | VDouble bits => dbl bits
  | VString s => c_string s
  | VFun text => text
  end.

(** src/formatter/tskv.cpp:60-65; a timestamp is its pattern and the gmtime flag. *)
Record tskv_data := Data {
  d_removed : list bytes;
  d_renamed : list (bytes * bytes);
  d_attributes : list (bytes * bytes);
  d_timestamps : list (bytes * (bytes * bool))
}.

(** src/formatter/tskv.cpp:192-229 [write_escaped_val], one character. *)
Definition escape_char (c : ascii) : bytes :=
  match N_of_ascii c with
  | 7%N => B "\a"
  | 8%N => B "\b"
  | 9%N => B "\t"
  | 10%N => B "\n"
  | 11%N => B "\v"
  | 12%N => B "\f"
  | 13%N => B "\r"
  | 27%N => B "\e"
  | 0%N => B "\0"
  | 92%N => B "\\"
  | _ => [c]
  end.
Definition write_escaped_val (s : bytes) : bytes := flat_map escape_char s.

(** src/formatter/tskv.cpp:180-190 [write_escaped_key]. *)
Definition write_escaped_key (s : bytes) : bytes :=
  flat_map (fun c => if Ascii.eqb c "=" then B "\=" else [c]) s.

(** src/formatter/tskv.cpp:148-159 [add_key]. *)
Definition add_key (d : tskv_data) (name : bytes) : bytes :=
  TAB :: write_escaped_key (match map_get name (d_renamed d) with Some to => to | None => name end).

(** src/formatter/tskv.cpp:130-137, [add] of a string_view: escaped. *)
Definition add_view (d : tskv_data) (name value : bytes) : bytes :=
  if set_has name (d_removed d) then [] else add_key d name ++ B "=" ++ write_escaped_val value.

(** src/formatter/tskv.cpp:139-146, the template [add]: the value's text as it is. *)
Definition add_raw (d : tskv_data) (name value : bytes) : bytes :=
  if set_has name (d_removed d) then [] else add_key d name ++ B "=" ++ value.

(** src/formatter/tskv.cpp:121-125. [kv.second] is a [std::string], so the template is the better match. *)
Definition add_constants (d : tskv_data) : bytes := flat_map (fun kv => add_raw d (fst kv) (snd kv)) (d_attributes d).

(** src/formatter/tskv.cpp:87-91, 161-178; [stamp pattern gmtime] is the text of the record's timestamp. *)
Definition add_timestamps (stamp : bytes -> bool -> bytes) (d : tskv_data) : bytes :=
  flat_map (fun kv => add_view d (fst kv) (stamp (fst (snd kv)) (snd (snd kv)))) (d_timestamps d).

(** src/formatter/tskv.cpp:83-85, 93-95. *)
Definition add_severity (d : tskv_data) (r : record) : bytes := add_raw d (B "severity") (sdec (r_severity r)).
Definition add_pid (d : tskv_data) (pid : N) : bytes := add_raw d (B "pid") (dec pid).

(** src/formatter/tskv.cpp:97-105. *)
Definition add_tid (r : record) : bytes := TAB :: B "tid=0x" ++ hex (r_tid r).

(** src/formatter/tskv.cpp:107-109. *)
Definition add_message (d : tskv_data) (r : record) : bytes := add_view d (B "message") (r_formatted r).

(** src/formatter/tskv.cpp:111-119. *)
Definition add_attributes (dbl : N -> bytes) (d : tskv_data) (r : record) : bytes :=
  flat_map (flat_map (fun kv => add_view d (fst kv) (render dbl (snd kv)))) (r_attributes r).

(** src/formatter/tskv.cpp:245-258 [format]. *)
Definition format (dbl : N -> bytes) (stamp : bytes -> bool -> bytes) (pid : N) (d : tskv_data) (r : record) : bytes :=
  B "tskv" ++ add_constants d ++ add_timestamps stamp d ++ add_severity d r ++ add_pid d pid ++ add_tid r
    ++ add_message d r ++ add_attributes dbl d r.

(** src/formatter/tskv.cpp:266-327, the builder: its calls and the data it starts with. *)
Inductive call :=
| Create (name value : bytes)
| Rename (from to : bytes)
| Remove (name : bytes)
| Timestamp (name pattern : bytes) (gmtime : bool).

Definition builder_init : tskv_data :=
  Data [] [] [] (map_set (B "timestamp") (B "%Y-%m-%d %H:%M:%S %z", true) []).

Definition builder_call (d : tskv_data) (c : call) : tskv_data :=
  match c with
  | Create n v => Data (d_removed d) (d_renamed d) (map_set n v (d_attributes d)) (d_timestamps d)
  | Rename a b => Data (d_removed d) (map_set a b (d_renamed d)) (d_attributes d) (d_timestamps d)
  | Remove n => Data (set_insert n (d_removed d)) (d_renamed d) (d_attributes d) (d_timestamps d)
  | Timestamp n p g => Data (d_removed d) (d_renamed d) (d_attributes d) (map_set n (p, g) (d_timestamps d))
  end.

Definition build (calls : list call) : tskv_data := fold_left builder_call calls builder_init.
