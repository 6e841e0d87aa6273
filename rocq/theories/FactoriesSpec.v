(** C73-C77: which components a configuration asks for (README.md:255-400 and the comments of the headers). *)
From Verif Require Import Base ConfigModel ConfigSpec RegistryModel FactoriesModel.
From Verif Require FlusherModel FlusherSpec FileSinkModel AsyncModel TskvModel JsonFmtModel ParserModel ParserSpec.

(** Everything in a document, members hidden by another of the same name included. *)
Inductive inside : json -> json -> Prop :=
| inside_here v : inside v v
| inside_array v l w : In w l -> inside w v -> inside (JArray l) v
| inside_object v l k w : In (k, w) l -> inside w v -> inside (JObject l) v.

(** No NUL in texts and names. *)
Definition clean (v : json) : Prop :=
  (forall s, inside v (JString s) -> no_nul s) /\ (forall l, inside v (JObject l) -> Forall no_nul (map fst l)).

Definition missing (v : json) (path : list access) : Prop := ~ exists w, at_path v path w.
Definition text (v : json) (path : list access) (s : bytes) : Prop := at_path v path (JString s).
Definition key (s : string) : access := Key (B s).

(** ---- sinks ---- *)

(** The flush policy: by records, by bytes, or automatic. *)
Definition flush_config (v : json) (f : FlusherModel.flusher_t) : Prop :=
  (missing v [key "flush"] /\ f = FlusherModel.FRepeat (FlusherModel.repeat_new 0)) \/
  (exists n, (n < 2 ^ 64)%N /\ at_path v [key "flush"] (JInt (Z.of_N n)) /\ f = FlusherModel.FRepeat (FlusherModel.repeat_new n)) \/
  (exists s n m, text v [key "flush"] s /\ FlusherSpec.Denotes s n m /\ (n < 2 ^ 64)%N /\ (n * m < 2 ^ 64)%N /\
     f = FlusherModel.FBytes (FlusherModel.bytecount_new (n * m))).
Definition rotate_config (v : json) (stat : bool) : Prop :=
  (missing v [key "rotate"] /\ stat = false) \/ (text v [key "rotate"; key "type"] (B "stat") /\ stat = true).

Definition policy_name (name : bytes) (p : AsyncModel.policy) : Prop :=
  (name = B "drop" /\ p = AsyncModel.Drop) \/ (name = B "wait" /\ p = AsyncModel.Wait).

Inductive sink_config : json -> sink -> Prop :=
| config_null v : text v [key "type"] (B "null") -> sink_config v SNull
| config_console v : text v [key "type"] (B "console") -> missing v [key "filter"] -> sink_config v (SConsole None)
| config_console_filter v t : text v [key "type"] (B "console") -> text v [key "filter"; key "type"] (B "severity") ->
    at_path v [key "filter"; key "threshold"] (JInt t) -> (- 2 ^ 63 <= t < 2 ^ 63)%Z -> sink_config v (SConsole (Some t))
| config_file v path flush stat : text v [key "type"] (B "file") -> text v [key "path"] path ->
    flush_config v flush -> rotate_config v stat -> sink_config v (SFile path (FileSinkModel.Config stat flush))
| config_tcp v host port : text v [key "type"] (B "tcp") -> text v [key "host"] host ->
    at_path v [key "port"] (JInt (Z.of_N port)) -> (port < 2 ^ 16)%N -> sink_config v (STcp host port)
| config_udp v host port : text v [key "type"] (B "udp") -> text v [key "host"] host ->
    at_path v [key "port"] (JInt (Z.of_N port)) -> (port < 2 ^ 16)%N -> sink_config v (SUdp host port)
| config_syslog v l : text v [key "type"] (B "syslog") -> at_path v [key "priorities"] (JArray (map JInt l)) ->
    Forall (fun z => - 2 ^ 31 <= z < 2 ^ 31)%Z l -> sink_config v (SSyslog l)
| config_asynchronous v w wrapped factor name policy : text v [key "type"] (B "asynchronous") ->
    at_path v [key "sink"] w -> sink_config w wrapped ->
    at_path v [key "factor"] (JInt (Z.of_N factor)) -> (2 <= factor <= 20)%N ->
    text v [key "overflow"] name -> policy_name name policy ->
    sink_config v (SAsynchronous wrapped (AsyncModel.Config (N.to_nat (2 ^ factor)) policy)).

(** ---- formatters ---- *)

(** A section of the configuration as calls of the builder: one per member or element, in order; none if missing. *)
Definition by_member {C} (v : json) (k : access) (R : bytes -> json -> C -> Prop) (calls : list C) : Prop :=
  (missing v [k] /\ calls = []) \/
  (exists l, at_path v [k] (JObject l) /\ Forall2 (fun m c => R (fst m) (snd m) c) l calls).
Definition by_element {C} (v : json) (k : access) (R : json -> C -> Prop) (calls : list C) : Prop :=
  (missing v [k] /\ calls = []) \/ (exists l, at_path v [k] (JArray l) /\ Forall2 R l calls).
Definition by_flag {C} (v : json) (k : access) (c : C) (calls : list C) : Prop :=
  (missing v [k] /\ calls = []) \/ (at_path v [k] (JBool false) /\ calls = []) \/ (at_path v [k] (JBool true) /\ calls = [c]).

Definition tskv_config (v : json) (d : TskvModel.tskv_data) : Prop :=
  exists create rename remove mutate,
    by_member v (key "create") (fun k w c => exists s, w = JString s /\ c = TskvModel.Create k s) create /\
    by_member v (key "rename") (fun k w c => exists s, w = JString s /\ c = TskvModel.Rename k s) rename /\
    by_element v (key "remove") (fun w c => exists s, w = JString s /\ c = TskvModel.Remove s) remove /\
    by_member v (key "mutate") (fun k w c => exists pattern gmtime, text w [key "strftime"] pattern /\
      ((missing w [key "gmtime"] /\ gmtime = true) \/ at_path w [key "gmtime"] (JBool gmtime)) /\
      c = TskvModel.Timestamp k pattern gmtime) mutate /\
    d = TskvModel.build (create ++ rename ++ remove ++ mutate).

Definition json_config (v : json) (d : JsonFmtModel.properties) : Prop :=
  exists unique newline mapping formatting routing mutate,
    by_flag v (key "unique") JsonFmtModel.Unique unique /\
    by_flag v (key "newline") JsonFmtModel.Newline newline /\
    by_member v (key "mapping") (fun k w c => exists s, w = JString s /\ c = JsonFmtModel.Rename k s) mapping /\
    by_member v (key "formatting") (fun k w c => exists s, w = JString s /\ c = JsonFmtModel.Format k s) formatting /\
    by_member v (key "routing") (fun k w c => (w = JString (B "*") /\ c = JsonFmtModel.RouteRest k) \/
      (exists names, w = JArray (map JString names) /\ c = JsonFmtModel.Route k names)) routing /\
    by_member v (key "mutate") (fun k w c => (k = B "timestamp" /\ exists s, w = JString s /\ c = JsonFmtModel.Timestamp s) \/
      (k = B "severity" /\ exists names, w = JArray (map JString names) /\ c = JsonFmtModel.Severity names)) mutate /\
    d = JsonFmtModel.build (unique ++ newline ++ mapping ++ formatting ++ routing ++ mutate).

Definition formatter_config lexical_double ndebug (v : json) (f : formatter) : Prop :=
  (text v [key "type"] (B "tskv") /\ exists d, tskv_config v d /\ f = FTskv d) \/
  (text v [key "type"] (B "json") /\ exists d, json_config v d /\ f = FJson d) \/
  (text v [key "type"] (B "string") /\ exists pattern tokens sevmap, text v [key "pattern"] pattern /\
     ParserModel.tokenize lexical_double ndebug pattern = Some (ParserModel.Tokens tokens) /\
     ((missing v [key "sevmap"] /\ sevmap = None) \/ (exists names, at_path v [key "sevmap"] (JArray (map JString names)) /\ sevmap = Some names)) /\
     f = FString tokens sevmap).

(** ---- handlers and loggers ---- *)

Definition handler_config lexical_double ndebug (v : json) (h : handler) : Prop :=
  exists w f l sinks,
    (text v [key "type"] (B "blocking") \/ missing v [key "type"]) /\
    at_path v [key "formatter"] w /\ formatter_config lexical_double ndebug w f /\
    at_path v [key "sinks"] (JArray l) /\ Forall2 sink_config l sinks /\ h = HBlocking f sinks.

Definition logger_config lexical_double ndebug (v : json) (name : bytes) (hs : list handler) : Prop :=
  exists l, at_path v [Key name] (JArray l) /\ Forall2 (handler_config lexical_double ndebug) l hs.

(** ---- required options ---- *)

(** The options that must be there: of sinks, by their type. *)
Definition required : list (bytes * access) :=
  [(B "file", key "path"); (B "tcp", key "host"); (B "tcp", key "port"); (B "udp", key "host"); (B "udp", key "port");
   (B "syslog", key "priorities"); (B "asynchronous", key "sink"); (B "asynchronous", key "factor"); (B "asynchronous", key "overflow")].

(** ---- wrong options ---- *)

Definition is_text (v : json) : Prop := exists s, v = JString s.
Definition is_integer (low high : Z) (v : json) : Prop := exists z, v = JInt z /\ (low <= z < high)%Z.
Definition is_flag (v : json) : Prop := exists b, v = JBool b.
Definition list_of (P : json -> Prop) (v : json) : Prop := exists l, v = JArray l /\ Forall P l.
Definition object_of (P : json -> Prop) (v : json) : Prop := exists l, v = JObject l /\ Forall (fun m => P (snd m)) l.

(** The kinds of values of the options, by the type of the sink or formatter. *)
Definition sink_options : list (bytes * access * (json -> Prop)) :=
  [(B "file", key "path", is_text);
   (B "tcp", key "host", is_text); (B "tcp", key "port", is_integer 0 (2 ^ 64));
   (B "udp", key "host", is_text); (B "udp", key "port", is_integer 0 (2 ^ 64));
   (B "syslog", key "priorities", list_of (is_integer (- 2 ^ 63) (2 ^ 63)))]%Z.
Definition formatter_options : list (bytes * access * (json -> Prop)) :=
  [(B "string", key "sevmap", list_of is_text); (B "string", key "pattern", is_text);
   (B "tskv", key "create", object_of is_text); (B "tskv", key "rename", object_of is_text);
   (B "tskv", key "remove", list_of is_text);
   (B "json", key "unique", is_flag); (B "json", key "newline", is_flag);
   (B "json", key "mapping", object_of is_text); (B "json", key "formatting", object_of is_text);
   (B "json", key "routing", object_of (fun w => is_text w \/ list_of is_text w))].
