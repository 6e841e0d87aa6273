(** C73-C77: the components made from the configuration. *)
From Verif Require Import Base ConfigModel ConfigSpec ConfigProofs RegistryModel RegistrySpec FactoriesModel FactoriesSpec FactoriesProofs.
From Verif Require FlusherModel FlusherSpec FileSinkModel AsyncModel TskvModel JsonFmtModel ParserModel.

(** ---- C73 ---- *)

(** C73. An entry of the sinks makes the sink it describes, to any depth of wrapping, wherever the entry is. *)
Theorem C73_sinks : forall dbl v s c, clean v -> sink_config v s -> sink_entry dbl (Node v c) = Ret s.
Proof. exact sink_made. Qed.
Print Assumptions C73_sinks.

Definition case_file : json := JObject
  [(B "flush", JString (B "10MB")); (B "type", JString (B "file")); (B "comment", JNull);
   (B "rotate", JObject [(B "type", JString (B "stat"))]); (B "path", JString (B "/l.log"))].
Definition case_file_sink : sink := SFile (B "/l.log") (FileSinkModel.Config true (FlusherModel.FBytes (FlusherModel.bytecount_new (10 * 10 ^ 6)))).
Definition case_queued : json := JObject
  [(B "type", JString (B "asynchronous")); (B "factor", JInt 5); (B "overflow", JString (B "drop")); (B "sink", case_file)].
Definition case_queued_sink : sink := SAsynchronous case_file_sink (AsyncModel.Config 32 AsyncModel.Drop).
Definition case_console : json := JObject
  [(B "type", JString (B "console")); (B "filter", JObject [(B "type", JString (B "severity")); (B "threshold", JInt (-1))])].

Example C73_case : clean case_queued /\ sink_config case_queued case_queued_sink /\
  (forall dbl, sink_entry dbl (root case_queued) = Ret case_queued_sink) /\ sink_config case_console (SConsole (Some (-1)%Z)).
Proof.
  assert (F : sink_config case_file case_file_sink).
  { apply config_file; try (apply walk_found; reflexivity).
    - right. right. exists (B "10MB"), 10%N, (10 ^ 6)%N. split; [apply walk_found; reflexivity|]. split; [|repeat split].
      exists (B "10"), (B "MB"). split; [reflexivity|]. split; [|constructor].
      apply (FlusherSpec.numeral_snoc (B "1") 1 0); [apply (FlusherSpec.numeral_one 1)|]; reflexivity.
    - right. split; [apply walk_found; reflexivity|reflexivity]. }
  split; [apply clean_ok_clean; reflexivity|]. split; [|split].
  - change (AsyncModel.Config 32 AsyncModel.Drop) with (AsyncModel.Config (N.to_nat (2 ^ 5)) AsyncModel.Drop).
    apply (config_asynchronous case_queued case_file case_file_sink 5 (B "drop")); try (apply walk_found; reflexivity).
    + exact F.
    + lia.
    + left. split; reflexivity.
  - intros dbl. reflexivity.
  - apply config_console_filter; try (apply walk_found; reflexivity). lia.
Qed.

(** ---- C74 ---- *)

(** C74. The formatter of a handler is made as it is described. *)
Theorem C74_formatters : forall dbl lexical_double ndebug v f c, clean v -> formatter_config lexical_double ndebug v f -> exists t b,
  text v [key "type"] t /\ lookup dbl configured FormatterKind t = Ret b /\ formatter_from lexical_double ndebug b (Node v c) = Ret f.
Proof. exact formatter_made. Qed.
Print Assumptions C74_formatters.

(** The example of README.md:280-297. *)
Definition case_json : json := JObject
  [(B "type", JString (B "json")); (B "newline", JBool true); (B "unique", JBool true);
   (B "mapping", JObject [(B "message", JString (B "@message")); (B "timestamp", JString (B "@timestamp"))]);
   (B "routing", JObject [([], JArray [JString (B "message"); JString (B "timestamp")]); (B "/fields", JString (B "*"))]);
   (B "mutate", JObject [(B "timestamp", JString (B "%Y")); (B "severity", JArray [JString (B "D"); JString (B "I")])])].
Definition case_json_data : JsonFmtModel.properties := JsonFmtModel.build
  [JsonFmtModel.Unique; JsonFmtModel.Newline; JsonFmtModel.Rename (B "message") (B "@message"); JsonFmtModel.Rename (B "timestamp") (B "@timestamp");
   JsonFmtModel.Route [] [B "message"; B "timestamp"]; JsonFmtModel.RouteRest (B "/fields");
   JsonFmtModel.Timestamp (B "%Y"); JsonFmtModel.Severity [B "D"; B "I"]].
Definition case_tskv : json := JObject
  [(B "type", JString (B "tskv")); (B "create", JObject [(B "unixtime_microsec_utc", JString (B "{timestamp:{%f}s}"))]);
   (B "remove", JArray [JString (B "thread")]); (B "rename", JObject [(B "message", JString (B "text"))]);
   (B "mutate", JObject [(B "timestamp", JObject [(B "strftime", JString (B "%H")); (B "gmtime", JBool false)])])].
Definition case_tskv_data : TskvModel.tskv_data := TskvModel.build
  [TskvModel.Create (B "unixtime_microsec_utc") (B "{timestamp:{%f}s}"); TskvModel.Rename (B "message") (B "text");
   TskvModel.Remove (B "thread"); TskvModel.Timestamp (B "timestamp") (B "%H") false].

Example case_json_config : json_config case_json case_json_data.
Proof.
  exists [JsonFmtModel.Unique], [JsonFmtModel.Newline],
    [JsonFmtModel.Rename (B "message") (B "@message"); JsonFmtModel.Rename (B "timestamp") (B "@timestamp")], [],
    [JsonFmtModel.Route [] [B "message"; B "timestamp"]; JsonFmtModel.RouteRest (B "/fields")],
    [JsonFmtModel.Timestamp (B "%Y"); JsonFmtModel.Severity [B "D"; B "I"]].
  split; [right; right; split; [apply walk_found; reflexivity|reflexivity]|].
  split; [right; right; split; [apply walk_found; reflexivity|reflexivity]|].
  split; [right; eexists; split; [apply walk_found; reflexivity|repeat constructor; eexists; split; reflexivity]|].
  split; [left; split; [apply walk_not_found; reflexivity|reflexivity]|].
  split; [right; eexists; split; [apply walk_found; reflexivity|]|].
  { constructor; [right; exists [B "message"; B "timestamp"]; split; reflexivity|].
    constructor; [left; split; reflexivity|constructor]. }
  split; [|reflexivity]. right; eexists; split; [apply walk_found; reflexivity|].
  constructor; [left; split; [reflexivity|]; eexists; split; reflexivity|].
  constructor; [right; split; [reflexivity|]; exists [B "D"; B "I"]; split; reflexivity|constructor].
Qed.

Example case_tskv_config : tskv_config case_tskv case_tskv_data.
Proof.
  exists [TskvModel.Create (B "unixtime_microsec_utc") (B "{timestamp:{%f}s}")], [TskvModel.Rename (B "message") (B "text")],
    [TskvModel.Remove (B "thread")], [TskvModel.Timestamp (B "timestamp") (B "%H") false].
  split; [right; eexists; split; [apply walk_found; reflexivity|repeat constructor; eexists; split; reflexivity]|].
  split; [right; eexists; split; [apply walk_found; reflexivity|repeat constructor; eexists; split; reflexivity]|].
  split; [right; eexists; split; [apply walk_found; reflexivity|repeat constructor; eexists; split; reflexivity]|].
  split; [|reflexivity]. right; eexists; split; [apply walk_found; reflexivity|].
  constructor; [|constructor]. exists (B "%H"), false. split; [apply walk_found; reflexivity|]. split; [|reflexivity].
  right. apply walk_found; reflexivity.
Qed.

Definition case_string : json := JObject
  [(B "type", JString (B "string")); (B "pattern", JString (B "{severity:s}|{message}")); (B "sevmap", JArray [JString (B "D"); JString (B "I")])].
Definition case_tokens : list ParserModel.token :=
  match ParserModel.tokenize (fun _ => false) true (B "{severity:s}|{message}") with Some (ParserModel.Tokens t) => t | _ => [] end.

Example C74_case : clean case_json /\ formatter_config (fun _ => false) true case_json (FJson case_json_data) /\
  clean case_tskv /\ formatter_config (fun _ => false) true case_tskv (FTskv case_tskv_data) /\
  clean case_string /\ formatter_config (fun _ => false) true case_string (FString case_tokens (Some [B "D"; B "I"])) /\ length case_tokens = 3%nat.
Proof.
  split; [apply clean_ok_clean; reflexivity|]. split; [|split; [apply clean_ok_clean; reflexivity|split; [|split; [apply clean_ok_clean; reflexivity|split; [|reflexivity]]]]].
  - right. left. split; [apply walk_found; reflexivity|]. exists case_json_data. split; [exact case_json_config|reflexivity].
  - left. split; [apply walk_found; reflexivity|]. exists case_tskv_data. split; [exact case_tskv_config|reflexivity].
  - right. right. split; [apply walk_found; reflexivity|]. exists (B "{severity:s}|{message}"), case_tokens, (Some [B "D"; B "I"]).
    split; [apply walk_found; reflexivity|]. split; [reflexivity|]. split; [|reflexivity].
    right. exists [B "D"; B "I"]. split; [apply walk_found; reflexivity|reflexivity].
Qed.

(** C74, false of the documented option "route" (README.md:272): it is not read. *)
Theorem C74_route_refuted : exists v, text v [key "type"] (B "json") /\ text v [key "route"; key "/fields"] (B "*") /\
  forall lexical_double ndebug c, formatter_from lexical_double ndebug Json (Node v c) = Ret (FJson (JsonFmtModel.build [])).
Proof. exact route_refuted_lemma. Qed.
Print Assumptions C74_route_refuted.

(** ---- C75 ---- *)

(** C75. The logger has the handlers of its list, in order, each with its formatter and its sinks in order. *)
Theorem C75_logger : forall dbl lexical_double ndebug v name hs, clean v -> no_nul name ->
  logger_config lexical_double ndebug v name hs -> logger dbl lexical_double ndebug v name = Ret hs.
Proof. exact logger_lemma. Qed.
Print Assumptions C75_logger.

Definition case_document : json := JObject
  [(B "other", JArray []);
   (B "root", JArray
     [JObject [(B "type", JString (B "blocking")); (B "formatter", case_string); (B "sinks", JArray [case_console; case_queued])];
      JObject [(B "formatter", case_tskv); (B "sinks", JArray [JObject [(B "type", JString (B "null"))]])]])].
Definition case_handlers : list handler :=
  [HBlocking (FString case_tokens (Some [B "D"; B "I"])) [SConsole (Some (-1)%Z); case_queued_sink]; HBlocking (FTskv case_tskv_data) [SNull]].

Example C75_case : clean case_document /\ logger_config (fun _ => false) true case_document (B "root") case_handlers /\
  forall dbl, logger dbl (fun _ => false) true case_document (B "root") = Ret case_handlers.
Proof.
  destruct C73_case as (_ & K1 & _ & K2). destruct C74_case as (_ & _ & _ & K3 & _ & K4 & _).
  split; [apply clean_ok_clean; reflexivity|]. split; [|intros dbl; reflexivity].
  eexists. split; [apply walk_found; reflexivity|]. constructor; [|constructor; [|constructor]].
  - exists case_string, (FString case_tokens (Some [B "D"; B "I"])), [case_console; case_queued], [SConsole (Some (-1)%Z); case_queued_sink].
    split; [left; apply walk_found; reflexivity|]. split; [apply walk_found; reflexivity|]. split; [exact K4|].
    split; [apply walk_found; reflexivity|]. split; [|reflexivity]. constructor; [exact K2|]. constructor; [exact K1|constructor].
  - exists case_tskv, (FTskv case_tskv_data), [JObject [(B "type", JString (B "null"))]], [SNull].
    split; [right; apply walk_not_found; reflexivity|]. split; [apply walk_found; reflexivity|]. split; [exact K3|].
    split; [apply walk_found; reflexivity|]. split; [|reflexivity]. constructor; [|constructor]. apply config_null. apply walk_found; reflexivity.
Qed.

(** C75, false of a handler without sinks: it is made all the same, and writes nowhere. *)
Theorem C75_no_sinks_refuted : exists v, clean v /\ missing v [key "sinks"] /\ forall dbl lexical_double ndebug c,
  blocking_from dbl lexical_double ndebug (Node v c) = Ret (HBlocking (FJson (JsonFmtModel.build [])) []).
Proof. exact sinks_refuted_lemma. Qed.
Print Assumptions C75_no_sinks_refuted.

(** ---- C76 ---- *)

(** C76. A sink without a required option is an error, other than for three of them. *)
Theorem C76_required : forall dbl v c t k, clean v -> In (t, k) required -> k <> key "factor" -> k <> key "overflow" -> k <> key "priorities" ->
  text v [key "type"] t -> missing v [k] -> exists e, sink_entry dbl (Node v c) = Throw e.
Proof. exact required_lemma. Qed.
Print Assumptions C76_required.

(** C76. A sink without a type, a handler without a formatter or its type, and a severity filter without its threshold. *)
Theorem C76_sink_type : forall dbl v c, missing v [key "type"] ->
  sink_entry dbl (Node v c) = Throw (InvalidArgument (B "each sink must have a type")).
Proof. exact no_type_lemma. Qed.
Print Assumptions C76_sink_type.

Theorem C76_formatter_type : forall dbl lexical_double ndebug v c, missing v [key "formatter"; key "type"] ->
  blocking_from dbl lexical_double ndebug (Node v c) = Throw (InvalidArgument (B "each handler must have a formatter with type")).
Proof. exact no_formatter_lemma. Qed.
Print Assumptions C76_formatter_type.

Theorem C76_threshold : forall dbl v c, clean v -> text v [key "type"] (B "console") -> text v [key "filter"; key "type"] (B "severity") ->
  missing v [key "filter"; key "threshold"] -> sink_entry dbl (Node v c) = Throw (InvalidArgument (B "field 'threshold' is required")).
Proof. exact no_threshold_lemma. Qed.
Print Assumptions C76_threshold.

Definition case_no_port : json := JObject [(B "type", JString (B "udp")); (B "host", JString (B "::1"))].
Definition case_no_threshold : json :=
  JObject [(B "type", JString (B "console")); (B "filter", JObject [(B "type", JString (B "severity"))])].
Example C76_case : clean case_no_port /\ In (B "udp", key "port") required /\ text case_no_port [key "type"] (B "udp") /\
  missing case_no_port [key "port"] /\
  (forall dbl, sink_entry dbl (root case_no_port) = Throw (InvalidArgument (B "parameter ""port"" is required"))) /\
  missing (JArray []) [key "type"] /\ missing case_no_port [key "formatter"; key "type"] /\
  clean case_no_threshold /\ text case_no_threshold [key "filter"; key "type"] (B "severity") /\ missing case_no_threshold [key "filter"; key "threshold"].
Proof.
  repeat match goal with |- _ /\ _ => split end; try (apply clean_ok_clean; reflexivity); try (apply walk_found; reflexivity);
    try (apply walk_not_found; reflexivity).
  - unfold required, In. repeat (first [left; reflexivity|right]).
  - intros dbl. reflexivity.
Qed.

(** C76, false of an asynchronous sink without factor or overflow and of a string formatter without pattern: the value
    of an empty boost::optional is taken. *)
Theorem C76_factor_refuted : exists v, clean v /\ text v [key "type"] (B "asynchronous") /\ missing v [key "factor"] /\
  forall dbl c, sink_entry dbl (Node v c) = Undefined.
Proof. exact factor_refuted_lemma. Qed.
Print Assumptions C76_factor_refuted.

Theorem C76_overflow_refuted : exists v, clean v /\ text v [key "type"] (B "asynchronous") /\ missing v [key "overflow"] /\
  forall dbl c, sink_entry dbl (Node v c) = Undefined.
Proof. exact overflow_refuted_lemma. Qed.
Print Assumptions C76_overflow_refuted.

Theorem C76_pattern_refuted : exists v, clean v /\ text v [key "type"] (B "string") /\ missing v [key "pattern"] /\
  forall lexical_double ndebug c, formatter_from lexical_double ndebug String (Node v c) = Undefined.
Proof. exact pattern_refuted_lemma. Qed.
Print Assumptions C76_pattern_refuted.

(** C76, false of the priorities of syslog, required by README.md:407: none are taken. *)
Theorem C76_priorities_refuted : exists v, clean v /\ text v [key "type"] (B "syslog") /\ missing v [key "priorities"] /\
  forall dbl c, sink_entry dbl (Node v c) = Ret (SSyslog []).
Proof. exact priorities_refuted_lemma. Qed.
Print Assumptions C76_priorities_refuted.

(** ---- C77 ---- *)

(** C77. An option of the wrong kind is an error: of sinks ... *)
Theorem C77_sinks : forall dbl v c t k P w, clean v -> parsed v -> In (t, k, P) sink_options -> text v [key "type"] t ->
  at_path v [k] w -> ~ P w -> exists e, sink_entry dbl (Node v c) = Throw e.
Proof. exact sink_options_lemma. Qed.
Print Assumptions C77_sinks.

(** ... of formatters (the string formatter with a pattern) ... *)
Theorem C77_formatters : forall dbl lexical_double ndebug v c t f k P w, clean v -> In (t, k, P) formatter_options ->
  lookup dbl configured FormatterKind t = Ret f -> (t = B "string" -> exists u, at_path v [key "pattern"] u) ->
  at_path v [k] w -> ~ P w -> exists e, formatter_from lexical_double ndebug f (Node v c) = Throw e.
Proof. exact formatter_options_lemma. Qed.
Print Assumptions C77_formatters.

(** ... and so is a type nobody knows. *)
Theorem C77_unknown : forall dbl v c t, clean v -> text v [key "type"] t -> (forall f, ~ In (SinkKind, t, f) library) ->
  sink_entry dbl (Node v c) = Throw (not_registered SinkKind t).
Proof. exact sink_unknown_lemma. Qed.
Print Assumptions C77_unknown.

Definition case_bad_priorities : json :=
  JObject [(B "type", JString (B "syslog")); (B "priorities", JArray [JInt 1; JString (B "info")])].
Definition case_bad_mapping : json := JObject [(B "type", JString (B "json")); (B "mapping", JArray [])].
Example C77_case : clean case_bad_priorities /\ parsed case_bad_priorities /\
  at_path case_bad_priorities [key "priorities"] (JArray [JInt 1; JString (B "info")]) /\
  ~ list_of (is_integer (- 2 ^ 63) (2 ^ 63)) (JArray [JInt 1; JString (B "info")]) /\
  (forall dbl, sink_entry dbl (root case_bad_priorities) = Throw (TypeMismatch (B "/priorities/1") (B "int64") (B "string"))) /\
  at_path case_bad_mapping [key "mapping"] (JArray []) /\ ~ object_of is_text (JArray []) /\
  (forall ld nd, formatter_from ld nd Json (root case_bad_mapping) = Throw (TypeMismatch (B "/mapping") (B "object") (B "array"))).
Proof.
  repeat match goal with |- _ /\ _ => split end; try (apply clean_ok_clean; reflexivity); try (apply walk_found; reflexivity);
    try (intros; reflexivity).
  - apply ints_ok_parsed. reflexivity.
  - intros (l & E & F). injection E as <-. inversion F as [|? ? _ F']; subst. inversion F' as [|? ? (z & E & _) _]; subst. discriminate.
  - intros (l & E & _). discriminate.
Qed.

(** C77, false of a flush policy that is neither an unsigned integer nor a text: the default is taken ... *)
Theorem C77_flush_refuted : exists v w, text v [key "type"] (B "file") /\ at_path v [key "flush"] w /\
  (forall f, ~ flush_config v f) /\ forall dbl c, sink_entry dbl (Node v c) =
    Ret (SFile (B "/log") (FileSinkModel.Config false (FlusherModel.FRepeat (FlusherModel.repeat_new 0)))).
Proof. exact flush_refuted_lemma. Qed.
Print Assumptions C77_flush_refuted.

(** ... of a rotation that is not an object with a type: there is none ... *)
Theorem C77_rotate_refuted : exists v, text v [key "type"] (B "file") /\ at_path v [key "rotate"] (JString (B "stat")) /\
  forall dbl c, sink_entry dbl (Node v c) =
    Ret (SFile (B "/log") (FileSinkModel.Config false (FlusherModel.FRepeat (FlusherModel.repeat_new 0)))).
Proof. exact rotate_refuted_lemma. Qed.
Print Assumptions C77_rotate_refuted.

(** ... of a filter without a type, and of a filter of a sink other than the console: all records pass ... *)
Theorem C77_filter_refuted : exists v, text v [key "type"] (B "console") /\ at_path v [key "filter"; key "threshold"] (JInt 3) /\
  forall dbl c, sink_entry dbl (Node v c) = Ret (SConsole None).
Proof. exact filter_refuted_lemma. Qed.
Print Assumptions C77_filter_refuted.

Theorem C77_other_filter_refuted : exists v, text v [key "filter"; key "type"] (B "severity") /\
  at_path v [key "filter"; key "threshold"] (JInt 3) /\ forall dbl c, sink_entry dbl (Node v c) =
    Ret (SFile (B "/log") (FileSinkModel.Config false (FlusherModel.FRepeat (FlusherModel.repeat_new 0)))).
Proof. exact other_filter_refuted_lemma. Qed.
Print Assumptions C77_other_filter_refuted.

(** ... of numbers out of range: ports and priorities are cut ... *)
Theorem C77_port_refuted : exists v, at_path v [key "port"] (JInt 65616) /\
  forall dbl c, sink_entry dbl (Node v c) = Ret (STcp (B "localhost") 80).
Proof. exact port_refuted_lemma. Qed.
Print Assumptions C77_port_refuted.

Theorem C77_priority_refuted : exists v, at_path v [key "priorities"; Index 0] (JInt (2 ^ 32 + 3)) /\
  forall dbl c, sink_entry dbl (Node v c) = Ret (SSyslog [3%Z]).
Proof. exact priority_refuted_lemma. Qed.
Print Assumptions C77_priority_refuted.

(** ... of a route that is a text other than the star: it takes the rest all the same ... *)
Theorem C77_routing_refuted : exists v, text v [key "routing"; key "fields"] (B "level") /\
  forall lexical_double ndebug c, formatter_from lexical_double ndebug Json (Node v c) =
    Ret (FJson (JsonFmtModel.build [JsonFmtModel.RouteRest (B "fields")])).
Proof. exact routing_refuted_lemma. Qed.
Print Assumptions C77_routing_refuted.

(** ... and of a mutation of the TSKV formatter without its pattern: nothing is done. *)
Theorem C77_mutate_refuted : exists v, text v [key "mutate"; key "timestamp"; key "format"] (B "%H") /\
  forall lexical_double ndebug c, formatter_from lexical_double ndebug Tskv (Node v c) = Ret (FTskv (TskvModel.build [])).
Proof. exact mutate_refuted_lemma. Qed.
Print Assumptions C77_mutate_refuted.
