(** The factories of the library's components: how sinks, formatters, filters and handlers are made from the
    configuration. The registry is the configured one. *)
From Verif Require Import Base ConfigModel RegistryModel.
From Verif Require FmtModel FlusherModel FileSinkModel AsyncModel DeliveryModel TskvModel JsonFmtModel ParserModel.

(** What is made. Console: the threshold of its severity filter, [None] for the filter that lets everything pass
    (src/sink/console.cpp constructors); file: path and options; sockets: host and port; syslog: the priorities;
    asynchronous: the wrapped sink, the capacity and the policy. *)
Inductive sink :=
| SNull
| SConsole (threshold : option Z)
| SFile (path : bytes) (config : FileSinkModel.config)
| STcp (host : bytes) (port : N)
| SUdp (host : bytes) (port : N)
| SSyslog (priorities : list Z)
| SAsynchronous (wrapped : sink) (config : AsyncModel.config).

(** The string formatter: its tokens and the names of the severities, if mapped. *)
Inductive formatter :=
| FString (tokens : list ParserModel.token) (sevmap : option (list bytes))
| FTskv (data : TskvModel.tskv_data)
| FJson (data : JsonFmtModel.properties).

Inductive handler := HBlocking (f : formatter) (sinks : list sink).

Section Factories.
(** How doubles are written (of no use in messages), whether a text is a double for boost::lexical_cast, and whether
    assertions are off: parameters of the models used. *)
Variable dbl : FmtModel.spec -> N -> bytes.
Variable lexical_double : bytes -> bool.
Variable ndebug : bool.

(** The values of a loop whose function converts each node. *)
Definition collect {A} (f : node -> outcome A) (nodes : list node) : outcome (list A) :=
  for_each (fun l n => bind (f n) (fun a => Ret (l ++ [a]))) [] nodes (fun l => Ret l).

(** src/filter/severity.cpp:37-45. *)
Definition severity_from (n : node) : outcome Z :=
  bind (opt_sint64 (node_key n (B "threshold"))) (fun threshold =>
  match threshold with Some t => Ret t | None => Throw (InvalidArgument (B "field 'threshold' is required")) end).

(** The call of a filter factory; only one is registered. *)
Definition filter_from (f : builtin) (n : node) : outcome Z :=
  match f with Severity => severity_from n | _ => Undefined end.

(** src/sink/console.cpp:174-183. *)
Definition console_from (n : node) : outcome sink :=
  bind (opt_string (opt_key (node_key n (B "filter")) (B "type"))) (fun type =>
  match type with
  | Some t =>
      bind (lookup dbl configured FilterKind t) (fun f =>
      match node_key n (B "filter") with
      | Some m => bind (filter_from f m) (fun threshold => Ret (SConsole (Some threshold)))
      | None => Undefined
      end)
  | None => Ret (SConsole None)
  end).

(** src/sink/file.cpp:225-234: the flush option; other types than unsigned integers and strings are passed over, which
    leaves line 172's default. *)
Definition flush_from (o : option_t) : outcome FlusherModel.flusher_t :=
  let default := FlusherModel.FRepeat (FlusherModel.repeat_new 0) in
  match o with
  | None => Ret default
  | Some m =>
      if is_uint64 (n_value m)
      then bind (node_uint64 m) (fun k => Ret (FlusherModel.FRepeat (FlusherModel.repeat_new k)))
      else if is_string (n_value m)
      then bind (node_string m) (fun s =>
           match FlusherModel.parse_dunit s with
           | FlusherModel.DOk k => Ret (FlusherModel.FBytes (FlusherModel.bytecount_new k))
           | FlusherModel.DBadCast => Throw BadCast
           | FlusherModel.DUnknownUnit u => Throw (InvalidArgument (B "unknown data unit - " ++ u))
           | FlusherModel.DUndefined => Undefined
           end)
      else Ret default
  end.

(** src/sink/file.cpp:236-244: the rotate option. *)
Definition rotate_from (o : option_t) : outcome bool :=
  match o with
  | None => Ret false
  | Some m =>
      bind (opt_string (node_key m (B "type"))) (fun type =>
      match type with
      | Some t => if bytes_eqb t (B "stat") then Ret true
                  else Throw (InvalidArgument (B "rotate type """ ++ t ++ B """ is not registered"))
      | None => Ret false
      end)
  end.

(** src/sink/file.cpp:215-247. *)
Definition file_from (n : node) : outcome sink :=
  bind (opt_string (node_key n (B "path"))) (fun path =>
  match path with
  | None => Throw (InvalidArgument (B "field 'path' is required"))
  | Some p =>
      bind (flush_from (node_key n (B "flush"))) (fun flusher =>
      bind (rotate_from (node_key n (B "rotate"))) (fun stat =>
      Ret (SFile p (FileSinkModel.Config stat flusher))))
  end).

(** src/sink/socket/tcp.cpp:147-158 and src/sink/socket/udp.cpp:48-59; the port is cut to 16 bits. *)
Definition socket_from (make : bytes -> N -> sink) (n : node) : outcome sink :=
  bind (opt_string (node_key n (B "host"))) (fun host =>
  match host with
  | None => Throw (InvalidArgument (B "parameter ""host"" is required"))
  | Some h =>
      bind (opt_uint64 (node_key n (B "port"))) (fun port =>
      match port with
      | None => Throw (InvalidArgument (B "parameter ""port"" is required"))
      | Some p => Ret (make h (p mod 65536)%N)
      end)
  end).

(** src/sink/syslog.cpp:68-82. *)
Definition syslog_from (n : node) : outcome sink :=
  match node_key n (B "priorities") with
  | None => Ret (SSyslog [])
  | Some m => bind (node_each m) (fun nodes => bind (collect node_sint64 nodes) (fun l => Ret (SSyslog (DeliveryModel.config_priorities l))))
  end.

(** src/sink/asynchronous.cpp:62-81; [inner] makes the wrapped sink from the member "sink", if there is one. [get()] of
    an empty boost::optional is undefined (an assertion in debug builds). *)
Definition asynchronous_from (n : node) (inner : option (builtin -> outcome sink)) : outcome sink :=
  bind (opt_string (opt_key (node_key n (B "sink")) (B "type"))) (fun type =>
  match type with
  | None => Throw (InvalidArgument (B """sink"" field with ""type"" is required"))
  | Some t =>
      bind (lookup dbl configured SinkKind t) (fun f =>
      bind (opt_uint64 (node_key n (B "factor"))) (fun factor =>
      match factor with
      | None => Undefined
      | Some factor =>
          bind (opt_string (node_key n (B "overflow"))) (fun overflow =>
          match overflow with
          | None => Undefined
          | Some name =>
              match AsyncModel.create_policy name with
              | None => Throw (InvalidArgument (B "no overflow policy with name """ ++ name ++ B """ found"))
              | Some policy =>
                  match inner with
                  | None => Undefined
                  | Some make =>
                      bind (make f) (fun wrapped =>
                      match AsyncModel.exp2 factor with
                      | None => Throw (InvalidArgument (B "factor should fit in [2; 20] range"))
                      | Some capacity => Ret (SAsynchronous wrapped (AsyncModel.Config capacity policy))
                      end)
                  end
              end
          end)
      end))
  end).

(** The call of a sink factory with the node of value [v] and cursor [c]. The recursion is on the value: the wrapped
    sink of an asynchronous one is made from the first member named "sink" ([*config["sink"].unwrap()]). *)
Fixpoint sink_from (v : json) (c : bytes) (f : builtin) {struct v} : outcome sink :=
  let n := Node v c in
  match f with
  | Asynchronous =>
      asynchronous_from n
        match v with
        | JObject l =>
            (fix member l := match l with
                             | [] => None
                             | (k, w) :: l' => if bytes_eqb k (B "sink") then Some (sink_from w (advance_key n (B "sink"))) else member l'
                             end) l
        | _ => None
        end
  | Console => console_from n
  | File => file_from n
  | Null => Ret SNull
  | Tcp => socket_from STcp n
  | Udp => socket_from SUdp n
  | Syslog => syslog_from n
  | _ => Undefined
  end.

(** src/formatter/string.cpp:379-400; the tokens are made by the constructor (319-325). *)
Definition string_from (n : node) : outcome formatter :=
  bind (opt_string (node_key n (B "pattern"))) (fun pattern =>
  match pattern with
  | None => Undefined
  | Some p =>
      bind (match node_key n (B "sevmap") with
            | None => Ret None
            | Some m => bind (node_each m) (fun nodes => bind (collect node_string nodes) (fun l => Ret (Some l)))
            end) (fun sevmap =>
      match ParserModel.tokenize lexical_double ndebug p with
      | Some (ParserModel.Tokens ts) => Ret (FString ts sevmap)
      | Some (ParserModel.Failed (ParserModel.OError _ _)) | Some (ParserModel.Failed (ParserModel.OThrown _)) => Throw BadPattern
      | _ => Undefined
      end)
  end).

(** A section of the configuration, passed over if missing: the loops [each] and [each_map] with the builder as state. *)
Definition section_each {S} (o : option_t) (f : S -> node -> outcome S) (s : S) : outcome S :=
  match o with None => Ret s | Some m => bind (node_each m) (fun nodes => for_each f s nodes (fun s => Ret s)) end.
Definition section_map {S} (o : option_t) (f : S -> bytes * node -> outcome S) (s : S) : outcome S :=
  match o with None => Ret s | Some m => bind (node_each_map m) (fun members => for_each f s members (fun s => Ret s)) end.

(** src/formatter/tskv.cpp:333-369. *)
Definition tskv_from (n : node) : outcome formatter :=
  bind (section_map (node_key n (B "create")) (fun b '(key, value) =>
    bind (node_string value) (fun v => Ret (TskvModel.builder_call b (TskvModel.Create key v)))) TskvModel.builder_init) (fun b =>
  bind (section_map (node_key n (B "rename")) (fun b '(from, to) =>
    bind (node_string to) (fun t => Ret (TskvModel.builder_call b (TskvModel.Rename from t)))) b) (fun b =>
  bind (section_each (node_key n (B "remove")) (fun b key =>
    bind (node_string key) (fun k => Ret (TskvModel.builder_call b (TskvModel.Remove k)))) b) (fun b =>
  bind (section_map (node_key n (B "mutate")) (fun b '(key, how) =>
    match node_key how (B "strftime") with
    | None => Ret b
    | Some strftime =>
        bind (opt_bool (node_key how (B "gmtime"))) (fun gmtime =>
        bind (node_string strftime) (fun pattern =>
        Ret (TskvModel.builder_call b (TskvModel.Timestamp key pattern (match gmtime with Some g => g | None => true end)))))
    end) b) (fun b =>
  Ret (FTskv b))))).

(** src/formatter/json.cpp:513-523: a flag. *)
Definition json_flag (n : node) (name : bytes) (c : JsonFmtModel.call) (b : JsonFmtModel.properties) : outcome JsonFmtModel.properties :=
  bind (opt_bool (node_key n name)) (fun o => Ret (match o with Some true => JsonFmtModel.builder_call b c | _ => b end)).

(** src/formatter/json.cpp:508-573. The exception of [to_string] in the routing is caught (539-546). *)
Definition json_from (n : node) : outcome formatter :=
  bind (json_flag n (B "unique") JsonFmtModel.Unique JsonFmtModel.builder_init) (fun b =>
  bind (json_flag n (B "newline") JsonFmtModel.Newline b) (fun b =>
  bind (section_map (node_key n (B "mapping")) (fun b '(key, value) =>
    bind (node_string value) (fun v => Ret (JsonFmtModel.builder_call b (JsonFmtModel.Rename key v)))) b) (fun b =>
  bind (section_map (node_key n (B "formatting")) (fun b '(key, value) =>
    bind (node_string value) (fun v => Ret (JsonFmtModel.builder_call b (JsonFmtModel.Format key v)))) b) (fun b =>
  bind (section_map (node_key n (B "routing")) (fun b '(key, value) =>
    match node_string value with
    | Ret _ => Ret (JsonFmtModel.builder_call b (JsonFmtModel.RouteRest key))
    | _ =>
        bind (node_each value) (fun nodes =>
        bind (collect node_string nodes) (fun names =>
        Ret (JsonFmtModel.builder_call b (JsonFmtModel.Route key names))))
    end) b) (fun b =>
  bind (section_map (node_key n (B "mutate")) (fun b '(key, config) =>
    if bytes_eqb key (B "timestamp") then
      bind (node_string config) (fun pattern => Ret (JsonFmtModel.builder_call b (JsonFmtModel.Timestamp pattern)))
    else if bytes_eqb key (B "severity") then
      bind (node_each config) (fun nodes =>
      bind (collect node_string nodes) (fun names =>
      Ret (JsonFmtModel.builder_call b (JsonFmtModel.Severity names))))
    else Throw (InvalidArgument (B "only ""timestamp"" and ""severity"" mutations are allowed now"))) b) (fun b =>
  Ret (FJson b))))))).

(** The call of a formatter factory. *)
Definition formatter_from (f : builtin) (n : node) : outcome formatter :=
  match f with String => string_from n | Tskv => tskv_from n | Json => json_from n | _ => Undefined end.

(** src/handler/blocking.cpp:88-94, one entry of the sinks. *)
Definition sink_entry (n : node) : outcome sink :=
  bind (opt_string (node_key n (B "type"))) (fun type =>
  match type with
  | Some t => bind (lookup dbl configured SinkKind t) (fun f => sink_from (n_value n) (n_cursor n) f)
  | None => Throw (InvalidArgument (B "each sink must have a type"))
  end).

(** src/handler/blocking.cpp:78-97. *)
Definition blocking_from (n : node) : outcome handler :=
  bind (opt_string (opt_key (node_key n (B "formatter")) (B "type"))) (fun type =>
  match type with
  | None => Throw (InvalidArgument (B "each handler must have a formatter with type"))
  | Some t =>
      bind (lookup dbl configured FormatterKind t) (fun f =>
      match node_key n (B "formatter") with
      | None => Undefined
      | Some m =>
          bind (formatter_from f m) (fun formatter =>
          bind (opt_each (node_key n (B "sinks"))) (fun nodes =>
          bind (collect sink_entry nodes) (fun sinks =>
          Ret (HBlocking formatter sinks))))
      end)
  end).

(** The call of a handler factory, and the logger: src/registry.cpp:63-81. *)
Definition handler_from (f : builtin) (n : node) : outcome handler :=
  match f with Blocking => blocking_from n | _ => Undefined end.
Definition logger (v : json) (name : bytes) : outcome (list handler) := build dbl handler_from configured (root v) name.
End Factories.
