(** The registry and the builder: include/blackhole/registry.hpp, src/registry.cpp, src/essentials.cpp.
    A registered factory is an element of [F] ([std::function] in the code); what it makes is given by [make]. *)
From Verif Require Import Base StdMap ConfigModel.
From Verif Require FmtModel.

(** The four overloads of [add] and the four lookups differ in the map they use and in a word of the message. *)
Inductive kind := SinkKind | FilterKind | HandlerKind | FormatterKind.

Section Registry.
Context {F : Type}.

(** src/registry.cpp:91-94. *)
Record registry := Registry {
  r_sinks : list (bytes * F);
  r_filters : list (bytes * F);
  r_handlers : list (bytes * F);
  r_formatters : list (bytes * F)
}.

(** src/registry.cpp:159-161 [empty]. *)
Definition empty : registry := Registry [] [] [] [].

(** src/registry.cpp:108-130 [add]; [type] is the text of [factory->type()]. *)
Definition add (r : registry) (k : kind) (type : bytes) (f : F) : registry :=
  match k with
  | SinkKind => Registry (map_set type f (r_sinks r)) (r_filters r) (r_handlers r) (r_formatters r)
  | FilterKind => Registry (r_sinks r) (map_set type f (r_filters r)) (r_handlers r) (r_formatters r)
  | HandlerKind => Registry (r_sinks r) (r_filters r) (map_set type f (r_handlers r)) (r_formatters r)
  | FormatterKind => Registry (r_sinks r) (r_filters r) (r_handlers r) (map_set type f (r_formatters r))
  end.

(** src/registry.cpp:132-150, the messages. *)
Definition message (k : kind) : bytes :=
  match k with
  | SinkKind => B "sink with type ""{}"" is not registered"
  | FilterKind => B "filter with type ""{}"" is not registered"
  | HandlerKind => B "handler with type ""{}"" is not registered"
  | FormatterKind => B "formatter with type ""{}"" is not registered"
  end.

(** src/registry.cpp:24-50 [get] and [expect], and 132-150. The message is formatted by the library in
    include/blackhole/extensions/format.hpp; [dbl] is its way to write doubles, of no use here. *)
Definition lookup (dbl : FmtModel.spec -> N -> bytes) (r : registry) (k : kind) (type : bytes) : outcome F :=
  let m := match k with
           | SinkKind => r_sinks r | FilterKind => r_filters r
           | HandlerKind => r_handlers r | FormatterKind => r_formatters r
           end in
  match map_get type m with
  | Some f => Ret f
  | None =>
      match FmtModel.write dbl (message k) [FmtModel.AString (Some (type ++ [NUL])) (FmtModel.length_N type)] with
      | FmtModel.Ok text => Throw (OutOfRange text)
      | FmtModel.Error _ => Throw FormatError
      | FmtModel.Undefined => Undefined
      end
  end.

(** src/registry.cpp:76-81 [builder_t::handler]. *)
Definition build_handler {H} dbl (make : F -> node -> outcome H) (r : registry) (config : node) : outcome H :=
  bind (opt_string (node_key config (B "type"))) (fun type =>
  bind (lookup dbl r HandlerKind (match type with Some t => t | None => B "blocking" end)) (fun f =>
  make f config)).

(** src/registry.cpp:63-74 [builder_t::build]: the handlers of the logger. *)
Definition build {H} dbl (make : F -> node -> outcome H) (r : registry) (config : node) (name : bytes) : outcome (list H) :=
  bind (opt_each (node_key config name)) (fun nodes =>
  for_each (fun handlers n => bind (build_handler dbl make r n) (fun h => Ret (handlers ++ [h]))) [] nodes (fun handlers => Ret handlers)).
End Registry.
Arguments registry F : clear implicits.

(** The factories in the library. *)
Inductive builtin :=
| Severity | Json | String | Tskv
| Asynchronous | Console | File | Null | Tcp | Udp | Syslog
| Blocking.

(** src/essentials.cpp:21-38 [essentials] with the [type()] of each factory: src/filter/severity.cpp:33-35,
    src/formatter/json.cpp:504-506, string.cpp:375-377, tskv.cpp:329-331, src/sink/asynchronous.cpp:58-60,
    console.cpp:170-172, file.cpp:211-213, null.cpp:18-20, socket/tcp.cpp:143-145, socket/udp.cpp:44-46,
    syslog.cpp:64-66, src/handler/blocking.cpp:74-76. *)
Definition essentials (r : registry builtin) : registry builtin :=
  let r := add r FilterKind (B "severity") Severity in
  let r := add r FormatterKind (B "json") Json in
  let r := add r FormatterKind (B "string") String in
  let r := add r FormatterKind (B "tskv") Tskv in
  let r := add r SinkKind (B "asynchronous") Asynchronous in
  let r := add r SinkKind (B "console") Console in
  let r := add r SinkKind (B "file") File in
  let r := add r SinkKind (B "null") Null in
  let r := add r SinkKind (B "tcp") Tcp in
  let r := add r SinkKind (B "udp") Udp in
  let r := add r SinkKind (B "syslog") Syslog in
  add r HandlerKind (B "blocking") Blocking.

(** src/registry.cpp:152-157 [configured]. *)
Definition configured : registry builtin := essentials empty.
