(** C43, C44: what a registry and the builder should do. *)
From Verif Require Import Base ConfigModel ConfigSpec RegistryModel.

(** A registry after some registrations. *)
Definition after {F} (r : registry F) (h : list (kind * bytes * F)) : registry F :=
  fold_left (fun r '(k, t, f) => add r k t f) h r.

(** The last registration of that kind and type. *)
Definition registered {F} (h : list (kind * bytes * F)) (k : kind) (t : bytes) (f : F) : Prop :=
  exists pre post, h = pre ++ (k, t, f) :: post /\ (forall g, ~ In (k, t, g) post).

Definition word (k : kind) : bytes :=
  match k with SinkKind => B "sink" | FilterKind => B "filter" | HandlerKind => B "handler" | FormatterKind => B "formatter" end.
Definition not_registered (k : kind) (t : bytes) : exn :=
  OutOfRange (word k ++ B " with type """ ++ t ++ B """ is not registered").

(** What comes with the library, and the components there are (each has a factory of that type). *)
Definition library : list (kind * bytes * builtin) :=
  [(FilterKind, B "severity", Severity);
   (FormatterKind, B "json", Json); (FormatterKind, B "string", String); (FormatterKind, B "tskv", Tskv);
   (SinkKind, B "asynchronous", Asynchronous); (SinkKind, B "console", Console); (SinkKind, B "file", File);
   (SinkKind, B "null", Null); (SinkKind, B "tcp", Tcp); (SinkKind, B "udp", Udp); (SinkKind, B "syslog", Syslog);
   (HandlerKind, B "blocking", Blocking)].
Definition components : list (kind * bytes) := map fst library ++ [(HandlerKind, B "dev")].

(** What becomes of one entry of the logger's list, at [path]: the factory of its type, blocking by default, makes it. *)
Inductive entry {F H} (make : F -> node -> outcome H) (h : list (kind * bytes * F)) (e : json) (path : list access) : outcome H -> Prop :=
| entry_made t f : at_path e [Key (B "type")] (JString t) -> registered h HandlerKind t f ->
    entry make h e path (make f (Node e (path_text path)))
| entry_default f : (~ exists w, at_path e [Key (B "type")] w) -> registered h HandlerKind (B "blocking") f ->
    entry make h e path (make f (Node e (path_text path)))
| entry_unknown t : at_path e [Key (B "type")] (JString t) -> (~ exists f, registered h HandlerKind t f) ->
    entry make h e path (Throw (not_registered HandlerKind t))
| entry_no_default : (~ exists w, at_path e [Key (B "type")] w) -> (~ exists f, registered h HandlerKind (B "blocking") f) ->
    entry make h e path (Throw (not_registered HandlerKind (B "blocking")))
| entry_mistyped w name : at_path e [Key (B "type")] w -> (forall s, w <> JString s) -> named w name ->
    entry make h e path (Throw (TypeMismatch (path_text (path ++ [Key (B "type")])) (B "string") name)).

(** No NUL in the texts of the entry. *)
Definition typed (e : json) : Prop := forall s, at_path e [Key (B "type")] (JString s) -> no_nul s.

(** An outcome that is not a value, as the outcome of something bigger. *)
Definition failed {A C} (o : outcome A) : option (outcome C) :=
  match o with Ret _ => None | Throw x => Some (Throw x) | Undefined => Some Undefined end.
