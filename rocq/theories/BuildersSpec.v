(** C117-C120: what the builders should make. *)
From Verif Require Import Base Values ConfigModel ConfigSpec BuildersModel.
From Verif Require FactoriesModel FmtModel ConsoleModel FlusherModel FileSinkModel AsyncModel TskvModel JsonFmtModel StrModel.

(** ---- the same from a configuration ---- *)

(** A console of the configuration writes to the standard output and never in colour. *)
Inductive same_sink : built_sink -> FactoriesModel.sink -> Prop :=
| same_console m : (forall r, m r = Some ConsoleModel.default_color) -> same_sink (KConsole false m) (FactoriesModel.SConsole None)
| same_file path stat f : same_sink (KFile path (Some stat) (Some f)) (FactoriesModel.SFile path (FileSinkModel.Config stat f))
| same_asynchronous s s' c : same_sink s s' -> same_sink (KAsynchronous (Some s) c) (FactoriesModel.SAsynchronous s' c).

Section Spec.
Variable dbl : FmtModel.spec -> N -> bytes.

(** A severity mapping that shows names, if there are any, or numbers. *)
Definition shows (m : StrModel.severity_map) (names : option (list bytes)) : Prop :=
  forall severity spec, m severity spec =
    match names with Some l => StrModel.list_map dbl l severity spec | None => StrModel.number_map dbl severity spec end.

Inductive same_formatter : built_formatter -> FactoriesModel.formatter -> Prop :=
| same_string tokens m names : shows m names -> same_formatter (KString tokens m) (FactoriesModel.FString tokens names)
| same_tskv d : same_formatter (KTskv d) (FactoriesModel.FTskv d)
| same_json d : same_formatter (KJson d) (FactoriesModel.FJson d).

Inductive same_handler : built_handler -> FactoriesModel.handler -> Prop :=
| same_blocking f f' sinks sinks' : same_formatter f f' -> Forall2 same_sink sinks sinks' ->
    same_handler (KBlocking (Some f) sinks) (FactoriesModel.HBlocking f' sinks').

(** What a configuration can ask for: no colours, no error stream, no severity mapping but by names, no development handler; and
    a formatter must be there. *)
Inductive plain_sink : built_sink -> Prop :=
| plain_console m : (forall r, m r = Some ConsoleModel.default_color) -> plain_sink (KConsole false m)
| plain_file path stat f : plain_sink (KFile path stat f)
| plain_asynchronous s c : plain_sink s -> plain_sink (KAsynchronous (Some s) c).
Inductive plain_formatter : built_formatter -> Prop :=
| plain_numbers tokens m : shows m None -> plain_formatter (KString tokens m)
| plain_names tokens m names : Forall no_nul names -> shows m (Some names) -> plain_formatter (KString tokens m)
| plain_tskv d : plain_formatter (KTskv d)
| plain_json d : plain_formatter (KJson d).
Inductive plain_handler : built_handler -> Prop :=
| plain_blocking f sinks : plain_formatter f -> Forall plain_sink sinks -> plain_handler (KBlocking (Some f) sinks).
End Spec.

(** The texts of a program. *)
Definition tskv_texts (c : TskvModel.call) : list bytes :=
  match c with
  | TskvModel.Create a b | TskvModel.Rename a b | TskvModel.Timestamp a b _ => [a; b]
  | TskvModel.Remove a => [a]
  end.
Definition json_texts (c : JsonFmtModel.call) : list bytes :=
  match c with
  | JsonFmtModel.RouteRest r => [r]
  | JsonFmtModel.Route r names => r :: names
  | JsonFmtModel.Rename a b | JsonFmtModel.Format a b => [a; b]
  | JsonFmtModel.Unique | JsonFmtModel.Newline => []
  | JsonFmtModel.Severity names => names
  | JsonFmtModel.Timestamp p => [p]
  end.
Definition formatter_texts (p : formatter_program) : list bytes :=
  match p with
  | PString pattern _ => [pattern]
  | PTskv calls => flat_map tskv_texts calls
  | PJson calls => flat_map json_texts calls
  end.
Fixpoint sink_texts (p : sink_program) : list bytes :=
  match p with PConsole _ => [] | PFile path _ => [path] | PAsynchronous w _ => sink_texts w end.

(** The numbers given to the file sinks, which are of 64 bits. *)
Definition file_numbers (c : file_call) : list N :=
  match c with FlushEveryBytes _ n => [n] | FlushEveryEvents n => [n] | RotateCheckingStat => [] end.
Fixpoint sink_numbers (p : sink_program) : list N :=
  match p with PConsole _ => [] | PFile _ calls => flat_map file_numbers calls | PAsynchronous w _ => sink_numbers w end.

Definition call_texts (c : handler_call) : list bytes :=
  match c with SetFormatter f => formatter_texts f | AddSink s => sink_texts s end.
Definition call_numbers (c : handler_call) : list N :=
  match c with SetFormatter _ => [] | AddSink s => sink_numbers s end.
Definition texts (p : handler_program) : list bytes := match p with PBlocking calls => flat_map call_texts calls | PDev => [] end.
Definition numbers (p : handler_program) : list N := match p with PBlocking calls => flat_map call_numbers calls | PDev => [] end.

(** Sinks of a configuration for which there are builders that can ask for as much. *)
Inductive buildable : FactoriesModel.sink -> Prop :=
| buildable_console : buildable (FactoriesModel.SConsole None)
| buildable_file path c : buildable (FactoriesModel.SFile path c)
| buildable_asynchronous s capacity : buildable s -> buildable (FactoriesModel.SAsynchronous s (AsyncModel.Config capacity AsyncModel.Wait)).

Definition buildable_handler (h : FactoriesModel.handler) : Prop := match h with FactoriesModel.HBlocking _ sinks => Forall buildable sinks end.

(** ---- settings ---- *)

(** The last value that some call gives. *)
Inductive last_given {C A} (gives : C -> A -> Prop) (initial : A) : list C -> A -> Prop :=
| given_never calls : (forall c a, In c calls -> ~ gives c a) -> last_given gives initial calls initial
| given_last before c after a : gives c a -> (forall c' a', In c' after -> ~ gives c' a') ->
    last_given gives initial (before ++ c :: after) a.

Definition gives_stream (c : console_call) (err : bool) : Prop := (c = Stdout /\ err = false) \/ (c = Stderr /\ err = true).
Definition gives_colour (r : record) (c : console_call) (color : ConsoleModel.termcolor) : Prop :=
  c = Colorize (ConsoleModel.BySeverity (r_severity r) color) \/ (exists f, c = Colorize (ConsoleModel.ByFunction f) /\ color = f r).
Definition gives_stat (c : file_call) (stat : bool) : Prop := c = RotateCheckingStat /\ stat = true.
Definition bytes_in (u : unit_of) : N :=
  match u with
  | Bytes => 1 | Kilobytes => 10 ^ 3 | Megabytes => 10 ^ 6 | Gigabytes => 10 ^ 9
  | Kibibytes => 2 ^ 10 | Mibibytes => 2 ^ 20 | Gibibytes => 2 ^ 30
  end.
Definition gives_flush (c : file_call) (f : FlusherModel.flusher_t) : Prop :=
  (exists u n, c = FlushEveryBytes u n /\ f = FlusherModel.FBytes (FlusherModel.bytecount_new ((n * bytes_in u) mod 2 ^ 64))) \/
  (exists n, c = FlushEveryEvents n /\ f = FlusherModel.FRepeat (FlusherModel.repeat_new n)).

(** Calls that set different things: kinds of settings. *)
Definition tskv_kind (c : TskvModel.call) : nat :=
  match c with TskvModel.Create _ _ => 0 | TskvModel.Rename _ _ => 1 | TskvModel.Remove _ => 2 | TskvModel.Timestamp _ _ _ => 3 end.
Definition json_kind (c : JsonFmtModel.call) : nat :=
  match c with
  | JsonFmtModel.RouteRest _ => 0 | JsonFmtModel.Route _ _ => 1 | JsonFmtModel.Rename _ _ => 2 | JsonFmtModel.Unique => 3
  | JsonFmtModel.Newline => 4 | JsonFmtModel.Severity _ => 5 | JsonFmtModel.Timestamp _ => 6 | JsonFmtModel.Format _ _ => 7
  end.
Definition same_by_kind {C} (kind : C -> nat) (l l' : list C) : Prop :=
  forall k, filter (fun c => Nat.eqb (kind c) k) l = filter (fun c => Nat.eqb (kind c) k) l'.

(** The formatter and the sinks that the calls to a handler's builder give, each made on its own. *)
Definition gives_formatter (c : handler_call) (f : formatter_program) : Prop := c = SetFormatter f.
Fixpoint added (calls : list handler_call) : list sink_program :=
  match calls with [] => [] | AddSink s :: calls' => s :: added calls' | _ :: calls' => added calls' end.

(** ---- chains ---- *)

(** The programs that can be written as a chain: string formatters and consoles without calls. *)
Inductive chained_call : handler_call -> list chain_call -> Prop :=
| chained_string pattern mappings : chained_call (SetFormatter (PString pattern mappings)) (SetString pattern :: map Mapping mappings ++ [Build])
| chained_console : chained_call (AddSink (PConsole [])) [AddConsole; Build].
Inductive chained : handler_program -> list chain_call -> Prop :=
| chained_blocking calls l : Forall2 chained_call calls l -> chained (PBlocking calls) (HandlerBlocking :: concat l ++ [Build])
| chained_dev : chained PDev [HandlerDev; Build].
