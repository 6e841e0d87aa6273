(** The builders of sinks, formatters, handlers and loggers: include/blackhole/builder.hpp and the classes [builder<...>].
    A null pointer is [None]; what a move leaves behind is as libstdc++ leaves it. *)
From Verif Require Import Base Values ConfigModel.
From Verif Require FmtModel ConsoleModel FlusherModel FileSinkModel AsyncModel TskvModel JsonFmtModel ParserModel StrModel.

(** ---- what is built ---- *)

(** Console (src/sink/console.cpp:74-78): whether the stream is the error stream, and the colours; [None] is the exception of
    an empty [std::function]. File (src/sink/file.cpp:107-116): path, the factories of rotators and flushers.
    Asynchronous (src/sink/asynchronous.p.cpp:67-73). *)
Inductive built_sink :=
| KConsole (err : bool) (mapping : record -> option ConsoleModel.termcolor)
| KFile (path : bytes) (stat : option bool) (flusher : option FlusherModel.flusher_t)
| KAsynchronous (wrapped : option built_sink) (config : AsyncModel.config).

(** src/formatter/string.cpp:314-330, src/formatter/tskv.cpp:233-239, src/formatter/json.cpp:148-180. *)
Inductive built_formatter :=
| KString (tokens : list ParserModel.token) (sevmap : StrModel.severity_map)
| KTskv (data : TskvModel.tskv_data)
| KJson (data : JsonFmtModel.properties).

(** src/handler/blocking.cpp:20-24; src/handler/dev.cpp. *)
Inductive built_handler := KBlocking (f : option built_formatter) (sinks : list built_sink) | KDev.

(** ---- the console's builder ---- *)

(** src/sink/console.cpp:113-117. *)
Record console_builder := ConsoleBuilder { cb_err : bool; cb_mapping : record -> option ConsoleModel.termcolor }.
Inductive console_call := Stdout | Stderr | Colorize (x : ConsoleModel.colorize record).
(** src/sink/console.cpp:119-121. *)
Definition console_new : console_builder := ConsoleBuilder false (fun _ => Some ConsoleModel.default_color).
(** src/sink/console.cpp:123-164. *)
Definition console_set (b : console_builder) (c : console_call) : console_builder :=
  match c with
  | Stdout => ConsoleBuilder false (cb_mapping b)
  | Stderr => ConsoleBuilder true (cb_mapping b)
  | Colorize (ConsoleModel.BySeverity s color) =>
      ConsoleBuilder (cb_err b) (fun r => if (s =? r_severity r)%Z then Some color else cb_mapping b r)
  | Colorize (ConsoleModel.ByFunction f) => ConsoleBuilder (cb_err b) (fun r => Some (f r))
  end.
(** src/sink/console.cpp:166-168: the function is moved away. *)
Definition console_build (b : console_builder) : built_sink * console_builder :=
  (KConsole (cb_err b) (cb_mapping b), ConsoleBuilder (cb_err b) (fun _ => None)).

(** ---- the file's builder ---- *)

(** include/blackhole/sink/file.hpp:27-82: numbers of bytes with a unit; the conversion multiplies numbers of 64 bits. *)
Inductive unit_of := Bytes | Kilobytes | Megabytes | Gigabytes | Kibibytes | Mibibytes | Gibibytes.
Definition ratio (u : unit_of) : N :=
  match u with
  | Bytes => 1 | Kilobytes => 1000 | Megabytes => 1000000 | Gigabytes => 1000000000
  | Kibibytes => 1024 | Mibibytes => 1024 * 1024 | Gibibytes => 1024 * 1024 * 1024
  end.
Definition to_bytes (u : unit_of) (n : N) : N := match u with Bytes => n | _ => wrap64 (n * ratio u) end.

(** src/sink/file.cpp:161-166. *)
Record file_builder := FileBuilder { fb_path : bytes; fb_stat : option bool; fb_flush : option FlusherModel.flusher_t }.
Inductive file_call := FlushEveryBytes (u : unit_of) (n : N) | FlushEveryEvents (n : N) | RotateCheckingStat.
(** src/sink/file.cpp:168-173. *)
Definition file_new (path : bytes) : file_builder :=
  FileBuilder path (Some false) (Some (FlusherModel.FRepeat (FlusherModel.repeat_new 0))).
(** src/sink/file.cpp:175-200. *)
Definition file_set (b : file_builder) (c : file_call) : file_builder :=
  match c with
  | FlushEveryBytes u n => FileBuilder (fb_path b) (fb_stat b) (Some (FlusherModel.FBytes (FlusherModel.bytecount_new (to_bytes u n))))
  | FlushEveryEvents n => FileBuilder (fb_path b) (fb_stat b) (Some (FlusherModel.FRepeat (FlusherModel.repeat_new n)))
  | RotateCheckingStat => FileBuilder (fb_path b) (Some true) (fb_flush b)
  end.
(** src/sink/file.cpp:202-209: the factories are moved away; the path is copied, for the constructor takes a reference to
    constant (107). *)
Definition file_build (b : file_builder) : built_sink * file_builder :=
  (KFile (fb_path b) (fb_stat b) (fb_flush b), FileBuilder (fb_path b) None None).

(** ---- the asynchronous sink's builder ---- *)

(** src/sink/asynchronous.cpp:16-52: the pointer to the wrapped sink beside the members of AsyncModel's builder. *)
Record asynchronous_builder := AsynchronousBuilder { ab_wrapped : option built_sink; ab_rest : AsyncModel.builder }.
Definition asynchronous_new (s : built_sink) : asynchronous_builder := AsynchronousBuilder (Some s) AsyncModel.builder_new.
Definition asynchronous_set (b : asynchronous_builder) (c : AsyncModel.call) : asynchronous_builder :=
  AsynchronousBuilder (ab_wrapped b) (AsyncModel.builder_call (ab_rest b) c).
(** src/sink/asynchronous.cpp:54-56: the pointer is moved away. *)
Definition asynchronous_build (b : asynchronous_builder) : outcome built_sink * asynchronous_builder :=
  (match AsyncModel.builder_build (ab_rest b) with
   | AsyncModel.Built c => Ret (KAsynchronous (ab_wrapped b) c)
   | AsyncModel.InvalidArgument => Throw (InvalidArgument (B "factor should fit in [2; 20] range"))
   | AsyncModel.UndefinedBehaviour => Undefined
   end, AsynchronousBuilder None (ab_rest b)).

Section Builders.
(** Parameters of the models used: how doubles are written, whether a text is a double for boost::lexical_cast, whether
    assertions are off. *)
Variable dbl : FmtModel.spec -> N -> bytes.
Variable lexical_double : bytes -> bool.
Variable ndebug : bool.

(** ---- the formatters' builders ---- *)

(** src/formatter/string.cpp:346-355; [None]: the empty function. *)
Record string_builder := StringBuilder { sb_pattern : bytes; sb_mapping : option StrModel.severity_map }.
Definition string_new (pattern : bytes) : string_builder := StringBuilder pattern None.
(** src/formatter/string.cpp:357-365. *)
Definition string_set (b : string_builder) (m : StrModel.severity_map) : string_builder := StringBuilder (sb_pattern b) (Some m).
(** src/formatter/string.cpp:367-373 and 319-330: the mapping is moved away, the pattern is copied. *)
Definition string_build (b : string_builder) : outcome built_formatter * string_builder :=
  (match ParserModel.tokenize lexical_double ndebug (sb_pattern b) with
   | Some (ParserModel.Tokens ts) => Ret (KString ts (match sb_mapping b with Some m => m | None => StrModel.number_map dbl end))
   | Some (ParserModel.Failed (ParserModel.OError _ _)) | Some (ParserModel.Failed (ParserModel.OThrown _)) => Throw BadPattern
   | _ => Undefined
   end, StringBuilder (sb_pattern b) None).

(** src/formatter/tskv.cpp:325-327: the maps are moved away. *)
Definition tskv_build (d : TskvModel.tskv_data) : built_formatter * TskvModel.tskv_data := (KTskv d, TskvModel.Data [] [] [] []).
(** src/formatter/json.cpp:500-502: all but the flags is moved away. *)
Definition json_build (d : JsonFmtModel.properties) : built_formatter * JsonFmtModel.properties :=
  (KJson d, JsonFmtModel.Props (JsonFmtModel.p_unique d) (JsonFmtModel.p_newline d) None [] [] [] [] []).

(** ---- the handlers' and the logger's builders ---- *)

(** src/handler/blocking.cpp:41-72: formatter and sinks are moved away by [build]. *)
Record blocking_builder := BlockingBuilder { bb_formatter : option built_formatter; bb_sinks : list built_sink }.
Definition blocking_new : blocking_builder := BlockingBuilder None [].
Definition blocking_set (b : blocking_builder) (f : built_formatter) : blocking_builder := BlockingBuilder (Some f) (bb_sinks b).
Definition blocking_add (b : blocking_builder) (s : built_sink) : blocking_builder := BlockingBuilder (bb_formatter b) (bb_sinks b ++ [s]).
Definition blocking_build (b : blocking_builder) : built_handler * blocking_builder :=
  (KBlocking (bb_formatter b) (bb_sinks b), BlockingBuilder None []).

(** ---- programs with builders: the calls made on each, from its constructor to its [build] ---- *)

Inductive sink_program :=
| PConsole (calls : list console_call)
| PFile (path : bytes) (calls : list file_call)
| PAsynchronous (wrapped : sink_program) (calls : list AsyncModel.call).
Inductive formatter_program :=
| PString (pattern : bytes) (mappings : list StrModel.severity_map)
| PTskv (calls : list TskvModel.call)
| PJson (calls : list JsonFmtModel.call).
Inductive handler_call := SetFormatter (f : formatter_program) | AddSink (s : sink_program).
Inductive handler_program := PBlocking (calls : list handler_call) | PDev.

Fixpoint make_sink (p : sink_program) : outcome built_sink :=
  match p with
  | PConsole calls => Ret (fst (console_build (fold_left console_set calls console_new)))
  | PFile path calls => Ret (fst (file_build (fold_left file_set calls (file_new path))))
  | PAsynchronous w calls => bind (make_sink w) (fun s => fst (asynchronous_build (fold_left asynchronous_set calls (asynchronous_new s))))
  end.

Definition make_formatter (p : formatter_program) : outcome built_formatter :=
  match p with
  | PString pattern mappings => fst (string_build (fold_left string_set mappings (string_new pattern)))
  | PTskv calls => Ret (fst (tskv_build (fold_left TskvModel.builder_call calls TskvModel.builder_init)))
  | PJson calls => Ret (fst (json_build (fold_left JsonFmtModel.builder_call calls JsonFmtModel.builder_init)))
  end.

Definition blocking_call (b : blocking_builder) (c : handler_call) : outcome blocking_builder :=
  match c with
  | SetFormatter f => bind (make_formatter f) (fun f => Ret (blocking_set b f))
  | AddSink s => bind (make_sink s) (fun s => Ret (blocking_add b s))
  end.

Definition make_handler (p : handler_program) : outcome built_handler :=
  match p with
  | PBlocking calls => for_each blocking_call blocking_new calls (fun b => Ret (fst (blocking_build b)))
  | PDev => Ret KDev
  end.

(** src/root.cpp:207-231. *)
Definition make_logger (ps : list handler_program) : outcome (list built_handler) :=
  for_each (fun hs p => bind (make_handler p) (fun h => Ret (hs ++ [h]))) [] ps (fun hs => Ret hs).

(** ---- the chains of include/blackhole/builder.hpp ---- *)

(** Where a chain is: at the logger's builder (33-58), in a blocking handler's (60-90), in the development handler's (92-112),
    in a string formatter's (114-140) or a console's (142-164). *)
Inductive chain :=
| AtLogger (hs : list built_handler)
| AtBlocking (hs : list built_handler) (b : blocking_builder)
| AtDev (hs : list built_handler)
| AtString (hs : list built_handler) (b : blocking_builder) (s : string_builder)
| AtConsole (hs : list built_handler) (b : blocking_builder) (c : console_builder).
Inductive chain_call := HandlerBlocking | HandlerDev | SetString (pattern : bytes) | AddConsole | Mapping (m : StrModel.severity_map) | Build.

(** One call; [None]: there is no such member function. *)
Definition chain_step (s : chain) (c : chain_call) : option (outcome chain) :=
  match s, c with
  | AtLogger hs, HandlerBlocking => Some (Ret (AtBlocking hs blocking_new))
  | AtLogger hs, HandlerDev => Some (Ret (AtDev hs))
  | AtBlocking hs b, SetString p => Some (Ret (AtString hs b (string_new p)))
  | AtBlocking hs b, AddConsole => Some (Ret (AtConsole hs b console_new))
  | AtBlocking hs b, Build => Some (Ret (AtLogger (hs ++ [fst (blocking_build b)])))
  | AtDev hs, Build => Some (Ret (AtLogger (hs ++ [KDev])))
  | AtString hs b sb, Mapping m => Some (Ret (AtString hs b (string_set sb m)))
  | AtString hs b sb, Build => Some (bind (fst (string_build sb)) (fun f => Ret (AtBlocking hs (blocking_set b f))))
  | AtConsole hs b cb, Build => Some (Ret (AtBlocking hs (blocking_add b (fst (console_build cb)))))
  | _, _ => None
  end.
(** The calls up to the last [build], that of the logger (55-57). *)
Fixpoint chain_run (s : chain) (calls : list chain_call) : option (outcome (list built_handler)) :=
  match calls with
  | [] => None
  | [Build] => match s with
               | AtLogger hs => Some (Ret hs)
               | _ => None
               end
  | c :: calls' =>
      match chain_step s c with
      | Some (Ret s') => chain_run s' calls'
      | Some (Throw e) => Some (Throw e)
      | Some Undefined => Some Undefined
      | None => None
      end
  end.
End Builders.

(** ---- the use of what is built ---- *)

(** Whether the pointers and functions that a call follows are there: [Raises] is [std::bad_function_call]. What the files,
    the streams and the formatters themselves do is no matter here. *)
Inductive use := Works | Raises | Crashes.

(** src/sink/console.cpp:83-110; src/sink/file.cpp:127-157, for the first record; src/sink/asynchronous.p.cpp:123-147 in the
    worker's thread, where an exception ends the process. *)
Fixpoint use_sink (tty : bool) (r : record) (s : built_sink) : use :=
  match s with
  | KConsole _ mapping => if tty then match mapping r with Some _ => Works | None => Raises end else Works
  | KFile _ stat flusher => match stat, flusher with Some _, Some _ => Works | _, _ => Crashes end
  | KAsynchronous wrapped _ =>
      match wrapped with
      | Some s' => match use_sink tty r s' with Works => Works | _ => Crashes end
      | None => Crashes
      end
  end.
Fixpoint use_sinks (tty : bool) (r : record) (l : list built_sink) : use :=
  match l with [] => Works | s :: l' => match use_sink tty r s with Works => use_sinks tty r l' | u => u end end.
(** src/handler/blocking.cpp:26-35. *)
Definition use_handler (tty : bool) (r : record) (h : built_handler) : use :=
  match h with
  | KBlocking None _ => Crashes
  | KBlocking (Some _) sinks => use_sinks tty r sinks
  | KDev => Works
  end.
