(** C117-C120: the builders. *)
From Verif Require Import Base Decimal Values ConfigModel ConfigSpec BuildersModel BuildersSpec BuildersProofs BuildersMoreProofs BuildersEndProofs.
From Verif Require FactoriesModel FmtModel ConsoleModel FlusherModel FlusherSpec FileSinkModel AsyncModel TskvModel JsonFmtModel ParserModel StrModel.
From Verif Require Import FactoriesSpec.

(** ---- C117 ---- *)

(** C117. A logger made by builders, with nothing but what documents can ask for, is made by some document too, under any
    name. *)
Theorem C117_by_document : forall dbl lexical_double ndebug name ps hs, make_logger dbl lexical_double ndebug ps = Ret hs ->
  no_nul name -> Forall (fun p => Forall no_nul (texts p)) ps -> Forall (fun p => Forall (fun n => n < 2 ^ 64)%N (numbers p)) ps ->
  Forall (plain_handler dbl) hs ->
  exists v hs', clean v /\ FactoriesModel.logger dbl lexical_double ndebug v name = Ret hs' /\ Forall2 (same_handler dbl) hs hs'.
Proof. exact logger_document. Qed.
Print Assumptions C117_by_document.

(** C117. A logger made by a document, with nothing but the sinks that have builders, is made by some program with builders
    too, whatever its formatters are. *)
Theorem C117_by_builders : forall dbl lexical_double ndebug v name hs, FactoriesModel.logger dbl lexical_double ndebug v name = Ret hs ->
  Forall buildable_handler hs -> exists ps ks, make_logger dbl lexical_double ndebug ps = Ret ks /\ Forall2 (same_handler dbl) ks hs.
Proof. exact logger_program_of. Qed.
Print Assumptions C117_by_builders.

Definition case_program : handler_program := PBlocking
  [AddSink (PFile (B "/var/log/app.log") [FlushEveryBytes Mibibytes 4; RotateCheckingStat]);
   SetFormatter (PJson [JsonFmtModel.Newline; JsonFmtModel.RouteRest (B "/fields"); JsonFmtModel.Rename (B "message") (B "@message");
                        JsonFmtModel.Severity [B "D"; B "I"]; JsonFmtModel.Route (B "/meta") [B "process"; B "@message"]]);
   AddSink (PAsynchronous (PConsole []) [AsyncModel.SetFactor 4])].
Example C117_case : exists h, (forall dbl ld nd, make_logger dbl ld nd [case_program; case_program] = Ret [h; h] /\ plain_handler dbl h) /\
  Forall no_nul (texts case_program) /\ Forall (fun n => n < 2 ^ 64)%N (numbers case_program).
Proof.
  eexists. split; [intros dbl ld nd; split; [reflexivity|]|split].
  - constructor; [constructor|]. constructor; [constructor|]. constructor; [|constructor]. constructor. constructor. reflexivity.
  - cbn. repeat (apply Forall_cons; [lit|]). apply Forall_nil.
  - cbn. repeat (apply Forall_cons; [reflexivity|]). apply Forall_nil.
Qed.

Definition case_document : json := JObject [(B "root", JArray [JObject
  [(B "formatter", JObject [(B "type", JString (B "tskv")); (B "create", JObject [(B "tskv_format", JString (B "app"))]);
                            (B "remove", JArray [JString (B "tid")])]);
   (B "sinks", JArray [JObject [(B "type", JString (B "file")); (B "path", JString (B "a.log")); (B "flush", JInt 20)];
                       JObject [(B "type", JString (B "asynchronous")); (B "factor", JInt 3); (B "overflow", JString (B "wait"));
                                (B "sink", JObject [(B "type", JString (B "console"))])]])]])].
Example C117_document_case : exists h, buildable_handler h /\ forall dbl ld nd, FactoriesModel.logger dbl ld nd case_document (B "root") = Ret [h].
Proof. eexists. split; [|intros dbl ld nd; reflexivity]. constructor; [constructor|]. constructor; [|constructor]. constructor. constructor. Qed.

(** C117 is false without the restriction to what documents can ask for: the builder of consoles chooses the error stream,
    the factory of consoles always writes to the standard output. *)
Theorem C117_stderr_refuted : exists ps, forall dbl lexical_double ndebug, exists hs, make_logger dbl lexical_double ndebug ps = Ret hs /\
  forall v name hs', FactoriesModel.logger dbl lexical_double ndebug v name = Ret hs' -> ~ Forall2 (same_handler dbl) hs hs'.
Proof. exact only_stderr. Qed.
Print Assumptions C117_stderr_refuted.

(** C117 is false without that restriction: no document asks for colours. *)
Theorem C117_colours_refuted : exists ps, forall dbl lexical_double ndebug, exists hs, make_logger dbl lexical_double ndebug ps = Ret hs /\
  forall v name hs', FactoriesModel.logger dbl lexical_double ndebug v name = Ret hs' -> ~ Forall2 (same_handler dbl) hs hs'.
Proof. exact only_colours. Qed.
Print Assumptions C117_colours_refuted.

(** C117 is false without that restriction: the development handler is not registered (src/essentials.cpp). *)
Theorem C117_dev_refuted : exists ps, forall dbl lexical_double ndebug, exists hs, make_logger dbl lexical_double ndebug ps = Ret hs /\
  forall v name hs', FactoriesModel.logger dbl lexical_double ndebug v name = Ret hs' -> ~ Forall2 (same_handler dbl) hs hs'.
Proof. exact only_dev. Qed.
Print Assumptions C117_dev_refuted.

(** C117 is false the other way: a document can ask the asynchronous sink to drop records when its queue is full, and no
    program with builders makes such a sink, for [build] leaves out the policy that [drop()] has set
    (src/sink/asynchronous.cpp:54-56). *)
Theorem C117_drop_refuted : exists v, forall dbl lexical_double ndebug, exists hs, FactoriesModel.logger dbl lexical_double ndebug v (B "root") = Ret hs /\
  forall ps ks, make_logger dbl lexical_double ndebug ps = Ret ks -> ~ Forall2 (same_handler dbl) ks hs.
Proof. exact only_drop. Qed.
Print Assumptions C117_drop_refuted.

(** C117 is false the other way: there are no builders of sockets (nor of the null and syslog sinks, nor of the
    console's filter). *)
Theorem C117_socket_refuted : exists v, forall dbl lexical_double ndebug, exists hs, FactoriesModel.logger dbl lexical_double ndebug v (B "root") = Ret hs /\
  forall ps ks, make_logger dbl lexical_double ndebug ps = Ret ks -> ~ Forall2 (same_handler dbl) ks hs.
Proof. exact only_socket. Qed.
Print Assumptions C117_socket_refuted.

(** ---- C118 ---- *)

(** C118. Of a console's builder, the last choice of the stream counts, and for each record the last colouring that is about
    it. *)
Theorem C118_console : forall calls, exists err mapping, make_sink (PConsole calls) = Ret (KConsole err mapping) /\
  last_given gives_stream false calls err /\
  forall r, exists color, mapping r = Some color /\ last_given (gives_colour r) ConsoleModel.default_color calls color.
Proof. exact console_lemma. Qed.
Print Assumptions C118_console.

Example C118_console_case : exists m, make_sink (PConsole [Stderr; Colorize (ConsoleModel.BySeverity 1 ConsoleModel.green); Stdout;
    Colorize (ConsoleModel.BySeverity 2 ConsoleModel.red); Colorize (ConsoleModel.BySeverity 1 ConsoleModel.blue)]) = Ret (KConsole false m) /\
  map (fun s => m (Rec [] [] s 0 0 [])) [1; 2; 3]%Z = [Some ConsoleModel.blue; Some ConsoleModel.red; Some ConsoleModel.default_color].
Proof. eexists. split; reflexivity. Qed.

(** C118. Of a file's builder, the last choice of the flushing counts, and rotation once asked for stays. *)
Theorem C118_file : forall path calls, Forall (fun n => n < 2 ^ 64)%N (flat_map file_numbers calls) ->
  exists stat flusher, make_sink (PFile path calls) = Ret (KFile path (Some stat) (Some flusher)) /\
  last_given gives_stat false calls stat /\ last_given gives_flush (FlusherModel.FRepeat (FlusherModel.repeat_new 0)) calls flusher.
Proof. exact file_lemma. Qed.
Print Assumptions C118_file.

Example C118_file_case : make_sink (PFile (B "a") [FlushEveryEvents 3; RotateCheckingStat; FlushEveryBytes Kilobytes 2]) =
  Ret (KFile (B "a") (Some true) (Some (FlusherModel.FBytes (FlusherModel.bytecount_new 2000)))).
Proof. reflexivity. Qed.

(** C118. Of a string formatter's builder, the last severity mapping counts. *)
Theorem C118_string : forall dbl lexical_double ndebug pattern mappings f,
  make_formatter dbl lexical_double ndebug (PString pattern mappings) = Ret f ->
  exists tokens m, f = KString tokens m /\ ParserModel.tokenize lexical_double ndebug pattern = Some (ParserModel.Tokens tokens) /\
  last_given eq (StrModel.number_map dbl) mappings m.
Proof. exact string_builder_lemma. Qed.
Print Assumptions C118_string.

Definition case_string : formatter_program := PString (B "{severity}: {message}")
  [StrModel.number_map (fun _ _ => []); StrModel.list_map (fun _ _ => []) [B "D"; B "I"]].
Example C118_string_case : exists tokens, make_formatter (fun _ _ => []) (fun _ => false) true case_string =
  Ret (KString tokens (StrModel.list_map (fun _ _ => []) [B "D"; B "I"])) /\ length tokens = 3%nat.
Proof. eexists. split; reflexivity. Qed.

(** C118. The settings of a TSKV formatter's builder do not disturb each other: only the order of the calls of each kind
    counts. *)
Theorem C118_tskv : forall dbl lexical_double ndebug calls calls', same_by_kind tskv_kind calls calls' ->
  make_formatter dbl lexical_double ndebug (PTskv calls) = make_formatter dbl lexical_double ndebug (PTskv calls').
Proof. exact tskv_same. Qed.
Print Assumptions C118_tskv.

Example C118_tskv_case :
  let calls := [TskvModel.Remove (B "tid"); TskvModel.Create (B "a") (B "1"); TskvModel.Rename (B "x") (B "y"); TskvModel.Create (B "a") (B "2")] in
  let calls' := [TskvModel.Create (B "a") (B "1"); TskvModel.Rename (B "x") (B "y"); TskvModel.Create (B "a") (B "2"); TskvModel.Remove (B "tid")] in
  same_by_kind tskv_kind calls calls' /\ calls <> calls'.
Proof. split; [|discriminate]. intros [|[|[|[|k]]]]; reflexivity. Qed.

(** C118. The same of a JSON formatter's builder. *)
Theorem C118_json : forall dbl lexical_double ndebug calls calls', same_by_kind json_kind calls calls' ->
  make_formatter dbl lexical_double ndebug (PJson calls) = make_formatter dbl lexical_double ndebug (PJson calls').
Proof. exact json_same. Qed.
Print Assumptions C118_json.

Example C118_json_case :
  let calls := [JsonFmtModel.Newline; JsonFmtModel.Route (B "/a") [B "b"]; JsonFmtModel.RouteRest (B "/c"); JsonFmtModel.Unique] in
  let calls' := [JsonFmtModel.RouteRest (B "/c"); JsonFmtModel.Unique; JsonFmtModel.Newline; JsonFmtModel.Route (B "/a") [B "b"]] in
  same_by_kind json_kind calls calls' /\ calls <> calls'.
Proof. split; [|discriminate]. intros [|[|[|[|[|[|[|[|k]]]]]]]]; reflexivity. Qed.

(** C118. A blocking handler has the formatter last set, or none if none was, and all the sinks added, in that order. *)
Theorem C118_handler : forall dbl lexical_double ndebug calls h, make_handler dbl lexical_double ndebug (PBlocking calls) = Ret h ->
  exists f sinks, h = KBlocking f sinks /\ Forall2 (fun p s => make_sink p = Ret s) (added calls) sinks /\
  ((f = None /\ forall p, ~ In (SetFormatter p) calls) \/
   exists p f0, f = Some f0 /\ last_given gives_formatter p calls p /\ In (SetFormatter p) calls /\
     make_formatter dbl lexical_double ndebug p = Ret f0).
Proof. exact handler_lemma2. Qed.
Print Assumptions C118_handler.

(** C118. A logger has the handlers added, in that order. *)
Theorem C118_logger : forall dbl lexical_double ndebug ps hs,
  make_logger dbl lexical_double ndebug ps = Ret hs <-> Forall2 (fun p h => make_handler dbl lexical_double ndebug p = Ret h) ps hs.
Proof. exact make_logger_lemma. Qed.
Print Assumptions C118_logger.

Example C118_handler_case : exists f, forall dbl ld nd, make_logger dbl ld nd
    [PBlocking [SetFormatter (PTskv []); AddSink (PFile (B "a") []); SetFormatter (PJson []); AddSink (PFile (B "b") [])]; PDev] =
  Ret [KBlocking (Some (KJson (JsonFmtModel.build []))) [KFile (B "a") (Some false) (Some f); KFile (B "b") (Some false) (Some f)]; KDev].
Proof. eexists. intros dbl ld nd. reflexivity. Qed.

(** C118. A chain of calls, in the style of builder.hpp, makes the logger that the separate builders make, or fails as they
    do. *)
Theorem C118_chain : forall dbl lexical_double ndebug ps ls, Forall2 chained ps ls ->
  chain_run dbl lexical_double ndebug (AtLogger []) (concat ls ++ [Build]) = Some (make_logger dbl lexical_double ndebug ps).
Proof. exact chain_lemma. Qed.
Print Assumptions C118_chain.

(** C118. There are no other chains: whatever chain makes a logger is the chain of some program. *)
Theorem C118_chain_only : forall dbl lexical_double ndebug calls hs,
  chain_run dbl lexical_double ndebug (AtLogger []) calls = Some (Ret hs) ->
  exists ps ls, Forall2 chained ps ls /\ calls = concat ls ++ [Build] /\ make_logger dbl lexical_double ndebug ps = Ret hs.
Proof. exact chain_only. Qed.
Print Assumptions C118_chain_only.

Example C118_chain_case : forall dbl, exists hs, chain_run dbl (fun _ => false) true (AtLogger [])
    [HandlerBlocking; SetString (B "{message}"); Mapping (StrModel.number_map dbl); Build; AddConsole; Build; AddConsole; Build; Build;
     HandlerDev; Build; Build] = Some (Ret hs) /\ length hs = 2%nat.
Proof. intros dbl. eexists. split; reflexivity. Qed.

(** ---- C119 ---- *)

(** C119. Each handler that builders made can be used for any record, on terminals and elsewhere, if it was given a formatter. *)
Theorem C119_works : forall dbl lexical_double ndebug p h tty r, make_handler dbl lexical_double ndebug p = Ret h ->
  (forall calls, p = PBlocking calls -> exists f, In (SetFormatter f) calls) -> use_handler tty r h = Works.
Proof. exact built_works. Qed.
Print Assumptions C119_works.

Example C119_case : forall dbl ld nd, exists h, make_handler dbl ld nd case_program = Ret h /\ use_handler true (Rec [] [] 3 0 0 []) h = Works.
Proof. intros dbl ld nd. eexists. split; reflexivity. Qed.

(** C119. Without a formatter, each record crashes each such handler. *)
Theorem C119_no_formatter : forall dbl lexical_double ndebug calls h tty r, (forall f, ~ In (SetFormatter f) calls) ->
  make_handler dbl lexical_double ndebug (PBlocking calls) = Ret h -> use_handler tty r h = Crashes.
Proof. exact built_crashes. Qed.
Print Assumptions C119_no_formatter.

(** C119 is false without a formatter: [build] accepts a handler without one, and the first record follows a null pointer
    (src/handler/blocking.cpp:29). *)
Theorem C119_no_formatter_refuted : exists calls, forall dbl lexical_double ndebug, exists h,
  make_handler dbl lexical_double ndebug (PBlocking calls) = Ret h /\ forall tty r, use_handler tty r h = Crashes.
Proof. exact no_formatter_lemma. Qed.
Print Assumptions C119_no_formatter_refuted.

Example C119_no_formatter_case : (forall f, ~ In (SetFormatter f) [AddSink (PConsole [])]) /\ forall dbl ld nd, exists h, make_handler dbl ld nd (PBlocking [AddSink (PConsole [])]) = Ret h /\
  use_handler false (Rec [] [] 0 0 0 []) h = Crashes.
Proof. split; [intros f [E|[]]; discriminate E|]. intros dbl ld nd. eexists. split; reflexivity. Qed.

(** C119. What a second [build] makes: the first one has moved the parts out. *)
Theorem C119_rebuilt :
  (forall b r, use_sink true r (fst (console_build (snd (console_build b)))) = Raises /\
               use_sink false r (fst (console_build (snd (console_build b)))) = Works) /\
  (forall b tty r, use_sink tty r (fst (file_build (snd (file_build b)))) = Crashes) /\
  (forall b tty r k, fst (asynchronous_build (snd (asynchronous_build b))) = Ret k -> use_sink tty r k = Crashes) /\
  (forall b tty r, use_handler tty r (fst (blocking_build (snd (blocking_build b)))) = Crashes) /\
  (forall dbl ld nd b f, fst (string_build dbl ld nd b) = Ret f -> exists tokens m, f = KString tokens m /\
     fst (string_build dbl ld nd (snd (string_build dbl ld nd b))) = Ret (KString tokens (StrModel.number_map dbl))) /\
  (forall d, exists d', fst (tskv_build (snd (tskv_build d))) = KTskv d' /\
     TskvModel.d_attributes d' = [] /\ TskvModel.d_renamed d' = [] /\ TskvModel.d_removed d' = [] /\ TskvModel.d_timestamps d' = []) /\
  (forall d, exists d', fst (json_build (snd (json_build d))) = KJson d' /\
     d' = fold_left JsonFmtModel.builder_call
       ((if JsonFmtModel.p_unique d then [JsonFmtModel.Unique] else []) ++ (if JsonFmtModel.p_newline d then [JsonFmtModel.Newline] else []))
       JsonFmtModel.builder_init).
Proof. exact rebuilt_lemma. Qed.
Print Assumptions C119_rebuilt.

Example C119_rebuilt_case : exists k, fst (asynchronous_build (snd (asynchronous_build (asynchronous_new (KFile (B "a") (Some true) None))))) = Ret k /\
  TskvModel.d_timestamps (TskvModel.build []) <> [].
Proof. eexists. split; [reflexivity|discriminate]. Qed.

(** C119 is false of builders used a second time, which the types allow: [build] moves the parts out. A console throws
    std::bad_function_call for each record on a terminal, files and asynchronous sinks and handlers follow null pointers, the
    string formatter forgets its severity mapping, the TSKV formatter forgets everything, also the timestamp that a new builder
    has, and the JSON formatter everything but the flags. *)
Theorem C119_rebuilt_refuted : exists b, forall tty r,
  use_sink tty r (fst (file_build b)) = Works /\ use_sink tty r (fst (file_build (snd (file_build b)))) = Crashes.
Proof. exact rebuilt_file_lemma. Qed.
Print Assumptions C119_rebuilt_refuted.

(** ---- C120 ---- *)

(** C120. The file sink whose last flushing was set to [n] units flushes exactly when another [n] units of that many bytes are
    full. *)
Theorem C120_units : forall path before u n after, (0 < n)%N -> (n * bytes_in u < 2 ^ 64)%N ->
  Forall (fun n => n < 2 ^ 64)%N (flat_map file_numbers (before ++ FlushEveryBytes u n :: after)) -> (forall c f, In c after -> ~ gives_flush c f) ->
  exists stat f, make_sink (PFile path (before ++ FlushEveryBytes u n :: after)) = Ret (KFile path (Some stat) (Some f)) /\
  forall sizes i size, (forall m, In m sizes -> m + n * bytes_in u <= 2 ^ 64)%N -> nth_error sizes i = Some size ->
    nth_error (fst (FlusherModel.flusher_run f sizes)) i =
      Some (if FlusherSpec.total (firstn i sizes) / (n * bytes_in u) <? FlusherSpec.total (firstn (S i) sizes) / (n * bytes_in u)
            then FlusherModel.Flush else FlusherModel.Idle)%N.
Proof. exact unit_lemma. Qed.
Print Assumptions C120_units.

Example C120_case : exists f, make_sink (PFile (B "a") [FlushEveryEvents 9; FlushEveryBytes Kibibytes 2; RotateCheckingStat]) =
    Ret (KFile (B "a") (Some true) (Some f)) /\
  fst (FlusherModel.flusher_run f [2000; 47; 1; 5000]%N) = [FlusherModel.Idle; FlusherModel.Idle; FlusherModel.Flush; FlusherModel.Flush].
Proof. eexists. split; [reflexivity|]. vm_compute. reflexivity. Qed.

(** C120. A unit of the builder and the unit of that size in the text of a configuration make the same sink, also when the
    number of bytes does not fit 64 bits. *)
Theorem C120_same_as_text : forall dbl u name n path c, FlusherSpec.Unit name (bytes_in u) -> (n < 2 ^ 64)%N -> no_nul path ->
  exists k s, make_sink (PFile path [FlushEveryBytes u n]) = Ret k /\ same_sink k s /\
  FactoriesModel.sink_entry dbl
    (Node (JObject [(B "type", JString (B "file")); (B "path", JString path); (B "flush", JString (dec n ++ name))]) c) = Ret s.
Proof. exact unit_same. Qed.
Print Assumptions C120_same_as_text.

Example C120_text_case : FlusherSpec.Unit (B "MiB") (bytes_in Mibibytes) /\ FlusherSpec.Unit (B "kB") (bytes_in Kilobytes) /\
  FlusherSpec.Unit [] (bytes_in Bytes).
Proof. repeat split; constructor. Qed.

(** C120 is false of numbers of bytes that do not fit 64 bits, in the builder as in the configuration: the conversion
    multiplies modulo 2^64 (include/blackhole/sink/file.hpp:70), so that 2^54+1 KiB, 16 EiB and more, flush after 1 KiB. *)
Theorem C120_wrap_refuted : exists f, make_sink (PFile (B "log") [FlushEveryBytes Kibibytes (2 ^ 54 + 1)]) = Ret (KFile (B "log") (Some false) (Some f)) /\
  fst (FlusherModel.flusher_run f [1024%N]) = [FlusherModel.Flush].
Proof. exact unit_wraps. Qed.
Print Assumptions C120_wrap_refuted.
