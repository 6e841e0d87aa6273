(** C92-C94: a configured logger from the call to what leaves the process. *)
From Verif Require Import Base Values RootModel ConfigModel ConfigSpec FactoriesModel FactoriesSpec FactoriesProofs SystemModel SystemSpec SystemProofs.
From Verif Require FmtModel FmtSpec ParserModel ParserSubProofs StrModel StrSpec FileSinkModel FileSinkSpec FlusherModel TcpModel TcpSpec.

(** ---- C92 ---- *)

(** C92. Each call whose message is made goes to each handler in order, whatever happened to those before it; a handler gives the
    formatter's text to each of its sinks in order, up to and including the first that throws; an exception of the formatter or of
    a sink is printed. A call whose message cannot be made does nothing. *)
Theorem C92_routes : forall dbl dbl_json double_of what json_fmt hs ws w calls w' ws' evs, start_handlers hs = Some ws ->
  log_all dbl dbl_json double_of what json_fmt w ws calls = Some (w', ws', evs) ->
  exists blocks, evs = concat blocks /\ Forall2 (called dbl dbl_json double_of what json_fmt hs) calls blocks.
Proof. exact routes_lemma. Qed.
Print Assumptions C92_routes.

(** C92. A sink gets the text of every call, in order, if the formatter makes one of each and no sink in front of it throws. *)
Theorem C92_complete : forall dbl dbl_json double_of what json_fmt hs ws w calls w' ws' evs i j s f, start_handlers hs = Some ws ->
  log_all dbl dbl_json double_of what json_fmt w ws calls = Some (w', ws', evs) ->
  sink_at hs i j s -> formatter_at hs i f -> Forall (fun c => exists text, makes dbl dbl_json double_of what json_fmt f c text) calls ->
  (forall j' sev t q b, (j' < j)%nat -> In (Emitted i j' sev t q b) evs -> b = false) ->
  Forall2 (makes dbl dbl_json double_of what json_fmt f) calls (arrived i j evs).
Proof. exact complete_lemma. Qed.
Print Assumptions C92_complete.

(** C92. Nothing undefined happens if no formatter does anything undefined and its texts are shorter than 2 GiB. *)
Theorem C92_defined : forall dbl dbl_json double_of what json_fmt hs ws w calls, start_handlers hs = Some ws ->
  (forall c r f i, In c calls -> record_of c r -> formatter_at hs i f ->
     match render dbl dbl_json double_of what json_fmt f (c_env c) r with
     | Text t => (Z.of_nat (length t) < 2 ^ 31)%Z | Raises _ => True | Undefined => False end) ->
  exists w' ws' evs, log_all dbl dbl_json double_of what json_fmt w ws calls = Some (w', ws', evs).
Proof. exact defined_lemma. Qed.
Print Assumptions C92_defined.

(** A logger of three handlers, from its document, and two calls. In the first, the second handler has no attribute to show and
    the connection of the first one's TCP sink fails. *)
Definition obj (l : list (bytes * json)) : json := JObject l.
Definition str (s : string) : json := JString (B s).
Definition case_document : json := obj [(B "root", JArray
  [obj [(B "formatter", obj [(B "type", str "string"); (B "pattern", str "{scope}: {message}")]);
        (B "sinks", JArray [obj [(B "type", str "file"); (B "path", str "/a")];
                          obj [(B "type", str "tcp"); (B "host", str "h"); (B "port", JInt 80)];
                          obj [(B "type", str "console")]])];
   obj [(B "formatter", obj [(B "type", str "string"); (B "pattern", str "{id}")]);
        (B "sinks", JArray [obj [(B "type", str "udp"); (B "host", str "u"); (B "port", JInt 90)]])];
   obj [(B "formatter", obj [(B "type", str "string"); (B "pattern", str "{message}")]);
        (B "sinks", JArray [obj [(B "type", str "syslog"); (B "priorities", JArray [JInt 7; JInt 6])];
                          obj [(B "type", str "console"); (B "filter", obj [(B "type", str "severity"); (B "threshold", JInt 1)])]])]])].
Definition plain_file : FileSinkModel.config := FileSinkModel.Config false (FlusherModel.FRepeat (FlusherModel.repeat_new 0)).
Definition first_tokens : list ParserModel.token :=
  [ParserModel.TRequired (B "scope") (B "{}"); ParserModel.TLiteral (B ": "); ParserModel.TMessage (B "{}")].
Definition case_handlers : list FactoriesModel.handler :=
  [HBlocking (FString first_tokens None) [SFile (B "/a") plain_file; STcp (B "h") 80; SConsole None];
   HBlocking (FString [ParserModel.TRequired (B "id") (B "{}")] None) [SUdp (B "u") 90];
   HBlocking (FString [ParserModel.TMessage (B "{}")] None) [SSyslog [7; 6]%Z; SConsole (Some 1%Z)]].
Definition case_env : surroundings := Env 1 2 (B "p") None (fun _ _ _ => B "now") (fun _ _ => B "now") [] true (B "?").
Definition calm_circ (spill : nat) (connects sends : bool) : circumstances :=
  Circ (FileSinkSpec.calm 1 2 spill) (TcpModel.Circ (Some [(0%nat, connects)]) None) sends (B "refused").
Definition case_call1 : call := Call 0 (B "hello {}") [[(B "scope", VString (B "net"))]] [] (RootModel.Ret (SView (B "hello you"))) 3 4 case_env
  (fun _ _ => calm_circ 3 false true).
Definition case_call2 : call := Call 1 (B "bye") [[(B "id", VInt (-7))]] [[(B "scope", VString (B "top"))]] (RootModel.Ret RootModel.SNull) 3 5 case_env
  (fun _ _ => calm_circ 0 true true).
Definition case_files : bytes -> FileSinkModel.fs := fun p =>
  if bytes_eqb p (B "/a") then FileSinkModel.FS (Some 0%nat) (fun _ => B "old" ++ [NL]) (fun _ => 0%N) (fun _ => 0%N) 1
  else FileSinkModel.FS None (fun _ => []) (fun _ => 0%N) (fun _ => 0%N) 0.
Definition case_world : world := World case_files [] [] [] [].
Definition case_started : list (formatter * list live) := match start_handlers case_handlers with Some ws => ws | None => [] end.

Definition no_dbl : FmtModel.spec -> N -> bytes := fun _ _ => [].
Definition case_run := log_all no_dbl (fun _ => []) (fun _ => 0%N) (fun _ => []) (fun _ _ => None) case_world case_started [case_call1; case_call2].
Definition case_after : world * list (formatter * list live) * list event :=
  match case_run with Some x => x | None => (case_world, [], []) end.

Example C92_case : start_handlers case_handlers = Some case_started /\ case_run = Some case_after /\
  snd case_after =
    [Emitted 0 0 0 (B "net: hello you") (calm_circ 3 false true) false;
     Emitted 0 1 0 (B "net: hello you") (calm_circ 3 false true) true;
     Complained 0 (StdExn (B "refused"));
     Complained 1 (StdExn (B "required attribute 'id' not found"));
     Emitted 2 0 0 (B "hello you") (calm_circ 3 false true) false;
     Emitted 2 1 0 (B "hello you") (calm_circ 3 false true) false;
     Emitted 0 0 1 (B "top: bye") (calm_circ 0 true true) false;
     Emitted 0 1 1 (B "top: bye") (calm_circ 0 true true) false;
     Emitted 0 2 1 (B "top: bye") (calm_circ 0 true true) false;
     Emitted 1 0 1 (B "-7") (calm_circ 0 true true) false;
     Emitted 2 0 1 (B "bye") (calm_circ 0 true true) false;
     Emitted 2 1 1 (B "bye") (calm_circ 0 true true) false].
Proof. split; [reflexivity|]. split; vm_compute; reflexivity. Qed.

(** ---- C93 ---- *)

(** C93. The file of a sink whose path no other sink has, when nothing fails and nobody else interferes, is after the destruction of the
    logger what it was before and the lines of the texts given to the sink, in order. *)
Theorem C93_file : forall dbl dbl_json double_of what json_fmt hs ws w calls w' ws' evs p c i j, start_handlers hs = Some ws ->
  log_all dbl dbl_json double_of what json_fmt w ws calls = Some (w', ws', evs) ->
  sink_at hs i j (SFile p c) -> only_file hs p i j -> FileSinkSpec.fs_ok (w_files w p) ->
  (forall cl, In cl calls -> exists dev ino spill, q_file (c_circumstances cl i j) = FileSinkSpec.calm dev ino spill) ->
  (forall sev t q b, In (Emitted i j sev t q b) evs -> b = false) /\
  content (w_files (close_all w' ws') p) = content (w_files w p) ++ concat (map FileSinkSpec.line (arrived i j evs)).
Proof. exact file_lemma. Qed.
Print Assumptions C93_file.

(** C93. Other files are not touched. *)
Theorem C93_untouched : forall dbl dbl_json double_of what json_fmt hs ws w calls w' ws' evs p, start_handlers hs = Some ws ->
  log_all dbl dbl_json double_of what json_fmt w ws calls = Some (w', ws', evs) ->
  (forall i j c, ~ sink_at hs i j (SFile p c)) -> w_files (close_all w' ws') p = w_files w p.
Proof. exact untouched_lemma. Qed.
Print Assumptions C93_untouched.

(** C93. The standard output has the lines of the console sinks (of records that pass their thresholds) and of the exceptions, in order. *)
Theorem C93_stdout : forall dbl dbl_json double_of what json_fmt hs ws w calls w' ws' evs, start_handlers hs = Some ws ->
  log_all dbl dbl_json double_of what json_fmt w ws calls = Some (w', ws', evs) ->
  w_stdout w' = w_stdout w ++ flat_map (on_stdout hs) evs.
Proof. exact stdout_lemma. Qed.
Print Assumptions C93_stdout.

(** C93. One datagram per text, to the address of its sink. *)
Theorem C93_datagrams : forall dbl dbl_json double_of what json_fmt hs ws w calls w' ws' evs, start_handlers hs = Some ws ->
  log_all dbl dbl_json double_of what json_fmt w ws calls = Some (w', ws', evs) ->
  w_datagrams w' = w_datagrams w ++ flat_map (on_network hs) evs.
Proof. exact datagrams_lemma. Qed.
Print Assumptions C93_datagrams.

(** C93. The system log gets each text up to a NUL with the priority of its severity. *)
Theorem C93_syslog : forall dbl dbl_json double_of what json_fmt hs ws w calls w' ws' evs, start_handlers hs = Some ws ->
  log_all dbl dbl_json double_of what json_fmt w ws calls = Some (w', ws', evs) ->
  Forall text_fits evs -> (forall i j l, sink_at hs i j (SSyslog l) -> (Z.of_nat (length l) < 2 ^ 63)%Z) ->
  w_syslog w' = w_syslog w ++ flat_map (in_syslog hs) evs.
Proof. exact syslog_lemma. Qed.
Print Assumptions C93_syslog.

(** C93. What is sent over the connections of a TCP sink with an address of its own is the texts it did not throw at, in order. *)
Theorem C93_tcp : forall dbl dbl_json double_of what json_fmt hs ws w calls w' ws' evs h p i j, start_handlers hs = Some ws ->
  log_all dbl dbl_json double_of what json_fmt w ws calls = Some (w', ws', evs) ->
  sink_at hs i j (STcp h p) -> only_tcp hs h p i j ->
  exists new, connections h p (w_tcp w') = connections h p (w_tcp w) ++ new /\ TcpSpec.delivered new = taken i j evs.
Proof. exact tcp_lemma. Qed.
Print Assumptions C93_tcp.

Example C93_case :
  sink_at case_handlers 0 0 (SFile (B "/a") plain_file) /\ only_file case_handlers (B "/a") 0 0 /\ FileSinkSpec.fs_ok (case_files (B "/a")) /\
  (forall cl, In cl [case_call1; case_call2] -> exists dev ino spill, q_file (c_circumstances cl 0%nat 0%nat) = FileSinkSpec.calm dev ino spill) /\
  Forall text_fits (snd case_after) /\
  let w := close_all (fst (fst case_after)) (snd (fst case_after)) in
  content (w_files w (B "/a")) = B "old" ++ [NL] ++ B "net: hello you" ++ [NL] ++ B "top: bye" ++ [NL] /\
  w_stdout w = B "logging core error occurred: refused" ++ [NL] ++ B "logging core error occurred: required attribute 'id' not found" ++ [NL] ++
               B "top: bye" ++ [NL] ++ B "bye" ++ [NL] /\
  w_datagrams w = [(B "u", 90%N, B "-7")] /\ w_syslog w = [(7%Z, B "hello you"); (6%Z, B "bye")] /\
  taken 0 1 (snd case_after) = [B "top: bye"] /\ TcpSpec.delivered (connections (B "h") 80 (w_tcp w)) = [B "top: bye"].
Proof.
  split; [eexists; eexists; split; reflexivity|]. split; [|split; [|split; [|split]]].
  - intros i j c (f & sinks & E1 & E2). destruct i as [|[|[|i]]]; cbn in E1; try discriminate E1.
    + injection E1 as <- <-. destruct j as [|[|[|j]]]; cbn in E2; try discriminate E2; [auto|destruct j; discriminate E2].
    + injection E1 as <- <-. destruct j as [|j]; cbn in E2; try discriminate E2. destruct j; discriminate E2.
    + injection E1 as <- <-. destruct j as [|[|j]]; cbn in E2; try discriminate E2. destruct j; discriminate E2.
    + destruct i; discriminate E1.
  - intros f E. vm_compute in E. injection E as <-. vm_compute. lia.
  - intros cl [<-|[<-|[]]]; repeat eexists.
  - assert (E : forall l, forallb (fun e => match e with Emitted _ _ s t _ _ => (Z.of_nat (length t) <? 2 ^ 31)%Z && (- 2 ^ 31 <=? s)%Z && (s <? 2 ^ 31)%Z | _ => true end) l = true -> Forall text_fits l).
    { intros l H. rewrite forallb_forall in H. apply Forall_forall. intros e He. specialize (H e He). destruct e; [|exact I].
      apply andb_prop in H as [H H3]. apply andb_prop in H as [H1 H2]. cbn. lia. }
    apply E. vm_compute. reflexivity.
  - vm_compute. repeat split; reflexivity.
Qed.

(** C93, false of two sinks with one path, even when nothing fails: each has a buffer of its own, and a line one of them has written in part
    is cut in two by a line of the other. *)
Theorem C93_shared_path_refuted : exists hs ws w c w' ws' evs p, start_handlers hs = Some ws /\
  (forall dbl dbl_json double_of what json_fmt, log_all dbl dbl_json double_of what json_fmt w ws [c] = Some (w', ws', evs)) /\
  (forall i j, exists dev ino spill, q_file (c_circumstances c i j) = FileSinkSpec.calm dev ino spill) /\
  arrived 0 0 evs = [B "xyz"] /\ arrived 1 0 evs = [B "xyz"] /\ content (w_files w p) = [] /\
  content (w_files (close_all w' ws') p) = B "x" ++ B "xyz" ++ [NL] ++ B "yz" ++ [NL].
Proof.
  pose (h := HBlocking (FString [ParserModel.TLiteral (B "xyz")] None) [SFile (B "/a") plain_file]).
  pose (ws := match start_handlers [h; h] with Some ws => ws | None => [] end).
  pose (w := World (fun _ => FileSinkModel.FS None (fun _ => []) (fun _ => 0%N) (fun _ => 0%N) 0) [] [] [] []).
  pose (c := Call 0 (B "m") [] [] (RootModel.Ret RootModel.SNull) 3 4 case_env (fun i _ => calm_circ (if Nat.eqb i 0 then 1 else 4) true true)).
  pose (r := match log_all no_dbl (fun _ => []) (fun _ => 0%N) (fun _ => []) (fun _ _ => None) w ws [c] with Some x => x | None => (w, ws, []) end).
  exists [h; h], ws, w, c, (fst (fst r)), (snd (fst r)), (snd r), (B "/a").
  split; [reflexivity|]. split; [intros; reflexivity|]. split; [intros i j; repeat eexists|]. vm_compute. repeat split; reflexivity.
Qed.
Print Assumptions C93_shared_path_refuted.

(** ---- C94 ---- *)

(** C94. From the document to the file: the logger is made; a string formatter's first sink being a file of its own, what the file
    has after the logger's end is one more line for each call, showing the items of the pattern for the call's record, in order,
    whatever the other sinks and handlers do. *)
Theorem C94_document_to_file : forall dbl dbl_json double_of what json_fmt ld nd v name items tokens sevmap hs ws w calls w' ws' evs i p c rest,
  clean v -> no_nul name -> logger_config ld nd v name hs ->
  StrSpec.pattern_ok items -> ParserModel.tokenize ld nd (StrSpec.pattern_text items) = Some (ParserModel.Tokens tokens) ->
  nth_error hs i = Some (HBlocking (FString tokens sevmap) (SFile p c :: rest)) -> only_file hs p i 0 ->
  start_handlers hs = Some ws -> log_all dbl dbl_json double_of what json_fmt w ws calls = Some (w', ws', evs) ->
  FileSinkSpec.fs_ok (w_files w p) ->
  (forall cl, In cl calls -> exists dev ino spill, q_file (c_circumstances cl i 0%nat) = FileSinkSpec.calm dev ino spill) ->
  (forall cl, In cl calls -> exists r, record_of cl r /\ Forall (StrSpec.item_suits ld (severity_names dbl sevmap) (srecord_of (c_env cl) r)) items) ->
  logger dbl ld nd v name = Ret hs /\
  exists lines, Forall2 (fun cl l => exists r outs, record_of cl r /\
      Forall2 (StrSpec.item_shows dbl double_of ld (severity_names dbl sevmap) (srecord_of (c_env cl) r)) items outs /\ l = concat outs) calls lines /\
    content (w_files (close_all w' ws') p) = content (w_files w p) ++ concat (map (fun l => l ++ [chr 10]) lines).
Proof.
  intros dbl dbl_json double_of what json_fmt ld nd v name items tokens sevmap hs ws w calls w' ws' evs i p c rest CV NN LC PO TK NE OF ST LA FO CF SU.
  split; [exact (logger_lemma _ _ _ _ _ _ CV NN LC)|].
  exact (pattern_file_lemma _ _ _ _ _ _ _ _ _ _ _ _ _ _ _ _ _ _ _ _ _ PO TK NE OF ST LA FO CF SU).
Qed.
Print Assumptions C94_document_to_file.

Definition case_items : list StrSpec.item := [StrSpec.Slot (B "scope") None; StrSpec.Words (B ": "); StrSpec.Slot (B "message") None].
Lemma case_names_clear s : existsb (Ascii.eqb NUL) s = false -> ~ In NUL s.
Proof. intros E H. assert (existsb (Ascii.eqb NUL) s = true) by (apply existsb_exists; exists NUL; split; [exact H|reflexivity]). congruence. Qed.
Lemma case_suits e m sev ts tid a v rest :
  m <> [] -> existsb (Ascii.eqb NUL) v = false -> concat a = (B "scope", VString v) :: rest \/ (exists z, concat a = (B "id", VInt z) :: (B "scope", VString v) :: rest) ->
  Forall (StrSpec.item_suits (fun _ => false) (severity_names no_dbl None)
    (srecord_of e {| r_message := m; r_formatted := m; r_severity := sev; r_timestamp := ts; r_tid := tid; r_attributes := a |})) case_items.
Proof.
  intros M V HA. unfold case_items. repeat (apply Forall_cons; [cbn [StrSpec.item_suits]|]); try apply Forall_nil; try exact I.
  - exists (StrModel.AText (view_of v)). split.
    + unfold StrSpec.first_called, StrSpec.attributes, srecord_of. cbn [StrModel.r_pack r_attributes].
      assert (EC : concat (map (map (fun a0 : bytes * value => (view_of (fst a0), aval_of (snd a0)))) a) = map (fun a0 => (view_of (fst a0), aval_of (snd a0))) (concat a)).
      { rewrite concat_map. reflexivity. }
      rewrite EC. destruct HA as [HA|(z & HA)]; rewrite HA.
      * exists [], (view_of (B "scope")). eexists. split; [reflexivity|]. split; [reflexivity|intros x []].
      * exists [(view_of (B "id"), StrModel.ASigned z)], (view_of (B "scope")). eexists. split; [reflexivity|]. split; [reflexivity|].
        intros x [<-|[]]. discriminate.
    + split; [split; [exact I|left; reflexivity]|].
      assert (EV : StrModel.viewed (view_of v) = v).
      { unfold StrModel.viewed, view_of. cbn [StrModel.v_data StrModel.v_size]. unfold FmtModel.length_N. rewrite Nat2N.id, firstn_app, Nat.sub_diag, firstn_all, app_nil_r. reflexivity. }
      exists []. rewrite EV. split; [reflexivity|]. apply case_names_clear. exact V.
  - change (StrSpec.suits_text None /\ StrSpec.good_view (view_of m)). split; [split; [exact I|left; reflexivity]|].
    exists (m ++ [NUL]). split; [reflexivity|]. unfold view_of. cbn [StrModel.v_size]. unfold FmtModel.length_N. split; [rewrite app_length; lia|].
    destruct m; [contradiction|]. cbn [length]. lia.
Qed.
Example C94_case : clean case_document /\ no_nul (B "root") /\ logger_config (fun _ => false) true case_document (B "root") case_handlers /\
  StrSpec.pattern_ok case_items /\ StrSpec.pattern_text case_items = B "{scope}: {message}" /\
  ParserModel.tokenize (fun _ => false) true (StrSpec.pattern_text case_items) = Some (ParserModel.Tokens first_tokens) /\
  (forall cl, In cl [case_call1; case_call2] ->
     exists r, record_of cl r /\ Forall (StrSpec.item_suits (fun _ => false) (severity_names no_dbl None) (srecord_of (c_env cl) r)) case_items).
Proof.
  split; [apply clean_ok_clean; reflexivity|]. split; [apply case_names_clear; reflexivity|]. split; [|split; [|split; [reflexivity|split; [vm_compute; reflexivity|]]]].
  - eexists. split; [apply walk_found; reflexivity|]. constructor; [|constructor; [|constructor; [|constructor]]].
    + eexists. exists (FString first_tokens None). eexists. eexists. split; [right; apply walk_not_found; reflexivity|].
      split; [apply walk_found; reflexivity|]. split.
      { right. right. split; [apply walk_found; reflexivity|]. exists (B "{scope}: {message}"), first_tokens, None. split; [apply walk_found; reflexivity|].
        split; [vm_compute; reflexivity|]. split; [left; split; [apply walk_not_found; reflexivity|reflexivity]|reflexivity]. }
      split; [apply walk_found; reflexivity|]. split; [|reflexivity]. constructor; [|constructor; [|constructor; [|constructor]]].
      * apply config_file; try (apply walk_found; reflexivity).
        -- left. split; [apply walk_not_found; reflexivity|reflexivity].
        -- left. split; [apply walk_not_found; reflexivity|reflexivity].
      * apply config_tcp; try (apply walk_found; reflexivity). reflexivity.
      * apply config_console; [apply walk_found; reflexivity|apply walk_not_found; reflexivity].
    + eexists. exists (FString [ParserModel.TRequired (B "id") (B "{}")] None). eexists. eexists. split; [right; apply walk_not_found; reflexivity|].
      split; [apply walk_found; reflexivity|]. split.
      { right. right. split; [apply walk_found; reflexivity|]. exists (B "{id}"). eexists. exists None. split; [apply walk_found; reflexivity|].
        split; [vm_compute; reflexivity|]. split; [left; split; [apply walk_not_found; reflexivity|reflexivity]|reflexivity]. }
      split; [apply walk_found; reflexivity|]. split; [|reflexivity]. constructor; [|constructor].
      apply config_udp; try (apply walk_found; reflexivity). reflexivity.
    + eexists. exists (FString [ParserModel.TMessage (B "{}")] None). eexists. eexists. split; [right; apply walk_not_found; reflexivity|].
      split; [apply walk_found; reflexivity|]. split.
      { right. right. split; [apply walk_found; reflexivity|]. exists (B "{message}"). eexists. exists None. split; [apply walk_found; reflexivity|].
        split; [vm_compute; reflexivity|]. split; [left; split; [apply walk_not_found; reflexivity|reflexivity]|reflexivity]. }
      split; [apply walk_found; reflexivity|]. split; [|reflexivity]. constructor; [|constructor; [|constructor]].
      * apply config_syslog; try (apply walk_found; reflexivity). repeat constructor; lia.
      * apply config_console_filter; try (apply walk_found; reflexivity). lia.
  - split; [|cbn; repeat split; auto; discriminate]. unfold case_items.
    repeat (apply Forall_cons; [cbn [StrSpec.item_ok]|]); try apply Forall_nil; try discriminate; apply ParserSubProofs.name_ok; reflexivity.
  - intros cl [<-|[<-|[]]].
    + eexists. split; [eexists; split; reflexivity|]. exact (case_suits case_env (B "hello you") 0 4 3 [[(B "scope", VString (B "net"))]] (B "net") [] ltac:(discriminate) eq_refl (or_introl eq_refl)).
    + eexists. split; [eexists; split; reflexivity|].
      exact (case_suits case_env (B "bye") 1 5 3 [[(B "id", VInt (-7))]; [(B "scope", VString (B "top"))]] (B "top") [] ltac:(discriminate) eq_refl (or_intror (ex_intro _ (-7)%Z eq_refl))).
Qed.
