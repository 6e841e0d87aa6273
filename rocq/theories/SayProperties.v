(** C126-C128: a log call as a program writes it, from the format string and the arguments to what leaves the process.
    In every theorem [dbl], [dbl_json], [double_of], [what] and [json_fmt] are the parameters of SystemModel: they hold for all such functions. *)
From Verif Require Import Base Values RootModel ConfigModel ConfigSpec FactoriesModel FactoriesSpec FactoriesProofs SystemModel SystemSpec SystemProperties.
From Verif Require Import SayModel SaySpec SayProofs SayMoreProofs SayEndProofs.
From Verif Require FmtModel FmtSpec FmtProofs MetaFormatModel MetaFormatSpec ParserModel StrModel StrSpec StringViewModel FileSinkSpec.

(** ---- C126 ---- *)

(** C126. What a format string yields does not depend on what is in memory behind its arguments: behind the last byte of a view that is not empty, or
    behind the NUL of a C string. *)
Theorem C126_write : forall dbl format args1 args2, Forall2 same_seen args1 args2 -> FmtModel.write dbl format args1 = FmtModel.write dbl format args2.
Proof. exact seen_write. Qed.
Print Assumptions C126_write.
Definition case_seen (m : bytes) : list FmtModel.arg :=
  [FmtModel.AString (Some (B "pass" ++ m)) 4; FmtModel.ACString (Some (B "word" ++ NUL :: m)); FmtModel.AInt 7].
Example C126_write_case : Forall2 same_seen (case_seen (B "secret")) (case_seen []) /\
  FmtModel.write no_dbl (B "{:*>6}, {:.2}, {}") (case_seen (B "secret")) = FmtModel.Ok (B "**pass, wo, 7").
Proof.
  split; [|vm_compute; reflexivity]. constructor; [|constructor; [|constructor; [left; reflexivity|constructor]]].
  - right. left. exists (B "pass"), (B "secret"), []. split; [discriminate|]. split; reflexivity.
  - right. right. exists (B "word"), (B "secret"), []. split; [apply case_names_clear; reflexivity|]. split; reflexivity.
Qed.

(** C126. Unless the text of a call is empty, what the call does - the events, the outputs, the exceptions - does not depend on what is behind its text in the
    storage of the writer, which nothing has initialised. *)
Theorem C126_behind : forall dbl dbl_json double_of what json_fmt w hs u b1 b2,
  MetaFormatModel.l_text (MetaFormatModel.facade_log dbl (s_pattern u) (s_args u)) <> FmtModel.Ok [] ->
  say dbl dbl_json double_of what json_fmt w hs (behind u b1) = say dbl dbl_json double_of what json_fmt w hs (behind u b2).
Proof. exact behind_lemma. Qed.
Print Assumptions C126_behind.
Definition case_view (s : string) (m : bytes) : StringViewModel.view := StringViewModel.View (Some (B s ++ NUL :: m)) (FmtModel.length_N (B s)).
Definition case_said1 : said := Said 0 (case_view "{} is {:>4}|" []) [MetaFormatModel.VString (B "x"); MetaFormatModel.VInt 7] (Some [(B "scope", VString (B "net"))]) [] []
  (B "secret") 3 4 case_env (fun _ _ => calm_circ 3 true true).
Definition case_said2 : said := Said 0 (case_view "{} {}" []) [MetaFormatModel.VInt 1] (Some [(B "scope", VString (B "net"))]) [] []
  (B "secret") 3 4 case_env (fun _ _ => calm_circ 3 true true).
Definition case_said3 : said := Said 1 (case_view "bye {}" (B "secret")) [] None [[(B "scope", VString (B "top"))]] [[(B "id", VInt (-7))]]
  [] 3 5 case_env (fun _ _ => calm_circ 0 true true).
Definition case_says (us : list said) := say_all no_dbl (fun _ => []) (fun _ => 0%N) (fun _ => B "?") (fun _ _ => None) case_world case_started us.
Example C126_behind_case : MetaFormatModel.l_text (MetaFormatModel.facade_log no_dbl (s_pattern case_said1) (s_args case_said1)) = FmtModel.Ok (B "x is    7|").
Proof. vm_compute. reflexivity. Qed.

(** C126, false of an empty text: the string formatter hands it to the formatting library as a pointer and the size 0, which that takes for a C
    string. The line then has what the storage of the writer held before - parts of earlier messages - up to the first NUL, and without a NUL the read
    goes on behind the storage. *)
Theorem C126_empty_refuted : exists hs ws w u, start_handlers hs = Some ws /\ written u [FmtSpec.Next None] /\
  s_args u = [MetaFormatModel.VString []] /\ w_stdout w = [] /\
  forall dbl dbl_json double_of what json_fmt,
    (exists w' ws' evs, say dbl dbl_json double_of what json_fmt w ws (behind u (B "secret" ++ [NUL])) = Some (w', ws', evs, RootModel.Ret tt) /\ w_stdout w' = B "secret" ++ [NL]) /\
    (exists w' ws' evs, say dbl dbl_json double_of what json_fmt w ws (behind u [NUL]) = Some (w', ws', evs, RootModel.Ret tt) /\ w_stdout w' = [NL]) /\
    say dbl dbl_json double_of what json_fmt w ws (behind u (B "secret")) = None.
Proof.
  pose (h := HBlocking (FString [ParserModel.TMessage (B "{}")] None) [SConsole None]).
  pose (u := Said 0 (case_view "{}" []) [MetaFormatModel.VString []] None [] [] [] 3 4 case_env (fun _ _ => calm_circ 0 true true)).
  exists [h], (match start_handlers [h] with Some ws => ws | None => [] end), case_world, u.
  split; [reflexivity|]. split; [split; [apply case_names_clear; reflexivity|exists []; reflexivity]|]. split; [reflexivity|]. split; [reflexivity|].
  intros dbl dbl_json double_of what json_fmt. split; [|split].
  - eexists. eexists. eexists. split; reflexivity.
  - eexists. eexists. eexists. split; reflexivity.
  - reflexivity.
Qed.
Print Assumptions C126_empty_refuted.

(** ---- C127 ---- *)

(** C127. From the document and the program to the file: the logger is made; a string formatter's first sink being a file of its own, each call
    that says a text - its format string with its arguments shown, or its message as it is - adds one line to the file that shows the items of the
    pattern for it; each call with too few arguments adds nothing and throws; in order, whatever the other sinks and handlers do. *)
Theorem C127_document_to_file : forall dbl dbl_json double_of what json_fmt ld nd v name items tokens sevmap hs ws w us w' ws' evs xs i p c rest,
  clean v -> no_nul name -> logger_config ld nd v name hs ->
  StrSpec.pattern_ok items -> ParserModel.tokenize ld nd (StrSpec.pattern_text items) = Some (ParserModel.Tokens tokens) ->
  nth_error hs i = Some (HBlocking (FString tokens sevmap) (SFile p c :: rest)) -> only_file hs p i 0 ->
  start_handlers hs = Some ws -> say_all dbl dbl_json double_of what json_fmt w ws us = Some (w', ws', evs, xs) ->
  FileSinkSpec.fs_ok (w_files w p) ->
  (forall u, In u us -> exists dev ino spill, q_file (s_circumstances u i 0%nat) = FileSinkSpec.calm dev ino spill) ->
  (forall u, In u us -> (exists t, says dbl u t) \/ stammers u) ->
  (forall u t r, In u us -> says dbl u t -> record_saying u t r -> Forall (StrSpec.item_suits ld (severity_names dbl sevmap) (srecord_of (s_env u) r)) items) ->
  logger dbl ld nd v name = Ret hs /\
  Forall2 (fun u x => ((exists t, says dbl u t) /\ x = RootModel.Ret tt) \/ (stammers u /\ x = RootModel.Throw (StdExn (what FmtModel.EIndexRange)))) us xs /\
  exists liness, Forall2 (fun u ls => (exists t r outs, says dbl u t /\ record_saying u t r /\
      Forall2 (StrSpec.item_shows dbl double_of ld (severity_names dbl sevmap) (srecord_of (s_env u) r)) items outs /\ ls = [concat outs])
      \/ (stammers u /\ ls = [])) us liness /\
    content (w_files (close_all w' ws') p) = content (w_files w p) ++ concat (map (fun l => l ++ [chr 10]) (concat liness)).
Proof.
  intros dbl dbl_json double_of what json_fmt ld nd v name items tokens sevmap hs ws w us w' ws' evs xs i p c rest CV NN LC PO TK NE OF ST SA FO CF AS SU.
  split; [exact (logger_lemma _ _ _ _ _ _ CV NN LC)|].
  exact (said_file_lemma _ _ _ _ _ _ _ _ _ _ _ _ _ _ _ _ _ _ _ _ _ _ PO TK NE OF ST SA FO CF AS SU).
Qed.
Print Assumptions C127_document_to_file.

(** The document, the handlers and the pattern are those of C94's example (C94_case, C93_case). *)
Definition case_right4 : FmtSpec.wish := FmtSpec.Wish None FmtModel.ARight None false false (Some (4%N, B "4")) None None.
Definition case_pieces : list FmtSpec.piece := [FmtSpec.Next None; FmtSpec.Text (B " is "); FmtSpec.Next (Some case_right4); FmtSpec.Text (B "|")].
Lemma case_fitting : fitting case_pieces (s_args case_said1).
Proof.
  cbn [fitting case_pieces case_said1 s_args]. split; [|split; [|exact I]].
  - split; [exact I|]. split; [exact I|left; reflexivity].
  - split; [cbn; lia|]. split; [|discriminate]. unfold StrSpec.suits, FmtSpec.sensible, FmtSpec.digits_of, FmtSpec.numeral. cbn.
    repeat split; try discriminate; try lia; try (intros; discriminate). repeat constructor.
Qed.
Lemma case_says1 : says no_dbl case_said1 (B "x is    7|").
Proof.
  right. split; [discriminate|]. split; [discriminate|]. exists case_pieces, [B "x"; B " is "; B "   7"; B "|"].
  split; [split; [apply case_names_clear; reflexivity|exists []; reflexivity]|]. split; [exact case_fitting|]. split; [|reflexivity].
  constructor; [|constructor; constructor; [|constructor; constructor]].
  - exists [], [], []. repeat split; constructor.
  - exists 10%N, false, [], (B "7"). split; [reflexivity|]. split; [repeat split; try discriminate; repeat constructor|].
    exists (B "   "), [], []. repeat split; repeat constructor.
Qed.
Lemma case_stammers2 : stammers case_said2.
Proof.
  split; [discriminate|]. exists [FmtSpec.Next None; FmtSpec.Text (B " "); FmtSpec.Next None]. split; [split; [apply case_names_clear; reflexivity|exists []; reflexivity]|].
  split; [cbn; lia|]. cbn [fitting case_said2 s_args]. split; [|exact I]. split; [cbn; lia|]. split; [exact I|discriminate].
Qed.
Lemma case_says3 : says no_dbl case_said3 (B "bye {}").
Proof. left. split; [reflexivity|]. exists (NUL :: B "secret"). split; [reflexivity|discriminate]. Qed.
Lemma case_only u t t' : says no_dbl u t -> (exists v, message no_dbl u = FmtModel.Ok v /\ StrModel.viewed v = t') -> t = t'.
Proof. intros S1 (v & M & E). destruct (says_message no_dbl u t S1) as (v' & M' & _ & E'). rewrite M in M'. injection M' as <-. congruence. Qed.

Example C127_case :
  (forall u, In u [case_said1; case_said2; case_said3] -> exists dev ino spill, q_file (s_circumstances u 0%nat 0%nat) = FileSinkSpec.calm dev ino spill) /\
  (forall u, In u [case_said1; case_said2; case_said3] -> (exists t, says no_dbl u t) \/ stammers u) /\
  (forall u t r, In u [case_said1; case_said2; case_said3] -> says no_dbl u t -> record_saying u t r ->
     Forall (StrSpec.item_suits (fun _ => false) (severity_names no_dbl None) (srecord_of (s_env u) r)) case_items) /\
  match case_says [case_said1; case_said2; case_said3] with
  | Some (w', ws', evs, xs) => xs = [RootModel.Ret tt; RootModel.Throw (StdExn (B "?")); RootModel.Ret tt] /\
      content (w_files (close_all w' ws') (B "/a")) = B "old" ++ [NL] ++ B "net: x is    7|" ++ [NL] ++ B "top: bye {}" ++ [NL]
  | None => False
  end.
Proof.
  split; [|split; [|split]].
  - intros u [<-|[<-|[<-|[]]]]; repeat eexists.
  - intros u [<-|[<-|[<-|[]]]]; [left; eexists; exact case_says1|right; exact case_stammers2|left; eexists; exact case_says3].
  - intros u t r I S1 (E1 & E2 & E3 & E4 & E5). destruct r as [m f sev ts tid a]. cbn in E1, E2, E3, E4, E5. subst f a. destruct I as [<-|[<-|[<-|[]]]].
    + assert (t = B "x is    7|") as -> by (apply (case_only _ _ _ S1); eexists; split; vm_compute; reflexivity).
      exact (case_suits case_env (B "x is    7|") sev ts tid [[(B "scope", VString (B "net"))]] (B "net") [] ltac:(discriminate) eq_refl (or_introl eq_refl)).
    + destruct (says_message _ _ _ S1) as (x & M & _). rewrite (stammers_message no_dbl _ case_stammers2) in M. discriminate.
    + assert (t = B "bye {}") as -> by (apply (case_only _ _ _ S1); eexists; split; vm_compute; reflexivity).
      exact (case_suits case_env (B "bye {}") sev ts tid [[(B "scope", VString (B "top"))]; [(B "id", VInt (-7))]] (B "top") [(B "id", VInt (-7))] ltac:(discriminate) eq_refl (or_introl eq_refl)).
  - vm_compute. split; reflexivity.
Qed.

(** ---- C128 ---- *)

(** C128. A call with some arguments but too few for its format string throws and does nothing else. *)
Theorem C128_missing : forall dbl dbl_json double_of what json_fmt w hs u, stammers u ->
  say dbl dbl_json double_of what json_fmt w hs u = Some (w, hs, [], RootModel.Throw (StdExn (what FmtModel.EIndexRange))).
Proof. exact stammers_lemma. Qed.
Print Assumptions C128_missing.
Example C128_missing_case : stammers case_said2.
Proof. exact case_stammers2. Qed.

(** C128. All or nothing: when a call throws, whatever its arguments, it has done nothing - no sink has got anything. *)
Theorem C128_all_or_nothing : forall dbl dbl_json double_of what json_fmt w hs u w' hs' evs e,
  say dbl dbl_json double_of what json_fmt w hs u = Some (w', hs', evs, RootModel.Throw e) -> w' = w /\ hs' = hs /\ evs = [].
Proof. exact nothing_lemma. Qed.
Print Assumptions C128_all_or_nothing.
Example C128_all_or_nothing_case : exists u, s_args u = [MetaFormatModel.VString (B "text")] /\
  say no_dbl (fun _ => []) (fun _ => 0%N) (fun _ => B "?") (fun _ _ => None) case_world case_started u = Some (case_world, case_started, [], RootModel.Throw (StdExn (B "?"))).
Proof.
  exists (Said 0 (case_view "{:d}" []) [MetaFormatModel.VString (B "text")] None [] [] [] 3 4 case_env (fun _ _ => calm_circ 3 true true)).
  split; reflexivity.
Qed.
