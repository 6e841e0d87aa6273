(** C113-C116: log files of several threads, with or without queues in front of them, and their readers. *)
From Verif Require Import Base Values RootModel ConfigModel ConfigSpec FactoriesModel FactoriesSpec FactoriesProofs SystemModel SystemSpec SystemProofs.
From Verif Require Import ThreadsModel ThreadsSpec ThreadsProofs QueuedModel QueuedSpec QueuedProofs QueuedSubProofs QueuedMoreProofs QueuedEndProofs QueuedWorldProofs QueuedLivenessProofs.
From Verif Require Import ReadbackSpec ReadbackProofs ReadbackMoreProofs ReadbackEndProofs.
From Verif Require FmtModel TskvModel TskvSpec TskvProofs JsonFmtModel JsonFmtSpec JsonFmtProofs JsonTextModel JsonTextSpec StrModel StrSpec ParserModel ParserSubProofs FileSinkModel FileSinkSpec FlusherModel TcpModel AsyncModel.

(** ---- C113 ---- *)

(** C113. A TSKV log file can be read again: whatever messages, attribute values and time stamps contain, the file of C111_file is made of
    lines, and each line is the fields of one call (C27), those of each thread's calls in the thread's order, and nothing else, behind what was in the
    file before. *)
Theorem C113_tskv_log : forall dbl dbl_json double_of what json_fmt hs ws w programs sched s tr bc, start_handlers (map strip hs) = Some ws ->
  run dbl dbl_json double_of what json_fmt (initial w hs ws programs) sched = Some (s, tr) ->
  forall p c i j x old, destroyed s -> patient hs i j -> in_time i j tr ->
  sink_at hs i j x -> core x = SFile p c -> only_file (map strip hs) p i j -> FileSinkSpec.fs_ok (w_files w p) ->
  formatter_at hs i (FTskv (TskvModel.build bc)) -> tskv_fits bc ->
  (forall calls cl, In calls programs -> In cl calls -> exists dev ino spill, q_file (c_circumstances cl i j) = FileSinkSpec.calm dev ino spill) ->
  (forall calls cl, In calls programs -> In cl calls -> (exists m, c_supplier cl = RootModel.Ret m) /\ Forall (fun a => name_fits bc (fst a)) (concat (c_pack cl ++ c_scoped cl))) ->
  (forall j' sev t q b, (j' < j)%nat -> In (Emitted i j' sev t q b) (all_events (own tr)) -> b = false) ->
  read_log TskvSpec.read_line (content (w_files w p)) = Some old ->
  exists entries, read_log TskvSpec.read_line (content (w_files (close_all (g_world s) (g_sinks s)) p)) = Some (old ++ map snd entries) /\
    Forall (fun x => fst x < length programs)%nat entries /\
    forall t calls, nth_error programs t = Some calls ->
      exists cs, made_at calls (times t (own tr)) cs /\ Forall2 (tskv_entry dbl bc) cs (entries_of t entries).
Proof.
  intros dbl dbl_json double_of what json_fmt hs ws w programs sched s tr bc ST RU p c i j x old D PA IT SA CO OF FO FA TF QC HC HF RL.
  apply (file_read dbl dbl_json double_of what json_fmt hs ws w programs sched s tr ST RU TskvSpec.read_line (tskv_entry dbl bc) p c i j x _ old D PA IT SA CO OF FO FA QC); [|exact HF|exact RL].
  intros calls cl now H1 H2. destruct (HC calls cl H1 H2) as [HS HN]. exact (tskv_makes dbl dbl_json double_of what json_fmt bc (stamp cl now) TF HS HN).
Qed.
Print Assumptions C113_tskv_log.

(** Two threads and three files: a TSKV log and a JSON log behind a queue each, and one made by a pattern. *)
Definition obj (l : list (bytes * json)) : json := JObject l.
Definition str (s : string) : json := JString (B s).
Definition async (path : string) : json :=
  obj [(B "type", str "asynchronous"); (B "factor", JInt 2); (B "overflow", str "wait"); (B "sink", obj [(B "type", str "file"); (B "path", str path)])].
Definition case_document : json := obj [(B "root", JArray
  [obj [(B "formatter", obj [(B "type", str "tskv"); (B "create", obj [(B "app", str "x")]); (B "rename", obj [(B "message", str "text")]); (B "remove", JArray [str "pid"])]);
        (B "sinks", JArray [async "/t"])];
   obj [(B "formatter", obj [(B "type", str "json"); (B "routing", obj [(B "/a", JArray [str "id"])])]); (B "sinks", JArray [async "/j"])];
   obj [(B "formatter", obj [(B "type", str "string"); (B "pattern", str "> {message}")]); (B "sinks", JArray [async "/s"])]])].
Definition plain_file : FileSinkModel.config := FileSinkModel.Config false (FlusherModel.FRepeat (FlusherModel.repeat_new 0)).
Definition four : AsyncModel.config := AsyncModel.Config (N.to_nat (2 ^ 2)) AsyncModel.Wait.
Definition tskv_calls : list TskvModel.call := [TskvModel.Create (B "app") (B "x"); TskvModel.Rename (B "message") (B "text"); TskvModel.Remove (B "pid")].
Definition json_calls : list JsonFmtModel.call := [JsonFmtModel.Route (B "/a") [B "id"]].
Definition case_tokens : list ParserModel.token := [ParserModel.TLiteral (B "> "); ParserModel.TMessage (B "{}")].
Definition case_handlers : list FactoriesModel.handler :=
  [HBlocking (FTskv (TskvModel.build tskv_calls)) [SAsynchronous (SFile (B "/t") plain_file) four];
   HBlocking (FJson (JsonFmtModel.build json_calls)) [SAsynchronous (SFile (B "/j") plain_file) four];
   HBlocking (FString case_tokens None) [SAsynchronous (SFile (B "/s") plain_file) four]].
Definition case_env : surroundings := Env 1 2 (B "p") None (fun _ _ _ => B "now") (fun _ _ => B "now") [] true (B "?").
Definition case_circ : circumstances := Circ (FileSinkSpec.calm 1 2 1) (TcpModel.Circ (Some [(0%nat, true)]) None) true (B "refused").
Definition case_call (m : bytes) (a : list (bytes * value)) : call :=
  Call 0 m [a] [] (RootModel.Ret RootModel.SNull) 3 0 case_env (fun _ _ => case_circ).
(** A message that looks like two lines with a field of its own. *)
Definition forged : bytes := B "x" ++ TAB :: B "app=y" ++ NL :: B "tskv" ++ TAB :: B "app=z".
Definition case_programs : list (list call) := [[case_call forged []; case_call (B "three") [(B "id", VInt 3)]]; [case_call (B "two") [(B "id", VInt 2)]]].
Definition no_dbl : FmtModel.spec -> N -> bytes := fun _ _ => [].
Definition case_files : bytes -> FileSinkModel.fs := fun p =>
  if bytes_eqb p (B "/t") then FileSinkModel.FS (Some 0%nat) (fun _ => B "tskv" ++ TAB :: B "old=1" ++ [NL]) (fun _ => 0%N) (fun _ => 0%N) 1
  else FileSinkModel.FS None (fun _ => []) (fun _ => 0%N) (fun _ => 0%N) 0.
Definition case_world : world := World case_files [] [] [] [].
Definition case_started : list (formatter * list live) := match start_handlers (map strip case_handlers) with Some ws => ws | None => [] end.
Definition case_workers : list action := [Worker 0 0 0; Worker 1 0 0; Worker 2 0 0].
Definition case_first : list action := concat (map (fun z => [User 0 (Z.of_nat z); Worker 0 0 0; User 1 (Z.of_nat z)]) (seq 1 14)).
Definition case_second : list action :=
  concat (map (fun z => [User 0 (Z.of_nat z); User 1 (Z.of_nat z); Worker 1 0 0]) (seq 15 20)) ++
  concat (repeat case_workers 20) ++ concat (repeat (Destroyer :: case_workers) 30).
Definition case_schedule : list action := case_first ++ case_second.
Definition half : N -> bytes := fun _ => B "1.5".
Definition runs sched := run no_dbl half (fun _ => 0%N) (fun _ => []) (fun _ _ => None) (initial case_world case_handlers case_started case_programs) sched.
Definition nowhere : state := State case_world [] (fun _ _ => []) [] [] true.
Definition after (r : option (state * list happening)) : state * list happening := match r with Some x => x | None => (nowhere, []) end.
Definition case_state : state := fst (after (runs case_schedule)).
Definition case_trace : list happening := snd (after (runs case_schedule)).

Ltac seen_to_end := match goal with |- ?r = Some _ => assert (E : match r with Some _ => true | None => false end = true) by (vm_compute; reflexivity);
  destruct r as [[? ?]|]; [reflexivity|discriminate E] end.
Lemma case_ran : runs case_schedule = Some (case_state, case_trace).
Proof. unfold case_state, case_trace. seen_to_end. Qed.
Lemma destroyed_check s : forallb idle (g_threads s) && match g_todo s with [] => true | _ => false end && negb (g_dead s) = true -> destroyed s.
Proof.
  intros H. apply andb_prop in H as [H H3]. apply andb_prop in H as [H1 H2]. split; [|split; [destruct (g_todo s); [reflexivity|discriminate]|destruct (g_dead s); [discriminate|reflexivity]]].
  rewrite forallb_forall in H1. apply Forall_forall. intros x Hx. specialize (H1 x Hx). unfold idle in H1. destruct (q_calls x), (q_stage x); try discriminate H1. split; reflexivity.
Qed.
Lemma in_time_check i j tr :
  (forallb (fun h => match h with Stopping a b _ true n => negb (Nat.eqb a i && Nat.eqb b j) || Nat.eqb n 0 | _ => true end) tr = true) -> in_time i j tr.
Proof.
  intros H k n HI. rewrite forallb_forall in H. specialize (H _ HI). cbn in H. rewrite !Nat.eqb_refl in H. cbn in H. apply Nat.eqb_eq. exact H.
Qed.
Lemma case_only i : only_file (map strip case_handlers) (nth i [B "/t"; B "/j"; B "/s"] (B "/s")) (Nat.min i 2) 0.
Proof.
  intros i' j' c (f & sinks & E1 & E2). destruct i' as [|[|[|i']]]; [| | |destruct i'; discriminate E1]; injection E1 as <- <-;
    (destruct j' as [|j']; [|destruct j'; discriminate E2]); injection E2 as E2; split; try reflexivity; destruct i as [|[|[|i]]]; try discriminate E2; try reflexivity.
  all: destruct i; try discriminate E2; reflexivity.
Qed.
Lemma plain_check k : existsb (Ascii.eqb TAB) k = false -> existsb (Ascii.eqb NL) k = false -> last k "a"%char <> "\"%char -> TskvSpec.plain_key k /\ ~ In NL k.
Proof.
  intros T N L. assert (K : forall c, existsb (Ascii.eqb c) k = false -> ~ In c k).
  { intros c E H. assert (existsb (Ascii.eqb c) k = true) by (apply existsb_exists; exists c; split; [exact H|apply Ascii.eqb_refl]). congruence. }
  split; [split|]; [exact (K TAB T)| |exact (K NL N)]. intros p ->. apply L. apply last_last.
Qed.
Lemma case_fits : tskv_fits tskv_calls.
Proof.
  assert (NR : forall n, n <> B "pid" -> ~ TskvSpec.removed tskv_calls n).
  { intros n N [X|[X|[X|[]]]]; try discriminate X. injection X as X. exact (N (eq_sym X)). }
  split; [apply NR; discriminate|]. split; [reflexivity|]. split; [|split].
  - constructor; [right; apply plain_check; vm_compute; congruence|]. constructor; [left; right; right; left; reflexivity|].
    constructor; [right; apply plain_check; vm_compute; congruence|constructor].
  - intros n v E. apply (proj2 (proj1 (TskvProofs.builder_lemma tskv_calls))) in E. vm_compute in E. destruct E as [E|[]]. injection E as <- <-.
    split; [right; apply plain_check; vm_compute; congruence|]. right. split; [split|]; vm_compute; intuition discriminate.
  - intros n v E. apply (proj2 (proj2 (TskvProofs.builder_lemma tskv_calls))) in E. vm_compute in E. destruct E as [E|[]]. injection E as <- _.
    right; apply plain_check; vm_compute; congruence.
Qed.

(** The message of the first call comes back as it was. *)
Example C113_case : start_handlers (map strip case_handlers) = Some case_started /\ runs case_schedule = Some (case_state, case_trace) /\
  destroyed case_state /\ patient case_handlers 0 0 /\ in_time 0 0 case_trace /\
  sink_at case_handlers 0 0 (SAsynchronous (SFile (B "/t") plain_file) four) /\ only_file (map strip case_handlers) (B "/t") 0 0 /\
  FileSinkSpec.fs_ok (w_files case_world (B "/t")) /\ formatter_at case_handlers 0 (FTskv (TskvModel.build tskv_calls)) /\ tskv_fits tskv_calls /\
  (forall calls cl, In calls case_programs -> In cl calls ->
     (exists dev ino spill, q_file (c_circumstances cl 0%nat 0%nat) = FileSinkSpec.calm dev ino spill) /\
     (exists m, c_supplier cl = RootModel.Ret m) /\ Forall (fun a => name_fits tskv_calls (fst a)) (concat (c_pack cl ++ c_scoped cl))) /\
  read_log TskvSpec.read_line (content (w_files case_world (B "/t"))) = Some [(B "tskv", [(B "old", B "1")])] /\
  read_log TskvSpec.read_line (content (w_files (close_all (g_world case_state) (g_sinks case_state)) (B "/t"))) =
    Some [(B "tskv", [(B "old", B "1")]);
          (B "tskv", [(B "app", B "x"); (B "timestamp", B "now"); (B "severity", B "0"); (B "tid", B "0x3"); (B "text", forged)]);
          (B "tskv", [(B "app", B "x"); (B "timestamp", B "now"); (B "severity", B "0"); (B "tid", B "0x3"); (B "text", B "two"); (B "id", B "2")]);
          (B "tskv", [(B "app", B "x"); (B "timestamp", B "now"); (B "severity", B "0"); (B "tid", B "0x3"); (B "text", B "three"); (B "id", B "3")])].
Proof.
  split; [reflexivity|]. split; [exact case_ran|]. split; [apply destroyed_check; vm_compute; reflexivity|]. split; [repeat constructor|].
  split; [apply in_time_check; vm_compute; reflexivity|]. split; [eexists; eexists; split; reflexivity|]. split; [exact (case_only 0)|].
  split; [intros f E; injection E as <-; cbn; lia|]. split; [eexists; reflexivity|]. split; [exact case_fits|]. split.
  - assert (ID : name_fits tskv_calls (B "id")) by (right; apply plain_check; vm_compute; congruence).
    intros calls cl [<-|[<-|[]]] HI; cbn in HI; repeat (destruct HI as [<-|HI]; [split; [repeat eexists|split; [eexists; reflexivity|cbn; repeat (apply Forall_cons; [exact ID|]); apply Forall_nil]]|]); destruct HI.
  - split; vm_compute; reflexivity.
Qed.

(** ---- C114 ---- *)

(** C114. A JSON log file can be read again: without the option "newline" the file of C111_file is one document per line, each of which is, read as
    JSON, the tree that holds the fields of one call (C29), those of each thread's calls in the thread's order. *)
Theorem C114_json_log : forall dbl dbl_json double_of what json_fmt hs ws w programs sched s tr bc, start_handlers (map strip hs) = Some ws ->
  run dbl dbl_json double_of what json_fmt (initial w hs ws programs) sched = Some (s, tr) ->
  forall p c i j x old, destroyed s -> patient hs i j -> in_time i j tr ->
  sink_at hs i j x -> core x = SFile p c -> only_file (map strip hs) p i j -> FileSinkSpec.fs_ok (w_files w p) ->
  formatter_at hs i (FJson (JsonFmtModel.build bc)) -> (forall b, JsonTextSpec.number_text (dbl_json b)) -> ~ In JsonFmtModel.Newline bc ->
  (Z.of_nat (length (JsonFmtSpec.severities bc)) <= 2 ^ 63)%Z ->
  (forall calls cl, In calls programs -> In cl calls -> exists dev ino spill, q_file (c_circumstances cl i j) = FileSinkSpec.calm dev ino spill) ->
  (forall calls cl now, In calls programs -> In cl calls -> json_fits json_fmt bc (stamp cl now)) ->
  (forall j' sev t q b, (j' < j)%nat -> In (Emitted i j' sev t q b) (all_events (own tr)) -> b = false) ->
  read_log JsonTextSpec.read_json (content (w_files w p)) = Some old ->
  exists entries, read_log JsonTextSpec.read_json (content (w_files (close_all (g_world s) (g_sinks s)) p)) = Some (old ++ map snd entries) /\
    Forall (fun x => fst x < length programs)%nat entries /\
    forall t calls, nth_error programs t = Some calls ->
      exists cs, made_at calls (times t (own tr)) cs /\ Forall2 (json_entry dbl_json json_fmt bc) cs (entries_of t entries).
Proof.
  intros dbl dbl_json double_of what json_fmt hs ws w programs sched s tr bc ST RU p c i j x old D PA IT SA CO OF FO FA NT NN SL QC HC HF RL.
  apply (file_read dbl dbl_json double_of what json_fmt hs ws w programs sched s tr ST RU JsonTextSpec.read_json (json_entry dbl_json json_fmt bc) p c i j x _ old D PA IT SA CO OF FO FA QC); [|exact HF|exact RL].
  intros calls cl now H1 H2. exact (json_makes dbl dbl_json double_of what json_fmt bc (stamp cl now) NT NN SL (HC calls cl now H1 H2)).
Qed.
Print Assumptions C114_json_log.

Lemma case_json_fits m a now : Forall (fun x => fst x = B "id" /\ exists z, snd x = VInt z) a -> json_fits (fun _ _ => None) json_calls (stamp (case_call m a) now).
Proof.
  intros FA. eexists. eexists. exists a.
  exists [JsonFmtSpec.Field [] (B "message") (JsonFmtModel.LStr m); JsonFmtSpec.Field [] (B "lwp") (JsonFmtModel.LUint 2); JsonFmtSpec.Field [] (B "thread") (JsonFmtModel.LStr (B "0x3"));
          JsonFmtSpec.Field [] (B "process") (JsonFmtModel.LUint 1); JsonFmtSpec.Field [] (B "severity") (JsonFmtModel.LInt 0);
          JsonFmtSpec.Field [] (B "timestamp") (JsonFmtModel.LInt (Z.quot now 1000))].
  exists (map (fun x => JsonFmtSpec.Field [B "a"] (B "id") (JsonFmtSpec.plain_value (snd x))) a).
  assert (P : forall attr n v p, JsonFmtSpec.format_of json_calls n = None -> JsonFmtSpec.pointer_text p = JsonFmtModel.route_of (JsonFmtModel.build json_calls) n -> JsonFmtSpec.new_name json_calls n = n ->
    JsonFmtSpec.field_of (fun _ _ => None) json_calls attr (n, v) (JsonFmtSpec.Field p n (JsonFmtSpec.plain_value v))).
  { intros attr n v p F E M. rewrite <- M at 2. eapply JsonFmtSpec.field_plain; [exact F|apply JsonFmtProofs.route_routed|symmetry; exact E]. }
  split; [eexists; split; reflexivity|]. split; [cbn; lia|]. split; [|split; [|split; [|split]]].
  - apply (JsonFmtSpec.reported_intro _ _ _ (VInt 0)).
    + apply JsonFmtSpec.severity_number. right. cbn. lia.
    + intros [X|[]]. discriminate X.
    + intros _. cbn. rewrite app_nil_r. reflexivity.
  - constructor; [apply (P false _ (VString m)); vm_compute; reflexivity|]. repeat (constructor; [apply (P false); vm_compute; reflexivity|]).
    constructor.
  - induction FA as [|[n v] l [E _] FA IH]; [constructor|]. cbn in E. subst n. cbn [map snd]. constructor; [apply (P true); vm_compute; reflexivity|exact IH].
  - intros f g Hf Hg [c E]. apply in_app_or in Hg as [Hg|Hg].
    + cbn [In] in Hg. repeat (destruct Hg as [<-|Hg]; [cbn in E; destruct (JsonFmtSpec.f_path f); discriminate E|]). destruct Hg.
    + apply in_map_iff in Hg as (y & <- & _). cbn in E. apply in_app_or in Hf as [Hf|Hf].
      * cbn [In] in Hf. repeat (destruct Hf as [<-|Hf]; [discriminate E|]). destruct Hf.
      * apply in_map_iff in Hf as (z & <- & _). discriminate E.
  - intros f Hf. apply in_app_or in Hf as [Hf|Hf].
    + cbn [In] in Hf. repeat (destruct Hf as [<-|Hf]; [constructor|]). destruct Hf.
    + apply in_map_iff in Hf as (z & <- & _). constructor.
Qed.
Definition tree_with (m : bytes) (now : Z) (rest : list (bytes * JsonTextSpec.tree)) : JsonTextSpec.tree :=
  JsonTextSpec.TObject ([(B "message", JsonTextSpec.TString m); (B "lwp", JsonTextSpec.TNumber (B "2")); (B "thread", JsonTextSpec.TString (B "0x3"));
    (B "process", JsonTextSpec.TNumber (B "1")); (B "severity", JsonTextSpec.TNumber (B "0")); (B "timestamp", JsonTextSpec.TNumber (Decimal.sdec (Z.quot now 1000)))] ++ rest).

(** With [C113_case]; the file is new. *)
Example C114_case : patient case_handlers 1 0 /\ in_time 1 0 case_trace /\
  sink_at case_handlers 1 0 (SAsynchronous (SFile (B "/j") plain_file) four) /\ only_file (map strip case_handlers) (B "/j") 1 0 /\
  FileSinkSpec.fs_ok (w_files case_world (B "/j")) /\ formatter_at case_handlers 1 (FJson (JsonFmtModel.build json_calls)) /\
  (forall b, JsonTextSpec.number_text (half b)) /\ ~ In JsonFmtModel.Newline json_calls /\
  (forall calls cl now, In calls case_programs -> In cl calls -> json_fits (fun _ _ => None) json_calls (stamp cl now)) /\
  read_log JsonTextSpec.read_json (content (w_files case_world (B "/j"))) = Some [] /\
  read_log JsonTextSpec.read_json (content (w_files (close_all (g_world case_state) (g_sinks case_state)) (B "/j"))) =
    Some [tree_with forged 1 []; tree_with (B "two") 1 [(B "a", JsonTextSpec.TObject [(B "id", JsonTextSpec.TNumber (B "2"))])];
          tree_with (B "three") 1 [(B "a", JsonTextSpec.TObject [(B "id", JsonTextSpec.TNumber (B "3"))])]].
Proof.
  split; [repeat constructor|]. split; [apply in_time_check; vm_compute; reflexivity|]. split; [eexists; eexists; split; reflexivity|]. split; [exact (case_only 1)|].
  split; [intros f E; discriminate E|]. split; [eexists; reflexivity|]. split; [intros b; split; [discriminate|reflexivity]|]. split; [intros [X|[]]; discriminate X|]. split.
  - intros calls cl now [<-|[<-|[]]] HI; cbn in HI; repeat (destruct HI as [<-|HI]; [apply case_json_fits; repeat (apply Forall_cons; [split; [reflexivity|eexists; reflexivity]|]); apply Forall_nil|]); destruct HI.
  - split; vm_compute; reflexivity.
Qed.

(** C114, false with the option "newline": each text ends with a newline of its own, and the file sink adds another, so every other line is empty and
    is no document. *)
Definition blank_handlers : list FactoriesModel.handler := [HBlocking (FJson (JsonFmtModel.build [JsonFmtModel.Newline])) [SFile (B "/j") plain_file]].
Theorem C114_newline_refuted : exists hs ws w programs sched, start_handlers (map strip hs) = Some ws /\
  hs = [HBlocking (FJson (JsonFmtModel.build [JsonFmtModel.Newline])) [SFile (B "/j") plain_file]] /\ map (map c_pattern) programs = [[B "one"]] /\
  content (w_files w (B "/j")) = [] /\
  (forall calls cl i j, In calls programs -> In cl calls -> exists dev ino spill, q_file (c_circumstances cl i j) = FileSinkSpec.calm dev ino spill) /\
  forall dbl dbl_json double_of what json_fmt, exists s tr line, run dbl dbl_json double_of what json_fmt (initial w hs ws programs) sched = Some (s, tr) /\
    destroyed s /\ cut (content (w_files (close_all (g_world s) (g_sinks s)) (B "/j"))) = [line; []; []] /\
    JsonTextSpec.read_json line <> None /\ read_log JsonTextSpec.read_json (content (w_files (close_all (g_world s) (g_sinks s)) (B "/j"))) = None.
Proof.
  pose (ws := match start_handlers (map strip blank_handlers) with Some ws => ws | None => [] end).
  exists blank_handlers, ws, case_world, [[case_call (B "one") []]], (map (User 0) [1; 2; 3; 4; 5; 6; 7]%Z ++ [Destroyer]).
  split; [reflexivity|]. split; [reflexivity|]. split; [reflexivity|]. split; [reflexivity|]. split.
  - intros calls cl i j [<-|[]] HI; cbn in HI; destruct HI as [<-|[]]; repeat eexists.
  - intros dbl dbl_json double_of what json_fmt.
    set (r := run dbl dbl_json double_of what json_fmt (initial case_world blank_handlers ws [[case_call (B "one") []]]) (map (User 0) [1; 2; 3; 4; 5; 6; 7]%Z ++ [Destroyer])).
    exists (fst (after r)), (snd (after r)). eexists. split; [unfold r; seen_to_end|]. split; [apply destroyed_check; vm_compute; reflexivity|].
    split; [vm_compute; reflexivity|]. split; [vm_compute; discriminate|vm_compute; reflexivity].
Qed.
Print Assumptions C114_newline_refuted.

(** ---- C115 ---- *)

(** C115. From the document to the file, with several threads and queues: the logger is made, it can be started, and if a handler has a string formatter and its
    first sink is a file of its own behind queues that wait, the file has after the logger's destruction one more line for each call of each thread, showing
    the items of the pattern for the call's record, those of each thread in its order, if no flag was set in the moment C111_lost_refuted shows. *)
Theorem C115_document_to_file : forall dbl dbl_json double_of what json_fmt ld nd v name hs, clean v -> no_nul name -> logger_config ld nd v name hs ->
  logger dbl ld nd v name = Ret hs /\ exists ws, start_handlers (map strip hs) = Some ws /\
  forall w programs sched s tr items tokens sevmap i p c x rest,
  run dbl dbl_json double_of what json_fmt (initial w hs ws programs) sched = Some (s, tr) -> destroyed s ->
  StrSpec.pattern_ok items -> ParserModel.tokenize ld nd (StrSpec.pattern_text items) = Some (ParserModel.Tokens tokens) ->
  nth_error hs i = Some (HBlocking (FString tokens sevmap) (x :: rest)) -> core x = SFile p c -> only_file (map strip hs) p i 0 ->
  patient hs i 0 -> in_time i 0 tr -> FileSinkSpec.fs_ok (w_files w p) ->
  (forall calls cl, In calls programs -> In cl calls -> exists dev ino spill, q_file (c_circumstances cl i 0%nat) = FileSinkSpec.calm dev ino spill) ->
  (forall calls cl now, In calls programs -> In cl calls -> exists r, record_of (stamp cl now) r /\
     Forall (StrSpec.item_suits ld (severity_names dbl sevmap) (srecord_of (c_env cl) r)) items) ->
  exists lines, content (w_files (close_all (g_world s) (g_sinks s)) p) = content (w_files w p) ++ concat (map (fun x => snd x ++ [chr 10]) lines) /\
    Forall (fun x => fst x < length programs)%nat lines /\
    forall t calls, nth_error programs t = Some calls ->
      exists cs, made_at calls (times t (own tr)) cs /\ Forall2 (pattern_entry dbl double_of ld items sevmap) cs (texts_of t lines).
Proof. exact document_to_file. Qed.
Print Assumptions C115_document_to_file.

(** C115. The queues of a logger made from a document hold between 4 and 2^20 records, so C112 needs no condition: the threads can always finish
    their calls and the destructor can return, or the process is terminated. *)
Theorem C115_can_end : forall dbl dbl_json double_of what json_fmt ld nd v name hs, logger_config ld nd v name hs ->
  (forall i j c, In c (layers_at hs i j) -> (4 <= AsyncModel.c_capacity c <= N.to_nat (2 ^ 20))%nat) /\
  forall ws w programs sched s tr, start_handlers (map strip hs) = Some ws ->
  (forall calls c now r f i, In calls programs -> In c calls -> record_of (stamp c now) r -> formatter_at hs i f ->
     match render dbl dbl_json double_of what json_fmt f (c_env c) r with
     | Text t => (Z.of_nat (length t) < 2 ^ 31)%Z | Raises _ => True | SystemModel.Undefined => False end) ->
  run dbl dbl_json double_of what json_fmt (initial w hs ws programs) sched = Some (s, tr) ->
  exists more s' tr', run dbl dbl_json double_of what json_fmt s more = Some (s', tr') /\ (destroyed s' \/ g_dead s' = true).
Proof. exact document_ends. Qed.
Print Assumptions C115_can_end.

Definition case_items : list StrSpec.item := [StrSpec.Words (B "> "); StrSpec.Slot (B "message") None].
Lemma case_suits e m sev ts tid a : m <> [] ->
  Forall (StrSpec.item_suits (fun _ => false) (severity_names no_dbl None)
    (srecord_of e {| r_message := m; r_formatted := m; r_severity := sev; r_timestamp := ts; r_tid := tid; r_attributes := a |})) case_items.
Proof.
  intros M. unfold case_items. repeat (apply Forall_cons; [cbn [StrSpec.item_suits]|]); try apply Forall_nil; try exact I.
  change (StrSpec.suits_text None /\ StrSpec.good_view (view_of m)). split; [split; [exact I|left; reflexivity]|].
  exists (m ++ [NUL]). split; [reflexivity|]. unfold view_of. cbn [StrModel.v_size]. unfold FmtModel.length_N. split; [rewrite app_length; lia|].
  destruct m; [contradiction|]. cbn [length]. lia.
Qed.
Lemma case_async path : sink_config (async path) (SAsynchronous (SFile (B path) plain_file) four).
Proof.
  apply (config_asynchronous (async path) (obj [(B "type", str "file"); (B "path", str path)]) _ 2 (B "wait")); try (apply walk_found; reflexivity); try lia.
  - apply config_file; try (apply walk_found; reflexivity); left; (split; [apply walk_not_found; reflexivity|reflexivity]).
  - right. split; reflexivity.
Qed.
Lemma case_config : logger_config (fun _ => false) true case_document (B "root") case_handlers.
Proof.
  eexists. split; [apply walk_found; reflexivity|]. constructor; [|constructor; [|constructor; [|constructor]]].
  - eexists. exists (FTskv (TskvModel.build tskv_calls)). eexists. eexists. split; [right; apply walk_not_found; reflexivity|].
    split; [apply walk_found; reflexivity|]. split.
    { left. split; [apply walk_found; reflexivity|]. exists (TskvModel.build tskv_calls). split; [|reflexivity].
      exists [TskvModel.Create (B "app") (B "x")], [TskvModel.Rename (B "message") (B "text")], [TskvModel.Remove (B "pid")], [].
      split; [right; eexists; split; [apply walk_found; reflexivity|constructor; [eexists; split; reflexivity|constructor]]|].
      split; [right; eexists; split; [apply walk_found; reflexivity|constructor; [eexists; split; reflexivity|constructor]]|].
      split; [right; eexists; split; [apply walk_found; reflexivity|constructor; [eexists; split; reflexivity|constructor]]|].
      split; [left; split; [apply walk_not_found; reflexivity|reflexivity]|reflexivity]. }
    split; [apply walk_found; reflexivity|]. split; [|reflexivity]. constructor; [apply case_async|constructor].
  - eexists. exists (FJson (JsonFmtModel.build json_calls)). eexists. eexists. split; [right; apply walk_not_found; reflexivity|].
    split; [apply walk_found; reflexivity|]. split.
    { right. left. split; [apply walk_found; reflexivity|]. exists (JsonFmtModel.build json_calls). split; [|reflexivity].
      exists [], [], [], [], json_calls, [].
      do 4 (split; [left; split; [apply walk_not_found; reflexivity|reflexivity]|]).
      split; [right; eexists; split; [apply walk_found; reflexivity|constructor; [right; exists [B "id"]; split; reflexivity|constructor]]|].
      split; [left; split; [apply walk_not_found; reflexivity|reflexivity]|reflexivity]. }
    split; [apply walk_found; reflexivity|]. split; [|reflexivity]. constructor; [apply case_async|constructor].
  - eexists. exists (FString case_tokens None). eexists. eexists. split; [right; apply walk_not_found; reflexivity|].
    split; [apply walk_found; reflexivity|]. split.
    { right. right. split; [apply walk_found; reflexivity|]. exists (B "> {message}"), case_tokens, None. split; [apply walk_found; reflexivity|].
      split; [vm_compute; reflexivity|]. split; [left; split; [apply walk_not_found; reflexivity|reflexivity]|reflexivity]. }
    split; [apply walk_found; reflexivity|]. split; [|reflexivity]. constructor; [apply case_async|constructor].
Qed.
Lemma clear_check s : existsb (Ascii.eqb NUL) s = false -> ~ In NUL s.
Proof. intros E H. assert (existsb (Ascii.eqb NUL) s = true) by (apply existsb_exists; exists NUL; split; [exact H|reflexivity]). congruence. Qed.

(** With [C113_case]. *)
Example C115_case : clean case_document /\ no_nul (B "root") /\ logger_config (fun _ => false) true case_document (B "root") case_handlers /\
  StrSpec.pattern_ok case_items /\ ParserModel.tokenize (fun _ => false) true (StrSpec.pattern_text case_items) = Some (ParserModel.Tokens case_tokens) /\
  nth_error case_handlers 2 = Some (HBlocking (FString case_tokens None) [SAsynchronous (SFile (B "/s") plain_file) four]) /\
  only_file (map strip case_handlers) (B "/s") 2 0 /\ patient case_handlers 2 0 /\ in_time 2 0 case_trace /\ FileSinkSpec.fs_ok (w_files case_world (B "/s")) /\
  (forall calls cl now, In calls case_programs -> In cl calls -> exists r, record_of (stamp cl now) r /\
     Forall (StrSpec.item_suits (fun _ => false) (severity_names no_dbl None) (srecord_of (c_env cl) r)) case_items) /\
  content (w_files (close_all (g_world case_state) (g_sinks case_state)) (B "/s")) =
    B "> " ++ forged ++ NL :: B "> two" ++ NL :: B "> three" ++ [NL].
Proof.
  split; [apply clean_ok_clean; reflexivity|]. split; [apply clear_check; reflexivity|]. split; [exact case_config|].
  split; [|split; [vm_compute; reflexivity|split; [reflexivity|split; [exact (case_only 2)|split; [repeat constructor|split; [apply in_time_check; vm_compute; reflexivity|split; [intros f E; discriminate E|split]]]]]]].
  - split; [|cbn; repeat split; auto; discriminate]. unfold case_items.
    repeat (apply Forall_cons; [cbn [StrSpec.item_ok]|]); try apply Forall_nil; try discriminate; apply ParserSubProofs.name_ok; reflexivity.
  - intros calls cl now [<-|[<-|[]]] HI; cbn in HI; repeat (destruct HI as [<-|HI]; [eexists; split; [eexists; split; reflexivity|apply case_suits; discriminate]|]); destruct HI.
  - vm_compute. reflexivity.
Qed.

(** ---- C116 ---- *)

(** C116. Cut the run anywhere, in the midst of calls and with texts still in queues: the file's lines are cut too, so that each thread that is between
    two calls there has the lines of its calls made before in front and those made later behind. So with queues too the line of a call that returned
    before another one began is in front of the line of that. *)
Theorem C116_returned_first : forall dbl dbl_json double_of what json_fmt hs ws w programs, start_handlers (map strip hs) = Some ws ->
  forall s1 s2 s tr p c i j x f, run dbl dbl_json double_of what json_fmt (initial w hs ws programs) (s1 ++ s2) = Some (s, tr) ->
  destroyed s -> patient hs i j -> in_time i j tr ->
  sink_at hs i j x -> core x = SFile p c -> only_file (map strip hs) p i j -> FileSinkSpec.fs_ok (w_files w p) -> formatter_at hs i f ->
  (forall calls cl, In calls programs -> In cl calls -> exists dev ino spill, q_file (c_circumstances cl i j) = FileSinkSpec.calm dev ino spill) ->
  (forall calls cl now, In calls programs -> In cl calls -> exists text, makes dbl dbl_json double_of what json_fmt f (stamp cl now) text) ->
  (forall j' sev t q b, (j' < j)%nat -> In (Emitted i j' sev t q b) (all_events (own tr)) -> b = false) ->
  exists st1 tr1 tr2 l1 l2, run dbl dbl_json double_of what json_fmt (initial w hs ws programs) s1 = Some (st1, tr1) /\
    run dbl dbl_json double_of what json_fmt st1 s2 = Some (s, tr2) /\ tr = tr1 ++ tr2 /\
    content (w_files (close_all (g_world s) (g_sinks s)) p) =
      content (w_files w p) ++ concat (map (fun x => snd x ++ [chr 10]) l1) ++ concat (map (fun x => snd x ++ [chr 10]) l2) /\
    forall t calls rest, nth_error programs t = Some calls -> nth_error (g_threads st1) t = Some (QThread rest QIdle) ->
      exists done cs1 cs2, calls = done ++ rest /\ made_at done (times t (own tr1)) cs1 /\ made_at rest (times t (own tr2)) cs2 /\
        Forall2 (makes dbl dbl_json double_of what json_fmt f) cs1 (texts_of t l1) /\
        Forall2 (makes dbl dbl_json double_of what json_fmt f) cs2 (texts_of t l2).
Proof. exact queued_first. Qed.
Print Assumptions C116_returned_first.

(** The hypotheses are those of C113 to C115. At this cut of the schedule both threads have returned from their first calls, but nothing is in the third file. *)
Example C116_case : case_schedule = case_first ++ case_second /\
  exists st1 tr1, runs case_first = Some (st1, tr1) /\
    g_threads st1 = [QThread [case_call (B "three") [(B "id", VInt 3)]] QIdle; QThread [] QIdle] /\
    content (w_files (close_all (g_world st1) (g_sinks st1)) (B "/s")) = [] /\ gave 2 0 tr1 = [(0%nat, (0%Z, B "> " ++ forged)); (1%nat, (0%Z, B "> two"))].
Proof.
  split; [reflexivity|]. exists (fst (after (runs case_first))), (snd (after (runs case_first))). split; [seen_to_end|]. vm_compute. split; [reflexivity|]. split; reflexivity.
Qed.
