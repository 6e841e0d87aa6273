(** C95-C97: several threads that use one configured logger. *)
From Verif Require Import Base Values RootModel FactoriesModel SystemModel SystemSpec SystemProofs ThreadsModel ThreadsSpec ThreadsProofs.
From Verif Require FmtModel ParserModel FileSinkModel FileSinkSpec FlusherModel TcpModel TcpSpec.

(** ---- C95 ---- *)

(** C95. Whatever the other threads do meanwhile, and in whatever order the threads run: what a thread between two calls has done is, call
    after call, what C92 says of one thread alone. *)
Theorem C95_routes : forall dbl dbl_json double_of what json_fmt hs ws w programs schedule w' ws' ts' tr, start_handlers hs = Some ws ->
  run dbl dbl_json double_of what json_fmt w ws (map fresh programs) schedule = Some (w', ws', ts', tr) ->
  forall t calls rest, nth_error programs t = Some calls -> nth_error ts' t = Some (Thread rest Idle) ->
  exists done cs blocks, calls = done ++ rest /\ made_at done (times t tr) cs /\
    Forall2 (called dbl dbl_json double_of what json_fmt hs) cs blocks /\ by_thread t tr = concat blocks.
Proof. exact threads_routes. Qed.
Print Assumptions C95_routes.

(** C95. No order leads to anything undefined if the formatters do nothing undefined and make texts shorter than 2 GiB. *)
Theorem C95_defined : forall dbl dbl_json double_of what json_fmt hs ws w programs schedule, start_handlers hs = Some ws ->
  (forall calls c now r f i, In calls programs -> In c calls -> record_of (stamp c now) r -> formatter_at hs i f ->
     match render dbl dbl_json double_of what json_fmt f (c_env c) r with
     | Text t => (Z.of_nat (length t) < 2 ^ 31)%Z | Raises _ => True | SystemModel.Undefined => False end) ->
  exists w' ws' ts' tr, run dbl dbl_json double_of what json_fmt w ws (map fresh programs) schedule = Some (w', ws', ts', tr).
Proof. exact threads_defined. Qed.
Print Assumptions C95_defined.

(** C95. There is a number of steps after which a thread has made all its calls, however slow the others are. *)
Theorem C95_ends : forall dbl dbl_json double_of what json_fmt ws programs, exists n, forall w schedule w' ws' ts' tr,
  run dbl dbl_json double_of what json_fmt w ws (map fresh programs) schedule = Some (w', ws', ts', tr) ->
  (forall t, (t < length programs)%nat -> (n <= count_occ Nat.eq_dec (map fst schedule) t)%nat) -> all_done ts'.
Proof. exact threads_end. Qed.
Print Assumptions C95_ends.

(** Two threads, of which the second logs once and the first twice; two files and a console; the second handler lacks an attribute in the
    first thread's first call. *)
Definition plain_file : FileSinkModel.config := FileSinkModel.Config false (FlusherModel.FRepeat (FlusherModel.repeat_new 0)).
Definition case_handlers : list FactoriesModel.handler :=
  [HBlocking (FString [ParserModel.TMessage (B "{}")] None) [SFile (B "/a") plain_file; SFile (B "/b") plain_file; SUdp (B "u") 90];
   HBlocking (FString [ParserModel.TRequired (B "id") (B "{}")] None) [SConsole None; STcp (B "h") 80; SSyslog [7%Z]]].
Definition case_env : surroundings := Env 1 2 (B "p") None (fun _ _ _ => B "now") (fun _ _ => B "now") [] true (B "?").
Definition case_circ : circumstances :=
  Circ (FileSinkSpec.calm 1 2 1) (TcpModel.Circ (Some [(0%nat, true)]) None) true (B "refused").
Definition case_call (m : bytes) (a : list (bytes * value)) : call :=
  Call 0 m [a] [] (RootModel.Ret RootModel.SNull) 3 0 case_env (fun _ _ => case_circ).
Definition case_programs : list (list call) :=
  [[case_call (B "one") []; case_call (B "three") [(B "id", VInt 3)]]; [case_call (B "two") [(B "id", VInt 2)]]].
Definition empty_fs : FileSinkModel.fs := FileSinkModel.FS None (fun _ => []) (fun _ => 0%N) (fun _ => 0%N) 0.
Definition case_world : world := World (fun _ => empty_fs) [] [] [] [].
Definition case_started : list (formatter * list live) := match start_handlers case_handlers with Some ws => ws | None => [] end.
Definition no_dbl : FmtModel.spec -> N -> bytes := fun _ _ => [].
Definition at_times (t : nat) (l : list Z) : list (nat * Z) := map (fun z => (t, z)) l.
(** The first thread begins first, but is overtaken before its first sink, and overtakes again before the second; the line of the console
    comes into the first thread's complaint. *)
Definition case_schedule : list (nat * Z) :=
  at_times 0 [1; 2]%Z ++ at_times 1 [3; 4; 5]%Z ++ at_times 0 [6; 7; 8; 9; 10; 11]%Z ++ at_times 1 [12; 13; 14; 15; 16; 17; 18]%Z ++
  at_times 0 (map Z.of_nat (seq 19 30)) ++ at_times 1 (map Z.of_nat (seq 49 10)).
Definition case_run := run no_dbl (fun _ => []) (fun _ => 0%N) (fun _ => []) (fun _ _ => None) case_world case_started (map fresh case_programs) case_schedule.
Definition case_after : world * list (formatter * list live) * list thread * list happening :=
  match case_run with Some x => x | None => (case_world, [], [], []) end.

Example C95_case : start_handlers case_handlers = Some case_started /\ case_run = Some case_after /\ all_done (snd (fst case_after)) /\
  times 0 (snd case_after) = [1; 23]%Z /\ times 1 (snd case_after) = [3%Z] /\
  by_thread 1 (snd case_after) =
    [Emitted 0 0 0 (B "two") case_circ false; Emitted 0 1 0 (B "two") case_circ false; Emitted 0 2 0 (B "two") case_circ false;
     Emitted 1 0 0 (B "2") case_circ false; Emitted 1 1 0 (B "2") case_circ false; Emitted 1 2 0 (B "2") case_circ false].
Proof.
  split; [reflexivity|]. split; [|split].
  - assert (E : match case_run with Some _ => true | None => false end = true) by (vm_compute; reflexivity).
    unfold case_after. destruct case_run; [reflexivity|discriminate E].
  - assert (E : forallb (fun x => match t_calls x, t_stage x with [], Idle => true | _, _ => false end) (snd (fst case_after)) = true) by (vm_compute; reflexivity).
    rewrite forallb_forall in E. apply Forall_forall. intros x Hx. specialize (E x Hx). destruct (t_calls x), (t_stage x); try discriminate E. split; reflexivity.
  - vm_compute. repeat split; reflexivity.
Qed.

(** ---- C96 ---- *)

(** C96. The file of a sink whose path no other sink has, when nothing fails and nobody else interferes, is after the destruction of the
    logger what it was before and the whole lines of all calls of all threads, those of each thread in the thread's order. *)
Theorem C96_file : forall dbl dbl_json double_of what json_fmt hs ws w programs schedule w' ws' ts' tr p c i j f, start_handlers hs = Some ws ->
  run dbl dbl_json double_of what json_fmt w ws (map fresh programs) schedule = Some (w', ws', ts', tr) -> all_done ts' ->
  sink_at hs i j (SFile p c) -> only_file hs p i j -> FileSinkSpec.fs_ok (w_files w p) -> formatter_at hs i f ->
  (forall calls cl, In calls programs -> In cl calls -> exists dev ino spill, q_file (c_circumstances cl i j) = FileSinkSpec.calm dev ino spill) ->
  (forall calls cl now, In calls programs -> In cl calls -> exists text, makes dbl dbl_json double_of what json_fmt f (stamp cl now) text) ->
  (forall j' sev t q b, (j' < j)%nat -> In (Emitted i j' sev t q b) (all_events tr) -> b = false) ->
  exists lines, content (w_files (close_all w' ws') p) = content (w_files w p) ++ concat (map (fun x => snd x ++ [chr 10]) lines) /\
    Forall (fun x => fst x < length programs)%nat lines /\
    forall t calls, nth_error programs t = Some calls ->
      exists cs, made_at calls (times t tr) cs /\ Forall2 (makes dbl dbl_json double_of what json_fmt f) cs (texts_of t lines).
Proof. exact threads_file. Qed.
Print Assumptions C96_file.

(** C96. On the standard output the line of a console sink is in one piece; of what is shown of one thread nothing is missing, changed or out of order
    (the complaints of different threads may be mixed: see C55). *)
Theorem C96_stdout : forall dbl dbl_json double_of what json_fmt hs ws w programs schedule w' ws' ts' tr, start_handlers hs = Some ws ->
  run dbl dbl_json double_of what json_fmt w ws (map fresh programs) schedule = Some (w', ws', ts', tr) ->
  w_stdout w' = w_stdout w ++ flat_map (shown hs) tr /\
  forall t rest, nth_error ts' t = Some (Thread rest Idle) ->
    flat_map (shown hs) (filter (is_of t) tr) = flat_map (on_stdout hs) (by_thread t tr).
Proof. exact threads_stdout. Qed.
Print Assumptions C96_stdout.

(** C96. One datagram per text. *)
Theorem C96_datagrams : forall dbl dbl_json double_of what json_fmt hs ws w programs schedule w' ws' ts' tr, start_handlers hs = Some ws ->
  run dbl dbl_json double_of what json_fmt w ws (map fresh programs) schedule = Some (w', ws', ts', tr) ->
  w_datagrams w' = w_datagrams w ++ flat_map (on_network hs) (all_events tr).
Proof. exact threads_datagrams. Qed.
Print Assumptions C96_datagrams.

(** C96. The system log gets each text up to a NUL with the priority of its severity. *)
Theorem C96_syslog : forall dbl dbl_json double_of what json_fmt hs ws w programs schedule w' ws' ts' tr, start_handlers hs = Some ws ->
  run dbl dbl_json double_of what json_fmt w ws (map fresh programs) schedule = Some (w', ws', ts', tr) ->
  Forall text_fits (all_events tr) -> (forall i j l, sink_at hs i j (SSyslog l) -> (Z.of_nat (length l) < 2 ^ 63)%Z) ->
  w_syslog w' = w_syslog w ++ flat_map (in_syslog hs) (all_events tr).
Proof. exact threads_syslog. Qed.
Print Assumptions C96_syslog.

(** C96. What is sent over the connections of a TCP sink with an address of its own is the texts it did not throw at, whole and in order. *)
Theorem C96_tcp : forall dbl dbl_json double_of what json_fmt hs ws w programs schedule w' ws' ts' tr h p i j, start_handlers hs = Some ws ->
  run dbl dbl_json double_of what json_fmt w ws (map fresh programs) schedule = Some (w', ws', ts', tr) ->
  sink_at hs i j (STcp h p) -> only_tcp hs h p i j ->
  exists new, connections h p (w_tcp w') = connections h p (w_tcp w) ++ new /\ TcpSpec.delivered new = taken i j (all_events tr).
Proof. exact threads_tcp. Qed.
Print Assumptions C96_tcp.

Lemma case_makes m a now text : render no_dbl (fun _ => []) (fun _ => 0%N) (fun _ => []) (fun _ _ => None)
    (FString [ParserModel.TMessage (B "{}")] None) case_env (activate (record_new 0 m 3 [a]) RootModel.SNull now) = Text text ->
  exists text, makes no_dbl (fun _ => []) (fun _ => 0%N) (fun _ => []) (fun _ _ => None) (FString [ParserModel.TMessage (B "{}")] None) (stamp (case_call m a) now) text.
Proof. intros E. exists text. eexists. split; [eexists; split; reflexivity|exact E]. Qed.
Lemma case_only p j : (p = B "/a" /\ j = 0%nat) \/ (p = B "/b" /\ j = 1%nat) -> only_file case_handlers p 0 j.
Proof.
  intros H i j' c (f & sinks & E1 & E2). destruct i as [|[|i]]; cbn in E1; try discriminate E1.
  - injection E1 as <- <-. destruct H as [[-> ->]|[-> ->]]; destruct j' as [|[|[|j']]]; cbn in E2; try discriminate E2; auto; destruct j'; discriminate E2.
  - injection E1 as <- <-. destruct j' as [|[|[|j']]]; cbn in E2; try discriminate E2. destruct j'; discriminate E2.
  - destruct i; discriminate E1.
Qed.

Example C96_case :
  sink_at case_handlers 0 0 (SFile (B "/a") plain_file) /\ only_file case_handlers (B "/a") 0 0 /\ FileSinkSpec.fs_ok empty_fs /\
  formatter_at case_handlers 0 (FString [ParserModel.TMessage (B "{}")] None) /\
  (forall calls cl, In calls case_programs -> In cl calls -> exists dev ino spill, q_file (c_circumstances cl 0%nat 0%nat) = FileSinkSpec.calm dev ino spill) /\
  (forall calls cl now, In calls case_programs -> In cl calls -> exists text,
     makes no_dbl (fun _ => []) (fun _ => 0%N) (fun _ => []) (fun _ _ => None) (FString [ParserModel.TMessage (B "{}")] None) (stamp cl now) text) /\
  Forall text_fits (all_events (snd case_after)) /\
  let w := close_all (fst (fst (fst case_after))) (snd (fst (fst case_after))) in
  content (w_files w (B "/a")) = B "two" ++ [NL] ++ B "one" ++ [NL] ++ B "three" ++ [NL] /\
  w_stdout w = B "logging core error occurred: " ++ B "2" ++ [NL] ++ B "required attribute 'id' not found" ++ [NL] ++ B "3" ++ [NL] /\
  w_datagrams w = [(B "u", 90%N, B "one"); (B "u", 90%N, B "two"); (B "u", 90%N, B "three")] /\
  w_syslog w = [(7%Z, B "2"); (7%Z, B "3")] /\
  TcpSpec.delivered (connections (B "h") 80 (w_tcp w)) = [B "2"; B "3"].
Proof.
  split; [eexists; eexists; split; reflexivity|]. split; [apply case_only; auto|]. split; [intros f E; discriminate E|]. split; [eexists; reflexivity|].
  split; [|split; [|split]].
  - intros calls cl [<-|[<-|[]]] HI; cbn in HI; repeat (destruct HI as [<-|HI]; [repeat eexists|]); destruct HI.
  - intros calls cl now [<-|[<-|[]]] HI; cbn in HI.
    + destruct HI as [<-|[<-|[]]]; [apply case_makes with (text := B "one")|apply case_makes with (text := B "three")]; vm_compute; reflexivity.
    + destruct HI as [<-|[]]. apply case_makes with (text := B "two"). vm_compute; reflexivity.
  - assert (E : forall l, forallb (fun e => match e with Emitted _ _ s t _ _ => (Z.of_nat (length t) <? 2 ^ 31)%Z && (- 2 ^ 31 <=? s)%Z && (s <? 2 ^ 31)%Z | _ => true end) l = true -> Forall text_fits l).
    { intros l H. rewrite forallb_forall in H. apply Forall_forall. intros e He. specialize (H e He). destruct e; [|exact I].
      apply andb_prop in H as [H H3]. apply andb_prop in H as [H1 H2]. cbn. lia. }
    apply E. vm_compute. reflexivity.
  - vm_compute. repeat split; reflexivity.
Qed.

(** ---- C97 ---- *)

(** C97. Cut the run anywhere: the file's lines are cut too, so that each thread that is between two calls there has the lines of its calls made before in
    front and those made later behind. So the line of a call that returned before another one began is in front of the line of that. *)
Theorem C97_returned_first : forall dbl dbl_json double_of what json_fmt hs ws w programs s1 s2 w' ws' ts' tr p c i j f, start_handlers hs = Some ws ->
  run dbl dbl_json double_of what json_fmt w ws (map fresh programs) (s1 ++ s2) = Some (w', ws', ts', tr) -> all_done ts' ->
  sink_at hs i j (SFile p c) -> only_file hs p i j -> FileSinkSpec.fs_ok (w_files w p) -> formatter_at hs i f ->
  (forall calls cl, In calls programs -> In cl calls -> exists dev ino spill, q_file (c_circumstances cl i j) = FileSinkSpec.calm dev ino spill) ->
  (forall calls cl now, In calls programs -> In cl calls -> exists text, makes dbl dbl_json double_of what json_fmt f (stamp cl now) text) ->
  (forall j' sev t q b, (j' < j)%nat -> In (Emitted i j' sev t q b) (all_events tr) -> b = false) ->
  exists w1 ws1 ts1 tr1 l1 l2, run dbl dbl_json double_of what json_fmt w ws (map fresh programs) s1 = Some (w1, ws1, ts1, tr1) /\
    content (w_files (close_all w' ws') p) =
      content (w_files w p) ++ concat (map (fun x => snd x ++ [chr 10]) l1) ++ concat (map (fun x => snd x ++ [chr 10]) l2) /\
    forall t calls rest, nth_error programs t = Some calls -> nth_error ts1 t = Some (Thread rest Idle) ->
      exists done nows1 nows2 cs1 cs2, calls = done ++ rest /\ made_at done nows1 cs1 /\ made_at rest nows2 cs2 /\
        Forall2 (makes dbl dbl_json double_of what json_fmt f) cs1 (texts_of t l1) /\
        Forall2 (makes dbl dbl_json double_of what json_fmt f) cs2 (texts_of t l2).
Proof. exact threads_first. Qed.
Print Assumptions C97_returned_first.

(** The hypotheses are those of C96_file: see [C96_case]. At this cut of its schedule the first thread has made its first call and the second is in its only one. *)
Definition cut : option (world * list (formatter * list live) * list thread * list happening) :=
  run no_dbl (fun _ => []) (fun _ => 0%N) (fun _ => []) (fun _ _ => None) case_world case_started (map fresh case_programs) (firstn 22 case_schedule).
Example C97_case : case_schedule = firstn 22 case_schedule ++ skipn 22 case_schedule /\
  match cut with
  | Some (_, _, [x; y], _) => x = Thread [case_call (B "three") [(B "id", VInt 3)]] Idle /\ t_calls y = [] /\ t_stage y <> Idle
  | _ => False
  end.
Proof. split; [vm_compute; reflexivity|]. vm_compute. split; [reflexivity|]. split; [reflexivity|discriminate]. Qed.

(** C97, false of the sinks together: two files that get the texts of the same records, without any failure, have them in different orders. *)
Theorem C97_one_order_refuted : exists hs ws w programs schedule w' ws' ts' tr f c, start_handlers hs = Some ws /\
  hs = [HBlocking f [SFile (B "/a") c; SFile (B "/b") c]] /\
  (forall dbl dbl_json double_of what json_fmt,
     run dbl dbl_json double_of what json_fmt w ws (map fresh programs) schedule = Some (w', ws', ts', tr)) /\ all_done ts' /\
  (forall calls cl i j, In calls programs -> In cl calls -> exists dev ino spill, q_file (c_circumstances cl i j) = FileSinkSpec.calm dev ino spill) /\
  content (w_files (close_all w' ws') (B "/a")) = B "two" ++ [NL] ++ B "one" ++ [NL] /\
  content (w_files (close_all w' ws') (B "/b")) = B "one" ++ [NL] ++ B "two" ++ [NL].
Proof.
  pose (f := FString [ParserModel.TMessage (B "{}")] None).
  pose (hs := [HBlocking f [SFile (B "/a") plain_file; SFile (B "/b") plain_file]]).
  pose (ws := match start_handlers hs with Some ws => ws | None => [] end).
  pose (programs := [[case_call (B "one") []]; [case_call (B "two") []]]).
  pose (schedule := at_times 0 [1; 2]%Z ++ at_times 1 [3; 4; 5]%Z ++ at_times 0 [6; 7; 8; 9; 10]%Z ++ at_times 1 [11; 12; 13; 14]%Z).
  pose (r := match run no_dbl (fun _ => []) (fun _ => 0%N) (fun _ => []) (fun _ _ => None) case_world ws (map fresh programs) schedule with Some x => x | None => (case_world, [], [], []) end).
  exists hs, ws, case_world, programs, schedule, (fst (fst (fst r))), (snd (fst (fst r))), (snd (fst r)), (snd r), f, plain_file.
  split; [reflexivity|]. split; [reflexivity|]. split; [intros; reflexivity|]. split; [repeat constructor|]. split.
  - intros calls cl i j [<-|[<-|[]]] HI; cbn in HI; destruct HI as [<-|[]]; repeat eexists.
  - vm_compute. split; reflexivity.
Qed.
Print Assumptions C97_one_order_refuted.

(** C97, false of the time stamps: though the clock never goes back, a line with a later time is in front of one with an earlier time. *)
Theorem C97_time_order_refuted : exists hs ws w programs schedule w' ws' ts' tr f c, start_handlers hs = Some ws /\
  hs = [HBlocking f [SFile (B "/a") c]] /\ Sorted.Sorted Z.le (map snd schedule) /\
  (forall dbl dbl_json double_of what json_fmt,
     run dbl dbl_json double_of what json_fmt w ws (map fresh programs) schedule = Some (w', ws', ts', tr)) /\ all_done ts' /\
  (forall calls cl i j, In calls programs -> In cl calls -> exists dev ino spill, q_file (c_circumstances cl i j) = FileSinkSpec.calm dev ino spill) /\
  map (map c_pattern) programs = [[B "one"]; [B "two"]] /\ times 0 tr = [1%Z] /\ times 1 tr = [3%Z] /\
  content (w_files (close_all w' ws') (B "/a")) = B "two" ++ [NL] ++ B "one" ++ [NL].
Proof.
  pose (f := FString [ParserModel.TMessage (B "{}")] None).
  pose (hs := [HBlocking f [SFile (B "/a") plain_file]]).
  pose (ws := match start_handlers hs with Some ws => ws | None => [] end).
  pose (programs := [[case_call (B "one") []]; [case_call (B "two") []]]).
  pose (schedule := at_times 0 [1; 2]%Z ++ at_times 1 [3; 4; 5; 6; 7]%Z ++ at_times 0 [8; 9; 10]%Z).
  pose (r := match run no_dbl (fun _ => []) (fun _ => 0%N) (fun _ => []) (fun _ _ => None) case_world ws (map fresh programs) schedule with Some x => x | None => (case_world, [], [], []) end).
  exists hs, ws, case_world, programs, schedule, (fst (fst (fst r))), (snd (fst (fst r))), (snd (fst r)), (snd r), f, plain_file.
  split; [reflexivity|]. split; [reflexivity|]. split; [cbn; repeat constructor; lia|]. split; [intros; reflexivity|]. split; [repeat constructor|]. split.
  - intros calls cl i j [<-|[<-|[]]] HI; cbn in HI; destruct HI as [<-|[]]; repeat eexists.
  - vm_compute. repeat split; reflexivity.
Qed.
Print Assumptions C97_time_order_refuted.
