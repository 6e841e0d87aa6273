(** C109-C112: several threads that use one configured logger with asynchronous sinks. *)
From Verif Require Import Base Values RootModel FactoriesModel SystemModel SystemSpec SystemProofs ThreadsModel ThreadsSpec ThreadsProofs.
From Verif Require Import QueuedModel QueuedSpec QueuedProofs QueuedSubProofs QueuedMoreProofs QueuedEndProofs QueuedWorldProofs QueuedDefinedProofs QueuedLivenessProofs.
From Verif Require FmtModel ParserModel FileSinkModel FileSinkSpec FlusherModel TcpModel TcpSpec AsyncModel AsyncSpec.
From Coq Require Permutation.

(** ---- C109 ---- *)

(** C109. Any configured logger can be started: behind the queues of each sink there is a sink that is not asynchronous. *)
Theorem C109_starts : forall hs, exists ws, start_handlers (map strip hs) = Some ws.
Proof. exact queued_starts. Qed.
Print Assumptions C109_starts.

(** C109. At every moment a sink has the queues its configuration nests, the outermost first, in front of the sink that is innermost there. *)
Theorem C109_queues : forall dbl dbl_json double_of what json_fmt hs ws w programs sched s tr, start_handlers (map strip hs) = Some ws ->
  run dbl dbl_json double_of what json_fmt (initial w hs ws programs) sched = Some (s, tr) ->
  forall i j x, sink_at hs i j x -> exists cs y, behind x cs y /\ map l_config (g_queues s i j) = cs /\ sink_at (map strip hs) i j y.
Proof. exact queues_kept. Qed.
Print Assumptions C109_queues.
Example C109_queues_case : behind (SAsynchronous (SAsynchronous SNull (AsyncModel.Config 8 AsyncModel.Drop)) (AsyncModel.Config 4 AsyncModel.Wait))
  [AsyncModel.Config 4 AsyncModel.Wait; AsyncModel.Config 8 AsyncModel.Drop] SNull.
Proof. repeat apply behind_queue. apply behind_none. discriminate. Qed.

(** C109. Whatever the workers, the other threads and the destructor do meanwhile: what a thread between two calls has done is, call after call, what C92
    says of one thread alone; an asynchronous sink has a text when its emit has returned. *)
Theorem C109_routes : forall dbl dbl_json double_of what json_fmt hs ws w programs sched s tr, start_handlers (map strip hs) = Some ws ->
  run dbl dbl_json double_of what json_fmt (initial w hs ws programs) sched = Some (s, tr) ->
  forall t calls rest, nth_error programs t = Some calls -> nth_error (g_threads s) t = Some (QThread rest QIdle) ->
  exists done cs blocks, calls = done ++ rest /\ made_at done (times t (own tr)) cs /\
    Forall2 (called dbl dbl_json double_of what json_fmt hs) cs blocks /\ by_thread t (own tr) = concat blocks.
Proof. exact queued_routes. Qed.
Print Assumptions C109_routes.

(** C109. The emit of an asynchronous sink throws nothing, whatever happens at the end of its queues. *)
Theorem C109_never_throws : forall dbl dbl_json double_of what json_fmt hs ws w programs sched s tr, start_handlers (map strip hs) = Some ws ->
  run dbl dbl_json double_of what json_fmt (initial w hs ws programs) sched = Some (s, tr) ->
  forall t i j sev text q, In (Own (Did t (Emitted i j sev text q true))) tr -> layers_at hs i j = [].
Proof. exact queued_never_throws. Qed.
Print Assumptions C109_never_throws.

(** C109. No order of the threads, the workers and the destructor leads to anything undefined if the formatters do nothing undefined and make texts
    shorter than 2 GiB. *)
Theorem C109_defined : forall dbl dbl_json double_of what json_fmt hs ws w programs sched, start_handlers (map strip hs) = Some ws ->
  (forall calls c now r f i, In calls programs -> In c calls -> record_of (stamp c now) r -> formatter_at hs i f ->
     match render dbl dbl_json double_of what json_fmt f (c_env c) r with
     | Text t => (Z.of_nat (length t) < 2 ^ 31)%Z | Raises _ => True | SystemModel.Undefined => False end) ->
  exists s tr, run dbl dbl_json double_of what json_fmt (initial w hs ws programs) sched = Some (s, tr).
Proof. exact queued_defined. Qed.
Print Assumptions C109_defined.

(** Two threads, of which the first logs twice and the second once; a file behind two queues, a console, and a network address, a connection
    and the system log behind a queue each, of which the first drops; the second handler lacks an attribute in the first thread's first call. *)
Definition plain_file : FileSinkModel.config := FileSinkModel.Config false (FlusherModel.FRepeat (FlusherModel.repeat_new 0)).
Definition waits (n : nat) : AsyncModel.config := AsyncModel.Config n AsyncModel.Wait.
Definition drops (n : nat) : AsyncModel.config := AsyncModel.Config n AsyncModel.Drop.
Definition message : formatter := FString [ParserModel.TMessage (B "{}")] None.
Definition case_handlers : list FactoriesModel.handler :=
  [HBlocking message [SAsynchronous (SAsynchronous (SFile (B "/a") plain_file) (waits 4)) (waits 1); SConsole None];
   HBlocking (FString [ParserModel.TRequired (B "id") (B "{}")] None)
     [SAsynchronous (SUdp (B "u") 90) (drops 1); SAsynchronous (STcp (B "h") 80) (waits 2); SAsynchronous (SSyslog [7%Z]) (waits 2)]].
Definition case_env : surroundings := Env 1 2 (B "p") None (fun _ _ _ => B "now") (fun _ _ => B "now") [] true (B "?").
Definition case_circ : circumstances :=
  Circ (FileSinkSpec.calm 1 2 1) (TcpModel.Circ (Some [(0%nat, true)]) None) true (B "refused").
Definition case_call (m : bytes) (a : list (bytes * value)) : call :=
  Call 0 m [a] [] (RootModel.Ret RootModel.SNull) 3 0 case_env (fun _ _ => case_circ).
Definition case_programs : list (list call) :=
  [[case_call (B "one") []; case_call (B "three") [(B "id", VInt 3)]]; [case_call (B "two") [(B "id", VInt 2)]]].
Definition empty_fs : FileSinkModel.fs := FileSinkModel.FS None (fun _ => []) (fun _ => 0%N) (fun _ => 0%N) 0.
Definition case_world : world := World (fun _ => empty_fs) [] [] [] [].
Definition case_started : list (formatter * list live) := match start_handlers (map strip case_handlers) with Some ws => ws | None => [] end.
Definition no_dbl : FmtModel.spec -> N -> bytes := fun _ _ => [].
Definition case_workers : list action := [Worker 0 0 0; Worker 0 0 1; Worker 1 0 0; Worker 1 1 0; Worker 1 2 0].
(** The threads run in turn while no worker does, until both wait for the file's first queue; then all run; then the destructor does. *)
Definition case_schedule : list action :=
  concat (map (fun z => [User 0 (Z.of_nat z); User 1 (Z.of_nat z)]) (seq 1 20)) ++
  concat (map (fun z => [User 0 (Z.of_nat z); User 1 (Z.of_nat z); Worker 0 0 0]) (seq 21 25)) ++
  concat (map (fun z => [User 0 (Z.of_nat z); User 1 (Z.of_nat z); Worker 0 0 0; Worker 1 1 0]) (seq 46 25)) ++
  concat (repeat case_workers 20) ++ concat (repeat (Destroyer :: case_workers) 60).
Definition runs hs ws programs sched := run no_dbl (fun _ => []) (fun _ => 0%N) (fun _ => []) (fun _ _ => None) (initial case_world hs ws programs) sched.
Definition case_run := runs case_handlers case_started case_programs case_schedule.
Definition nowhere : state := State case_world [] (fun _ _ => []) [] [] true.
Definition after (r : option (state * list happening)) : state * list happening := match r with Some x => x | None => (nowhere, []) end.
Definition case_state : state := fst (after case_run).
Definition case_trace : list happening := snd (after case_run).

Ltac seen_to_end := match goal with |- ?r = Some _ => assert (E : match r with Some _ => true | None => false end = true) by (vm_compute; reflexivity);
  destruct r as [[? ?]|]; [reflexivity|discriminate E] end.
Lemma destroyed_check s : forallb idle (g_threads s) && match g_todo s with [] => true | _ => false end && negb (g_dead s) = true -> destroyed s.
Proof.
  intros H. apply andb_prop in H as [H H3]. apply andb_prop in H as [H1 H2]. split; [|split; [destruct (g_todo s); [reflexivity|discriminate]|destruct (g_dead s); [discriminate|reflexivity]]].
  rewrite forallb_forall in H1. apply Forall_forall. intros x Hx. specialize (H1 x Hx). unfold idle in H1. destruct (q_calls x), (q_stage x); try discriminate H1. split; reflexivity.
Qed.
Lemma in_time_check i j tr :
  (forallb (fun h => match h with Stopping a b _ true n => negb (Nat.eqb a i && Nat.eqb b j) || Nat.eqb n 0 | _ => true end) tr = true) -> in_time i j tr.
Proof.
  intros H k n HI. rewrite forallb_forall in H. specialize (H _ HI). cbn in H. rewrite !Nat.eqb_refl in H. cbn in H. apply Nat.eqb_eq. exact H.
Qed.

Lemma case_ran : case_run = Some (case_state, case_trace).
Proof. unfold case_state, case_trace. seen_to_end. Qed.
Lemma case_sound calls c now r f i : In calls case_programs -> In c calls -> record_of (stamp c now) r -> formatter_at case_handlers i f ->
  match render no_dbl (fun _ => []) (fun _ => 0%N) (fun _ => []) (fun _ _ => None) f (c_env c) r with
  | Text t => (Z.of_nat (length t) < 2 ^ 31)%Z | Raises _ => True | SystemModel.Undefined => False end.
Proof.
  intros HC HI (m & E & ->) (sinks & EF). destruct i as [|[|i]]; [injection EF as <- <-|injection EF as <- <-|destruct i; discriminate EF];
    destruct HC as [<-|[<-|[]]]; repeat (destruct HI as [<-|HI]; [injection E as <-; vm_compute; exact I || reflexivity|]); destruct HI.
Qed.

(** Both threads have made their calls: the first thread's first did not reach the second handler's sinks. *)
Example C109_case : start_handlers (map strip case_handlers) = Some case_started /\ case_run = Some (case_state, case_trace) /\
  (forall calls c now r f i, In calls case_programs -> In c calls -> record_of (stamp c now) r -> formatter_at case_handlers i f ->
     match render no_dbl (fun _ => []) (fun _ => 0%N) (fun _ => []) (fun _ _ => None) f (c_env c) r with
     | Text t => (Z.of_nat (length t) < 2 ^ 31)%Z | Raises _ => True | SystemModel.Undefined => False end) /\
  nth_error (g_threads case_state) 0 = Some (QThread [] QIdle) /\
  by_thread 0 (own case_trace) =
    [Emitted 0 0 0 (B "one") case_circ false; Emitted 0 1 0 (B "one") case_circ false; Complained 1 (StdExn (B "required attribute 'id' not found"));
     Emitted 0 0 0 (B "three") case_circ false; Emitted 0 1 0 (B "three") case_circ false;
     Emitted 1 0 0 (B "3") case_circ false; Emitted 1 1 0 (B "3") case_circ false; Emitted 1 2 0 (B "3") case_circ false].
Proof. split; [reflexivity|]. split; [exact case_ran|]. split; [exact case_sound|]. split; vm_compute; reflexivity. Qed.

(** ---- C110 ---- *)

(** C110. Of what the threads that are between two calls gave to a sink, each text once either reached the sink at the end of the queues, or was
    dropped, or is missing; what is missing is not more than the queues and the workers hold. What reached the sink or is on its way is in
    the order of each thread. Nothing is dropped if all queues wait. *)
Theorem C110_account : forall dbl dbl_json double_of what json_fmt hs ws w programs sched s tr, start_handlers (map strip hs) = Some ws ->
  run dbl dbl_json double_of what json_fmt (initial w hs ws programs) sched = Some (s, tr) ->
  forall i j, exists missing : list parcel, (length missing <= room hs i j)%nat /\
  forall t rest, nth_error (g_threads s) t = Some (QThread rest QIdle) ->
    Permutation.Permutation (from t (gave i j tr)) (from t (reached i j tr ++ dropped i j tr ++ missing)) /\
    AsyncSpec.sub (from t (reached i j tr ++ missing)) (from t (gave i j tr)) /\
    (patient hs i j -> from t (gave i j tr) = from t (reached i j tr ++ missing)).
Proof. exact queued_room. Qed.
Print Assumptions C110_account.

(** C110. After the destruction of the logger nothing is missing behind queues that wait, if no flag was set in the moment C111_lost_refuted
    shows. *)
Theorem C110_all_reach : forall dbl dbl_json double_of what json_fmt hs ws w programs sched s tr, start_handlers (map strip hs) = Some ws ->
  run dbl dbl_json double_of what json_fmt (initial w hs ws programs) sched = Some (s, tr) ->
  forall i j t, destroyed s -> patient hs i j -> in_time i j tr -> (t < length programs)%nat ->
  from t (reached i j tr) = from t (gave i j tr).
Proof. exact destroyed_all. Qed.
Print Assumptions C110_all_reach.

(** The second thread's datagram is dropped; the file gets everything; before that (at the first forty steps) a text is missing, but not
    lost. *)
Example C110_case : destroyed case_state /\ patient case_handlers 0 0 /\ in_time 0 0 case_trace /\ ~ patient case_handlers 1 0 /\
  gave 0 0 case_trace = [(0%nat, (0%Z, B "one")); (0%nat, (0%Z, B "three")); (1%nat, (0%Z, B "two"))] /\
  reached 0 0 case_trace = [(0%nat, (0%Z, B "one")); (0%nat, (0%Z, B "three")); (1%nat, (0%Z, B "two"))] /\
  gave 1 0 case_trace = [(0%nat, (0%Z, B "3")); (1%nat, (0%Z, B "2"))] /\ dropped 1 0 case_trace = [(1%nat, (0%Z, B "2"))] /\
  reached 1 0 case_trace = [(0%nat, (0%Z, B "3"))] /\ room case_handlers 0 0 = 7%nat /\
  exists s tr, runs case_handlers case_started case_programs (firstn 40 case_schedule) = Some (s, tr) /\
    gave 0 0 tr = [(0%nat, (0%Z, B "one"))] /\ reached 0 0 tr = [].
Proof.
  split; [apply destroyed_check; vm_compute; reflexivity|]. split; [repeat constructor|]. split; [apply in_time_check; vm_compute; reflexivity|].
  split; [intros H; inversion H; discriminate|]. do 6 (split; [vm_compute; reflexivity|]).
  set (r := runs case_handlers case_started case_programs (firstn 40 case_schedule)).
  exists (fst (after r)), (snd (after r)). split; [unfold r; seen_to_end|]. split; vm_compute; reflexivity.
Qed.

(** ---- C111 ---- *)

(** C111. The file of a sink behind queues that wait, whose path no other sink has, when nothing fails and nobody else interferes, is after the
    destruction of the logger what it was before and the whole lines of all calls of all threads, those of each thread in the
    thread's order, if no flag was set in the moment C111_lost_refuted shows. *)
Theorem C111_file : forall dbl dbl_json double_of what json_fmt hs ws w programs sched s tr, start_handlers (map strip hs) = Some ws ->
  run dbl dbl_json double_of what json_fmt (initial w hs ws programs) sched = Some (s, tr) ->
  forall p c i j x f, destroyed s -> patient hs i j -> in_time i j tr ->
  sink_at hs i j x -> core x = SFile p c -> only_file (map strip hs) p i j -> FileSinkSpec.fs_ok (w_files w p) -> formatter_at hs i f ->
  (forall calls cl, In calls programs -> In cl calls -> exists dev ino spill, q_file (c_circumstances cl i j) = FileSinkSpec.calm dev ino spill) ->
  (forall calls cl now, In calls programs -> In cl calls -> exists text, makes dbl dbl_json double_of what json_fmt f (stamp cl now) text) ->
  (forall j' sev t q b, (j' < j)%nat -> In (Emitted i j' sev t q b) (all_events (own tr)) -> b = false) ->
  exists lines, content (w_files (close_all (g_world s) (g_sinks s)) p) = content (w_files w p) ++ concat (map (fun x => snd x ++ [chr 10]) lines) /\
    Forall (fun x => fst x < length programs)%nat lines /\
    forall t calls, nth_error programs t = Some calls ->
      exists cs, made_at calls (times t (own tr)) cs /\ Forall2 (makes dbl dbl_json double_of what json_fmt f) cs (texts_of t lines).
Proof. exact queued_file. Qed.
Print Assumptions C111_file.

(** C111. At any time and with any queues: the file has whole lines only, and of a thread that is between two calls those of calls it has made, each
    at most once, in its order. *)
Theorem C111_file_order : forall dbl dbl_json double_of what json_fmt hs ws w programs sched s tr, start_handlers (map strip hs) = Some ws ->
  run dbl dbl_json double_of what json_fmt (initial w hs ws programs) sched = Some (s, tr) ->
  forall p c i j x f t calls rest, sink_at hs i j x -> core x = SFile p c -> only_file (map strip hs) p i j -> FileSinkSpec.fs_ok (w_files w p) -> formatter_at hs i f ->
  (forall calls cl, In calls programs -> In cl calls -> exists dev ino spill, q_file (c_circumstances cl i j) = FileSinkSpec.calm dev ino spill) ->
  (forall calls cl now, In calls programs -> In cl calls -> exists text, makes dbl dbl_json double_of what json_fmt f (stamp cl now) text) ->
  (forall j' sev t q b, (j' < j)%nat -> In (Emitted i j' sev t q b) (all_events (own tr)) -> b = false) ->
  nth_error programs t = Some calls -> nth_error (g_threads s) t = Some (QThread rest QIdle) ->
  exists lines done cs texts, content (w_files (close_all (g_world s) (g_sinks s)) p) = content (w_files w p) ++ concat (map (fun x => snd x ++ [chr 10]) lines) /\
    calls = done ++ rest /\ made_at done (times t (own tr)) cs /\ Forall2 (makes dbl dbl_json double_of what json_fmt f) cs texts /\
    AsyncSpec.sub (texts_of t lines) texts.
Proof. exact queued_file_order. Qed.
Print Assumptions C111_file_order.

(** C111. On the standard output the line of a console sink is in one piece, and it is there when the worker has it; the parts of a thread's complaints are
    in order. *)
Theorem C111_stdout : forall dbl dbl_json double_of what json_fmt hs ws w programs sched s tr, start_handlers (map strip hs) = Some ws ->
  run dbl dbl_json double_of what json_fmt (initial w hs ws programs) sched = Some (s, tr) ->
  w_stdout (g_world s) = w_stdout w ++ flat_map (seen hs) tr /\
  forall t rest, nth_error (g_threads s) t = Some (QThread rest QIdle) -> printed t tr = flat_map complaint (by_thread t (own tr)).
Proof. exact queued_stdout. Qed.
Print Assumptions C111_stdout.

(** C111. One datagram per text that reaches the sink. *)
Theorem C111_datagrams : forall dbl dbl_json double_of what json_fmt hs ws w programs sched s tr, start_handlers (map strip hs) = Some ws ->
  run dbl dbl_json double_of what json_fmt (initial w hs ws programs) sched = Some (s, tr) ->
  w_datagrams (g_world s) = w_datagrams w ++ flat_map (on_network (map strip hs)) (arrivals tr).
Proof. exact queued_datagrams. Qed.
Print Assumptions C111_datagrams.

(** C111. The system log gets each text that reaches the sink up to a NUL with the priority of its severity. *)
Theorem C111_syslog : forall dbl dbl_json double_of what json_fmt hs ws w programs sched s tr, start_handlers (map strip hs) = Some ws ->
  run dbl dbl_json double_of what json_fmt (initial w hs ws programs) sched = Some (s, tr) ->
  Forall text_fits (arrivals tr) -> (forall i j l, sink_at (map strip hs) i j (SSyslog l) -> (Z.of_nat (length l) < 2 ^ 63)%Z) ->
  w_syslog (g_world s) = w_syslog w ++ flat_map (in_syslog (map strip hs)) (arrivals tr).
Proof. exact queued_syslog. Qed.
Print Assumptions C111_syslog.

(** C111. What is sent over the connections of a TCP sink with an address of its own is the texts that reach it and that it did not throw at, whole and in
    order. *)
Theorem C111_tcp : forall dbl dbl_json double_of what json_fmt hs ws w programs sched s tr, start_handlers (map strip hs) = Some ws ->
  run dbl dbl_json double_of what json_fmt (initial w hs ws programs) sched = Some (s, tr) ->
  forall h p i j, sink_at (map strip hs) i j (STcp h p) -> only_tcp (map strip hs) h p i j ->
  exists new, connections h p (w_tcp (g_world s)) = connections h p (w_tcp w) ++ new /\ TcpSpec.delivered new = taken i j (arrivals tr).
Proof. exact queued_tcp. Qed.
Print Assumptions C111_tcp.

Lemma case_makes calls cl now : In calls case_programs -> In cl calls -> exists text,
  makes no_dbl (fun _ => []) (fun _ => 0%N) (fun _ => []) (fun _ _ => None) message (stamp cl now) text.
Proof.
  assert (K : forall m a, (exists text, render no_dbl (fun _ => []) (fun _ => 0%N) (fun _ => []) (fun _ _ => None) message case_env (activate (record_new 0 m 3 [a]) RootModel.SNull now) = Text text) ->
    exists text, makes no_dbl (fun _ => []) (fun _ => 0%N) (fun _ => []) (fun _ _ => None) message (stamp (case_call m a) now) text).
  { intros m a [text E]. exists text. eexists. split; [eexists; split; reflexivity|exact E]. }
  intros [<-|[<-|[]]] HI; cbn in HI.
  - destruct HI as [<-|[<-|[]]]; apply K; eexists; vm_compute; reflexivity.
  - destruct HI as [<-|[]]. apply K; eexists; vm_compute; reflexivity.
Qed.
Lemma case_only : only_file (map strip case_handlers) (B "/a") 0 0.
Proof.
  intros i j c (f & sinks & E1 & E2). destruct i as [|[|i]]; cbn in E1; try discriminate E1.
  - injection E1 as <- <-. destruct j as [|[|j]]; cbn in E2; [auto|discriminate E2|destruct j; discriminate E2].
  - injection E1 as <- <-. destruct j as [|[|[|j]]]; cbn in E2; try discriminate E2. destruct j; discriminate E2.
  - destruct i; discriminate E1.
Qed.
Lemma case_fits l : forallb (fun e => match e with Emitted _ _ s t _ _ => (Z.of_nat (length t) <? 2 ^ 31)%Z && (- 2 ^ 31 <=? s)%Z && (s <? 2 ^ 31)%Z | _ => true end) l = true -> Forall text_fits l.
Proof.
  intros H. rewrite forallb_forall in H. apply Forall_forall. intros e He. specialize (H e He). destruct e; [|exact I].
  apply andb_prop in H as [H H3]. apply andb_prop in H as [H1 H2]. cbn. lia.
Qed.

(** With [C110_case]. *)
Example C111_case :
  sink_at case_handlers 0 0 (SAsynchronous (SAsynchronous (SFile (B "/a") plain_file) (waits 4)) (waits 1)) /\
  only_file (map strip case_handlers) (B "/a") 0 0 /\ FileSinkSpec.fs_ok empty_fs /\ formatter_at case_handlers 0 message /\
  (forall calls cl, In calls case_programs -> In cl calls -> exists dev ino spill, q_file (c_circumstances cl 0%nat 0%nat) = FileSinkSpec.calm dev ino spill) /\
  (forall calls cl now, In calls case_programs -> In cl calls -> exists text,
     makes no_dbl (fun _ => []) (fun _ => 0%N) (fun _ => []) (fun _ _ => None) message (stamp cl now) text) /\
  Forall text_fits (arrivals case_trace) /\
  let w := close_all (g_world case_state) (g_sinks case_state) in
  content (w_files w (B "/a")) = B "one" ++ [NL] ++ B "three" ++ [NL] ++ B "two" ++ [NL] /\
  w_stdout w = B "one" ++ [NL] ++ B "logging core error occurred: required attribute 'id' not found" ++ [NL] ++ B "three" ++ [NL] ++ B "two" ++ [NL] /\
  w_datagrams w = [(B "u", 90%N, B "3")] /\ w_syslog w = [(7%Z, B "3"); (7%Z, B "2")] /\
  TcpSpec.delivered (connections (B "h") 80 (w_tcp w)) = [B "3"; B "2"].
Proof.
  split; [eexists; eexists; split; reflexivity|]. split; [exact case_only|]. split; [intros f E; discriminate E|]. split; [eexists; reflexivity|].
  split; [|split; [exact case_makes|split; [apply case_fits; vm_compute; reflexivity|]]].
  - intros calls cl [<-|[<-|[]]] HI; cbn in HI; repeat (destruct HI as [<-|HI]; [repeat eexists|]); destruct HI.
  - vm_compute. repeat split; reflexivity.
Qed.

(** C111, false without the condition on the flag, end to end: a call of the logger returns without any failure, a file is behind a queue
    that waits, and the logger is destroyed after that, but the line is never written: the worker finds nothing in the queue; the call
    puts the text into it; the destructor sets the flag; the worker sees it and leaves. *)
Definition lost_handlers : list FactoriesModel.handler := [HBlocking message [SAsynchronous (SFile (B "/a") plain_file) (waits 4)]].
Definition lost_programs : list (list call) := [[case_call (B "one") []]].
Definition lost_schedule : list action :=
  [Worker 0 0 0] ++ map (User 0) [1; 2; 3; 4; 5; 6]%Z ++ [Destroyer; Worker 0 0 0; Destroyer].
Theorem C111_lost_refuted : exists hs ws w programs sched, start_handlers (map strip hs) = Some ws /\
  hs = [HBlocking message [SAsynchronous (SFile (B "/a") plain_file) (waits 4)]] /\ map (map c_pattern) programs = [[B "one"]] /\
  (forall calls cl i j, In calls programs -> In cl calls -> exists dev ino spill, q_file (c_circumstances cl i j) = FileSinkSpec.calm dev ino spill) /\
  forall dbl dbl_json double_of what json_fmt, exists s tr, run dbl dbl_json double_of what json_fmt (initial w hs ws programs) sched = Some (s, tr) /\
    destroyed s /\ by_thread 0 (own tr) = [Emitted 0 0 0 (B "one") case_circ false] /\
    content (w_files (close_all (g_world s) (g_sinks s)) (B "/a")) = [].
Proof.
  pose (ws := match start_handlers (map strip lost_handlers) with Some ws => ws | None => [] end).
  exists lost_handlers, ws, case_world, lost_programs, lost_schedule.
  split; [reflexivity|]. split; [reflexivity|]. split; [reflexivity|]. split.
  - intros calls cl i j [<-|[]] HI; cbn in HI; destruct HI as [<-|[]]; repeat eexists.
  - intros dbl dbl_json double_of what json_fmt. set (r := run dbl dbl_json double_of what json_fmt (initial case_world lost_handlers ws lost_programs) lost_schedule).
    exists (fst (after r)), (snd (after r)). split; [unfold r; seen_to_end|]. split; [apply destroyed_check; vm_compute; reflexivity|]. split; vm_compute; reflexivity.
Qed.
Print Assumptions C111_lost_refuted.

(** ---- C112 ---- *)

(** C112. There is no deadlock: from every state the threads, the workers and the destructor can get to, they can get on until all calls are made
    and the destructor has returned, or the process is terminated. *)
Theorem C112_can_end : forall dbl dbl_json double_of what json_fmt hs,
  (forall i j c, In c (layers_at hs i j) -> (0 < AsyncModel.c_capacity c)%nat) ->
  forall ws w programs sched s tr, start_handlers (map strip hs) = Some ws ->
  (forall calls c now r f i, In calls programs -> In c calls -> record_of (stamp c now) r -> formatter_at hs i f ->
     match render dbl dbl_json double_of what json_fmt f (c_env c) r with
     | Text t => (Z.of_nat (length t) < 2 ^ 31)%Z | Raises _ => True | SystemModel.Undefined => False end) ->
  run dbl dbl_json double_of what json_fmt (initial w hs ws programs) sched = Some (s, tr) ->
  exists more s' tr', run dbl dbl_json double_of what json_fmt s more = Some (s', tr') /\ (destroyed s' \/ g_dead s' = true).
Proof. exact queued_ends. Qed.
Print Assumptions C112_can_end.

(** C112. Nothing but an exception of a sink behind queues terminates the process. *)
Theorem C112_only_then : forall dbl dbl_json double_of what json_fmt hs ws w programs sched s tr, start_handlers (map strip hs) = Some ws ->
  run dbl dbl_json double_of what json_fmt (initial w hs ws programs) sched = Some (s, tr) -> g_dead s = true ->
  exists i j k d e, In (Reached i j d true) tr /\ In (Terminated i j k e) tr /\ layers_at hs i j <> [].
Proof. exact queued_dead. Qed.
Print Assumptions C112_only_then.

(** A state in which both threads wait for the file's queue, which is full. *)
Example C112_case : (forall i j c, In c (layers_at case_handlers i j) -> (0 < AsyncModel.c_capacity c)%nat) /\
  exists s tr l, runs case_handlers case_started case_programs (firstn 40 case_schedule) = Some (s, tr) /\
    nth_error (g_queues s 0 0) 0 = Some l /\ length (l_queue l) = AsyncModel.c_capacity (l_config l) /\
    Forall (fun x => match q_stage x with QSinking _ _ 0 _ 0 (Try | Full) => True | _ => False end) (g_threads s).
Proof.
  split.
  - intros i j c H. unfold layers_at in H. destruct i as [|[|i]]; [| |destruct i; destruct H]; cbn [case_handlers nth_error] in H;
      destruct j as [|[|[|j]]]; cbn in H; repeat (destruct H as [<-|H]; [cbn; lia|]); try destruct H; destruct j; destruct H.
  - set (r := runs case_handlers case_started case_programs (firstn 40 case_schedule)).
    exists (fst (after r)), (snd (after r)), (hd (Layer (waits 0) [] false Exited) (g_queues (fst (after r)) 0 0)).
    split; [unfold r; seen_to_end|]. split; [vm_compute; reflexivity|]. split; [vm_compute; reflexivity|].
    assert (E : forallb (fun x => match q_stage x with QSinking _ _ 0 _ 0 (Try | Full) => true | _ => false end) (g_threads (fst (after r))) = true) by (vm_compute; reflexivity).
    rewrite forallb_forall in E. apply Forall_forall. intros x Hx. specialize (E x Hx).
    destruct (q_stage x) as [|c q i|c q [|i] text [|k] p|c q i ps]; try discriminate E. destruct p; [exact I|discriminate E|exact I].
Qed.

(** C112, false of what the sinks' independence would need: a server that cannot be reached, which costs a logger without queues no more
    than a complaint (C92), terminates the process if its sink is asynchronous, and the lines for a file that nothing is wrong with
    are lost. *)
Definition down : circumstances := Circ (FileSinkSpec.calm 1 2 1) (TcpModel.Circ None None) true (B "refused").
Definition down_programs : list (list call) := [[Call 0 (B "one") [] [] (RootModel.Ret RootModel.SNull) 3 0 case_env (fun _ _ => down)]].
Definition down_handlers : list FactoriesModel.handler :=
  [HBlocking message [SAsynchronous (STcp (B "h") 80) (waits 4)]; HBlocking message [SAsynchronous (SFile (B "/a") plain_file) (waits 4)]].
Definition down_schedule : list action := map (fun z => User 0 (Z.of_nat z)) (seq 1 10) ++ repeat (Worker 0 0 0) 3.
Theorem C112_terminated_refuted : exists hs ws w programs sched, start_handlers (map strip hs) = Some ws /\
  hs = [HBlocking message [SAsynchronous (STcp (B "h") 80) (waits 4)]; HBlocking message [SAsynchronous (SFile (B "/a") plain_file) (waits 4)]] /\
  map (map c_pattern) programs = [[B "one"]] /\
  (forall calls cl i j, In calls programs -> In cl calls -> exists dev ino spill, q_file (c_circumstances cl i j) = FileSinkSpec.calm dev ino spill) /\
  forall dbl dbl_json double_of what json_fmt, exists s tr, run dbl dbl_json double_of what json_fmt (initial w hs ws programs) sched = Some (s, tr) /\
    by_thread 0 (own tr) = [Emitted 0 0 0 (B "one") down false; Emitted 1 0 0 (B "one") down false] /\
    g_dead s = true /\ content (w_files (g_world s) (B "/a")) = [] /\
    forall more, run dbl dbl_json double_of what json_fmt s more = Some (s, []).
Proof.
  pose (ws := match start_handlers (map strip down_handlers) with Some ws => ws | None => [] end).
  exists down_handlers, ws, case_world, down_programs, down_schedule.
  split; [reflexivity|]. split; [reflexivity|]. split; [reflexivity|]. split.
  - intros calls cl i j [<-|[]] HI; cbn in HI; destruct HI as [<-|[]]; repeat eexists.
  - intros dbl dbl_json double_of what json_fmt. set (r := run dbl dbl_json double_of what json_fmt (initial case_world down_handlers ws down_programs) down_schedule).
    exists (fst (after r)), (snd (after r)). split; [unfold r; seen_to_end|]. split; [vm_compute; reflexivity|].
    assert (D : g_dead (fst (after r)) = true) by (vm_compute; reflexivity). split; [exact D|]. split; [vm_compute; reflexivity|].
    revert D. generalize (fst (after r)). clear r. intros s D more. induction more as [|x more IH]; [reflexivity|]. cbn [run]. unfold step. rewrite D, IH. reflexivity.
Qed.
Print Assumptions C112_terminated_refuted.
