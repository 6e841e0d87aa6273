(** C124, C125: the identity of syslog messages. *)
From Verif Require Import Base DeliveryModel IdentModel IdentSpec IdentProofs IdentMoreProofs.
Open Scope N_scope.

(** C124. Whatever threads make, use and destroy syslog sinks, in whatever order, and whatever the application does with syslog besides: the
    identity that syslog was given is never read after its end, though the factory gives it a pointer into a local variable. *)
Theorem C124_safe : forall progname programs schedule, Forall (Forall printable) programs ->
  exists w, run progname (start programs) schedule = Some w.
Proof. exact safe_lemma. Qed.
Print Assumptions C124_safe.
Definition case_programs : list (list command) :=
  [[Make 0 (Some [7; 6]%Z); Emit 0 0%Z (B "first"); Emit 0 1%Z (B "second"); Drop 0]; [Make 1 None; AppOpen (Some (B "app")) 0 24; Make 2 (Some []); Drop 2]].
Definition case_schedule : list nat := [0; 0; 0; 0; 0; 0; 1; 1; 0; 1; 1; 1; 1; 1; 1; 1; 1; 0; 0; 1; 0; 1; 1; 1]%nat.
Definition case_name : bytes := B "a-name-of-many-characters".
Example C124_safe_case : Forall (Forall printable) case_programs /\
  option_map sent (run case_name (start case_programs) case_schedule)
  = Some [Message case_name 1 15 (B "first"); Message case_name 1 14 (B "second")].
Proof. split; [repeat constructor|vm_compute; reflexivity]. Qed.

(** C124. Every message of a sink has the identity that the program has, its process number asked for, the user facility unless its priority
    has another, the priority that the sink has for the severity, and the text. Only while another thread is inside of the factory, at one
    place, a program with a short name sends messages without identity. *)
Theorem C124_whose : forall progname programs schedule w t w' m,
  Forall (Forall printable) programs -> Forall (Forall of_sinks) programs ->
  run progname (start programs) schedule = Some w -> step progname w t = Some w' -> sent w' = sent w ++ [m] ->
  (m_ident m = progname
   \/ m_ident m = [] /\ N.of_nat (length progname) <= 15 /\ exists u x, u <> t /\ nth_error (threads w) u = Some x /\ moved x)
  /\ m_option m = LOG_PID
  /\ exists k severity formatted cs o, nth_error (threads w) t = Some (Idle, Emit k severity formatted :: cs) /\ sink_of k (sinks w) = Some o
     /\ m_priority m = in_facility LOG_USER (syslog_priority (o_priorities o) severity) /\ m_text m = until_nul formatted.
Proof. exact whose_lemma. Qed.
Print Assumptions C124_whose.
Definition case_two : list (list command) := [[Make 0 (Some [6]%Z); Emit 0 0%Z (B "text"); Emit 0 0%Z (B "text")]; [Make 1 (Some [])]].
Definition case_first : list nat := [0; 0; 0; 0; 0; 0; 1; 1; 1]%nat.
Example C124_whose_case : Forall (Forall printable) case_two /\ Forall (Forall of_sinks) case_two /\
  option_map sent (run (B "app") (start case_two) case_first) = Some []
  /\ option_map sent (run (B "app") (start case_two) (case_first ++ [0%nat])) = Some [Message (B "app") 1 14 (B "text")].
Proof. split; [repeat constructor|]. split; [repeat constructor|]. split; vm_compute; reflexivity. Qed.

(** C124. (The full statement: every message of a sink carries the name of the program) is false: while another thread makes a sink, the
    identity is that of a string from which the name was moved. *)
Theorem C124_whose_refuted : exists progname programs schedule w m, Forall (Forall printable) programs /\ Forall (Forall of_sinks) programs
  /\ run progname (start programs) schedule = Some w /\ In m (sent w) /\ m_ident m <> progname.
Proof.
  assert (R : option_map sent (run (B "app") (start case_two) (case_first ++ [1; 0]%nat)) = Some [Message [] 1 14 (B "text")]) by (vm_compute; reflexivity).
  destruct (run (B "app") (start case_two) (case_first ++ [1; 0]%nat)) as [w|] eqn:E; [|discriminate]. injection R as R.
  exists (B "app"), case_two, (case_first ++ [1; 0]%nat), w, (Message [] 1 14 (B "text")).
  split; [repeat constructor|]. split; [repeat constructor|]. split; [exact E|]. split; [rewrite R; left; reflexivity|discriminate].
Qed.
Print Assumptions C124_whose_refuted.

(** C125. One thread: every message, of a sink or of the application, has identity, options and facility of the latest call that opened the
    connection of the process or closed it; making and destroying a sink are such calls, and behind them the identity is the program's name. *)
Theorem C125_latest : forall progname cs, Forall printable cs -> used_well [] [] cs ->
  exists n, forall m, (n <= m)%nat -> exists w, run progname (start [cs]) (repeat 0%nat m) = Some w /\ sent w = messages progname [] cs.
Proof. exact alone_lemma. Qed.
Print Assumptions C125_latest.
Definition case_alone : list command :=
  [Make 0 (Some [7; 22]%Z); Emit 0 0%Z (B "a"); Emit 0 1%Z (B "A"); AppOpen (Some (B "db")) 2 24; Emit 0 9%Z (B "b"); AppLog 6 (B "c"); Make 1 None; AppLog 6 (B "d"); Drop 0; AppLog 6 (B "e")].
Example C125_latest_case : Forall printable case_alone /\ used_well [] [] case_alone /\
  messages (B "app") [] case_alone
  = [Message (B "app") 1 15 (B "a"); Message (B "app") 1 22 (B "A"); Message (B "db") 2 27 (B "b"); Message (B "db") 2 30 (B "c"); Message (B "app") 1 14 (B "d"); Message (B "app") 1 14 (B "e")].
Proof.
  split; [repeat constructor|]. split; [|reflexivity]. cbn [used_well case_alone]. repeat split; try (left; reflexivity); try (intros H; cbn in H; intuition discriminate).
  exists 3. split; reflexivity.
Qed.

(** C125. (The full statement: a logger leaves alone what the application has arranged with syslog) is false: after a logger with a syslog sink was made, or
    destroyed, the messages of the application have neither its identity nor its facility. *)
Theorem C125_application_refuted : exists progname open log message made destroyed n,
  open = AppOpen (Some (B "db")) 2 24 /\ log = AppLog 6 (B "text")
  /\ option_map sent (run progname (start [[open; log]]) (repeat 0%nat n)) = Some [message]
  /\ option_map sent (run progname (start [[open; Make 0 (Some []); log]]) (repeat 0%nat n)) = Some [made]
  /\ option_map sent (run progname (start [[Make 0 (Some []); open; Drop 0; log]]) (repeat 0%nat n)) = Some [destroyed]
  /\ m_ident message = B "db" /\ m_ident made <> B "db" /\ m_priority made <> m_priority message /\ m_ident destroyed <> B "db".
Proof.
  exists (B "app"), (AppOpen (Some (B "db")) 2 24), (AppLog 6 (B "text")), (Message (B "db") 2 30 (B "text")), (Message (B "app") 1 14 (B "text")), (Message (B "app") 2 30 (B "text")), 12%nat.
  split; [reflexivity|]. split; [reflexivity|]. split; [vm_compute; reflexivity|]. split; [vm_compute; reflexivity|]. split; [vm_compute; reflexivity|].
  split; [reflexivity|]. split; [discriminate|]. split; discriminate.
Qed.
Print Assumptions C125_application_refuted.

(** C125. Nor do the messages of a sink keep the identity of the program when the application opens the connection for itself. *)
Theorem C125_sink_refuted : exists progname m n,
  option_map sent (run progname (start [[Make 0 (Some []); AppOpen (Some (B "db")) 2 24; Emit 0 0%Z (B "text")]]) (repeat 0%nat n)) = Some [m]
  /\ m_ident m <> progname.
Proof. exists (B "app"), (Message (B "db") 2 27 (B "text")), 12%nat. split; [vm_compute; reflexivity|discriminate]. Qed.
Print Assumptions C125_sink_refuted.
