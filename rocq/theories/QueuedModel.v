(** Several threads that use one configured logger with asynchronous sinks, and its destruction. The threads are those of ThreadsModel,
    the queues and workers those of AsyncModel; what is at the end of the queues are the sinks of SystemModel. A sink at the end is closed when
    the destructor of the last queue in front of it has returned: with nothing left to come that is as good as closing all of them at the very end
    (SystemModel.close_all). *)
From Verif Require Import Base Values RootModel FactoriesModel SystemModel ThreadsModel.
From Verif Require FmtModel AsyncModel.

(** src/sink/asynchronous.cpp:62-81: asynchronous sinks may wrap asynchronous ones. The wrapped sink that is none, and the queues in
    front of it, outermost first. *)
Fixpoint core (s : sink) : sink := match s with SAsynchronous wrapped _ => core wrapped | _ => s end.
Fixpoint layers (s : sink) : list AsyncModel.config := match s with SAsynchronous wrapped c => c :: layers wrapped | _ => [] end.
Definition strip (h : FactoriesModel.handler) : FactoriesModel.handler := match h with HBlocking f sinks => HBlocking f (map core sinks) end.
Definition layers_at (hs : list FactoriesModel.handler) (i j : nat) : list AsyncModel.config :=
  match nth_error hs i with
  | Some (HBlocking _ sinks) => match nth_error sinks j with Some s => layers s | None => [] end
  | None => []
  end.

(** src/sink/asynchronous.hpp:40-43 [value_type]: the copied record, of which the sinks use the severity only, and the text. The thread that
    logged it is noted for the specifications. *)
Record delivery := Delivery { d_thread : nat; d_tty : bool; d_severity : Z; d_text : bytes; d_q : circumstances }.
(** As AsyncModel.cell. *)
Inductive cell := Reserved (who : nat) (d : delivery) | Ready (d : delivery).
(** Inside src/sink/asynchronous.p.cpp:94-121 [emit]: before line 105, with a reserved cell, before line 113. *)
Inductive pushing := Try | Fill | Full.
(** As AsyncModel.wpc; the worker is inside of the wrapped sink's emit at [Emitting]. *)
Inductive worker := Taking | Checking (got : option delivery) | Emitting (d : delivery) (p : pushing) | Exited.
(** src/sink/asynchronous.hpp:47-53. *)
Record layer := Layer { l_config : AsyncModel.config; l_queue : list cell; l_stopped : bool; l_worker : worker }.

(** As AsyncModel.publish. *)
Fixpoint publish (q : list cell) (who : nat) : list cell :=
  match q with
  | [] => []
  | Reserved who' d :: q' => if Nat.eqb who' who then Ready d :: q' else Reserved who' d :: publish q' who
  | Ready d :: q' => Ready d :: publish q' who
  end.

(** ThreadsModel.stage, with the place inside of the sink's emit. *)
Inductive qstage :=
| QIdle
| QHandling (c : call) (r : record) (i : nat)
| QSinking (c : call) (r : record) (i : nat) (text : bytes) (j : nat) (p : pushing)
| QPrinting (c : call) (r : record) (i : nat) (pieces : list bytes).
Record qthread := QThread { q_calls : list call; q_stage : qstage }.

(** src/sink/asynchronous.p.cpp:85-88: what the destructors of the asynchronous sinks do. *)
Inductive task := Stop (i j k : nat) | Join (i j k : nat).

Record state := State {
  g_world : world;
  g_sinks : list working;                (* the wrapped sinks *)
  g_queues : nat -> nat -> list layer;   (* in front of sink [j] of handler [i] *)
  g_threads : list qthread;
  g_todo : list task;                    (* what the destructors have to do yet *)
  g_dead : bool                          (* std::terminate was called *)
}.

(** What happens: what ThreadsModel says of a thread; the wrapped sink at the end is asked to emit; a record gets a cell of queue [k]; it is dropped
    in front of it; the destructor sets the flag of a queue with so many records in it, the worker being between a failed attempt and the
    test of the flag or not; a worker does not catch an exception. *)
Inductive happening :=
| Own (h : ThreadsModel.happening)
| Reached (i j : nat) (d : delivery) (threw : bool)
| Queued (i j k : nat) (d : delivery)
| Dropped (i j k : nat) (d : delivery)
| Stopping (i j k : nat) (late : bool) (waiting : nat)
| Terminated (i j k : nat) (e : exn).

Definition set_layer (s : state) (i j k : nat) (l : layer) : state :=
  State (g_world s) (g_sinks s)
    (fun a b => if Nat.eqb a i && Nat.eqb b j then put (g_queues s i j) k l else g_queues s a b)
    (g_threads s) (g_todo s) (g_dead s).
Definition set_base (s : state) (w : world) (ws : list working) : state :=
  State w ws (g_queues s) (g_threads s) (g_todo s) (g_dead s).
Definition set_thread (s : state) (t : nat) (x : qthread) : state :=
  State (g_world s) (g_sinks s) (g_queues s) (put (g_threads s) t x) (g_todo s) (g_dead s).
Definition set_todo (s : state) (l : list task) : state :=
  State (g_world s) (g_sinks s) (g_queues s) (g_threads s) l (g_dead s).
Definition die (s : state) : state := State (g_world s) (g_sinks s) (g_queues s) (g_threads s) (g_todo s) true.
Definition set_queue (l : layer) (q : list cell) : layer := Layer (l_config l) q (l_stopped l) (l_worker l).
Definition set_worker (l : layer) (w : worker) : layer := Layer (l_config l) (l_queue l) (l_stopped l) w.

(** A step of an emit ends it or does not. *)
Inductive pushed := Going (p : pushing) | Returned | Raised (e : exn).

(** A step of the emit of the sink behind [k] queues: src/sink/asynchronous.p.cpp:94-121 as in AsyncModel.step, or the emit of the
    wrapped sink at the end, in one step as in ThreadsModel. Nothing in it throws: overflow() of neither policy does, and memory does not
    run out. *)
Definition push (s : state) (i j k who : nat) (d : delivery) (p : pushing) : option (state * pushed * list happening) :=
  match nth_error (g_queues s i j) k with
  | None =>
      match sink_now (g_sinks s) i j with
      | None => Some (s, Returned, [])
      | Some x =>
          match emit (g_world s) (d_tty d) (d_severity d) (d_text d) x (d_q d) with
          | None => None
          | Some (w, x', Some e) => Some (set_base s w (put_sink (g_sinks s) i j x'), Raised e, [Reached i j d true])
          | Some (w, x', None) => Some (set_base s w (put_sink (g_sinks s) i j x'), Returned, [Reached i j d false])
          end
      end
  | Some l =>
      match p with
      | Try =>
          if (length (l_queue l) <? AsyncModel.c_capacity (l_config l))%nat
          then Some (set_layer s i j k (set_queue l (l_queue l ++ [Reserved who d])), Going Fill, [Queued i j k d])
          else Some (s, Going Full, [])
      | Fill => Some (set_layer s i j k (set_queue l (publish (l_queue l) who)), Returned, [])
      | Full =>
          match AsyncModel.overflow (AsyncModel.c_policy (l_config l)) with
          | AsyncModel.Retry => Some (s, Going Try, [])
          | AsyncModel.Discard => Some (s, Returned, [Dropped i j k d])
          end
      end
  end.

(** A step of the worker of queue [k]: src/sink/asynchronous.p.cpp:123-147 as in AsyncModel.step. It is the only one that puts something into
    the queue behind its own. *)
Definition work (s : state) (i j k : nat) : option (state * list happening) :=
  match nth_error (g_queues s i j) k with
  | None => Some (s, [])
  | Some l =>
      match l_worker l with
      | Taking =>
          match l_queue l with
          | Ready d :: q => Some (set_layer s i j k (set_worker (set_queue l q) (Checking (Some d))), [])
          | _ => Some (set_layer s i j k (set_worker l (Checking None)), [])
          end
      | Checking (Some d) => Some (set_layer s i j k (set_worker l (Emitting d Try)), [])
      | Checking None => Some (set_layer s i j k (set_worker l (if l_stopped l then Exited else Taking)), [])
      | Emitting d p =>
          match push s i j (S k) 0 d p with
          | None => None
          | Some (s', Going p', tr) => Some (set_layer s' i j k (set_worker l (Emitting d p')), tr)
          | Some (s', Returned, tr) => Some (set_layer s' i j k (set_worker l Taking), tr)
          | Some (s', Raised e, tr) => Some (die (set_layer s' i j k (set_worker l Exited)), tr ++ [Terminated i j k e])
          end
      | Exited => Some (s, [])
      end
  end.

(** src/sink/asynchronous.p.cpp:85-88: the next thing the destructors do. The program destroys the logger when its threads no longer use it; [Join]
    waits for the worker. *)
Definition idle (x : qthread) : bool := match q_calls x, q_stage x with [], QIdle => true | _, _ => false end.
Definition destroy (s : state) : state * list happening :=
  if forallb idle (g_threads s) then
    match g_todo s with
    | [] => (s, [])
    | Stop i j k :: rest =>
        match nth_error (g_queues s i j) k with
        | Some l =>
            (set_todo (set_layer s i j k (Layer (l_config l) (l_queue l) true (l_worker l))) rest,
             [Stopping i j k (match l_worker l with Checking None => true | _ => false end) (length (l_queue l))])
        | None => (set_todo s rest, [])
        end
    | Join i j k :: rest =>
        match nth_error (g_queues s i j) k with
        | Some l => match l_worker l with Exited => (set_todo s rest, []) | _ => (s, []) end
        | None => (set_todo s rest, [])
        end
    end
  else (s, []).

Section Queued.
Variable dbl : FmtModel.spec -> N -> bytes.
Variable dbl_json : N -> bytes.
Variable double_of : bytes -> N.
Variable what : FmtModel.error -> bytes.
Variable json_fmt : bytes -> value -> option bytes.

(** The next step of thread [t]: ThreadsModel.advance, with the emits of the sinks step by step. *)
Definition advance (s : state) (t : nat) (now : Z) (x : qthread) : option (state * list happening) :=
  match q_stage x with
  | QIdle =>
      match q_calls x with
      | [] => Some (s, [])
      | c0 :: rest =>
          let c := stamp c0 now in
          match c_supplier c with
          | Throw _ => Some (set_thread s t (QThread rest QIdle), [Own (Began t now)])
          | Ret formatted =>
              let r := activate (record_new (c_severity c) (c_pattern c) (c_tid c) (c_pack c ++ c_scoped c)) formatted (c_now c) in
              Some (set_thread s t (QThread rest (QHandling c r 0)), [Own (Began t now)])
          end
      end
  | QHandling c r i =>
      match nth_error (g_sinks s) i with
      | None => Some (set_thread s t (QThread (q_calls x) QIdle), [])
      | Some (f, _) =>
          match render dbl dbl_json double_of what json_fmt f (c_env c) r with
          | Undefined => None
          | Raises e => Some (set_thread s t (QThread (q_calls x) (QPrinting c r i (pieces e))), [Own (Did t (Complained i e))])
          | Text text => Some (set_thread s t (QThread (q_calls x) (QSinking c r i text 0 Try)), [])
          end
      end
  | QSinking c r i text j p =>
      match sink_now (g_sinks s) i j with
      | None => Some (set_thread s t (QThread (q_calls x) (QHandling c r (S i))), [])
      | Some _ =>
          let q := c_circumstances c i j in
          match push s i j 0 t (Delivery t (e_tty (c_env c)) (r_severity r) text q) p with
          | None => None
          | Some (s', Going p', tr) => Some (set_thread s' t (QThread (q_calls x) (QSinking c r i text j p')), tr)
          | Some (s', Returned, tr) =>
              Some (set_thread s' t (QThread (q_calls x) (QSinking c r i text (S j) Try)),
                    tr ++ [Own (Did t (Emitted i j (r_severity r) text q false))])
          | Some (s', Raised e, tr) =>
              Some (set_thread s' t (QThread (q_calls x) (QPrinting c r i (pieces e))),
                    tr ++ [Own (Did t (Emitted i j (r_severity r) text q true)); Own (Did t (Complained i e))])
          end
      end
  | QPrinting c r i [] => Some (set_thread s t (QThread (q_calls x) (QHandling c r (S i))), [])
  | QPrinting c r i (p :: rest) =>
      let w := g_world s in
      Some (set_thread (set_base s (World (w_files w) (w_stdout w ++ p) (w_datagrams w) (w_tcp w) (w_syslog w)) (g_sinks s))
              t (QThread (q_calls x) (QPrinting c r i rest)), [Own (Wrote t p)])
  end.

(** Who makes the next step: a thread of the program (and what the clock shows), the worker of a queue, the destructor of the logger. *)
Inductive action := User (t : nat) (now : Z) | Worker (i j k : nat) | Destroyer.
(** [None]: undefined. Nothing happens after std::terminate. *)
Definition step (s : state) (a : action) : option (state * list happening) :=
  if g_dead s then Some (s, [])
  else match a with
       | User t now => match nth_error (g_threads s) t with Some x => advance s t now x | None => Some (s, []) end
       | Worker i j k => work s i j k
       | Destroyer => Some (destroy s)
       end.
Fixpoint run (s : state) (schedule : list action) : option (state * list happening) :=
  match schedule with
  | [] => Some (s, [])
  | a :: schedule' =>
      match step s a with
      | None => None
      | Some (s1, tr1) => match run s1 schedule' with None => None | Some (s2, tr2) => Some (s2, tr1 ++ tr2) end
      end
  end.

(** The logger as it is made, with its workers started (src/sink/asynchronous.p.cpp:67-83), and the threads before their first calls. The
    destructors run from the first sink to the last (std::vector of libstdc++), those of asynchronous sinks before those of what they
    wrap. *)
Definition numbered {A} (l : list A) : list (nat * A) := combine (seq 0 (length l)) l.
Definition teardown (hs : list FactoriesModel.handler) : list task :=
  flat_map (fun h => match snd h with HBlocking _ sinks =>
    flat_map (fun x => flat_map (fun k => [Stop (fst h) (fst x) k; Join (fst h) (fst x) k]) (seq 0 (length (layers (snd x))))) (numbered sinks)
  end) (numbered hs).
Definition initial (w : world) (hs : list FactoriesModel.handler) (ws : list working) (programs : list (list call)) : state :=
  State w ws (fun i j => map (fun c => Layer c [] false Taking) (layers_at hs i j)) (map (fun calls => QThread calls QIdle) programs) (teardown hs) false.
End Queued.
