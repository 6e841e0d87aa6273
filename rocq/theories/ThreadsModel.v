(** Several threads that use one configured logger. SystemModel's [log] is cut into steps, which the threads make in any order. *)
From Verif Require Import Base Values RootModel FactoriesModel SystemModel.
From Verif Require FmtModel.

(** Where a thread is: between two calls; in src/root.cpp:191, before handler [i]; in src/handler/blocking.cpp:31, before sink [j] of it
    with the text of the formatter (each thread has a writer of its own, blocking.cpp:27); in src/root.cpp:194-198, with parts of the
    complaint left to print. *)
Inductive stage :=
| Idle
| Handling (c : call) (r : record) (i : nat)
| Sinking (c : call) (r : record) (i : nat) (text : bytes) (j : nat)
| Printing (c : call) (r : record) (i : nat) (pieces : list bytes).
(** A thread: the calls it will make and where it is. The times of the calls are not used: see [advance]. *)
Record thread := Thread { t_calls : list call; t_stage : stage }.

(** src/root.cpp:195-197: one insertion into [std::cout] after the other; nothing is locked meanwhile. *)
Definition pieces (e : exn) : list bytes :=
  match e with
  | StdExn what => [B "logging core error occurred: "; what; [NL]]
  | OtherExn _ => [B "logging core error occurred: unknown"; [NL]]
  end.

(** What happens: a thread makes its next call at a time; what SystemModel calls events, by a thread; a part of a complaint is printed. *)
Inductive happening :=
| Began (t : nat) (now : Z)
| Did (t : nat) (e : event)
| Wrote (t : nat) (piece : bytes).

(** Sink [j] of handler [i], and the sinks with that one changed. *)
Definition sink_now (hs : list working) (i j : nat) : option live :=
  match nth_error hs i with Some (_, sinks) => nth_error sinks j | None => None end.
Fixpoint put {A} (l : list A) (n : nat) (x : A) : list A :=
  match l, n with
  | [], _ => []
  | _ :: l', O => x :: l'
  | y :: l', S n' => y :: put l' n' x
  end.
Definition put_sink (hs : list working) (i j : nat) (s : live) : list working :=
  match nth_error hs i with Some (f, sinks) => put hs i (f, put sinks j s) | None => hs end.

(** The call with another time. *)
Definition stamp (c : call) (now : Z) : call :=
  Call (c_severity c) (c_pattern c) (c_pack c) (c_scoped c) (c_supplier c) (c_tid c) now (c_env c) (c_circumstances c).

Section Threads.
Variable dbl : FmtModel.spec -> N -> bytes.
Variable dbl_json : N -> bytes.
Variable double_of : bytes -> N.
Variable what : FmtModel.error -> bytes.
Variable json_fmt : bytes -> value -> option bytes.

(** The next step of thread [t]; [None]: undefined. A call begins with the supplier and the clock (src/root.cpp:185-190; src/record.cpp:80-87);
    the filter of a logger made by the builder accepts all. To format reads only what belongs to the thread or never changes. An emit is one
    step: the file and TCP sinks lock their mutex for the whole of it (src/sink/file.cpp:155, src/sink/socket/tcp.cpp:122), the console
    sinks lock the one of all console sinks (src/sink/console.cpp:100,105; that a complaint can come between the text and the end of the
    line is C55's business); a datagram is one system call; so is syslog(3), which locks. *)
Definition advance (w : world) (hs : list working) (t : nat) (now : Z) (x : thread) : option (world * list working * thread * list happening) :=
  match t_stage x with
  | Idle =>
      match t_calls x with
      | [] => Some (w, hs, x, [])
      | c0 :: rest =>
          let c := stamp c0 now in
          match c_supplier c with
          | Throw _ => Some (w, hs, Thread rest Idle, [Began t now])
          | Ret formatted =>
              let r := activate (record_new (c_severity c) (c_pattern c) (c_tid c) (c_pack c ++ c_scoped c)) formatted (c_now c) in
              Some (w, hs, Thread rest (Handling c r 0), [Began t now])
          end
      end
  | Handling c r i =>
      match nth_error hs i with
      | None => Some (w, hs, Thread (t_calls x) Idle, [])
      | Some (f, _) =>
          match render dbl dbl_json double_of what json_fmt f (c_env c) r with
          | Undefined => None
          | Raises e => Some (w, hs, Thread (t_calls x) (Printing c r i (pieces e)), [Did t (Complained i e)])
          | Text text => Some (w, hs, Thread (t_calls x) (Sinking c r i text 0), [])
          end
      end
  | Sinking c r i text j =>
      match sink_now hs i j with
      | None => Some (w, hs, Thread (t_calls x) (Handling c r (S i)), [])
      | Some s =>
          let q := c_circumstances c i j in
          match emit w (e_tty (c_env c)) (r_severity r) text s q with
          | None => None
          | Some (w1, s1, Some e) =>
              Some (w1, put_sink hs i j s1, Thread (t_calls x) (Printing c r i (pieces e)),
                    [Did t (Emitted i j (r_severity r) text q true); Did t (Complained i e)])
          | Some (w1, s1, None) =>
              Some (w1, put_sink hs i j s1, Thread (t_calls x) (Sinking c r i text (S j)), [Did t (Emitted i j (r_severity r) text q false)])
          end
      end
  | Printing c r i [] => Some (w, hs, Thread (t_calls x) (Handling c r (S i)), [])
  | Printing c r i (p :: rest) =>
      Some (World (w_files w) (w_stdout w ++ p) (w_datagrams w) (w_tcp w) (w_syslog w), hs,
            Thread (t_calls x) (Printing c r i rest), [Wrote t p])
  end.

(** A schedule says which thread makes the next step and what the clock shows then. *)
Fixpoint run (w : world) (hs : list working) (ts : list thread) (schedule : list (nat * Z))
  : option (world * list working * list thread * list happening) :=
  match schedule with
  | [] => Some (w, hs, ts, [])
  | (t, now) :: schedule' =>
      match nth_error ts t with
      | None => run w hs ts schedule'
      | Some x =>
          match advance w hs t now x with
          | None => None
          | Some (w1, hs1, x1, tr1) =>
              match run w1 hs1 (put ts t x1) schedule' with
              | None => None
              | Some (w2, hs2, ts2, tr2) => Some (w2, hs2, ts2, tr1 ++ tr2)
              end
          end
      end
  end.

(** Threads that have not begun. *)
Definition fresh (calls : list call) : thread := Thread calls Idle.
End Threads.
