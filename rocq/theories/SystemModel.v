(** A logger made from a configuration, from the log call to what leaves the process: the models of the factories, the root
    logger, the handlers, the formatters and the sinks put together. One thread logs. *)
From Verif Require Import Base Values RootModel FactoriesModel.
From Verif Require FmtModel StrModel TskvModel JsonFmtModel JsonTextModel FileSinkModel TcpModel ConsoleModel DeliveryModel.

(** What is outside of the process: for each path its part of the file system (paths name different files: no links), the bytes on
    the standard output, the datagrams sent, what is done with the connections of each address, and the calls of syslog(3). *)
Record world := World {
  w_files : bytes -> FileSinkModel.fs;
  w_stdout : bytes;
  w_datagrams : list (bytes * N * bytes);
  w_tcp : list (bytes * N * TcpModel.event);
  w_syslog : list (Z * bytes)
}.

(** A sink at work: its part of FactoriesModel.sink with its state. The asynchronous sink has a thread of its own (AsyncModel)
    and is left out here. *)
Inductive live :=
| LNull
| LConsole (threshold : option Z)
| LFile (path : bytes) (config : FileSinkModel.config) (backend : option FileSinkModel.backend)
| LTcp (host : bytes) (port : N) (tcp : TcpModel.tcp)
| LUdp (host : bytes) (port : N)
| LSyslog (priorities : list Z).
Definition start (s : sink) : option live :=
  match s with
  | SNull => Some LNull
  | SConsole t => Some (LConsole t)
  | SFile p c => Some (LFile p c None)
  | STcp h p => Some (LTcp h p TcpModel.init)
  | SUdp h p => Some (LUdp h p)
  | SSyslog l => Some (LSyslog l)
  | SAsynchronous _ _ => None
  end.
Fixpoint start_all (l : list sink) : option (list live) :=
  match l with
  | [] => Some []
  | s :: l' => match start s, start_all l' with Some x, Some r => Some (x :: r) | _, _ => None end
  end.
Notation working := (formatter * list live)%type.
Fixpoint start_handlers (hs : list FactoriesModel.handler) : option (list working) :=
  match hs with
  | [] => Some []
  | HBlocking f sinks :: hs' => match start_all sinks, start_handlers hs' with Some l, Some r => Some ((f, l) :: r) | _, _ => None end
  end.

(** What happens during one emit: to the file, to the connection, whether a datagram can be sent, and the text of the
    exception if one is thrown. *)
Record circumstances := Circ {
  q_file : FileSinkModel.circumstances;
  q_tcp : TcpModel.circumstances;
  q_udp : bool;
  q_what : bytes
}.

(** What a formatter asks the system for: see StrModel.srecord, JsonFmtModel.environment and TskvModel.format; whether the standard
    output is a terminal; the text of the exception if the JSON formatter throws (JsonFmtModel leaves it out). *)
Record surroundings := Env {
  e_pid : N;
  e_lwp : N;
  e_procname : bytes;
  e_thread_name : option bytes;
  e_stamp : bytes -> bool -> Z -> bytes;
  e_json_stamp : bytes -> Z -> bytes;
  e_junk : bytes;
  e_tty : bool;
  e_json_what : bytes
}.

(** A formatter returns with a text, throws, or is undefined. *)
Inductive made := Text (s : bytes) | Raises (e : exn) | Undefined.

Section System.
(** How fmt and rapidjson write doubles, the double a text denotes, the texts of fmt's errors, formatted attributes of the JSON
    formatter: parameters of the models used. *)
Variable dbl : FmtModel.spec -> N -> bytes.
Variable dbl_json : N -> bytes.
Variable double_of : bytes -> N.
Variable what : FmtModel.error -> bytes.
Variable json_fmt : bytes -> value -> option bytes.

(** The record as the string formatter sees it: all texts are in memory with a NUL behind them. *)
Definition view_of (s : bytes) : StrModel.view := StrModel.View (Some (s ++ [NUL])) (FmtModel.length_N s).
Definition aval_of (v : value) : StrModel.aval :=
  match v with
  | VNull => StrModel.ANull
  | VBool b => StrModel.ABoolean b
  | VInt z => StrModel.ASigned z
  | VUint n => StrModel.AUnsigned n
  | VDouble bits => StrModel.AReal bits
  | VString s => StrModel.AText (view_of s)
  | VFun t => StrModel.ALazy t
  end.
Definition srecord_of (e : surroundings) (r : record) : StrModel.srecord :=
  StrModel.SRec (view_of (r_formatted r)) (r_severity r) (r_timestamp r) (r_tid r)
    (map (map (fun a => (view_of (fst a), aval_of (snd a)))) (r_attributes r))
    (e_pid e) (e_lwp e) (e_procname e) (e_thread_name e) (fun p utc => e_stamp e p utc (r_timestamp r)) (e_junk e).

(** src/formatter/string.cpp:332-338, tskv.cpp:245-258, json.cpp:367-397 by their models. The texts of the exceptions: string.cpp:259
    for missing attributes; [what] for FormatError. *)
Definition render (f : formatter) (e : surroundings) (r : record) : made :=
  match f with
  | FString tokens sevmap =>
      match StrModel.format dbl double_of
              (match sevmap with Some names => StrModel.list_map dbl names | None => StrModel.number_map dbl end)
              (srecord_of e r) tokens with
      | StrModel.Done s => Text s
      | StrModel.Refused x => Raises (StdExn (what x))
      | StrModel.Missing n => Raises (StdExn (B "required attribute '" ++ n ++ B "' not found"))
      | StrModel.Undef => Undefined
      end
  | FTskv d => Text (TskvModel.format (fun bits => dbl FmtModel.empty_spec bits) (fun p utc => e_stamp e p utc (r_timestamp r)) (e_pid e) d r)
  | FJson d =>
      match JsonFmtModel.document json_fmt
              (JsonFmtModel.Env (e_pid e) (e_lwp e) (fun p => e_json_stamp e p (r_timestamp r)) (Z.quot (r_timestamp r) 1000)) d r with
      | JsonFmtModel.Done t => Text (JsonTextModel.json_line dbl_json (JsonFmtModel.p_newline d) t)
      | JsonFmtModel.Thrown => Raises (StdExn (e_json_what e))
      | JsonFmtModel.Undefined => Undefined
      end
  end.

(** One emit by the models of the sinks: the world and the sink afterwards, and the exception; [None]: undefined. Console:
    src/sink/console.cpp:83-110 with the default colours (60-72); the datagram: src/sink/socket/udp.cpp:36-38. *)
Definition emit (w : world) (tty : bool) (severity : Z) (text : bytes) (s : live) (q : circumstances) : option (world * live * option exn) :=
  match s with
  | LNull => Some (w, s, None)
  | LConsole t =>
      let action := match t with Some t => DeliveryModel.severity_filter t severity | None => DeliveryModel.zen_filter severity end in
      match ConsoleModel.emit_bytes action tty ConsoleModel.default_color text with
      | Some out => Some (World (w_files w) (w_stdout w ++ out) (w_datagrams w) (w_tcp w) (w_syslog w), s, None)
      | None => Some (w, s, None)
      end
  | LFile p c k =>
      let '(fs, k', threw) := FileSinkModel.emit c (w_files w p) k text (q_file q) in
      Some (World (fun x => if bytes_eqb x p then fs else w_files w x) (w_stdout w) (w_datagrams w) (w_tcp w) (w_syslog w),
            LFile p c k', if threw then Some (StdExn (q_what q)) else None)
  | LTcp h p t =>
      let '(t', evs, threw) := TcpModel.emit t text (q_tcp q) in
      Some (World (w_files w) (w_stdout w) (w_datagrams w) (w_tcp w ++ map (fun e => (h, p, e)) evs) (w_syslog w),
            LTcp h p t', if threw then Some (StdExn (q_what q)) else None)
  | LUdp h p =>
      if q_udp q then Some (World (w_files w) (w_stdout w) (w_datagrams w ++ [(h, p, text)]) (w_tcp w) (w_syslog w), s, None)
      else Some (w, s, Some (StdExn (q_what q)))
  | LSyslog l =>
      match DeliveryModel.syslog_text text with
      | Some t => Some (World (w_files w) (w_stdout w) (w_datagrams w) (w_tcp w) (w_syslog w ++ [(DeliveryModel.syslog_priority l severity, t)]), s, None)
      | None => None
      end
  end.

(** What happened, in order: sink [j] of handler [i] was asked to emit a text (and threw or not), or the exception of handler [i]
    was printed. *)
Inductive event :=
| Emitted (i j : nat) (severity : Z) (text : bytes) (q : circumstances) (threw : bool)
| Complained (i : nat) (e : exn).

(** src/handler/blocking.cpp:31-34: the sinks from number [j] on, up to the first that throws. *)
Fixpoint emit_all (w : world) (tty : bool) (severity : Z) (text : bytes) (q : nat -> circumstances) (i j : nat) (sinks : list live)
  : option (world * list live * list event * option exn) :=
  match sinks with
  | [] => Some (w, [], [], None)
  | s :: sinks' =>
      match emit w tty severity text s (q j) with
      | None => None
      | Some (w1, s1, Some e) => Some (w1, s1 :: sinks', [Emitted i j severity text (q j) true], Some e)
      | Some (w1, s1, None) =>
          match emit_all w1 tty severity text q i (S j) sinks' with
          | None => None
          | Some (w2, sinks2, evs, r) => Some (w2, s1 :: sinks2, Emitted i j severity text (q j) false :: evs, r)
          end
      end
  end.

(** src/root.cpp:194-198: an exception of a handler is printed. *)
Definition complain (w : world) (e : exn) : world :=
  World (w_files w) (w_stdout w ++ report e ++ [NL]) (w_datagrams w) (w_tcp w) (w_syslog w).

(** src/root.cpp:191-199 with src/handler/blocking.cpp:26-35. *)
Fixpoint handle_all (w : world) (env : surroundings) (r : record) (q : nat -> nat -> circumstances) (i : nat) (hs : list working)
  : option (world * list working * list event) :=
  match hs with
  | [] => Some (w, [], [])
  | (f, sinks) :: hs' =>
      match render f env r with
      | Undefined => None
      | Raises e =>
          match handle_all (complain w e) env r q (S i) hs' with
          | None => None
          | Some (w2, hs2, evs) => Some (w2, (f, sinks) :: hs2, Complained i e :: evs)
          end
      | Text text =>
          match emit_all w (e_tty env) (r_severity r) text (q i) i 0 sinks with
          | None => None
          | Some (w1, sinks1, evs1, e) =>
              match handle_all (match e with Some e => complain w1 e | None => w1 end) env r q (S i) hs' with
              | None => None
              | Some (w2, hs2, evs2) => Some (w2, (f, sinks1) :: hs2, evs1 ++ match e with Some e => [Complained i e] | None => [] end ++ evs2)
              end
          end
      end
  end.

(** A log call: its arguments, the attributes of the wrappers and scopes, the message supplier, thread, time and surroundings. *)
Record call := Call {
  c_severity : Z;
  c_pattern : bytes;
  c_pack : attribute_pack;
  c_scoped : attribute_pack;
  c_supplier : result sview;
  c_tid : N;
  c_now : Z;
  c_env : surroundings;
  c_circumstances : nat -> nat -> circumstances
}.
(** src/root.cpp:175-201 [consume] with the filter of a logger made by the builder (src/registry.cpp:73), which accepts all. *)
Definition log (w : world) (hs : list working) (c : call) : option (world * list working * list event) :=
  match c_supplier c with
  | Throw _ => Some (w, hs, [])
  | Ret formatted =>
      let r := activate (record_new (c_severity c) (c_pattern c) (c_tid c) (c_pack c ++ c_scoped c)) formatted (c_now c) in
      handle_all w (c_env c) r (c_circumstances c) 0 hs
  end.
Fixpoint log_all (w : world) (hs : list working) (calls : list call) : option (world * list working * list event) :=
  match calls with
  | [] => Some (w, hs, [])
  | c :: calls' =>
      match log w hs c with
      | None => None
      | Some (w1, hs1, evs1) =>
          match log_all w1 hs1 calls' with
          | None => None
          | Some (w2, hs2, evs2) => Some (w2, hs2, evs1 ++ evs2)
          end
      end
  end.

(** The destructors: files are closed. *)
Definition close_sink (w : world) (s : live) : world :=
  match s with
  | LFile p _ k => World (fun x => if bytes_eqb x p then FileSinkModel.destroy (w_files w p) k else w_files w x)
                     (w_stdout w) (w_datagrams w) (w_tcp w) (w_syslog w)
  | _ => w
  end.
Definition close_all (w : world) (hs : list working) : world := fold_left close_sink (flat_map snd hs) w.
End System.
