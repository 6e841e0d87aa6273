(** The TCP sink (src/sink/socket/tcp.cpp) and the factories of the socket sinks. *)
From Verif Require Import Base.

Definition conn := nat.      (* a connection, never reused *)
Definition endpoint := nat.

(** What the network does during one emit: the resolver's answer (the endpoints, each with the outcome of
    connecting to it), and how writing ends (all sent, or an error after so many bytes). *)
Record circumstances := Circ {
  o_resolve : option (list (endpoint * bool));
  o_write : option nat
}.

(** Observable actions of the sink. [EWrite c d ok]: one [boost::asio::write] on connection [c], which
    accepted the bytes [d] and succeeded or not. *)
Inductive event :=
| EResolve (endpoints : option (list endpoint))
| EAttempt (e : endpoint) (ok : bool)
| EOpen (c : conn)
| EWrite (c : conn) (data : bytes) (ok : bool)
| EClose (c : conn).

(** src/sink/socket/tcp.hpp:15-23, [socket]; [t_next]: the next connection. *)
Record tcp := Tcp { t_socket : option conn; t_next : conn }.

(** src/sink/socket/tcp.cpp:37-56 [do_connect]: endpoints in order until one connects. *)
Fixpoint do_connect (eps : list (endpoint * bool)) : list event * bool :=
  match eps with
  | [] => ([], false)
  | (e, true) :: _ => ([EAttempt e true], true)
  | (e, false) :: eps' => let '(evs, ok) := do_connect eps' in (EAttempt e false :: evs, ok)
  end.

(** src/sink/socket/tcp.cpp:73-104 [connect], [reconnect]: a failure to resolve or to connect throws. *)
Definition reconnect (s : tcp) (o : circumstances) : list event * option (conn * tcp) :=
  match o_resolve o with
  | None => ([EResolve None], None)
  | Some eps =>
      let '(evs, ok) := do_connect eps in
      let evs' := EResolve (Some (map fst eps)) :: evs in
      if ok then (evs' ++ [EOpen (t_next s)], Some (t_next s, Tcp (Some (t_next s)) (S (t_next s))))
      else (evs', None)
  end.

(** src/sink/socket/tcp.cpp:128-133: write; on an error the socket is dropped and the error rethrown. *)
Definition write (s : tcp) (c : conn) (m : bytes) (o : circumstances) : tcp * list event * bool :=
  match o_write o with
  | None => (s, [EWrite c m true], false)
  | Some n => (Tcp None (t_next s), [EWrite c (firstn n m) false; EClose c], true)
  end.

(** src/sink/socket/tcp.cpp:121-134 [emit] (under the mutex: emits of several threads are a sequence). Returns
    whether it threw. Exceptions other than network errors are not modelled. *)
Definition emit (s : tcp) (m : bytes) (o : circumstances) : tcp * list event * bool :=
  match t_socket s with
  | Some c => write s c m o
  | None =>
      match reconnect s o with
      | (evs, None) => (s, evs, true)
      | (evs, Some (c, s1)) => let '(s2, evs2, threw) := write s1 c m o in (s2, evs ++ evs2, threw)
      end
  end.

Fixpoint run (s : tcp) (calls : list (bytes * circumstances)) : tcp * list event * list bool :=
  match calls with
  | [] => (s, [], [])
  | (m, o) :: calls' =>
      let '(s1, e1, t1) := emit s m o in
      let '(s2, e2, t2) := run s1 calls' in (s2, e1 ++ e2, t1 :: t2)
  end.

Definition init : tcp := Tcp None 0.

(** The factories, src/sink/socket/tcp.cpp:147-158 and src/sink/socket/udp.cpp:48-59: the port the sink uses, from the
    options read by [to_string] and [to_uint64]; [None]: std::invalid_argument. *)
Definition factory (host : option bytes) (port : option N) : option (bytes * N) :=
  match host, port with
  | Some h, Some p => Some (h, p mod 65536)%N
  | _, _ => None
  end.
