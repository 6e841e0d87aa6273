(** C18, C19: the TCP sink and the ports of the socket sinks. *)
From Verif Require Import Base TcpModel TcpSpec TcpProofs.

(** C18. Each emit makes at most one write, of the record; it returns normally exactly when that write
    was made and accepted all of it. *)
Theorem C18_one_write : forall s m o s' evs threw, emit s m o = (s', evs, threw) ->
  (threw = false -> exists c, writes evs = [(c, m, true)]) /\
  (threw = true -> writes evs = [] \/ exists c sent, writes evs = [(c, sent, false)] /\ is_prefix sent m).
Proof. exact one_write_lemma. Qed.
Print Assumptions C18_one_write.

(** C18. The successful writes are the records whose emit returned, in order, each once. *)
Theorem C18_delivered : forall calls s s' evs ts, run s calls = (s', evs, ts) ->
  delivered evs = returned (map fst calls) ts.
Proof. exact delivered_lemma. Qed.
Print Assumptions C18_delivered.

(** C18. A connection is not used again after a failed write. *)
Theorem C18_no_reuse_after_failure : forall calls s evs ts a c d b,
  run init calls = (s, evs, ts) -> evs = a ++ EWrite c d false :: b -> ~ uses c b.
Proof. exact no_reuse_lemma. Qed.
Print Assumptions C18_no_reuse_after_failure.

(** C18. Every write is on a connection opened before, and each connection is opened once. *)
Theorem C18_opened_before_use : forall calls s evs ts, run init calls = (s, evs, ts) ->
  (forall a c d ok b, evs = a ++ EWrite c d ok :: b -> In (EOpen c) a) /\
  (forall a c b, evs = a ++ EOpen c :: b -> ~ In (EOpen c) b).
Proof. exact opened_lemma. Qed.
Print Assumptions C18_opened_before_use.

(** C18. An opened connection is to the first endpoint, in the resolver's order, that accepted it. *)
Theorem C18_endpoint_order : forall calls s s' evs ts a c b,
  run s calls = (s', evs, ts) -> evs = a ++ EOpen c :: b ->
  exists a0 es e rest, a = a0 ++ EResolve (Some (es ++ e :: rest)) :: map (fun x => EAttempt x false) es ++ [EAttempt e true].
Proof. exact endpoint_order_lemma. Qed.
Print Assumptions C18_endpoint_order.

(** C18. What a peer receives on one connection is whole records, then at most the beginning of one. *)
Theorem C18_stream_of_records : forall calls s evs ts c, run init calls = (s, evs, ts) ->
  exists tail, stream c evs = concat (stream_ok c evs) ++ tail /\
    (tail = [] \/ exists m o, In (m, o) calls /\ is_prefix tail m).
Proof. exact stream_lemma. Qed.
Print Assumptions C18_stream_of_records.

(** Unresolvable; second endpoint taken; a write broken after one byte; reconnection; success. *)
Example C18_case :
  run init [(B "a", Circ None None); (B "bb", Circ (Some [(7, false); (8, true); (9, true)]) None);
            (B "cc", Circ None (Some 1)); (B "d", Circ (Some [(7, true)]) None); (B "e", Circ None None)]
  = (Tcp (Some 1) 2,
     [EResolve None; EResolve (Some [7; 8; 9]); EAttempt 7 false; EAttempt 8 true; EOpen 0; EWrite 0 (B "bb") true;
      EWrite 0 (B "c") false; EClose 0; EResolve (Some [7]); EAttempt 7 true; EOpen 1; EWrite 1 (B "d") true;
      EWrite 1 (B "e") true], [true; false; true; false; false]).
Proof. vm_compute. reflexivity. Qed.

(** C19. A port below 65536 is used unchanged. *)
Theorem C19_port_kept : forall h p, (p < 65536)%N -> factory (Some h) (Some p) = Some (h, p).
Proof. exact port_kept_lemma. Qed.
Print Assumptions C19_port_kept.
Example C19_case : factory (Some (B "localhost")) (Some 65535%N) = Some (B "localhost", 65535%N).
Proof. vm_compute. reflexivity. Qed.

(** C19 (the full statement: the configured port is used or rejected) is false beyond 65535. *)
Theorem C19_port_truncated_refuted : exists h p q, factory (Some h) (Some p) = Some (h, q) /\ q <> p.
Proof. exact port_truncated_lemma. Qed.
Print Assumptions C19_port_truncated_refuted.
