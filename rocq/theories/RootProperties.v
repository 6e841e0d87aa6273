(** C01, C02, C03, C51: log calls. *)
From Verif Require Import Base Values RootModel RootSpec RootProofs.

(** C01. A rejected record: the filter saw it and nothing else happened. *)
Theorem C01_rejected_has_no_effect : forall lg scoped tid now sev pat pack sup,
  let r := Rec pat pat sev 0%Z tid (pack ++ scoped) in
  i_filter lg r = Ret false ->
  let o := consume lg scoped tid now sev pat pack sup in
  o_exit o = Ret tt /\ o_events o = [EvFilter r].
Proof. exact rejected_lemma. Qed.
Print Assumptions C01_rejected_has_no_effect.

(** C01, C02. An accepted record: supplied once, then delivered to every handler once, in order,
    whatever the handlers throw; one diagnostic per throwing handler; the call returns. *)
Theorem C01_accepted_delivers_to_all : forall lg scoped tid now sev pat pack v,
  let r := Rec pat pat sev 0%Z tid (pack ++ scoped) in
  let r' := Rec pat (text_of pat v) sev now tid (pack ++ scoped) in
  i_filter lg r = Ret true ->
  let o := consume lg scoped tid now sev pat pack (Ret v) in
  o_exit o = Ret tt /\
  deliveries (o_events o) = map (fun i => (i, r')) (seq 0 (length (i_handlers lg))) /\
  printed (o_events o) = flat_map (fun h => diagnostic (h r')) (i_handlers lg) /\
  filter_calls (o_events o) = [r] /\ supplies (o_events o) = 1 /\
  exists rest, o_events o = EvFilter r :: EvSupply :: rest.
Proof. exact accepted_lemma. Qed.
Print Assumptions C01_accepted_delivers_to_all.

(** C01. Handlers only ever see activated records (the clock does not read its own epoch). *)
Theorem C01_handlers_see_active_records : forall lg scoped tid now sev pat pack sup i r,
  now <> 0%Z -> In (EvHandle i r) (o_events (consume lg scoped tid now sev pat pack sup)) -> is_active r = true.
Proof. exact active_lemma. Qed.
Print Assumptions C01_handlers_see_active_records.

(** C01. A built logger calls the handlers in the order of [add] and accepts everything. *)
Theorem C01_builder_order : forall adds,
  i_handlers (builder_build adds) = adds /\ forall r, i_filter (builder_build adds) r = Ret true.
Proof. exact builder_lemma. Qed.
Print Assumptions C01_builder_order.

(** C02. Exceptions of the filter and of the supplier leave the call; nothing is delivered or printed. *)
Theorem C02_filter_throws : forall lg scoped tid now sev pat pack sup e,
  let r := Rec pat pat sev 0%Z tid (pack ++ scoped) in
  i_filter lg r = Throw e ->
  let o := consume lg scoped tid now sev pat pack sup in
  o_exit o = Throw e /\ o_events o = [EvFilter r].
Proof. exact filter_throws_lemma. Qed.
Print Assumptions C02_filter_throws.

Theorem C02_supplier_throws : forall lg scoped tid now sev pat pack e,
  let r := Rec pat pat sev 0%Z tid (pack ++ scoped) in
  i_filter lg r = Ret true ->
  let o := consume lg scoped tid now sev pat pack (Throw e) in
  o_exit o = Throw e /\ o_events o = [EvFilter r; EvSupply].
Proof. exact supplier_throws_lemma. Qed.
Print Assumptions C02_supplier_throws.

(** C02. Nothing else leaves the call. *)
Theorem C02_only_filter_and_supplier_escape : forall lg scoped tid now sev pat pack sup e,
  o_exit (consume lg scoped tid now sev pat pack sup) = Throw e ->
  i_filter lg (Rec pat pat sev 0%Z tid (pack ++ scoped)) = Throw e \/ sup = Throw e.
Proof. exact exit_source_lemma. Qed.
Print Assumptions C02_only_filter_and_supplier_escape.

(** C02. The diagnostic of handler [i] comes right after its call. *)
Theorem C02_diagnostic_follows_handler : forall lg scoped tid now sev pat pack v i h,
  let r := Rec pat pat sev 0%Z tid (pack ++ scoped) in
  let r' := Rec pat (text_of pat v) sev now tid (pack ++ scoped) in
  i_filter lg r = Ret true -> nth_error (i_handlers lg) i = Some h ->
  exists t1 t2, o_events (consume lg scoped tid now sev pat pack (Ret v))
    = t1 ++ EvHandle i r' :: map EvPrint (diagnostic (h r')) ++ t2
    /\ length (deliveries t1) = i.
Proof. exact diagnostics_adjacent_lemma. Qed.
Print Assumptions C02_diagnostic_follows_handler.

(** Three handlers of which two throw. *)
Example C01_case :
  let lg := Inner (fun r => Ret (0 <=? r_severity r)%Z)
              [fun _ => Throw (StdExn (B "disk full")); fun _ => Ret tt; fun _ => Throw (OtherExn 7)] in
  let r' := Rec (B "p {}") (B "p 1") 2%Z 99%Z 5%N [[(B "k", VInt 1)]] in
  let o := consume lg [] 5%N 99%Z 2%Z (B "p {}") [[(B "k", VInt 1)]] (Ret (SView (B "p 1"))) in
  deliveries (o_events o) = [(0, r'); (1, r'); (2, r')] /\
  printed (o_events o) = [B "logging core error occurred: disk full"; B "logging core error occurred: unknown"] /\
  o_exit o = Ret tt /\
  o_events (consume lg [] 5%N 99%Z (-1)%Z (B "p") [] (Throw (OtherExn 1))) = [EvFilter (Rec (B "p") (B "p") (-1)%Z 0%Z 5%N [])].
Proof. repeat split. Qed.

Example C02_case :
  let e := StdExn (B "bad_function_call") in
  o_exit (consume (Inner (fun _ => Throw e) [fun _ => Ret tt]) [] 5%N 99%Z 2%Z (B "p") [] null_message) = Throw e /\
  o_exit (consume (Inner (fun _ => Ret true) [fun _ => Ret tt]) [] 5%N 99%Z 2%Z (B "p") [] (Throw e)) = Throw e.
Proof. split; reflexivity. Qed.

(** C03. The attribute lists a handler sees: the caller's, the wrappers' from the outermost to the
    innermost, the scopes' (newest to oldest, see C04). *)
Theorem C03_attribute_order : forall ws lg scoped tid now sev pat pack sup i r,
  In (EvHandle i r) (o_events (log_pack (wrapped ws) lg scoped tid now sev pat pack sup)) ->
  r_attributes r = pack ++ ws ++ scoped.
Proof. exact pack_lemma. Qed.
Print Assumptions C03_attribute_order.

(** C03. [log] without attributes is [log] with an empty pack. *)
Theorem C03_plain_log : forall ws lg scoped tid now sev msg,
  log_plain (wrapped ws) lg scoped tid now sev msg = log_pack (wrapped ws) lg scoped tid now sev msg [] (Ret SNull).
Proof. exact plain_pack_lemma. Qed.
Print Assumptions C03_plain_log.

(** C03. A lookup by name finds the first binding of the first list that binds the name. *)
Theorem C03_lookup_first : forall name pack v, find name pack = Some v <->
  exists p1 l p2, pack = p1 ++ l :: p2 /\ (forall x, In x p1 -> ~ binds name x) /\ first_binding name l v.
Proof. exact find_spec. Qed.
Print Assumptions C03_lookup_first.

Theorem C03_lookup_complete : forall name pack, find name pack = None <-> forall l, In l pack -> ~ binds name l.
Proof. exact find_none. Qed.
Print Assumptions C03_lookup_complete.

Example C03_case :
  let lg := Inner (fun _ => Ret true) [fun _ => Ret tt] in
  let u := [(B "a", VInt 1)] in let w1 := [(B "b", VInt 2)] in let w2 := [(B "b", VInt 3); (B "c", VInt 4)] in
  let s := [(B "c", VInt 5); (B "d", VInt 6)] in
  let o := log_pack (wrapped [w1; w2]) lg [s] 5%N 99%Z 2%Z (B "p") [u] null_message in
  deliveries (o_events o) = [(0, Rec (B "p") (B "p") 2%Z 99%Z 5%N [u; w1; w2; s])] /\
  find (B "b") [u; w1; w2; s] = Some (VInt 2) /\ find (B "c") [u; w1; w2; s] = Some (VInt 4) /\
  find (B "d") [u; w1; w2; s] = Some (VInt 6) /\ find (B "e") [u; w1; w2; s] = None.
Proof. repeat split. Qed.

(** C51. A log call leaves the caller's pack as it was only if there is nothing to attach: otherwise
    the wrappers' and the scopes' lists stay in it. *)
Theorem C51_pack_after_call : forall ws lg scoped tid now sev pat pack sup,
  o_pack (log_pack (wrapped ws) lg scoped tid now sev pat pack sup) = pack ++ ws ++ scoped.
Proof. exact pack_after_lemma. Qed.
Print Assumptions C51_pack_after_call.
Example C51_case : o_pack (log_pack (wrapped [[(B "a", VInt 1)]]) (Inner (fun _ => Ret true) []) [[(B "b", VInt 2)]] 5%N 99%Z 2%Z (B "p") [[(B "c", VInt 3)]] null_message)
  = [[(B "c", VInt 3)]; [(B "a", VInt 1)]; [(B "b", VInt 2)]].
Proof. reflexivity. Qed.

(** C51, false: with a wrapper or a scope the caller's pack is longer afterwards. *)
Theorem C51_pack_unchanged_refuted : exists ws lg scoped tid now sev pat pack sup,
  o_pack (log_pack (wrapped ws) lg scoped tid now sev pat pack sup) <> pack.
Proof.
  exists [[(B "a", VInt 1)]], (Inner (fun _ => Ret true) []), [], 5%N, 99%Z, 2%Z, (B "p"), [], null_message.
  cbn. discriminate.
Qed.
Print Assumptions C51_pack_unchanged_refuted.
