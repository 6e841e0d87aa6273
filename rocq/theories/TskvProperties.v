(** C25-C28: the TSKV formatter. *)
From Verif Require Import Base Decimal Values StdMap TskvModel TskvSpec TskvProofs.

(** C25. An escaped value contains no control byte that would end a field or line ... *)
Theorem C25_value_safe : forall s, safe (write_escaped_val s).
Proof. exact escape_safe_lemma. Qed.
Print Assumptions C25_value_safe.

(** ... reads back as the original ... *)
Theorem C25_value_round_trip : forall s, unescape (write_escaped_val s) = s.
Proof. exact unescape_lemma. Qed.
Print Assumptions C25_value_round_trip.

(** ... and so is different for different values. *)
Theorem C25_value_injective : forall a b, write_escaped_val a = write_escaped_val b -> a = b.
Proof. exact escape_inj_lemma. Qed.
Print Assumptions C25_value_injective.
Example C25_value_case : write_escaped_val ("a"%char :: TAB :: B "\t" ++ [NL; chr 27; NUL; "="%char]) = B "a\t\\t\n\e\0=".
Proof. vm_compute. reflexivity. Qed.

(** C26. Different keys are written differently. *)
Theorem C26_key_injective : forall a b, write_escaped_key a = write_escaped_key b -> a = b.
Proof. exact key_inj_lemma. Qed.
Print Assumptions C26_key_injective.

(** C26. A key that does not end in a backslash is read back, whatever follows the separator. *)
Theorem C26_key_read_back : forall k v, (forall p, k <> p ++ ["\"%char]) ->
  read_key (write_escaped_key k ++ "="%char :: v) = Some (k, v).
Proof. exact read_back_lemma. Qed.
Print Assumptions C26_key_read_back.
Example C26_key_case : write_escaped_key (B "a=b\c\=d") = B "a\=b\c\\=d" /\
  read_key (B "a\=b\c\\=d=v=w") = Some (B "a=b\c\=d", B "v=w") /\ forall p, B "a=b\c\=d" <> p ++ ["\"%char].
Proof.
  split; [reflexivity|]. split; [reflexivity|]. intros p E. apply (f_equal (@rev ascii)) in E. rewrite rev_app_distr in E. discriminate.
Qed.

(** C26, false for every key that ends in a backslash: it is never read back. *)
Theorem C26_key_ending_in_backslash_refuted : forall p v v',
  read_key (write_escaped_key (p ++ ["\"%char]) ++ "="%char :: v) <> Some (p ++ ["\"%char], v').
Proof. exact read_back_wrong_lemma. Qed.
Print Assumptions C26_key_ending_in_backslash_refuted.

(** C26, false: two different fields are written alike. *)
Theorem C26_field_ambiguous_refuted : exists k1 v1 k2 v2, (k1, v1) <> (k2, v2) /\
  write_escaped_key k1 ++ "="%char :: write_escaped_val v1 = write_escaped_key k2 ++ "="%char :: write_escaped_val v2.
Proof. exists (B "a\"), (B "b=c"), (B "a=b"), (B "c"). split; [discriminate|reflexivity]. Qed.
Print Assumptions C26_field_ambiguous_refuted.

(** C26. The bytes of a key are passed through, the backslashes aside ... *)
Theorem C26_key_bytes : forall c k, In c (write_escaped_key k) <-> In c k \/ (c = "\"%char /\ In "="%char k).
Proof. exact key_chars. Qed.
Print Assumptions C26_key_bytes.

(** ... false then that an encoded key contains no tab or newline. *)
Theorem C26_key_line_safe_refuted : exists k, In TAB (write_escaped_key k) /\ In NL (write_escaped_key k).
Proof. exists [TAB; NL]. cbv. tauto. Qed.
Print Assumptions C26_key_line_safe_refuted.

(** C27. The line reads back as exactly the fields that should be there: the constants and the timestamps
    ([cs] and [ts], by name), the built-in ones, the attributes; without the removed ones, renamed. The keys must
    be such that the format can carry them, and so must the constants, which are not escaped. *)
Theorem C27_parse_back : forall dbl stamp pid calls r cs ts all fields,
  lists (constant calls) cs -> lists (stamp_of calls) ts ->
  raw_fields dbl stamp pid cs ts r all -> shown calls all fields ->
  ~ removed calls (B "tid") -> new_name calls (B "tid") = B "tid" ->
  Forall (fun f => plain_key (fst f)) fields ->
  (forall n v, constant calls n = Some v -> ~ removed calls n -> plain_text v) ->
  read_line (format dbl stamp pid (build calls) r) = Some (B "tskv", fields).
Proof. exact parse_back_lemma. Qed.
Print Assumptions C27_parse_back.

(** The builder keeps the last call for each name, in the order of the names, so [cs] and [ts] above exist. *)
Theorem C27_builder : forall calls,
  lists (constant calls) (d_attributes (build calls)) /\ lists (stamp_of calls) (d_timestamps (build calls)).
Proof. exact builder_lemma. Qed.
Print Assumptions C27_builder.

(** A configuration and a record for the examples. *)
Definition example_calls : list call :=
  [Create (B "host") (B "h1"); Create (B "app") (B "x"); Create (B "host") (B "h2"); Rename (B "message") (B "a=b");
   Remove (B "pid"); Remove (B "secret"); Timestamp (B "timestamp") (B "%H") false].
Definition example_record : record :=
  Rec (B "m") ("m"%char :: TAB :: B "\x") (-1) 0 255
    [[(B "k", VString (B "v" ++ [NUL] ++ B "w")); (B "secret", VNull)]; [(B "n", VUint 7)]].

Example C27_line_case :
  format (fun _ => []) (fun p _ => p ++ [NL]) 42 (build example_calls) example_record =
    B "tskv" ++ TAB :: B "app=x" ++ TAB :: B "host=h2" ++ TAB :: B "timestamp=%H\n" ++ TAB :: B "severity=-1"
      ++ TAB :: B "tid=0xff" ++ TAB :: B "a\=b=m\t\\x" ++ TAB :: B "k=v" ++ TAB :: B "n=7" /\
  read_line (format (fun _ => []) (fun p _ => p ++ [NL]) 42 (build example_calls) example_record) =
    Some (B "tskv", [(B "app", B "x"); (B "host", B "h2"); (B "timestamp", B "%H" ++ [NL]); (B "severity", B "-1");
      (B "tid", B "0xff"); (B "a=b", r_formatted example_record); (B "k", B "v"); (B "n", B "7")]).
Proof. vm_compute. split; reflexivity. Qed.

Example C27_hypotheses_case :
  let calls := [Create (B "app") (B "x"); Rename (B "message") (B "a=b"); Remove (B "pid")] in
  let r := Rec (B "m") ("m"%char :: TAB :: B "\x") (-1) 0 255 [[(B "k", VString (B "v" ++ NUL :: B "w"))]; [(B "n", VUint 7)]] in
  exists cs ts all fields, lists (constant calls) cs /\ lists (stamp_of calls) ts /\
    raw_fields (fun _ => []) (fun _ _ => B "now") 42 cs ts r all /\ shown calls all fields /\
    ~ removed calls (B "tid") /\ new_name calls (B "tid") = B "tid" /\
    Forall (fun f => plain_key (fst f)) fields /\
    (forall n v, constant calls n = Some v -> ~ removed calls n -> plain_text v) /\ length fields = 7%nat.
Proof.
  intros calls r. destruct (builder_lemma calls) as [Lc Lt].
  exists (d_attributes (build calls)), (d_timestamps (build calls)).
  assert (V : forall n v, constant calls n = Some v -> v = B "x").
  { intros n v E. apply (proj2 Lc) in E. vm_compute in E. destruct E as [E|[]]. injection E as _ <-. reflexivity. }
  change (d_attributes (build calls)) with [(B "app", B "x")] in *.
  change (d_timestamps (build calls)) with [(B "timestamp", (B "%Y-%m-%d %H:%M:%S %z", true))] in *.
  eexists. eexists. split; [exact Lc|]. split; [exact Lt|].
  split; [apply (raw_fields_intro _ _ _ _ _ _ [(B "k", B "v"); (B "n", B "7")])|].
  { constructor; [split; [reflexivity|]|constructor; [split; [reflexivity|exact (text_uint _ 7)]|constructor]].
    apply (text_cut _ (B "v") (B "w")). vm_compute. intuition discriminate. }
  assert (NR : forall n, n <> B "pid" -> ~ removed calls n).
  { intros n N [X|[X|[X|[]]]]; try discriminate. injection X as <-. contradiction. }
  split.
  { cbn [app map]. repeat first [apply shown_nil | apply shown_as; [apply NR; discriminate|] | apply shown_not; [right; right; left; reflexivity|]]. }
  split; [apply NR; discriminate|]. split; [reflexivity|]. split; [|split; [|reflexivity]].
  { repeat (constructor; [split; [vm_compute; intuition discriminate|
      vm_compute; intros p E; apply (f_equal (@rev ascii)) in E; rewrite rev_app_distr in E; discriminate]|]). constructor. }
  intros n v E _. rewrite (V _ _ E). split; vm_compute; intuition discriminate.
Qed.

(** C27. No newline gets into the line other than through names and constants. *)
Theorem C27_one_line : forall dbl stamp pid calls r,
  (forall n, ~ removed calls n -> In NL (new_name calls n) -> constant calls n = None /\ stamp_of calls n = None /\
     ~ In n [B "severity"; B "pid"; B "message"] /\ ~ In n (map fst (concat (r_attributes r)))) ->
  (forall n v, constant calls n = Some v -> ~ removed calls n -> ~ In NL v) ->
  ~ In NL (format dbl stamp pid (build calls) r).
Proof. exact no_nl_lemma. Qed.
Print Assumptions C27_one_line.
Example C27_one_line_case : ~ In NL (format (fun _ => []) (fun p _ => p ++ [NL]) 42 (build example_calls) example_record).
Proof. vm_compute. intuition discriminate. Qed.

(** C27, false for constants: a constant's value is not escaped, so it can end the field and add another. *)
Theorem C27_constant_injection_refuted : exists calls r fields all,
  raw_fields (fun _ => []) (fun _ _ => []) 1 [(B "a", B "b" ++ TAB :: B "admin=yes")]
    [(B "timestamp", (B "%Y-%m-%d %H:%M:%S %z", true))] r all /\
  lists (constant calls) [(B "a", B "b" ++ TAB :: B "admin=yes")] /\ shown calls all fields /\
  Forall (fun f => plain_key (fst f)) fields /\ ~ In (B "admin") (map fst fields) /\
  exists h l, read_line (format (fun _ => []) (fun _ _ => []) 1 (build calls) r) = Some (h, l) /\ In (B "admin", B "yes") l.
Proof.
  exists [Create (B "a") (B "b" ++ TAB :: B "admin=yes")], (Rec [] [] 0 0 1 []).
  eexists. eexists. split; [apply (raw_fields_intro _ _ _ _ _ _ []); constructor|].
  split; [exact (proj1 (builder_lemma [Create (B "a") (B "b" ++ TAB :: B "admin=yes")]))|].
  split.
  { cbn [app map]. repeat (apply shown_as; [intros [H|[]]; discriminate|]). apply shown_nil. }
  split.
  { repeat (constructor; [split; [vm_compute; intuition discriminate|
      vm_compute; intros p E; apply (f_equal (@rev ascii)) in E; rewrite rev_app_distr in E; discriminate]|]). constructor. }
  split; [vm_compute; intuition discriminate|].
  eexists. eexists. split; [vm_compute; reflexivity|]. right. left. reflexivity.
Qed.
Print Assumptions C27_constant_injection_refuted.

(** C28. A name that is removed or renamed is no key of the line, unless another field is renamed to it; except "tid". *)
Theorem C28_removed_or_renamed_absent : forall dbl stamp pid calls r cs ts all fields n h l,
  lists (constant calls) cs -> lists (stamp_of calls) ts ->
  raw_fields dbl stamp pid cs ts r all -> shown calls all fields ->
  Forall (fun f => plain_key (fst f)) fields ->
  (forall n v, constant calls n = Some v -> ~ removed calls n -> plain_text v) ->
  removed calls n \/ new_name calls n <> n ->
  n <> B "tid" -> (forall m, In m (map fst all) -> new_name calls m = n -> m = n) ->
  read_line (format dbl stamp pid (build calls) r) = Some (h, l) -> ~ In n (map fst l).
Proof. exact absent_lemma. Qed.
Print Assumptions C28_removed_or_renamed_absent.

(** With the configuration and the record of [C27_hypotheses_case]. *)
Example C28_absent_case :
  let calls := [Create (B "app") (B "x"); Rename (B "message") (B "a=b"); Remove (B "pid")] in
  let names := [B "app"; B "timestamp"; B "severity"; B "pid"; B "tid"; B "message"; B "k"; B "n"] in
  removed calls (B "pid") /\ new_name calls (B "message") <> B "message" /\
  (forall m, In m names -> new_name calls m = B "pid" -> m = B "pid") /\ (forall m, In m names -> new_name calls m = B "message" -> m = B "message") /\
  exists l, read_line (format (fun _ => []) (fun _ _ => B "now") 42 (build calls)
    (Rec (B "m") ("m"%char :: TAB :: B "\x") (-1) 0 255 [[(B "k", VString (B "v" ++ NUL :: B "w"))]; [(B "n", VUint 7)]])) = Some (B "tskv", l) /\
    map fst l = [B "app"; B "timestamp"; B "severity"; B "tid"; B "a=b"; B "k"; B "n"].
Proof.
  cbv zeta. split; [right; right; left; reflexivity|]. split; [discriminate|].
  split; [|split; [|eexists; split; [vm_compute; reflexivity|reflexivity]]];
    intros m IN E; cbn [In] in IN; repeat (destruct IN as [<-|IN]; [first [reflexivity|vm_compute in E; discriminate E]|]); destruct IN.
Qed.

(** C28, false for the thread id: it is always there under its own name, whatever is configured. *)
Theorem C28_tid_always_refuted : forall dbl stamp pid calls r cs ts all fields,
  lists (constant calls) cs -> lists (stamp_of calls) ts ->
  raw_fields dbl stamp pid cs ts r all -> shown calls all fields ->
  Forall (fun f => plain_key (fst f)) fields ->
  (forall n v, constant calls n = Some v -> ~ removed calls n -> plain_text v) ->
  exists l, read_line (format dbl stamp pid (build calls) r) = Some (B "tskv", l) /\ In (B "tid", B "0x" ++ hex (r_tid r)) l.
Proof. exact tid_always_lemma. Qed.
Print Assumptions C28_tid_always_refuted.
Example C28_tid_case :
  read_line (format (fun _ => []) (fun _ _ => []) 1 (build [Remove (B "tid"); Remove (B "timestamp"); Rename (B "tid") (B "thread")]) (Rec [] [] 0 0 16 [])) =
    Some (B "tskv", [(B "severity", B "0"); (B "pid", B "1"); (B "tid", B "0x10"); (B "message", [])]).
Proof. vm_compute. reflexivity. Qed.
