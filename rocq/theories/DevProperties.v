(** C78-C81: the development handler.
    In every theorem [dbl] and [streamed] are the texts of doubles in the formatting library and on the stream, [lib] is the
    C library's part of the date generator and [z] its zone. *)
From Verif Require Import Base Decimal TimeModel TimeProofs FmtModel DevModel DevSpec DevProofs.
From Verif Require DateModel StrModel.
Open Scope N_scope.

Definition case_lib : DateModel.clib := DateModel.Clib (fun _ _ => []) (fun c => (0%Z, c)).
Definition case_zone : DateModel.zone :=
  DateModel.Zone {| timezone := 0%Z; dst := 0%Z |} (B "UTC") gmtime (fun t => DateModel.Clock (gmtime t) None None).
Example case_calendar : keeps_calendar case_zone.
Proof. intros t H. exact (gmtime_civil_lemma t H). Qed.
Definition case_view (s : bytes) : StrModel.view := StrModel.View (Some (s ++ B " and more")) (length_N s).
Definition case_real (bits : N) : bytes := B "0.5".

(** A warning with two lists of attributes. *)
Definition case_record : drecord := DRec (case_view (B "disk full")) 2 1447959752106331000 140 42
  [ [(case_view (B "device"), DString (case_view (B "sda"))); (case_view (B "bytes_left_on_device"), DInt (-5))];
    [(case_view (B "load"), DDouble 0); (case_view (B "retry"), DBool true); (case_view (B "lazy"), DFun (Writes (B "42%")))] ].
Definition case_content : content := Content 1447959752106331000 2 140 42 (B "disk full")
  [ (B "device", B "sda"); (B "bytes_left_on_device", B "-5"); (B "load", B "0.5"); (B "retry", B "1"); (B "lazy", B "42%") ].
Example case_views : forall s, views (case_view s) s.
Proof. intros s. split; [reflexivity|]. exists (B " and more"). reflexivity. Qed.
Example case_holds : holds case_real case_record case_content.
Proof.
  split; [apply case_views|]. do 4 (split; [reflexivity|]). cbn [concat d_pack case_record app k_entries case_content].
  apply Forall2_cons; [split; [apply case_views|apply text_string, case_views]|].
  apply Forall2_cons; [split; [apply case_views|apply (text_int case_real (-5))]|].
  apply Forall2_cons; [split; [apply case_views|apply (text_double case_real 0)]|].
  apply Forall2_cons; [split; [apply case_views|apply text_true]|].
  apply Forall2_cons; [split; [apply case_views|apply text_function]|]. apply Forall2_nil.
Qed.

(** C78. On a stream in its initial state that is not a terminal: the header, the message and a line for each attribute. *)
Theorem C78_text : forall dbl streamed lib z r k, keeps_calendar z -> (0 <= k_nanoseconds k < 2 ^ 63)%Z ->
  holds (streamed (Stream false false false)) r k -> handle dbl streamed lib z (Stream false false false) r = Out (line k).
Proof. exact text_lemma. Qed.
Print Assumptions C78_text.
Example C78_text_case : (0 <= k_nanoseconds case_content < 2 ^ 63)%Z /\ line case_content =
  B "2015-11-19 19:02:32.106331 W 140/42 - disk full" ++ [NL]
  ++ B "    device          : sda" ++ [NL] ++ B "    bytes_left_on_de: -5" ++ [NL] ++ B "    load            : 0.5" ++ [NL]
  ++ B "    retry           : 1" ++ [NL] ++ B "    lazy            : 42%" ++ [NL].
Proof. split; [cbn [k_nanoseconds case_content]; lia|vm_compute; reflexivity]. Qed.

(** C78. Refuted for a stream whose flags the program has changed: the numbers are printed in its base. *)
Theorem C78_flags_refuted : forall dbl streamed lib, exists r k, holds (streamed (Stream false true false)) r k
  /\ exists out, handle dbl streamed lib case_zone (Stream false true false) r = Out out /\ out <> line k
  /\ out = B "1970-01-01 00:00:00.000000 I 1f/a - m" ++ [NL] ++ B "    left            : ffffffffffffffff" ++ [NL].
Proof.
  intros. exists (DRec (case_view (B "m")) 1 0 31 10 [[(case_view (B "left"), DInt (-1))]]), (Content 0 1 31 10 (B "m") [(B "left", B "-1")]).
  split; [|eexists; split; [vm_compute; reflexivity|split; [vm_compute; discriminate|reflexivity]]].
  split; [apply case_views|]. do 4 (split; [reflexivity|]). apply Forall2_cons; [|apply Forall2_nil].
  split; [apply case_views|apply (text_int _ (-1))].
Qed.
Print Assumptions C78_flags_refuted.

(** C78. Refuted for times before 1970: the microseconds become a number of twenty digits. *)
Theorem C78_negative_refuted : forall dbl streamed lib, exists r, d_nanoseconds r = (-1000)%Z /\ good_views r
  /\ handle dbl streamed lib case_zone (Stream false false false) r = Out (B "1970-01-01 00:00:00.18446744073709551615 I 31/10 - m" ++ [NL]).
Proof.
  intros. exists (DRec (case_view (B "m")) 1 (-1000) 31 10 []). split; [reflexivity|]. split; [|vm_compute; reflexivity].
  split; [eexists; apply case_views|]. intros a [].
Qed.
Print Assumptions C78_negative_refuted.

(** C79. On a terminal the same characters: the time and the names are faint, the letter and the numbers behind it have the
    colour of the severity, the message and the values are normal; behind the record the terminal is back in its normal
    state. *)
Theorem C79_terminal : forall dbl streamed lib z r k, keeps_calendar z -> (0 <= k_nanoseconds k < 2 ^ 63)%Z -> no_escape k ->
  holds (streamed (Stream true false false)) r k ->
  exists out, handle dbl streamed lib z (Stream true false false) r = Out out /\ display Ground normal out = (cells k, Ground, normal).
Proof. exact terminal_lemma. Qed.
Print Assumptions C79_terminal.
Theorem C79_characters : forall k, map fst (cells k) = line k.
Proof. exact cells_text. Qed.
Print Assumptions C79_characters.
Example C79_case : no_escape case_content /\ exists out, forall dbl,
  handle dbl (fun _ => case_real) case_lib case_zone (Stream true false false) case_record = Out out
  /\ firstn 48 out = chr 27 :: B "[2m2015-11-19 19:02:32.106331 " ++ chr 27 :: B "[33mW 140/42" ++ chr 27 :: B "[0m"
  /\ nth 27 (cells case_content) (NUL, normal) = ("W"%char, Style true (Some 33)).
Proof.
  split.
  - split; [intros J; cbn in J; repeat destruct J as [J|J]; try discriminate; contradiction|].
    repeat (apply Forall_cons; [split; intros J; cbn in J; repeat destruct J as [J|J]; try discriminate; contradiction|]). apply Forall_nil.
  - eexists. intros dbl. split; [vm_compute; reflexivity|]. split; vm_compute; reflexivity.
Qed.

(** C79. Refuted: the letter of an error is not shown in plain red; it stays faint as the time in front of it. *)
Theorem C79_bright_refuted : forall dbl streamed lib, exists r k out, holds (streamed (Stream true false false)) r k /\ no_escape k
  /\ k_severity k = 3%Z /\ handle dbl streamed lib case_zone (Stream true false false) r = Out out
  /\ nth 27 (fst (fst (display Ground normal out))) (NUL, normal) = ("E"%char, Style true (Some 31))
  /\ Style true (Some 31) <> rendition 31 normal.
Proof.
  intros. exists (DRec (case_view (B "m")) 3 0 31 10 []), (Content 0 3 31 10 (B "m") []). eexists.
  split; [|split; [|split; [reflexivity|split; [vm_compute; reflexivity|split; [vm_compute; reflexivity|discriminate]]]]].
  - split; [apply case_views|]. do 4 (split; [reflexivity|]). apply Forall2_nil.
  - split; [|apply Forall_nil]. intros J; cbn in J; repeat destruct J as [J|J]; try discriminate; contradiction.
Qed.
Print Assumptions C79_bright_refuted.

(** C79. Refuted for messages with control sequences: they are passed on to the terminal. *)
Theorem C79_escape_refuted : forall dbl streamed lib, exists r k out, holds (streamed (Stream true false false)) r k
  /\ handle dbl streamed lib case_zone (Stream true false false) r = Out out
  /\ map fst (fst (fst (display Ground normal out))) <> line k /\ In ("x"%char, Style false (Some 31)) (fst (fst (display Ground normal out))).
Proof.
  intros. exists (DRec (case_view (chr 27 :: B "[31mx")) 1 0 31 10 []), (Content 0 1 31 10 (chr 27 :: B "[31mx") []). eexists.
  split; [|split; [vm_compute; reflexivity|split; [vm_compute; discriminate|vm_compute; tauto]]].
  split; [apply case_views|]. do 4 (split; [reflexivity|]). apply Forall2_nil.
Qed.
Print Assumptions C79_escape_refuted.

(** C80. From the printed text the record can be read back, if no text has a line break and names are at most sixteen bytes. *)
Theorem C80_read_back : forall a b, (0 <= k_nanoseconds a < 2 ^ 63)%Z -> (0 <= k_nanoseconds b < 2 ^ 63)%Z -> one_line a -> one_line b ->
  line a = line b -> same_content a b.
Proof. exact inj_lemma. Qed.
Print Assumptions C80_read_back.
Example C80_case : one_line (Content 1447959752106331000 2 140 42 (B "a - b: c") [(B "1234567890123456", B " 2: "); ([], [])]).
Proof.
  split; [intros J; cbn in J; repeat destruct J as [J|J]; try discriminate; contradiction|].
  repeat (apply Forall_cons; [refine (conj _ (conj _ (conj _ _)))|]); try apply Forall_nil;
    first [intros J; cbn in J; repeat destruct J as [J|J]; try discriminate; contradiction | cbn; lia | discriminate].
Qed.

(** C80. Refuted for messages with a line break: one record prints what two others print. *)
Theorem C80_forged_refuted : exists a b c, line a = line b ++ line c /\ k_severity a = 1%Z /\ k_severity c = 3%Z.
Proof.
  exists (Content 0 1 31 10 (B "ok" ++ [NL] ++ B "2000-02-29 23:59:59.999999 E 7/8 - fire") []), (Content 0 1 31 10 (B "ok") []),
    (Content 951868799999999000 3 7 8 (B "fire") []).
  split; [vm_compute; reflexivity|]. split; reflexivity.
Qed.
Print Assumptions C80_forged_refuted.
(** C80. Refuted for long names: those that agree in sixteen bytes cannot be told apart. *)
Theorem C80_cut_refuted : exists a b, line a = line b /\ k_entries a <> k_entries b.
Proof.
  exists (Content 0 1 31 10 [] [(B "connections_accepted", B "1")]), (Content 0 1 31 10 [] [(B "connections_acce", B "1")]).
  split; [|vm_compute; discriminate]. vm_compute. reflexivity.
Qed.
Print Assumptions C80_cut_refuted.

(** C81. The call ends normally if and only if every function value of the record does; whatever the time is. *)
Theorem C81_normal : forall dbl streamed lib z st r, good_views r ->
  (exists out, handle dbl streamed lib z st r = Out out) <-> Forall (fun f => exists s, f = Writes s) (effects r).
Proof. exact normal_lemma. Qed.
Print Assumptions C81_normal.
(** C81. It throws if and only if the first function that does not end normally throws. *)
Theorem C81_throws : forall dbl streamed lib z st r, good_views r ->
  (exists out, handle dbl streamed lib z st r = Thrown out) <->
  exists before after, effects r = before ++ Throws :: after /\ Forall (fun f => exists s, f = Writes s) before.
Proof. exact thrown_lemma. Qed.
Print Assumptions C81_throws.
Example C81_case : good_views case_record /\ effects case_record = [Writes (B "42%")].
Proof.
  split; [|reflexivity]. split; [eexists; apply case_views|]. intros a J. cbn in J.
  repeat destruct J as [<-|J]; try contradiction; (split; [eexists; apply case_views|cbn; first [exact I|eexists; apply case_views]]).
Qed.

(** C81. Refuted: after an exception the line is not ended, and the next record continues it. *)
Theorem C81_unfinished_refuted : forall dbl streamed lib, exists r q out next, good_views r
  /\ handle dbl streamed lib case_zone (Stream false false false) r = Thrown out
  /\ handle dbl streamed lib case_zone (Stream false false false) q = Out next
  /\ out ++ next = B "1970-01-01 00:00:00.000000 I 31/10 - m" ++ [NL] ++ B "    user            : 1970-01-01 00:00:00.000000 E 31/10 - n" ++ [NL].
Proof.
  intros. exists (DRec (case_view (B "m")) 1 0 31 10 [[(case_view (B "user"), DFun Throws); (case_view (B "id"), DInt 5)]]),
    (DRec (case_view (B "n")) 3 0 31 10 []). eexists _, _.
  split; [|split; [vm_compute; reflexivity|split; [vm_compute; reflexivity|reflexivity]]].
  split; [eexists; apply case_views|]. intros a J. cbn in J.
  repeat destruct J as [<-|J]; try contradiction; (split; [eexists; apply case_views|exact I]).
Qed.
Print Assumptions C81_unfinished_refuted.

(** C81. Refuted: a function value that logs to the same handler locks the mutex its thread holds. *)
Theorem C81_reentrant_refuted : forall dbl streamed lib z st, exists r, good_views r /\ handle dbl streamed lib z st r = Undef.
Proof.
  intros. exists (DRec (case_view (B "m")) 1 0 31 10 [[(case_view (B "user"), DFun Logs)]]). split.
  - split; [eexists; apply case_views|]. intros a J. cbn in J. destruct J as [<-|[]]. split; [eexists; apply case_views|exact I].
  - destruct st as [[] [] []]; vm_compute; reflexivity.
Qed.
Print Assumptions C81_reentrant_refuted.
