(** C22, C23, C24, C54: syslog, the severity filter, the blocking handler. *)
From Verif Require Import Base ConsoleModel DeliveryModel DeliverySpec DeliveryProofs.

(** C22. A severity with an entry in the list gets that priority. *)
Theorem C22_configured : forall priorities severity p,
  (0 <= severity < 2 ^ 31)%Z -> nth_error priorities (Z.to_nat severity) = Some p ->
  syslog_priority priorities severity = p.
Proof. exact priority_configured_lemma. Qed.
Print Assumptions C22_configured.

(** C22. Every other severity, negative ones included, gets LOG_ERR. *)
Theorem C22_default : forall priorities severity,
  (- 2 ^ 31 <= severity < 2 ^ 31)%Z -> (Z.of_nat (length priorities) < 2 ^ 63)%Z ->
  (severity < 0 \/ Z.of_nat (length priorities) <= severity)%Z ->
  syslog_priority priorities severity = 3%Z.
Proof. exact priority_default_lemma. Qed.
Print Assumptions C22_default.
Example C22_case : map (syslog_priority [7; 6; 4]%Z) [0; 1; 2; 3; -1; -2147483648]%Z = [7; 6; 4; 3; 3; 3]%Z.
Proof. vm_compute. reflexivity. Qed.

(** C22. Configured values in the range of [int] are taken over in order. *)
Theorem C22_config_kept : forall values,
  Forall (fun v => - 2 ^ 31 <= v < 2 ^ 31)%Z values -> config_priorities values = values.
Proof. exact config_priorities_lemma. Qed.
Print Assumptions C22_config_kept.
Example C22_config_case : Forall (fun v => - 2 ^ 31 <= v < 2 ^ 31)%Z [7; 6; 4]%Z.
Proof. repeat constructor; vm_compute; congruence. Qed.

(** C22 (the full statement: the priority is the configured one) is false for values outside that range. *)
Theorem C22_config_truncated_refuted : exists values severity v,
  nth_error values (Z.to_nat severity) = Some v /\ syslog_priority (config_priorities values) severity <> v.
Proof. exact config_truncated_lemma. Qed.
Print Assumptions C22_config_truncated_refuted.

(** C54. A record without NUL bytes and shorter than 2 GiB is passed unchanged. *)
Theorem C54_text_kept : forall formatted,
  no_nul formatted -> (Z.of_nat (length formatted) < 2 ^ 31)%Z -> syslog_text formatted = Some formatted.
Proof. exact text_kept_lemma. Qed.
Print Assumptions C54_text_kept.
Example C54_case : no_nul (B "request %s failed") /\ syslog_text (B "request %s failed") = Some (B "request %s failed").
Proof. split; [|vm_compute; reflexivity]. intros H. repeat (destruct H as [H|H]; [discriminate|]). destruct H. Qed.

(** C54. With a NUL byte it is cut there. *)
Theorem C54_text_cut : forall a b,
  no_nul a -> (Z.of_nat (length (a ++ NUL :: b)) < 2 ^ 31)%Z -> syslog_text (a ++ NUL :: b) = Some a.
Proof. exact text_cut_lemma. Qed.
Print Assumptions C54_text_cut.

(** C54. From 2 GiB on the length turns negative and printf reads past the end of the text. *)
Theorem C54_text_long_undefined : forall formatted,
  no_nul formatted -> (2 ^ 31 <= Z.of_nat (length formatted) < 2 ^ 32)%Z -> syslog_text formatted = None.
Proof. exact text_long_lemma. Qed.
Print Assumptions C54_text_long_undefined.

(** C54 (the full statement: syslog receives exactly the formatted bytes) is false. *)
Theorem C54_text_refuted : exists formatted sent, syslog_text formatted = Some sent /\ sent <> formatted.
Proof. exact text_refuted_lemma. Qed.
Print Assumptions C54_text_refuted.

(** C23. Exactly the records below the threshold are denied; the others are neutral. *)
Theorem C23_exact : forall threshold severity,
  (severity_filter threshold severity = Deny <-> (severity < threshold)%Z) /\
  (severity_filter threshold severity <> Deny -> severity_filter threshold severity = Neutral).
Proof. exact filter_exact_lemma. Qed.
Print Assumptions C23_exact.

(** C23. A record that passes also passes when more severe or under a lower threshold. *)
Theorem C23_monotone : forall t1 t2 s1 s2,
  (t1 <= t2)%Z -> (s2 <= s1)%Z -> severity_filter t2 s2 <> Deny -> severity_filter t1 s1 <> Deny.
Proof. exact filter_monotone_lemma. Qed.
Print Assumptions C23_monotone.
Example C23_case : map (severity_filter 2) [1; 2; 3]%Z = [Deny; Neutral; Neutral].
Proof. vm_compute. reflexivity. Qed.

(** C24. The formatter runs once; if it throws, no sink is reached; otherwise the sinks get its text in
    order, all of them or up to and including the first that throws, whose exception leaves the handler. *)
Theorem C24_handle : forall formatter sinks evs threw, handle formatter sinks = (evs, threw) ->
  match formatter with
  | None => evs = [HFormat] /\ threw = true
  | Some text => exists n, evs = HFormat :: deliveries text n /\ reached sinks n /\
                   (threw = true <-> Exists (fun b => b = true) sinks)
  end.
Proof. exact handle_lemma. Qed.
Print Assumptions C24_handle.
Example C24_case : handle (Some (B "x")) [false; true; false] = ([HFormat; HEmit 0 (B "x"); HEmit 1 (B "x")], true).
Proof. vm_compute. reflexivity. Qed.

(** C24 (the full statement: a failing sink does not keep the others from receiving the record) is false. *)
Theorem C24_failing_sink_refuted : exists text sinks i evs threw,
  handle (Some text) sinks = (evs, threw) /\ nth_error sinks i = Some false /\ ~ In (HEmit i text) evs.
Proof. exact handle_skips_lemma. Qed.
Print Assumptions C24_failing_sink_refuted.
