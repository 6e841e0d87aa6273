(** C40, C41, C64-C66: time patterns. [lib] is the C library, [z] the time zone, [dbl] the text of doubles. *)
From Verif Require Import Base Decimal TimeModel TimeSpec FmtModel DateModel DateSpec DateProofs DateSubProofs.
From Verif Require FmtSpec StrModel StrSpec.
Open Scope N_scope.

(** A C library for the examples: an hour east of Greenwich. *)
Definition case_mktime (c : clock) : Z * clock :=
  ((posix_seconds {| f_sec := tm_sec (c_tm c); f_min := tm_min (c_tm c); f_hour := tm_hour (c_tm c);
                     f_yday := tm_yday (c_tm c); f_year := tm_year (c_tm c) |} - 3600)%Z,
   Clock (c_tm c) (Some 3600%Z) (Some (B "CET"))).
Definition case_lib : clib := Clib (fun c d => if bytes_eqb d (B "%j") then padded 3 (tm_yday (c_tm c) + 1) else B "?") case_mktime.
Definition case_zone : zone := Zone {| timezone := (-3600)%Z; dst := 0%Z |} (B "CET") gmtime
  (fun t => Clock (gmtime (t + 3600)%Z) (Some 3600%Z) (Some (B "CET"))).

(** C40. A pattern of characters, directives, `%f` and `%s` prints one text for each, in order: the character, the text
    of the directive, six digits of microseconds, the number [mktime] gives. *)
Theorem C40_pattern : forall dbl lib usec c is, usec < 1000000 -> Forall item_ok is -> no_escape is -> fits lib c 0 is ->
  exists out, shows lib usec c is out /\ generate dbl lib c usec (make_generator (pattern_text is)) = Ok out.
Proof. exact pattern_lemma. Qed.
Print Assumptions C40_pattern.
Definition case_items : list item :=
  [Directive (B "%H"); Plain ":"%char; Directive (B "%03j"); Micro; Plain "f"%char; Directive (B "%%"); Epoch; Directive (B "%Z")].
Example C40_pattern_case : let c := Clock (gmtime 951868799) None None in
  Forall item_ok case_items /\ no_escape case_items /\ fits case_lib c 0 case_items
  /\ pattern_text case_items = B "%H:%03j%ff%%%s%Z"
  /\ forall dbl, generate dbl case_lib c 42 (make_generator (pattern_text case_items)) = Ok (B "23:?000042f%951865199?").
Proof.
  intros c. refine (conj _ (conj _ (conj _ (conj eq_refl _)))).
  - unfold case_items. repeat (apply Forall_cons; [cbn [item_ok]|]); try apply Forall_nil; try exact I; try (split; discriminate).
    all: refine (conj _ (conj _ (conj _ _))); try discriminate; try (intros J; cbn in J; repeat destruct J as [J|J]; try discriminate; contradiction).
    + exists [], [], [], "H"%char. refine (conj eq_refl (conj _ (conj _ (conj _ _)))); [intros ? []|intros ? []|left; reflexivity|].
      intros J; cbn in J; repeat destruct J as [J|J]; try discriminate; contradiction.
    + exists [], (B "03"), [], "j"%char. refine (conj eq_refl (conj _ (conj _ (conj _ _)))); [intros ? []| |left; reflexivity|].
      * intros x J. cbn in J. repeat destruct J as [<-|J]; try contradiction; cbn; tauto.
      * intros J; cbn in J; repeat destruct J as [J|J]; try discriminate; contradiction.
    + exists [], [], [], "%"%char. refine (conj eq_refl (conj _ (conj _ (conj _ _)))); [intros ? []|intros ? []|left; reflexivity|].
      intros J; cbn in J; repeat destruct J as [J|J]; try discriminate; contradiction.
    + exists [], [], [], "Z"%char. refine (conj eq_refl (conj _ (conj _ (conj _ _)))); [intros ? []|intros ? []|left; reflexivity|].
      intros J; cbn in J; repeat destruct J as [J|J]; try discriminate; contradiction.
  - cbn. split; [discriminate|tauto].
  - unfold case_items, fits. repeat match goal with
    | |- exists _, _ => eexists; split; [vm_compute; reflexivity|]
    | |- _ < _ /\ _ => split; [vm_compute; reflexivity|]
    | |- (_ <= _ < _)%Z /\ _ => split; [vm_compute; split; [discriminate|reflexivity]|]
    end. exact I.
  - intros. subst c. vm_compute. reflexivity.
Qed.

(** C40. Refuted for an escaped percent sign in front of `f` or `s`: `%%f` should print "%f". *)
Theorem C40_escaped_refuted : forall dbl lib c, generate dbl lib c 42 (make_generator (B "%%f")) = Ok (B "%000042").
Proof. intros. vm_compute. reflexivity. Qed.
Print Assumptions C40_escaped_refuted.

(** C40. Refuted for long texts: 1024 bytes or more between two of `%f` and `%s` are dropped altogether. *)
Theorem C40_long_refuted : forall dbl lib c usec, exists pattern, ~ In "%"%char pattern /\ ~ In NUL pattern /\ length_N pattern = 1024
  /\ generate dbl lib c usec (make_generator pattern) = Ok [].
Proof.
  intros. exists (repeat "x"%char 1024). split; [intros J; apply repeat_spec in J; discriminate|]. split; [intros J; apply repeat_spec in J; discriminate|].
  split; vm_compute; reflexivity.
Qed.
Print Assumptions C40_long_refuted.

(** C40. In a zone [o] seconds east of Greenwich the `%s` of a UTC time stamp is [o] seconds too small. *)
Theorem C40_epoch_zone : forall dbl lib z o ns, in_zone o lib -> (0 <= ns < 2 ^ 63)%Z -> (- 86400 <= o <= 86400)%Z ->
  exists out, string_stamp dbl lib z (B "%s") true ns = Ok out /\ StrSpec.decimal (ns / 1000000000 - o)%Z out.
Proof. exact epoch_lemma. Qed.
Print Assumptions C40_epoch_zone.
Example C40_epoch_zone_case : in_zone 3600 case_lib.
Proof. intros c. reflexivity. Qed.
Theorem C40_epoch_refuted : forall dbl, exists lib z ns, (0 <= ns < 2 ^ 63)%Z /\ ns = 1447959752000000000%Z
  /\ string_stamp dbl lib z (B "%s") true ns = Ok (B "1447956152").
Proof. intros dbl. exists case_lib, case_zone, 1447959752000000000%Z. split; [lia|]. split; [reflexivity|]. vm_compute. reflexivity. Qed.
Print Assumptions C40_epoch_refuted.

(** C41. Microseconds below a million are six digits that read back to the number. *)
Theorem C41_six_digits : forall dbl lib c usec, usec < 1000000 ->
  exists out, generate dbl lib c usec (make_generator (B "%f")) = Ok out /\ length out = 6%nat /\ FmtSpec.read_digits 10 0 out = Some usec.
Proof. exact six_lemma. Qed.
Print Assumptions C41_six_digits.
Example C41_case : forall dbl, generate dbl case_lib (Clock (gmtime 0) None None) 42 (make_generator (B "%f")) = Ok (B "000042") /\ 42 < 1000000.
Proof. intros. split; vm_compute; reflexivity. Qed.

(** C41. For times since the epoch the microseconds are below a million. *)
Theorem C41_range : forall ns, (0 <= ns < 2 ^ 63)%Z -> usec_of ns = Z.to_N ((ns / 1000) mod 1000000) /\ usec_of ns < 1000000.
Proof. exact usec_range_lemma. Qed.
Print Assumptions C41_range.
Example C41_range_case : usec_of 1447959752106331000 = 106331.
Proof. reflexivity. Qed.

(** C41. Refuted before the epoch: the microseconds become a number of 20 digits. *)
Theorem C41_negative_refuted : forall dbl lib z, exists ns, (- 2 ^ 63 <= ns < 0)%Z /\ exists out, string_stamp dbl lib z (B "%f") true ns = Ok out
  /\ length out <> 6%nat /\ out = B "18446744073709551615".
Proof. intros. exists (-1000)%Z. split; [lia|]. eexists. split; [vm_compute; reflexivity|]. split; [vm_compute; discriminate|reflexivity]. Qed.
Print Assumptions C41_negative_refuted.

(** C64. The default time stamp: date by counting days, time of day, microseconds, each with its fixed width. *)
Theorem C64_text : forall dbl lib z ns, (0 <= ns < 2 ^ 63)%Z ->
  string_stamp dbl lib z (B "%Y-%m-%d %H:%M:%S.%f") true ns = Ok (stamp_text ns).
Proof. exact stamp_lemma. Qed.
Print Assumptions C64_text.
Example C64_text_case : stamp_text 1447959752106331999 = B "2015-11-19 19:02:32.106331".
Proof. vm_compute. reflexivity. Qed.

(** C64. Time stamps sort as the times they stand for, and are equal only for equal microseconds. *)
Theorem C64_order : forall dbl lib z n m s t, (0 <= n < 2 ^ 63)%Z -> (0 <= m < 2 ^ 63)%Z ->
  string_stamp dbl lib z (B "%Y-%m-%d %H:%M:%S.%f") true n = Ok s -> string_stamp dbl lib z (B "%Y-%m-%d %H:%M:%S.%f") true m = Ok t ->
  (sorts_before s t <-> (n / 1000 < m / 1000)%Z) /\ (s = t <-> (n / 1000 = m / 1000)%Z).
Proof. exact order_lemma. Qed.
Print Assumptions C64_order.
Example C64_order_case : forall dbl, string_stamp dbl case_lib case_zone (B "%Y-%m-%d %H:%M:%S.%f") true 951868799999999000 = Ok (B "2000-02-29 23:59:59.999999")
  /\ string_stamp dbl case_lib case_zone (B "%Y-%m-%d %H:%M:%S.%f") true 951868800000000000 = Ok (B "2000-03-01 00:00:00.000000").
Proof. intros. split; vm_compute; reflexivity. Qed.

(** C64. The string formatter prints it for `{timestamp}`. *)
Theorem C64_formatter : forall ld nd dbl double_of sevmap lib z r, (0 <= StrModel.r_nanoseconds r < 2 ^ 63)%Z ->
  (forall p utc out, string_stamp dbl lib z p utc (StrModel.r_nanoseconds r) = Ok out -> StrModel.r_stamp r p utc = out) ->
  StrSpec.formats ld nd dbl double_of sevmap (B "{timestamp}") r (stamp_text (StrModel.r_nanoseconds r)).
Proof. exact formatted_lemma. Qed.
Print Assumptions C64_formatter.
Example C64_formatter_case : forall dbl, let ns := 1447959752106331000%Z in
  let r := StrModel.SRec (StrModel.View None 0) 0 ns 1 [] 1 1 [] None
    (fun p utc => match string_stamp dbl case_lib case_zone p utc ns with Ok s => s | _ => [] end) [] in
  (0 <= StrModel.r_nanoseconds r < 2 ^ 63)%Z /\
  (forall p utc out, string_stamp dbl case_lib case_zone p utc (StrModel.r_nanoseconds r) = Ok out -> StrModel.r_stamp r p utc = out).
Proof. intros dbl ns r. split; [subst r ns; cbn; lia|]. intros p utc out E. subst r. cbn [StrModel.r_nanoseconds StrModel.r_stamp] in *. rewrite E. reflexivity. Qed.

(** C65. Without the letters z and Z every pattern has a defined UTC time stamp ... *)
Theorem C65_defined : forall dbl lib z pattern ns, (forall c, - 2 ^ 63 <= fst (mktime lib c) < 2 ^ 63)%Z ->
  ~ In "z"%char pattern -> ~ In "Z"%char pattern -> exists out, string_stamp dbl lib z pattern true ns = Ok out.
Proof. exact string_defined. Qed.
Print Assumptions C65_defined.
(** ... and every pattern has one in local time, and in the TSKV and JSON formatters. *)
Theorem C65_others_defined : forall dbl lib z pattern ns, (forall c, - 2 ^ 63 <= fst (mktime lib c) < 2 ^ 63)%Z -> mktime_sets lib ->
  (exists out, string_stamp dbl lib z pattern false ns = Ok out)
  /\ (exists out, tskv_stamp dbl lib z pattern true ns = Ok out) /\ (exists out, json_stamp dbl lib z pattern ns = Ok out).
Proof. exact others_defined. Qed.
Print Assumptions C65_others_defined.
Example C65_case : let lib := Clib (fun _ _ => []) (fun c => (0%Z, Clock (c_tm c) (Some 0%Z) (Some (B "UTC")))) in
  (forall c, - 2 ^ 63 <= fst (mktime lib c) < 2 ^ 63)%Z /\ mktime_sets lib /\ ~ In "z"%char (B "%F %T.%f") /\ ~ In "Z"%char (B "%F %T.%f").
Proof.
  refine (conj _ (conj _ (conj _ _))).
  - intros c. cbn. lia.
  - intros c. cbn. split; discriminate.
  - intros J; cbn in J; repeat destruct J as [J|J]; try discriminate; contradiction.
  - intros J; cbn in J; repeat destruct J as [J|J]; try discriminate; contradiction.
Qed.
(** C65. Refuted for `%Z` and `%z`: a UTC time stamp reads fields of the [tm] nobody has assigned, one of them a pointer. *)
Theorem C65_zone_refuted : forall dbl lib z ns, string_stamp dbl lib z (B "%Z") true ns = Undefined
  /\ string_stamp dbl lib z (B "%H:%M %z") true ns = Undefined.
Proof. intros. split; reflexivity. Qed.
Print Assumptions C65_zone_refuted.

(** C66. The three formatters print the same UTC time stamp for the same pattern (without z and Z) when the library's
    [gmtime] agrees with the C library's. *)
Theorem C66_same : forall dbl lib z pattern ns, zone_blind lib -> mktime_blind lib -> ~ In "z"%char pattern -> ~ In "Z"%char pattern ->
  z_gmtime_r z (seconds ns) = gmtime (seconds ns) ->
  tskv_stamp dbl lib z pattern true ns = string_stamp dbl lib z pattern true ns /\ json_stamp dbl lib z pattern ns = string_stamp dbl lib z pattern true ns.
Proof. exact same_lemma. Qed.
Print Assumptions C66_same.
Example C66_case : zone_blind case_lib /\ mktime_blind case_lib /\ z_gmtime_r case_zone (seconds 1447959752106331000) = gmtime 1447959752
  /\ forall dbl, json_stamp dbl case_lib case_zone (B "%j %H%%.%f") 1447959752106331000 = Ok (B "323 19%.106331").
Proof.
  refine (conj _ (conj _ (conj _ _))).
  - intros t g g' z z' d _ _. reflexivity.
  - intros t g g' z z'. reflexivity.
  - vm_compute. reflexivity.
  - intros dbl. vm_compute. reflexivity.
Qed.
(** C66. Refuted before the epoch, where the library's [gmtime] is wrong (C38). *)
Theorem C66_negative_refuted : forall dbl lib, exists z ns out out', (- 2 ^ 63 <= ns < 0)%Z
  /\ tm_sec (z_gmtime_r z (seconds ns)) = (seconds ns mod 60)%Z
  /\ string_stamp dbl lib z (B "%S") true ns = Ok out /\ json_stamp dbl lib z (B "%S") ns = Ok out' /\ out <> out'.
Proof.
  intros. exists (Zone {| timezone := 0%Z; dst := 0%Z |} [] (fun t => Tm (t mod 60) 0 0 1 0 70 0 0 0) (fun t => Clock (gmtime t) None None)),
    (-1000000000)%Z, (B "15"), (B "59"). split; [lia|]. repeat split; try (vm_compute; reflexivity). discriminate.
Qed.
Print Assumptions C66_negative_refuted.
