(** C82-C84: the date generator of Apple systems. [lib] is the C library. *)
From Verif Require Import Base Decimal TimeModel TimeSpec FmtModel DateModel DateSpec DateSubProofs AppleModel AppleSpec AppleProofs.
Open Scope N_scope.

(** A C library for the examples: the English names of days and months, Greenwich. *)
Definition case_name (names : list string) (i : Z) : bytes := B (nth (Z.to_nat i) names "?"%string).
Definition case_days : list string := ["Sun"; "Mon"; "Tue"; "Wed"; "Thu"; "Fri"; "Sat"]%string.
Definition case_months : list string := ["Jan"; "Feb"; "Mar"; "Apr"; "May"; "Jun"; "Jul"; "Aug"; "Sep"; "Oct"; "Nov"; "Dec"]%string.
Definition case_lib : clib := Clib
  (fun c d => if bytes_eqb d (B "%a") then case_name case_days (tm_wday (c_tm c))
              else if bytes_eqb d (B "%b") then case_name case_months (tm_mon (c_tm c))
              else if bytes_eqb d (B "%c") then B "Sat Mar  4 05:06:07 2000"
              else B "?")
  (fun c => (posix_seconds {| f_sec := tm_sec (c_tm c); f_min := tm_min (c_tm c); f_hour := tm_hour (c_tm c);
                              f_yday := tm_yday (c_tm c); f_year := tm_year (c_tm c) |}, Clock (c_tm c) (Some 0%Z) (Some (B "UTC")))).
(** March 4, 2000, 05:06:07. *)
Definition case_clock : clock := Clock (Tm 7 6 5 4 2 100 6 63 0) None None.

(** C82. A pattern prints one text for each of its parts, in order, if no `%%` and no unknown directive stands right behind
    a character. The texts are those of the calendar and of the locale. *)
Theorem C82_pattern : forall lib usec, usec < 1000000 -> forall c is tail, Forall item_ok is -> in_order is -> ready lib c is ->
  exists out, shows lib usec c (is ++ tail_items tail) out /\ generate lib (pattern_text is tail) c usec = Ok out.
Proof. exact ordered_lemma. Qed.
Print Assumptions C82_pattern.
Definition case_items : list item :=
  [Directive "a"; Plain ","; Directive "e"; Percent; Unknown "Q"; Plain " "; Directive "U"; Plain "/"; Directive "W"; Plain " "; Directive "I";
   Plain " "; Directive "s"; Percent; Directive "D"; Plain " "; Directive "F"; Plain " "; Directive "f"].
Example C82_pattern_case : Forall item_ok case_items /\ in_order case_items /\ ready case_lib case_clock case_items
  /\ pattern_text case_items true = B "%a,%e%%%Q %U/%W %I %s%%%D %F %f%"
  /\ generate case_lib (pattern_text case_items true) case_clock 42 = Ok (B "Sat, 4%%Q 09/09 05 952146367%03/04/00 2000-03-04 000042%").
Proof.
  refine (conj _ (conj _ (conj _ (conj eq_refl _)))).
  - unfold case_items. repeat (apply Forall_cons; [cbn [item_ok]|]); try apply Forall_nil; try exact I; try discriminate; try (cbn; tauto).
    split; [|discriminate]. intros J. cbn in J. repeat destruct J as [J|J]; try discriminate; contradiction.
  - intros a x y b E P V. unfold case_items in E.
    repeat (destruct a as [|? a]; cbn in E; [first [discriminate E | injection E as <- <- _; contradiction]|]; first [discriminate E | injection E as _ E]).
  - assert (PR : forall g z, proper (c_tm (Clock (c_tm case_clock) g z))) by (intros; unfold proper; cbn; lia).
    unfold case_items. cbn [ready].
    repeat first [exact I | (split; [intros K; discriminate K|intros _; split; [split; [apply PR|split; intros K; discriminate K]|]])
                 | (split; [intros _; cbn [mktime case_lib snd c_tm case_clock]|intros K; destruct (K eq_refl)])].
  - vm_compute. reflexivity.
Qed.

(** C82. Whatever the pattern, nothing is lost: what is printed is the pattern with some of `%%` and of the unknown
    directives moved to the front of the characters before them. *)
Theorem C82_moved : forall lib usec, usec < 1000000 -> forall c is tail, Forall item_ok is -> ready lib c is ->
  exists is' out, moved (is ++ tail_items tail) is' /\ shows lib usec c is' out /\ generate lib (pattern_text is tail) c usec = Ok out.
Proof. exact moved_lemma. Qed.
Print Assumptions C82_moved.
Example C82_moved_case : generate case_lib (B "%Hh %%%Qm%%%M") case_clock 0 = Ok (B "05%%Q%h m06").
Proof. vm_compute. reflexivity. Qed.

(** C82. Refuted for a `%%` behind a character: it is printed in front of the characters before it. *)
Theorem C82_percent_refuted : forall lib c usec, generate lib (B "100%%") c usec = Ok (B "%100").
Proof. intros. vm_compute. reflexivity. Qed.
Print Assumptions C82_percent_refuted.

(** C82. Refuted for an unknown directive behind a character. *)
Theorem C82_unknown_refuted : forall lib c usec, generate lib (B "week %V") c usec = Ok (B "%Vweek ").
Proof. intros. vm_compute. reflexivity. Qed.
Print Assumptions C82_unknown_refuted.

(** C83. On the directives that DateModel gives or takes from the locale, both generators print the same text. *)
Theorem C83_same : forall dbl lib usec c is, usec < 1000000 -> Forall shared_item is -> in_order is -> no_escape (map other_item is) ->
  ready lib c is -> fits lib c 0 (map other_item is) ->
  exists out, generate lib (pattern_text is false) c usec = Ok out
              /\ DateModel.generate dbl lib c usec (make_generator (pattern_text is false)) = Ok out.
Proof. exact same_lemma. Qed.
Print Assumptions C83_same.
Definition case_shared : list item :=
  [Directive "a"; Plain " "; Directive "Y"; Plain "."; Directive "f"; Percent; Directive "s"; Directive "Z"].
Example C83_same_case : Forall shared_item case_shared /\ in_order case_shared /\ no_escape (map other_item case_shared)
  /\ ready case_lib case_clock case_shared /\ fits case_lib case_clock 0 (map other_item case_shared)
  /\ generate case_lib (pattern_text case_shared false) case_clock 42 = Ok (B "Sat 2000.000042%952146367?").
Proof.
  refine (conj _ (conj _ (conj _ (conj _ (conj _ _))))).
  - unfold case_shared. repeat (apply Forall_cons; [cbn [shared_item]|]); try apply Forall_nil; try exact I; try (split; discriminate); try (cbn; tauto).
  - intros a x y b E P V. unfold case_shared in E.
    repeat (destruct a as [|? a]; cbn in E; [first [discriminate E | injection E as <- <- _; contradiction]|]; first [discriminate E | injection E as _ E]).
  - cbn. repeat split; discriminate.
  - assert (PR : forall g z, proper (c_tm (Clock (c_tm case_clock) g z))) by (intros; unfold proper; cbn; lia).
    unfold case_shared. cbn [ready].
    repeat first [exact I | (split; [intros K; discriminate K|intros _; split; [split; [apply PR|split; intros K; discriminate]|]])
                 | (split; [intros _; cbn [mktime case_lib snd c_tm case_clock]|intros K; destruct (K eq_refl)])].
  - unfold case_shared. cbn [map other_item]. repeat match goal with |- context [Ascii.eqb ?a ?b] => let v := eval vm_compute in (Ascii.eqb a b) in change (Ascii.eqb a b) with v end.
    cbn iota. unfold fits. repeat match goal with
    | |- exists _, _ => eexists; split; [vm_compute; reflexivity|]
    | |- _ < _ /\ _ => split; [vm_compute; reflexivity|]
    | |- (_ <= _ < _)%Z /\ _ => split; [vm_compute; split; [discriminate|reflexivity]|]
    end. exact I.
  - vm_compute. reflexivity.
Qed.

(** C83. Refuted for `%c`: the C locale pads the day with a space, this generator with a zero. *)
Theorem C83_standard_refuted : exists lib c, forall dbl,
  DateModel.generate dbl lib c 0 (make_generator (B "%c")) = Ok (B "Sat Mar  4 05:06:07 2000")
  /\ generate lib (B "%c") c 0 = Ok (B "Sat Mar 04 05:06:07 2000").
Proof. exists case_lib, case_clock. intros. split; vm_compute; reflexivity. Qed.
Print Assumptions C83_standard_refuted.

(** C83. Refuted for a year before 1000: the C library of Linux does not pad it. *)
Theorem C83_year_refuted : forall dbl lib, exists c,
  DateModel.generate dbl lib c 0 (make_generator (B "%Y")) = Ok (B "476") /\ generate lib (B "%Y") c 0 = Ok (B "0476").
Proof. intros. exists (Clock (Tm 0 0 0 4 8 (-1424) 0 0 0) None None). split; vm_compute; reflexivity. Qed.
Print Assumptions C83_year_refuted.

(** C84. With the default pattern a time from 1970 on is printed as its date, its time and its microseconds. *)
Theorem C84_stamp : forall lib ns, (0 <= ns < 2 ^ 63)%Z ->
  generate lib (B "%Y-%m-%d %H:%M:%S.%f") (Clock (gmtime (seconds ns)) None None) (usec_of ns) = Ok (stamp_text ns).
Proof. exact stamp_lemma2. Qed.
Print Assumptions C84_stamp.
Example C84_stamp_case : (0 <= 951782400123456789 < 2 ^ 63)%Z /\ stamp_text 951782400123456789 = B "2000-02-29 00:00:00.123456".
Proof. split; [lia|vm_compute; reflexivity]. Qed.

(** C84. Refuted before 1970: the microseconds are negative there, and their digits are other characters. *)
Theorem C84_before_refuted : forall lib,
  generate lib (B "%Y-%m-%d %H:%M:%S.%f") (Clock (gmtime (seconds (-1000))) None None) (usec_of (-1000)) =
  Ok (B "1970-01-01 00:00:00.00000/").
Proof. intros. vm_compute. reflexivity. Qed.
Print Assumptions C84_before_refuted.

(** C84. Refuted for a year of five digits: a digit is stored in front of the buffer. *)
Theorem C84_year_refuted : forall lib usec, exists t, (tm_year t + 1900 = 10000)%Z
  /\ generate lib (B "%Y") (Clock t None None) usec = Undefined.
Proof.
  intros. exists (Tm 0 0 0 1 0 8100 6 0 0). split; [reflexivity|]. vm_compute. reflexivity.
Qed.
Print Assumptions C84_year_refuted.
