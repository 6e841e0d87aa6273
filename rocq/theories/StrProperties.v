(** C34-C36, C49, C62, C63: the string formatter.
    In every theorem [dbl] is the text of a double for a specification, [double_of] the double a text denotes, [ld]
    whether a text denotes a double and [nd] whether assertions are compiled out: they hold for all of them. *)
From Verif Require Import Base ParserModel FmtModel FmtSpec FmtProofs FmtSubProofs StrModel StrSpec StrProofs StrSubProofs.
From Verif Require ParserSpec ParserSubProofs Values JsonFmtModel.
Open Scope N_scope.

(** Runs a pattern. *)
Ltac run := eexists; split; [vm_compute; reflexivity|vm_compute; reflexivity].

(** A record for the examples. *)
Definition text_view (s : bytes) : view := View (Some (s ++ [NUL])) (length_N s).
Definition case_record (attrs : pack) : srecord :=
  SRec (text_view (B "reloaded")) 1 1447959752106331000 4096 attrs 42 43 (B "srv") None
       (fun p utc => if utc then B "2015-11-19" else B "2015-11-20") [].
Definition case_names : list bytes := [B "DEBUG"; B "INFO"; B "WARNING"].

(** C34. A pattern of texts (braces doubled) and placeholders is accepted; a record that suits it prints one piece for
    each item, in order: a text as it is, a built-in placeholder its field, an attribute placeholder the first attribute
    of its name, an optional one its default when there is no such attribute. *)
Theorem C34_output : forall ld nd dbl double_of sevmap is, pattern_ok is ->
  exists ts, tokenize ld nd (pattern_text is) = Some (Tokens ts) /\
  forall r, Forall (item_suits ld sevmap r) is ->
    exists outs, Forall2 (item_shows dbl double_of ld sevmap r) is outs /\ format dbl double_of sevmap r ts = Done (concat outs).
Proof. exact whole_lemma. Qed.
Print Assumptions C34_output.
Definition right7 : wish := Wish None ARight None false false (Some (7, B "7")) None None.
Definition star6 : wish := Wish (Some "*"%char) ACenter None false false (Some (6, B "6")) None (Some "d"%char).
Definition case_items : list item :=
  [Words (B "{"); Slot (B "severity") (Some right7); Words (B "} ["); Slot (B "timestamp") None; Words (B "] ");
   Slot (B "scope") None; Words (B ": "); Slot (B "message") None; Words (B " "); Fallback (B "ms") (B "200") star6].
Lemma star6_sensible : sensible (ALong 0) star6.
Proof.
  unfold sensible, star6, digits_of, numeral. cbn [w_fill w_align w_sign w_hash w_zero w_width w_precision w_type number_kind].
  repeat split; try discriminate; try lia; repeat constructor.
Qed.
Lemma right7_sensible a : sensible a right7.
Proof.
  unfold sensible, right7, digits_of, numeral. cbn [w_fill w_align w_sign w_hash w_zero w_width w_precision w_type].
  repeat split; try discriminate; try lia; repeat constructor.
Qed.
Example C34_output_case : forall dbl double_of, let ld := fun _ : bytes => false in
  let sevmap := list_map dbl case_names in
  let r := case_record [[(text_view (B "scope"), AText (text_view (B "config")))]] in
  pattern_ok case_items /\ Forall (item_suits ld sevmap r) case_items
  /\ pattern_text case_items = B "{{{severity:>7}}} [{timestamp}] {scope}: {message} {ms:{200:default}*^6d}"
  /\ formats ld true dbl double_of sevmap (pattern_text case_items) r (B "{   INFO} [2015-11-19] config: reloaded *200**").
Proof.
  intros dbl double_of ld sevmap r. refine (conj _ (conj _ (conj eq_refl _))).
  - split; [|cbn; repeat split; auto; discriminate]. unfold case_items.
    repeat (apply Forall_cons; [cbn [item_ok]|]); try apply Forall_nil; try discriminate; try (apply ParserSubProofs.name_ok; reflexivity).
    + refine (conj _ (conj _ _)); [apply ParserSubProofs.name_ok; reflexivity|discriminate|exists (AInt 0); apply right7_sensible].
    + refine (conj _ (conj _ (conj _ (conj _ (conj _ _))))).
      * apply ParserSubProofs.name_ok; reflexivity.
      * intros J. cbn in J. repeat destruct J as [J|J]; try discriminate. contradiction.
      * split; [|vm_compute; reflexivity]. intros a b E.
        do 3 (destruct a as [|? a]; [vm_compute; lia|injection E as <- E]). destruct a; [vm_compute; lia|discriminate E].
      * intros (a & b & E). apply (f_equal (@length ascii)) in E. rewrite !app_length in E. cbn in E. lia.
      * refine (conj _ (conj eq_refl _)); [discriminate|right; left; reflexivity].
      * exists (ALong 0). apply star6_sensible.
  - assert (FC : first_called (B "scope") r (AText (text_view (B "config")))) by (exists [], (text_view (B "scope")), []; repeat split; intros x []).
    unfold case_items. repeat (apply Forall_cons; [cbn [item_suits]|]); try apply Forall_nil; try exact I.
    + exists (B "   INFO"). vm_compute. reflexivity.
    + change (suits_time None /\ stamp_suits r time_format true). split; [split; [exact I|left; left; reflexivity]|discriminate].
    + exists (AText (text_view (B "config"))). split; [exact FC|]. split; [split; [exact I|left; reflexivity]|].
      exists []. split; [reflexivity|]. intros J. cbn in J. repeat destruct J as [J|J]; try discriminate. contradiction.
    + change (suits_text None /\ good_view (text_view (B "reloaded"))). split; [split; [exact I|left; reflexivity]|].
      exists (B "reloaded" ++ [NUL]). refine (conj eq_refl (conj _ _)); [cbn; lia|discriminate].
    + right. split; [intros x J; cbn in J; destruct J as [<-|[]]; discriminate|]. split; [exact star6_sensible|discriminate].
  - repeat match goal with x := _ |- _ => subst x end. run.
Qed.

(** C34. A placeholder of an attribute the record does not have: the whole record fails, naming the attribute. *)
Theorem C34_missing : forall ld nd dbl double_of sevmap pre n w post,
  pattern_ok (pre ++ Slot n w :: post) -> ~ In n reserved ->
  exists ts, tokenize ld nd (pattern_text (pre ++ Slot n w :: post)) = Some (Tokens ts) /\
  forall r, Forall (item_suits ld sevmap r) pre -> none_called n r -> format dbl double_of sevmap r ts = Missing n.
Proof. exact missing_lemma. Qed.
Print Assumptions C34_missing.
Example C34_missing_case : forall dbl double_of,
  pattern_ok ([Words (B "a ")] ++ Slot (B "id") None :: [Slot (B "message") None]) /\ ~ In (B "id") reserved
  /\ none_called (B "id") (case_record [])
  /\ format dbl double_of (number_map dbl) (case_record []) [TLiteral (B "a "); TRequired (B "id") (B "{}"); TMessage (B "{}")] = Missing (B "id").
Proof.
  intros. refine (conj _ (conj _ (conj _ _))).
  - split; [|cbn; repeat split; auto; discriminate]. cbn [app].
    repeat (apply Forall_cons; [cbn [item_ok]; first [discriminate|apply ParserSubProofs.name_ok; reflexivity]|]). apply Forall_nil.
  - intros I. cbn in I. repeat destruct I as [I|I]; try discriminate. contradiction.
  - intros x [].
  - reflexivity.
Qed.

(** C34. Refuted for defaults that look like numbers: the default is converted to a number first, so a string type makes
    the record fail exactly when the attribute is missing; with the attribute it prints. *)
Theorem C34_default_kind_refuted : forall nd dbl double_of, exists ts,
  tokenize (fun _ => false) nd (B "{code:{42:default}s}") = Some (Tokens ts)
  /\ format dbl double_of (number_map dbl) (case_record [[(text_view (B "code"), AText (text_view (B "x")))]]) ts = Done (B "x")
  /\ format dbl double_of (number_map dbl) (case_record []) ts = Refused EUnknownType.
Proof. intros [] dbl double_of; (eexists; split; [vm_compute; reflexivity|split; vm_compute; reflexivity]). Qed.
Print Assumptions C34_default_kind_refuted.

(** C34. Refuted for a default without a specification: the pattern is accepted, and prints for no record. *)
Theorem C34_default_alone_refuted : forall nd dbl double_of sevmap, exists ts,
  tokenize (fun _ => false) nd (B "{code:{none:default}}") = Some (Tokens ts) /\
  forall r, match find (B "code") (r_pack r) with Some (ALazy _) => True | _ => forall out, format dbl double_of sevmap r ts <> Done out end.
Proof.
  intros nd dbl double_of sevmap. exists [TRequired (B "code") (B "{:{none:default}}")]. split; [destruct nd; vm_compute; reflexivity|].
  intros r. cbn [format write_token]. destruct (find (B "code") (r_pack r)) as [[]|]; try exact I; intros out; vm_compute; discriminate.
Qed.
Print Assumptions C34_default_alone_refuted.

(** C35. Every attribute of the record once, in the order of the pack, as "name: value", with ", " between them. *)
Theorem C35_every_attribute : forall ld nd dbl double_of sevmap r,
  Forall (fun a => good_view (fst a) /\ suits_value None (snd a)) (attributes r) ->
  exists values, Forall2 (fun a v => shows_value dbl None (snd a) v) (attributes r) values
    /\ formats ld nd dbl double_of sevmap (B "{...}") r
         (join (B ", ") (map (fun p => viewed (fst (fst p)) ++ B ": " ++ snd p) (combine (attributes r) values))).
Proof. exact all_attributes_lemma. Qed.
Print Assumptions C35_every_attribute.
Definition case_attrs : pack :=
  [[(text_view (B "id"), ASigned (-5)); (text_view (B "ok"), ABoolean true)]; []; [(text_view (B "id"), AText (text_view (B "x, y")))]].
Example C35_every_attribute_case :
  Forall (fun a => good_view (fst a) /\ suits_value None (snd a)) (attributes (case_record case_attrs))
  /\ forall dbl double_of, formats (fun _ => false) true dbl double_of (number_map dbl) (B "{...}") (case_record case_attrs) (B "id: -5, ok: true, id: x, y")
  /\ formats (fun _ => false) true dbl double_of (number_map dbl) (B "{...}") (case_record [[]; []]) [].
Proof.
  split.
  - repeat (apply Forall_cons; [split|]); try apply Forall_nil.
    1, 3, 5: eexists; refine (conj eq_refl (conj _ _)); [cbn; lia|discriminate].
    + split; [split; [exact I|discriminate]|lia].
    + split; [exact I|left; reflexivity].
    + split; [split; [exact I|left; reflexivity]|]. exists []. split; [reflexivity|].
      intros J. cbn in J. repeat destruct J as [J|J]; try discriminate. contradiction.
  - intros; split; run.
Qed.

(** C35. The same with a pattern for an attribute, a separator and a specification for the whole; nothing at all is
    printed, not even padding, when no attribute prints anything. *)
Theorem C35_custom : forall ld nd dbl double_of sevmap r ps sep w,
  item_ok (Rest ps sep w) -> others_suit (or_default default_parts ps) (Some w) r ->
  exists out, formats ld nd dbl double_of sevmap (item_text (Rest ps sep w)) r out
    /\ others_show dbl (or_default default_parts ps) (or_default default_separator sep) (Some w) r out.
Proof. exact rest_lemma. Qed.
Print Assumptions C35_custom.
Definition case_parts : list part := [Name_ None; Words_ (B "={"); Value_ None; Words_ (B "}")].
Definition s_wish : wish := Wish None ARight None false false (Some (20, B "20")) None (Some "s"%char).
Lemma s_wish_sensible a : sensible a s_wish.
Proof.
  unfold sensible, s_wish, digits_of, numeral. cbn [w_fill w_align w_sign w_hash w_zero w_width w_precision w_type].
  repeat split; try discriminate; try lia; repeat constructor.
Qed.
Example C35_custom_case :
  item_ok (Rest (Some case_parts) (Some (B " | ")) s_wish) /\ others_suit case_parts (Some s_wish) (case_record [[(text_view (B "id"), ASigned 5)]])
  /\ item_text (Rest (Some case_parts) (Some (B " | ")) s_wish) = B "{...:{{name}={{{value}}}:p}{ | :s}>20s}"
  /\ forall dbl double_of,
     formats (fun _ => false) true dbl double_of (number_map dbl) (B "{...:{{name}={{{value}}}:p}{ | :s}>20s}")
       (case_record case_attrs) (B "id={-5} | ok={true} | id={x, y}")
  /\ formats (fun _ => false) true dbl double_of (number_map dbl) (B "{...:{{name}={{{value}}}:p}{ | :s}>20s}")
       (case_record [[(text_view (B "id"), ASigned 5)]]) (B "              id={5}")
  /\ formats (fun _ => false) true dbl double_of (number_map dbl) (B "{...:{{name}={{{value}}}:p}{ | :s}>20s}") (case_record []) [].
Proof.
  refine (conj _ (conj _ (conj eq_refl _))).
  - cbn [item_ok]. refine (conj _ (conj _ (conj _ (conj _ (conj _ _))))).
    + split; [repeat constructor; discriminate|cbn; repeat split; auto; discriminate].
    + intros (a & b & E). do 4 (destruct a as [|? a]; [discriminate E|]; try discriminate E).
    + discriminate.
    + refine (conj eq_refl (conj _ (conj eq_refl (conj eq_refl (conj eq_refl (conj eq_refl _)))))); [discriminate|]. eexists. split; [reflexivity|left; reflexivity].
    + exists (AInt 0). apply s_wish_sensible.
    + split; [|vm_compute; reflexivity]. intros a b E.
      assert (H : forall k, (ParserSpec.count RBRACE (firstn k (a ++ b)) <= ParserSpec.count LBRACE (firstn k (a ++ b)))%nat).
      { rewrite <- E. intros k. do 40 (destruct k as [|k]; [vm_compute; lia|]). destruct k; vm_compute; lia. }
      specialize (H (length a)). rewrite firstn_app, firstn_all, Nat.sub_diag, firstn_O, app_nil_r in H. exact H.
  - split; [split; [apply s_wish_sensible|right; reflexivity]|]. repeat constructor; cbn; try exact I; try (left; reflexivity); try lia; try discriminate.
    exists (B "id" ++ [NUL]). refine (conj eq_refl (conj _ _)); [cbn; lia|discriminate].
  - intros. refine (conj _ (conj _ _)); run.
Qed.

(** C36. A string attribute without a NUL byte, in front of one, is printed in full through every specification that
    suits texts. *)
Theorem C36_string : forall dbl w v, suits_text w -> c_view v ->
  exists out, write_value dbl (B "{" ++ spec_text w ++ B "}") (AText v) = Ok out /\ shows_text w (viewed v) out.
Proof. exact (fun dbl w v S1 C => show_value dbl _ w (AText v) (asks_spec dbl w) (conj S1 C)). Qed.
Print Assumptions C36_string.
Example C36_string_case : suits_text (Some s_wish) /\ c_view (text_view (B "config")) /\
  forall dbl, write_value dbl (B "{" ++ spec_text (Some s_wish) ++ B "}") (AText (text_view (B "config"))) = Ok (B "              config").
Proof.
  refine (conj _ (conj _ _)).
  - split; [apply s_wish_sensible|right; reflexivity].
  - exists []. split; [reflexivity|]. intros J. cbn in J. repeat destruct J as [J|J]; try discriminate. contradiction.
  - intros. vm_compute. reflexivity.
Qed.

(** C36. Refuted: the view's pointer is printed as a C string. A NUL byte ends it; a view of a part of a text is printed
    to the end of that text; without a NUL behind it memory is read that does not belong to it; a null view is refused. *)
Theorem C36_cut_refuted : forall dbl, exists v, viewed v = B "a" ++ [NUL] ++ B "b"
  /\ write_value dbl (B "{}") (AText v) = Ok (B "a").
Proof. intros dbl. exists (View (Some (B "a" ++ [NUL] ++ B "b" ++ [NUL])) 3). split; vm_compute; reflexivity. Qed.
Print Assumptions C36_cut_refuted.
Theorem C36_beyond_refuted : forall dbl secret, ~ In NUL secret -> exists v, viewed v = B "user"
  /\ write_value dbl (B "{}") (AText v) = Ok (B "user" ++ secret).
Proof.
  exact beyond_lemma.
Qed.
Print Assumptions C36_beyond_refuted.
Example C36_beyond_refuted_case : ~ In NUL (B ":password") /\
  forall dbl, write_value dbl (B "{}") (AText (View (Some (B "user:password" ++ [NUL])) 4)) = Ok (B "user:password").
Proof. split; [|intros; vm_compute; reflexivity]. intros J. cbn in J. repeat destruct J as [J|J]; try discriminate. contradiction. Qed.
Theorem C36_overrun_refuted : forall dbl, exists v, viewed v = B "ab" /\ write_value dbl (B "{}") (AText v) = Undefined.
Proof. intros dbl. exists (View (Some (B "ab")) 2). split; vm_compute; reflexivity. Qed.
Print Assumptions C36_overrun_refuted.
Theorem C36_null_refuted : forall dbl, exists v, viewed v = [] /\ write_value dbl (B "{}") (AText v) = Error ENullString.
Proof. intros dbl. exists (View None 0). split; vm_compute; reflexivity. Qed.
Print Assumptions C36_null_refuted.

(** C49. With a list of names (at most 2^31) the name of a severity that has one is printed like any text ... *)
Theorem C49_named : forall dbl names z name w, suits_text w -> (0 <= z)%Z -> nth_error names (Z.to_nat z) = Some name -> (z < 2 ^ 31)%Z ->
  exists out, list_map dbl names z (B "{" ++ spec_text w ++ B "}") = Ok out /\ shows_text w name out.
Proof. exact (fun dbl names z name w => named_lemma dbl names z name w _ (asks_spec dbl w)). Qed.
Print Assumptions C49_named.
(** ... and a severity above them as a number through every specification that suits unsigned numbers. *)
Theorem C49_above : forall dbl names z w, suits_unsigned w -> (Z.of_nat (length names) <= z < 2 ^ 31)%Z ->
  exists out, list_map dbl names z (B "{" ++ spec_text w ++ B "}") = Ok out /\ shows_number w z out.
Proof. exact (fun dbl names z w => unnamed_lemma dbl names z w _ (asks_spec dbl w)). Qed.
Print Assumptions C49_above.
(** Without a list every severity is printed as a number. *)
Theorem C49_number : forall dbl z w, suits_signed w -> (- 2 ^ 31 <= z < 2 ^ 31)%Z ->
  exists out, number_map dbl z (B "{" ++ spec_text w ++ B "}") = Ok out /\ shows_number w z out.
Proof. exact (fun dbl z w => show_int dbl _ w z (asks_spec dbl w)). Qed.
Print Assumptions C49_number.
Example C49_case : forall dbl, list_map dbl case_names 1%Z (B "{:>7}") = Ok (B "   INFO") /\ list_map dbl case_names 3%Z (B "{:>7}") = Ok (B "      3")
  /\ number_map dbl (-3)%Z (B "{:>7}") = Ok (B "     -3").
Proof. intros. repeat split; vm_compute; reflexivity. Qed.
(** C49. In the JSON formatter: the name, or else the number, negative ones included. *)
Theorem C49_json : forall names z, (- 2 ^ 31 <= z < 2 ^ 31)%Z -> length_N names <= 2 ^ 31 ->
  JsonFmtModel.severity_value names z =
    match (if (z <? 0)%Z then None else nth_error names (Z.to_nat z)) with Some name => Values.VString name | None => Values.VInt z end.
Proof. exact json_severity_lemma. Qed.
Print Assumptions C49_json.
Example C49_json_case : JsonFmtModel.severity_value case_names 2%Z = Values.VString (B "WARNING") /\ JsonFmtModel.severity_value case_names (-1)%Z = Values.VInt (-1)%Z
  /\ JsonFmtModel.severity_value case_names 3%Z = Values.VInt 3%Z.
Proof. repeat split; vm_compute; reflexivity. Qed.
(** C49. Refuted for negative severities in the string formatter: they are printed as huge unsigned numbers. *)
Theorem C49_negative_refuted : forall dbl, exists names z out, (- 2 ^ 31 <= z < 0)%Z /\ list_map dbl names z (B "{}") = Ok out
  /\ out = B "18446744073709551615" /\ ~ decimal z out.
Proof. exact negative_lemma. Qed.
Print Assumptions C49_negative_refuted.
(** C49. Refuted for a specification of the type [s], with which a severity without a name loses the record. *)
Theorem C49_unnamed_text_refuted : forall dbl, list_map dbl case_names 3%Z (B "{:s}") = Error EUnknownType.
Proof. intros. vm_compute. reflexivity. Qed.
Print Assumptions C49_unnamed_text_refuted.

(** C62. The formatting library does not read outside of its arguments, or print bytes it has not written, for any
    format string and any list of arguments with valid pointers: the call returns or throws. *)
Theorem C62_library : forall dbl args, Forall valid_arg args -> forall f, write dbl f args <> Undefined.
Proof. exact write_defined. Qed.
Print Assumptions C62_library.
Example C62_library_case : let args := [ACString (Some (B "ab" ++ [NUL])); AString (Some (B "xyz")) 2; AInt (-5); AString None 0; ACString None] in
  Forall valid_arg args /\ forall dbl, write dbl (B "{:>4}{1:5}|{0:.1}") args = Error EManualFromAuto
  /\ write dbl (B "{:>4}{:5}|{:{") args = Error EInvalidString /\ write dbl (B "{1:5}|{0:.1}") args = Ok (B "xy   |a").
Proof. split; [repeat constructor; cbn; try lia; try tauto; discriminate|intros; repeat split; vm_compute; reflexivity]. Qed.

(** C62. Nor does the string formatter, for any pattern the parser accepts and any record with valid pointers. *)
Theorem C62_formatter : forall ld nd dbl double_of sevmap pattern ts r,
  (sevmap = number_map dbl \/ exists names, sevmap = list_map dbl names) ->
  tokenize ld nd pattern = Some (Tokens ts) -> valid_record r -> format dbl double_of sevmap r ts <> Undef.
Proof. exact safe_lemma. Qed.
Print Assumptions C62_formatter.
Example C62_formatter_case : valid_record (case_record case_attrs) /\ exists ts,
  tokenize (fun _ => false) true (B "{message:}<{timestamp:>x} {id:{5:default}.3s} {...:{{value:d}:p}s}") = Some (Tokens ts).
Proof.
  split; [|eexists; vm_compute; reflexivity].
  unfold valid_record, valid_view. cbn. repeat split; try lia; try discriminate.
  - intros p [] E; discriminate E.
  - repeat (apply Forall_cons; [split; cbn; try lia; try discriminate; try (split; [lia|discriminate]); try (split; lia); tauto|]). apply Forall_nil.
Qed.

(** C63. The README's table of placeholders: the rows that hold. *)
Theorem C63_process : forall ld nd dbl double_of sevmap r, r_pid r < 2 ^ 64 -> forall p, In p [B "{process}"; B "{process:d}"] ->
  exists out, formats ld nd dbl double_of sevmap p r out /\ decimal (Z.of_N (r_pid r)) out.
Proof. exact process_rows. Qed.
Print Assumptions C63_process.
Theorem C63_process_name : forall ld nd dbl double_of sevmap r, ~ In NUL (r_procname r) ->
  formats ld nd dbl double_of sevmap (B "{process:s}") r (r_procname r).
Proof. exact process_name_row. Qed.
Print Assumptions C63_process_name.
Theorem C63_thread : forall ld nd dbl double_of sevmap r, r_tid r < 2 ^ 64 ->
  exists ds, formats ld nd dbl double_of sevmap (B "{thread}") r (B "0x" ++ ds) /\ numeral 16 false (r_tid r) ds.
Proof. exact thread_row. Qed.
Print Assumptions C63_thread.
Theorem C63_thread_name : forall ld nd dbl double_of sevmap r, ~ In NUL (thread_name r) ->
  formats ld nd dbl double_of sevmap (B "{thread:s}") r (thread_name r).
Proof. exact thread_name_row. Qed.
Print Assumptions C63_thread_name.
Theorem C63_severity_number : forall ld nd dbl double_of sevmap r, (- 2 ^ 31 <= r_severity r < 2 ^ 31)%Z ->
  exists out, formats ld nd dbl double_of sevmap (B "{severity:d}") r out /\ decimal (r_severity r) out.
Proof. exact severity_row. Qed.
Print Assumptions C63_severity_number.
(** [tl p] is the specification with its closing brace. *)
Theorem C63_severity_user : forall ld nd dbl double_of sevmap r p out, In p [B "{}"; B "{:s}"] -> sevmap (r_severity r) p = Ok out ->
  formats ld nd dbl double_of sevmap (B "{severity" ++ tl p) r out.
Proof. exact severity_user_rows. Qed.
Print Assumptions C63_severity_user.
Theorem C63_microseconds : forall ld nd dbl double_of sevmap r, (- 2 ^ 63 <= r_nanoseconds r < 2 ^ 63)%Z ->
  exists out, formats ld nd dbl double_of sevmap (B "{timestamp:d}") r out /\ decimal (Z.quot (r_nanoseconds r) 1000) out.
Proof. exact micro_row. Qed.
Print Assumptions C63_microseconds.
(** In UTC with [s], in local time with [l]. *)
Theorem C63_time_pattern : forall ld nd dbl double_of sevmap r p t, p <> [] -> ParserSpec.no_braces p -> (t = "s" \/ t = "l")%char ->
  stamp_suits r p (Ascii.eqb t "s") ->
  formats ld nd dbl double_of sevmap (B "{timestamp:{" ++ p ++ B "}" ++ [t] ++ B "}") r (r_stamp r p (Ascii.eqb t "s")).
Proof. exact clock_row. Qed.
Print Assumptions C63_time_pattern.
Theorem C63_time_default : forall ld nd dbl double_of sevmap r p, In p [B "{timestamp}"; B "{timestamp:s}"] -> stamp_suits r time_format true ->
  formats ld nd dbl double_of sevmap p r (r_stamp r time_format true).
Proof. exact time_rows. Qed.
Print Assumptions C63_time_default.
Theorem C63_message : forall ld nd dbl double_of sevmap r, good_view (r_formatted r) ->
  formats ld nd dbl double_of sevmap (B "{message}") r (viewed (r_formatted r)).
Proof. exact message_row. Qed.
Print Assumptions C63_message.
Example C63_case : let r := case_record [] in
  r_pid r < 2 ^ 64 /\ ~ In NUL (r_procname r) /\ r_tid r < 2 ^ 64 /\ ~ In NUL (thread_name r) /\ stamp_suits r time_format true /\ good_view (r_formatted r)
  /\ forall dbl double_of, formats (fun _ => false) false dbl double_of (number_map dbl)
       (B "{process} {process:s} {thread} {thread:s} {severity:d} {timestamp:d} {timestamp:{%H}s} {timestamp:{%H}l} {timestamp} {message}") r
       (B "42 srv 0x1000 <unnamed> 1 1447959752106331 2015-11-19 2015-11-20 2015-11-19 reloaded").
Proof.
  cbn [r_pid case_record r_procname r_tid]. refine (conj _ (conj _ (conj _ (conj _ (conj _ (conj _ _)))))); try lia.
  1, 2: intros J; cbn in J; repeat destruct J as [J|J]; try discriminate; contradiction.
  - discriminate.
  - exists (B "reloaded" ++ [NUL]). refine (conj eq_refl (conj _ _)); [cbn; lia|discriminate].
  - intros. run.
Qed.

(** C63. Refuted rows: `{severity}` is not the number when there are names; `{thread::x}` is accepted, then every record
    is refused; a thread without a name is not called "unnamed"; attributes of `{...}` come in order, not in reverse. *)
Theorem C63_severity_refuted : forall nd dbl double_of, exists names r out,
  formats (fun _ => false) nd dbl double_of (list_map dbl names) (B "{severity}") r out /\ out = B "INFO" /\ ~ decimal (r_severity r) out.
Proof. exact severity_name_lemma. Qed.
Print Assumptions C63_severity_refuted.
Theorem C63_thread_hex_refuted : forall nd dbl double_of sevmap, exists ts,
  tokenize (fun _ => false) nd (B "{thread::x}") = Some (Tokens ts) /\ forall r, format dbl double_of sevmap r ts = Refused EMissingBrace.
Proof.
  intros nd dbl double_of sevmap. exists [TThreadHex (B "{::x}")]. split; [destruct nd; vm_compute; reflexivity|]. intros r. vm_compute. reflexivity.
Qed.
Print Assumptions C63_thread_hex_refuted.
Theorem C63_unnamed_refuted : forall nd dbl double_of sevmap, exists r out, r_thread_name r = None
  /\ formats (fun _ => false) nd dbl double_of sevmap (B "{thread:s}") r out /\ out <> B "unnamed".
Proof. intros nd dbl double_of sevmap. exists (case_record []), (B "<unnamed>"). split; [reflexivity|]. split; [destruct nd; run|discriminate]. Qed.
Print Assumptions C63_unnamed_refuted.
Theorem C63_reverse_refuted : forall nd dbl double_of sevmap, exists r out,
  attributes r = [(text_view (B "a"), ASigned 1); (text_view (B "b"), ASigned 2)]
  /\ formats (fun _ => false) nd dbl double_of sevmap (B "{...}") r out /\ out = B "a: 1, b: 2" /\ out <> B "b: 2, a: 1".
Proof.
  intros nd dbl double_of sevmap. exists (case_record [[(text_view (B "a"), ASigned 1); (text_view (B "b"), ASigned 2)]]), (B "a: 1, b: 2").
  split; [reflexivity|]. split; [destruct nd; run|]. split; [reflexivity|discriminate].
Qed.
Print Assumptions C63_reverse_refuted.
(** C63. Refuted for an empty message whose view points into a text: that text is printed. *)
Theorem C63_empty_message_refuted : forall nd dbl double_of sevmap, exists r, viewed (r_formatted r) = []
  /\ formats (fun _ => false) nd dbl double_of sevmap (B "{message}") r (B "secret").
Proof.
  intros nd dbl double_of sevmap. exists (SRec (View (Some (B "secret" ++ [NUL])) 0) 1 0 0 [] 1 1 [] None (fun _ _ => []) []).
  split; [reflexivity|]. destruct nd; run.
Qed.
Print Assumptions C63_empty_message_refuted.
