(** C31-C33, C57, C58: the pattern parser of the string formatter.
    In every theorem [ld] is what [lexical_cast<double>] accepts and [nd] whether NDEBUG is defined: they hold for all. *)
From Verif Require Import Base ParserModel ParserSpec ParserProofs ParserSubProofs.

(** C31. A text with its braces doubled parses to one literal with that text (to nothing, if it is empty). *)
Theorem C31_escaped_text : forall ld nd t,
  tokenize ld nd (doubled t) = Some (Tokens (match t with [] => [] | _ => [TLiteral t] end)).
Proof. exact escaped_lemma. Qed.
Print Assumptions C31_escaped_text.
Example C31_escaped_text_case : doubled (B "}a{b}{") = B "}}a{{b}}{{" /\
  tokenize (fun _ => false) true (B "}}a{{b}}{{") = Some (Tokens [TLiteral (B "}a{b}{")]).
Proof. split; reflexivity. Qed.

(** C32. At most |pattern| + 1 calls are made: [tokenize] has no more fuel than that. *)
Theorem C32_ends : forall ld nd s, exists r, tokenize ld nd s = Some r.
Proof. exact terminates_lemma. Qed.
Print Assumptions C32_ends.

(** C32. An error of the parser carries the place where the pattern is wrong: its end, a single closing brace, or a
    character that cannot be in a name. *)
Theorem C32_error_position : forall ld nd s f k, tokenize ld nd s = Some (Failed (OError f k)) ->
  (f = Illformed /\ k = length s) \/
  (f = Illformed /\ nth_error s k = Some RBRACE /\ nth_error s (S k) <> Some RBRACE) \/
  (f = InvalidPlaceholder /\ exists c, nth_error s k = Some c /\ ~ In c name_alphabet).
Proof. exact position_lemma. Qed.
Print Assumptions C32_error_position.
Example C32_error_position_case :
  tokenize (fun _ => false) true (B "ab{id-}") = Some (Failed (OError InvalidPlaceholder 5)) /\
  tokenize (fun _ => false) true (B "ab}c") = Some (Failed (OError Illformed 2)) /\
  tokenize (fun _ => false) true (B "ab{id") = Some (Failed (OError Illformed 5)).
Proof. repeat split. Qed.

(** C32. After such an error every call reports the broken state; after the end every call reports the end. *)
Theorem C32_stays_broken : forall ld nd p f k p', next ld nd p = (OError f k, p') ->
  forall n, calls ld nd n p' = repeat (OError Broken k) n.
Proof. exact stays_broken_lemma. Qed.
Print Assumptions C32_stays_broken.
Theorem C32_stays_ended : forall ld nd p p', next ld nd p = (OEnd, p') -> forall n, calls ld nd n p' = repeat OEnd n.
Proof. exact stays_ended_lemma. Qed.
Print Assumptions C32_stays_ended.
Example C32_stays_broken_case :
  calls (fun _ => false) true 4 (parser_new (B "{a}}b")) =
    [OToken (TRequired (B "a") (B "{}")); OError Illformed 3; OError Broken 3; OError Broken 3] /\
  calls (fun _ => false) true 3 (parser_new (B "a")) = [OToken (TLiteral (B "a")); OEnd; OEnd].
Proof. split; reflexivity. Qed.

(** C32, false of the exceptions thrown for the specification of `{...}`: the parser goes on with the rest. *)
Theorem C32_goes_on_refuted : exists s, forall ld nd,
  calls ld nd 2 (parser_new s) = [OThrown (Some 4); OToken (TLiteral (B "rest"))].
Proof. exists (B "{...:x}rest"). intros. reflexivity. Qed.
Print Assumptions C32_goes_on_refuted.

(** C32, false without NDEBUG: a pattern that ends after the colon of a reserved placeholder fails an assertion. *)
Theorem C32_assertion_refuted : forall ld, exists s, tokenize ld false s = Some (Failed OAssert).
Proof. intros ld. exists (B "{process:"). reflexivity. Qed.
Print Assumptions C32_assertion_refuted.

(** C32, false: a name with a byte of 128 or more is passed to [isalpha] as a negative number. *)
Theorem C32_undefined_refuted : forall ld nd, exists s, tokenize ld nd s = Some (Failed OUndefined).
Proof. intros ld nd. exists (B "{caf" ++ [chr 195; chr 169] ++ B "}"). reflexivity. Qed.
Print Assumptions C32_undefined_refuted.

(** C33. What every byte string parses to: each is written by pieces and an ending ... *)
Theorem C33_every_pattern : forall s, exists ps e, well_formed ps /\ well_ended e /\ s = write ps ++ write_ending e.
Proof. exact pattern_shape_lemma. Qed.
Print Assumptions C33_every_pattern.

(** ... and parses to what they mean: it is accepted if it is complete or ends with an opening brace or inside a
    specification, and rejected at the right place otherwise. *)
Theorem C33_meaning : forall ld nd ps e, well_formed ps -> well_ended e ->
  tokenize ld nd (write ps ++ write_ending e) = Some (meaning ld nd ps e).
Proof. exact meaning_lemma. Qed.
Print Assumptions C33_meaning.
Example C33_meaning_case :
  let ps := [Text (B "a{"); HoleSpec (B "id") (B "{x}>3"); Hole (B "message"); Text (B "}")] in
  well_formed ps /\ well_ended (CloseBrace (B " ")) /\
  write ps ++ write_ending (CloseBrace (B " ")) = B "a{{{id:{x}>3}{message}}}} " /\
  meaning (fun _ => false) true ps (CloseBrace (B " ")) = Failed (OError Illformed 24) /\
  meaning (fun _ => false) true ps Complete =
    Tokens [TLiteral (B "a{"); TRequired (B "id") (B "{:{x}>3}"); TMessage (B "{}"); TLiteral (B "}")].
Proof.
  refine (conj _ (conj _ (conj _ (conj _ _)))); try reflexivity.
  - refine (conj _ (conj _ (conj _ (conj _ I)))).
    + split; [discriminate|reflexivity].
    + split; [apply name_ok; reflexivity|].
      apply (balanced_app (LBRACE :: B "x" ++ [RBRACE]) (B ">3")).
      * apply balanced_brace. apply balanced_plain. split; intros [E|[]]; discriminate E.
      * apply balanced_plain. split; intros [E|[E|[]]]; discriminate E.
    + apply name_ok; reflexivity.
    + split; [discriminate|exact I].
  - intros r' E. discriminate E.
Qed.

(** C33, false: these patterns with an unclosed placeholder are accepted. *)
Theorem C33_unclosed_accepted_refuted : exists s1 s2 s3, forall ld nd,
  s1 = B "{" /\ tokenize ld nd s1 = Some (Tokens []) /\
  s2 = B "size: {" /\ tokenize ld nd s2 = Some (Tokens [TLiteral (B "size: ")]) /\
  s3 = B "{id:>5 and the rest" /\ tokenize ld nd s3 = Some (Tokens [TRequired (B "id") (B "{:>5 and the rest")]).
Proof. exists (B "{"), (B "size: {"), (B "{id:>5 and the rest"). intros. repeat split. Qed.
Print Assumptions C33_unclosed_accepted_refuted.

(** C57. The type letter chooses what a reserved placeholder prints, the rest of the specification being kept ... *)
Theorem C57_type_letter : forall ld nd a c, no_braces a -> c <> LBRACE -> c <> RBRACE ->
  let spec := B "{:" ++ (a ++ [c]) ++ B "}" in
  tokenize ld nd (B "{process:" ++ (a ++ [c]) ++ B "}") =
    Some (Tokens [if Ascii.eqb c "s" then TProcessName spec else TProcessId spec]) /\
  tokenize ld nd (B "{thread:" ++ (a ++ [c]) ++ B "}") =
    Some (Tokens [if Ascii.eqb c "d" then TThreadId spec else if Ascii.eqb c "s" then TThreadName spec else TThreadHex spec]) /\
  tokenize ld nd (B "{severity:" ++ (a ++ [c]) ++ B "}") =
    Some (Tokens [if Ascii.eqb c "d" then TSeverityNum spec else TSeverityUser spec]) /\
  tokenize ld nd (B "{timestamp:" ++ a ++ B "d" ++ B "}") = Some (Tokens [TTimestampNum (B "{:" ++ a ++ B "d" ++ B "}")]).
Proof. exact reserved_lemma. Qed.
Print Assumptions C57_type_letter.
Example C57_type_letter_case : no_braces (B "<20") /\
  tokenize (fun _ => false) true (B "{process:<20s}") = Some (Tokens [TProcessName (B "{:<20s}")]).
Proof. split; [split; intros E; cbn in E; repeat (destruct E as [E|E]; [discriminate E|]); exact E|reflexivity]. Qed.

(** ... a time specification in braces is taken out, and the letter says which time zone. *)
Theorem C57_timestamp : forall ld nd p a, p <> [] -> no_braces p -> no_braces a ->
  tokenize ld nd (B "{timestamp:{" ++ p ++ B "}" ++ a ++ B "s}") = Some (Tokens [TTimestampUser p (B "{:" ++ a ++ B "s}") true]) /\
  tokenize ld nd (B "{timestamp:{" ++ p ++ B "}" ++ a ++ B "l}") = Some (Tokens [TTimestampUser p (B "{:" ++ a ++ B "s}") false]).
Proof. exact timestamp_lemma. Qed.
Print Assumptions C57_timestamp.
Example C57_timestamp_case :
  tokenize (fun _ => false) true (B "{timestamp:{%H:%M}<9l}") = Some (Tokens [TTimestampUser (B "%H:%M") (B "{:<9s}") false]).
Proof. reflexivity. Qed.

(** C57. Without specification. *)
Theorem C57_defaults : forall ld nd,
  tokenize ld nd (B "{message}{process}{thread}{severity}{timestamp}{...}") =
  Some (Tokens [TMessage (B "{}"); TProcessId (B "{}"); TThreadHex (B "{:#x}"); TSeverityUser (B "{}");
                TTimestampUser (B "%Y-%m-%d %H:%M:%S.%f") (B "{}") true;
                TLeftover (Leftover (B "{:}") (B ", ") [SName (B "{:}"); SLiteral (B ": "); SValue (B "{:}")])]).
Proof. intros. reflexivity. Qed.
Print Assumptions C57_defaults.

(** C57, false: a time specification with a closing brace is cut there, the rest becoming the specification. *)
Theorem C57_brace_in_time_refuted : forall ld nd,
  tokenize ld nd (B "{timestamp:{%H {%M} %S}s}") = Some (Tokens [TTimestampUser (B "%H {%M") (B "{: %S}s}") true]).
Proof. intros ld []; reflexivity. Qed.
Print Assumptions C57_brace_in_time_refuted.

(** C58. The extensions of `{...}` written out of their parts are read back: a pattern ... *)
Theorem C58_pattern : forall ld nd ps sp, sub_well_formed ps -> is_short_spec (B "s") sp ->
  balanced (B "{" ++ write_sub ps ++ B ":p}" ++ sp) ->
  tokenize ld nd (B "{...:" ++ (B "{" ++ write_sub ps ++ B ":p}" ++ sp) ++ B "}") =
  Some (Tokens [TLeftover (Leftover (B "{:" ++ sp ++ B "}") (B ", ") (map sub_meaning ps))]).
Proof.
  intros ld nd ps sp W S X. rewrite (leftover_hole ld nd _ _ X eq_refl).
  pose proof (leftover_pattern_lemma ps sp W S) as L. rewrite <- !app_assoc in *. rewrite L. reflexivity.
Qed.
Print Assumptions C58_pattern.

(** ... a pattern and a separator ... *)
Theorem C58_pattern_separator : forall ld nd ps sep sp, sub_well_formed ps -> ~ occurs (B ":s}") sep -> is_short_spec (B "s") sp ->
  balanced (B "{" ++ write_sub ps ++ B ":p}" ++ B "{" ++ sep ++ B ":s}" ++ sp) ->
  tokenize ld nd (B "{...:" ++ (B "{" ++ write_sub ps ++ B ":p}" ++ B "{" ++ sep ++ B ":s}" ++ sp) ++ B "}") =
  Some (Tokens [TLeftover (Leftover (B "{:" ++ sp ++ B "}") sep (map sub_meaning ps))]).
Proof.
  intros ld nd ps sep sp W O S X. rewrite (leftover_hole ld nd _ _ X eq_refl).
  pose proof (leftover_both_lemma ps sep sp W O S) as L. rewrite <- !app_assoc in *. rewrite L. reflexivity.
Qed.
Print Assumptions C58_pattern_separator.
Example C58_pattern_separator_case :
  let ps := [PText (B "{:p}"); PName (Some (B "<5s")); PText (B "="); PValue None] in
  sub_well_formed ps /\ ~ occurs (B ":s}") (B " | ") /\ is_short_spec (B "s") (B ">50s") /\
  balanced (B "{" ++ write_sub ps ++ B ":p}" ++ B "{" ++ B " | " ++ B ":s}" ++ B ">50s") /\
  tokenize (fun _ => false) true (B "{...:{{{:p}}{name:<5s}={value}:p}{ | :s}>50s}") =
  Some (Tokens [TLeftover (Leftover (B "{:>50s}") (B " | ")
         [SLiteral (B "{:p}"); SName (B "{:<5s}"); SLiteral (B "="); SValue (B "{:}")])]).
Proof.
  refine (conj _ (conj _ (conj _ (conj _ _)))); try reflexivity.
  - refine (conj (conj _ _) (conj _ (conj (conj _ _) (conj _ I)))); try discriminate; try reflexivity; try exact I.
    exists (B "<"), (B "5"), "s"%char. split; [reflexivity|]. split; [right; exists "<"%char; split; [reflexivity|cbn; tauto]|].
    split; [intros c [<-|[]]; cbn; tauto|cbn; tauto].
  - intros (a & b & E). destruct a as [|x [|y [|z a]]]; try discriminate E.
    injection E as _ _ _ E. destruct a; discriminate E.
  - exists (B ">"), (B "50"), "s"%char. split; [reflexivity|]. split; [right; exists ">"%char; split; [reflexivity|cbn; tauto]|].
    split; [intros c [<-|[<-|[]]]; cbn; tauto|cbn; tauto].
  - assert (Q : forall s, no_braces s -> balanced (LBRACE :: s ++ [RBRACE])) by (intros s H; apply balanced_brace, balanced_plain; exact H).
    assert (D : forall a b, no_braces a -> balanced b -> balanced (a ++ b)) by (intros a b H1 H2; apply balanced_app; [apply balanced_plain; exact H1|exact H2]).
    change (balanced ((LBRACE :: (((LBRACE :: (LBRACE :: B ":p" ++ [RBRACE]) ++ [RBRACE]) ++ (LBRACE :: B "name:<5s" ++ [RBRACE]) ++ B "=" ++
            (LBRACE :: B "value" ++ [RBRACE])) ++ B ":p") ++ [RBRACE]) ++ (LBRACE :: B " | :s" ++ [RBRACE]) ++ B ">50s")).
    assert (NB : forall s, forallb (fun c => negb (Ascii.eqb c LBRACE || Ascii.eqb c RBRACE)) s = true -> no_braces s).
    { intros s H. rewrite forallb_forall in H. split; intros I; specialize (H _ I); discriminate H. }
    apply balanced_app; [apply balanced_brace|].
    + apply balanced_app; [|apply balanced_plain; apply NB; reflexivity].
      apply balanced_app; [apply balanced_brace, Q, NB; reflexivity|].
      apply balanced_app; [apply Q, NB; reflexivity|]. apply D; [apply NB; reflexivity|]. apply Q, NB; reflexivity.
    + apply balanced_app; [apply Q, NB; reflexivity|]. apply balanced_plain, NB; reflexivity.
Qed.

(** ... a separator, or none. *)
Theorem C58_separator : forall ld nd sep sp, ~ occurs (B ":s}") sep -> ~ occurs (B ":p}") sep -> is_short_spec (B "s") sp ->
  balanced (B "{" ++ sep ++ B ":s}" ++ sp) ->
  tokenize ld nd (B "{...:" ++ (B "{" ++ sep ++ B ":s}" ++ sp) ++ B "}") =
  Some (Tokens [TLeftover (Leftover (B "{:" ++ sp ++ B "}") sep [SName (B "{:}"); SLiteral (B ": "); SValue (B "{:}")])]).
Proof.
  intros ld nd sep sp O P S X. rewrite (leftover_hole ld nd _ _ X eq_refl).
  pose proof (leftover_separator_lemma sep sp O P S) as L. rewrite <- !app_assoc in *. rewrite L. reflexivity.
Qed.
Print Assumptions C58_separator.
Example C58_separator_case : tokenize (fun _ => false) true (B "{...:{:s:s}5s}") =
  Some (Tokens [TLeftover (Leftover (B "{:5s}") (B ":s") [SName (B "{:}"); SLiteral (B ": "); SValue (B "{:}")])]).
Proof. reflexivity. Qed.

(** C58, false: the separator before the pattern, which the grammar allows, is always rejected ... *)
Theorem C58_separator_first_refuted : forall sep ps sp, no_braces sep -> ~ occurs (B ":p}") sep -> sub_well_formed ps ->
  is_short_spec (B "s") sp ->
  parse_leftover (B "{:" ++ B "{" ++ sep ++ B ":s}" ++ B "{" ++ write_sub ps ++ B ":p}" ++ sp ++ B "}") = OThrown None.
Proof. exact separator_first_lemma. Qed.
Print Assumptions C58_separator_first_refuted.
Example C58_separator_first_case : tokenize (fun _ => false) true (B "{...:{,:s}{{name}={value}:p}s}") = Some (Failed (OThrown None)).
Proof. reflexivity. Qed.

(** ... a literal brace without its counterpart makes the placeholder take in what follows it ... *)
Theorem C58_unbalanced_brace_refuted : forall ld nd, exists ps, sub_well_formed ps /\
  tokenize ld nd (B "{...:{" ++ write_sub ps ++ B ":p}s} rest") = Some (Failed (OThrown (Some 29))) /\
  write_sub ps = B "{{{name}={value}".
Proof.
  intros ld nd. exists [PText (B "{"); PName None; PText (B "="); PValue None]. split; [|split; reflexivity].
  refine (conj (conj _ _) (conj I (conj (conj _ _) (conj I I)))); try discriminate; reflexivity.
Qed.
Print Assumptions C58_unbalanced_brace_refuted.

(** ... and a doubled brace of the separator stays doubled. *)
Theorem C58_separator_braces_refuted : forall ld nd, tokenize ld nd (B "{...:{{{}}:s}s}") =
  Some (Tokens [TLeftover (Leftover (B "{:s}") (B "{{}}") [SName (B "{:}"); SLiteral (B ": "); SValue (B "{:}")])]).
Proof. intros. reflexivity. Qed.
Print Assumptions C58_separator_braces_refuted.

(** C58, false: the README's example of a tab separator is rejected. *)
Theorem C58_readme_example_refuted : forall ld nd,
  tokenize ld nd (B "{...:{{name}={value}:p}{" ++ [TAB] ++ B ":x}s}") = Some (Failed (OThrown (Some 27))).
Proof. intros. reflexivity. Qed.
Print Assumptions C58_readme_example_refuted.
