(** C139-C140: what is thrown for a pattern that is not understood, and for a lock that cannot be made. [ld] and [nd] are the parameters of ParserModel. *)
From Verif Require Import Base ParserModel ParserSpec ParserProofs ReportModel ReportSpec ReportProofs.

(** C139. The constructor throws nothing if and only if the pattern is understood. *)
Theorem C139_accepted : forall ld nd pattern, construct ld nd pattern = Some Nothing <-> exists ts, tokenize ld nd pattern = Some (Tokens ts).
Proof. exact accepted_lemma. Qed.
Print Assumptions C139_accepted.
Example C139_accepted_case : construct (fun _ => false) true (B "{severity:>7}: {message}") = Some Nothing.
Proof. vm_compute. reflexivity. Qed.

(** C139. For an error the parser finds, the report has the text of the exception in its first line, then the pattern, whatever is in it, and the caret of its
    last line is as far to the right as the position says. *)
Theorem C139_report : forall ld nd pattern f k, tokenize ld nd pattern = Some (Failed (OError f k)) ->
  exists e, construct ld nd pattern = Some (Parser_error e) /\ e_position e = k /\ read_report (e_detail e) = Some (e_what e, pattern, k).
Proof.
  intros ld nd pattern f k E. eexists. split; [exact (thrown_lemma _ _ _ _ _ E)|]. split; [reflexivity|]. apply report_read. apply reason_line.
Qed.
Print Assumptions C139_report.

(** C139. The first line says what is wrong at the position: that the pattern ended too early or has a single closing brace, or that a character cannot be in a name. *)
Theorem C139_reason : forall ld nd pattern f k, tokenize ld nd pattern = Some (Failed (OError f k)) ->
  exists e, construct ld nd pattern = Some (Parser_error e) /\
    ((e_what e = B "parser error: illformed pattern" /\
        (k = length pattern \/ (nth_error pattern k = Some RBRACE /\ nth_error pattern (S k) <> Some RBRACE))) \/
     (e_what e = B "parser error: invalid placeholder name (only [a-zA-Z0-9_] allowed)" /\ exists c, nth_error pattern k = Some c /\ ~ In c name_alphabet)).
Proof.
  intros ld nd pattern f k E. eexists. split; [exact (thrown_lemma _ _ _ _ _ E)|].
  destruct (position_lemma _ _ _ _ _ E) as [(-> & Q)|[(-> & Q)|(-> & Q)]]; [left|left|right]; (split; [reflexivity|auto]).
Qed.
Print Assumptions C139_reason.
Example C139_reason_case : exists e, construct (fun _ => false) true (B "ab{id-}") = Some (Parser_error e) /\
  e_what e = B "parser error: invalid placeholder name (only [a-zA-Z0-9_] allowed)" /\ e_position e = 5%nat.
Proof. eexists. split; [vm_compute; reflexivity|]. split; reflexivity. Qed.

(** C139. If the pattern is one line, the caret is below the character that is wrong - a closing brace that is single, or one that cannot be in a name - or
    behind the last one, if the pattern has ended too early. *)
Theorem C139_below : forall ld nd pattern f k, tokenize ld nd pattern = Some (Failed (OError f k)) -> ~ In NL pattern ->
  exists e x, construct ld nd pattern = Some (Parser_error e) /\ caret_below (e_detail e) x /\ 
    match x with None => True | Some c => c = RBRACE \/ ~ In c name_alphabet end.
Proof.
  intros ld nd pattern f k E N. pose proof (position_lemma _ _ _ _ _ E) as P.
  assert (L : (k <= length pattern)%nat).
  { destruct P as [(_ & ->)|[(_ & Q & _)|(_ & c & Q & _)]]; [lia| |]; apply Nat.lt_le_incl, nth_error_Some; congruence. }
  eexists. exists (nth_error pattern k). split; [exact (thrown_lemma _ _ _ _ _ E)|]. split; [exact (below_lemma _ _ _ N L)|].
  destruct P as [(_ & ->)|[(_ & -> & _)|(_ & c & -> & Q)]]; [|left; reflexivity|right; exact Q].
  replace (nth_error pattern (length pattern)) with (@None ascii); [exact Logic.I|]. symmetry. apply nth_error_None. lia.
Qed.
Print Assumptions C139_below.
Definition text_of_thrown (t : option thrown) : bytes :=
  match t with Some (Parser_error e) => e_detail e | Some (Runtime_error w) => w | _ => [] end.
Example C139_below_case : let pattern := B "[{severity}] {mess age}" in
  tokenize (fun _ => false) true pattern = Some (Failed (OError InvalidPlaceholder 18)) /\
  lines (text_of_thrown (construct (fun _ => false) true pattern)) =
    [B "parser error: invalid placeholder name (only [a-zA-Z0-9_] allowed)";
     B "[{severity}] {mess age}";
     B "~~~~~~~~~~~~~~~~~~^"].
Proof. split; vm_compute; reflexivity. Qed.

(** C139, false of patterns of several lines: the position counts from the start of the pattern, so the caret is not below the character that is wrong. *)
Theorem C139_lines_refuted : exists pattern, forall ld nd, exists e, tokenize ld nd pattern = Some (Failed (OError Illformed 9)) /\ nth_error pattern 9 = Some RBRACE /\
  construct ld nd pattern = Some (Parser_error e) /\ forall c, ~ caret_below (e_detail e) c.
Proof.
  exists (B "first" ++ [NL] ++ B "two}"). intros ld nd. exists (make_error 9 (B "first" ++ [NL] ++ B "two}") (reason Illformed)).
  split; [vm_compute; reflexivity|]. split; [reflexivity|]. split; [vm_compute; reflexivity|].
  intros c (front & above & mark & k & L & K & _ & LE).
  assert (LL : lines (e_detail (make_error 9 (B "first" ++ [NL] ++ B "two}") (reason Illformed))) =
    [B "parser error: illformed pattern"; B "first"; B "two}"; B "~~~~~~~~~^"]) by (vm_compute; reflexivity).
  rewrite LL in L. apply last_two in L. destruct L as (-> & ->). vm_compute in K. injection K as <-. vm_compute in LE. lia.
Qed.
Print Assumptions C139_lines_refuted.

(** C139, false of errors in the options of the placeholder of the remaining attributes: the report has the options instead of the pattern, and its caret is behind their
    end, wherever the wrong character is. Here that is the third one of the options; the position 8 says nothing about it. *)
Theorem C139_options_refuted : exists pattern options, forall ld nd, exists e,
  pattern = B "{message} {...:Z<10s}" /\ options = B "{:Z<10s}" /\ construct ld nd pattern = Some (Parser_error e) /\
  read_report (e_detail e) = Some (e_what e, options, length options) /\ options <> pattern /\
  (exists ts, tokenize ld nd (B "{message} {...:<10s}") = Some (Tokens ts)).
Proof.
  exists (B "{message} {...:Z<10s}"), (B "{:Z<10s}"). intros ld nd. exists (make_error 8 (B "{:Z<10s}") (B "malformed input pattern")).
  split; [reflexivity|]. split; [reflexivity|]. split; [vm_compute; reflexivity|].
  split; [vm_compute; reflexivity|]. split; [discriminate|]. eexists. vm_compute. reflexivity.
Qed.
Print Assumptions C139_options_refuted.

(** C139, false of errors in the pattern among these options: the exception is no error of the parser, has no position, and its text is an abbreviation. *)
Theorem C139_inner_refuted : exists pattern, forall ld nd, construct ld nd pattern = Some (Runtime_error (B "NIY")).
Proof. exists (B "{...:{{nam} = {value}:p}s}"). intros ld nd. vm_compute. reflexivity. Qed.
Print Assumptions C139_inner_refuted.

(** C140. The constructor of the lock throws exactly if the system could not make the lock. *)
Theorem C140_made : forall rc errno, spinlock rc errno = Locked_ok <-> rc = 0%Z.
Proof. intros rc errno. unfold spinlock. destruct (Z.eqb_spec rc 0); split; congruence. Qed.
Print Assumptions C140_made.

(** C140, false: the exception does not say why. The function returns the error, but the code of the exception is taken from [errno], which that function does not
    set: an old error, or none, for which the text is "Success". *)
Theorem C140_reason_refuted : exists rc errno code, rc = 11%Z /\ spinlock rc errno = System_error code /\ code = 0%Z /\
  forall errno', spinlock rc errno' = System_error errno'.
Proof. exists 11%Z, 0%Z, 0%Z. repeat split. Qed.
Print Assumptions C140_reason_refuted.
