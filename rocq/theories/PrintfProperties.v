(** C98-C103: the printf functions of the formatting library.
    In every theorem [dbl] is the text of a double for a specification: they hold for every such function. *)
From Verif Require Import Base FmtModel FmtSpec PrintfModel PrintfSpec PrintfProofs PrintfSubProofs PrintfMoreProofs.
Open Scope N_scope.

(** C98. A format string of literal texts (percent signs doubled) and conversions: the texts are copied, each conversion prints what it
    prints alone with the arguments that are next in turn, and the first failure is the result. Conversions that are left-justified with
    a precision are left out, or the whole text has at most 500 bytes. *)
Theorem C98_in_turn : forall dbl ps args, Forall good_piece ps ->
  (existsb piece_left_precise ps = false
   \/ exists out, in_turn (fun c a => sprintf dbl (conversion_text c) a) (share ps args) = Ok out /\ length_N out <= 500) ->
  sprintf dbl (format_text ps) args = in_turn (fun c a => sprintf dbl (conversion_text c) a) (share ps args).
Proof. exact sprintf_pieces. Qed.
Print Assumptions C98_in_turn.
Definition case_pieces : list piece :=
  [Literal (B "100% "); Convert (Conversion None (B "+") (Given 5 (B "5")) None [] "d"); Literal (B "|");
   Convert (Conversion None [] Asterisk (Some (Given 2 (B "2"))) [] "s"); Literal (B "|")].
Example C98_in_turn_case : Forall good_piece case_pieces /\ format_text case_pieces = B "100%% %+5d|%*.2s|"
  /\ (existsb piece_left_precise [Literal (B "a"); Convert (Conversion None (B "+") NoAmount None [] "d")] = false)
  /\ forall dbl, sprintf dbl (B "100%% %+5d|%*.2s|") [AInt 42; AInt 4; AString (Some (B "xyz")) 3] = Ok (B "100%   +42|  xy|")
       /\ in_turn (fun c a => sprintf dbl (conversion_text c) a) (share case_pieces [AInt 42; AInt 4; AString (Some (B "xyz")) 3]) = Ok (B "100%   +42|  xy|").
Proof.
  split; [|split; [reflexivity|split; [reflexivity|intros; split; vm_compute; reflexivity]]].
  unfold case_pieces, good_piece, well_formed, written. repeat constructor; cbn; try discriminate; try (intros H; repeat (destruct H as [H|H]; [discriminate H|]); exact H); auto 10.
Qed.

(** C98. Arguments that no conversion takes are ignored. *)
Theorem C98_more_arguments : forall dbl ps args more, Forall good_piece ps -> (all_needs ps <= length args)%nat ->
  sprintf dbl (format_text ps) (args ++ more) = sprintf dbl (format_text ps) args.
Proof. exact extra_ok. Qed.
Print Assumptions C98_more_arguments.
Example C98_more_arguments_case : all_needs case_pieces = 3%nat
  /\ forall dbl, sprintf dbl (B "%d") ([AInt 1] ++ [ACString None]) = Ok (B "1").
Proof. split; [reflexivity|intros; vm_compute; reflexivity]. Qed.

(** C99. Integer conversions print what C says, for every ordinary conversion and every argument. *)
Theorem C99_integers : forall dbl c args w z v, asked c args w z v -> ordinary c w z v ->
  exists out, sprintf dbl (conversion_text c) args = Ok out /\ integer_text c w v out.
Proof.
  exact (fun dbl c args w z v A O => match A with
    conj WF (conj P (conj W (conj V (conj NO (conj BO (ex_intro _ bits (conj BN AT))))))) => integer_ok dbl c args w z bits v WF P W V NO BN BO AT O end).
Qed.
Print Assumptions C99_integers.
Definition conv (flags : string) (width : amount) (precision : option amount) (length : string) (letter : ascii) : conversion :=
  Conversion None (B flags) width precision (B length) letter.
Definition five := Given 5 (B "5").
Ltac formed := unfold well_formed, written; cbn; repeat split; try discriminate; try lia; try (repeat constructor; fail); auto 12.
Ltac typed k := split; [exists k; reflexivity|cbn; lia].
Example C99_integers_case : exists w,
  asked (conv "#-" Asterisk (Some five) "hh" "o") [AInt 12; AInt (-248)] w (-248) 8
  /\ ordinary (conv "#-" Asterisk (Some five) "hh" "o") w (-248) 8
  /\ conversion_text (conv "#-" Asterisk (Some five) "hh" "o") = B "%#-*.5hho"
  /\ forall dbl, sprintf dbl (B "%#-*.5hho") [AInt 12; AInt (-248)] = Ok (B "00010       ")
       /\ sprintf dbl (B "%+05d|%#x|%#o|% i|%hhd|%lX|%08.3f") [AInt 42; AUint 255; AUint 8; AInt 7; AInt 200; ALong (-1)] = Error EIndexRange
       /\ sprintf dbl (B "%+05d|%#x|%#o|% i|%hhd|%lX|%6.3u") [AInt 42; AUint 255; AUint 8; AInt 7; AInt 200; ALong (-1); AInt 5]
          = Ok (B "+0042|0xff|010| 7|-56|FFFFFFFFFFFFFFFF|   005").
Proof.
  eexists. split; [|split; [|split; [reflexivity|intros; repeat split; vm_compute; reflexivity]]].
  - split; [formed|]. split; [reflexivity|]. split; [reflexivity|]. split; [cbn; lia|]. split; [reflexivity|]. split; [discriminate|].
    exists 8. split; [reflexivity|]. typed (-1)%Z.
  - unfold ordinary. cbn. repeat split; intros; try discriminate; try lia.
Qed.

(** C99. The rules leave no choice. *)
Theorem C99_one_text : forall c w v out out', integer_text c w v out -> integer_text c w v out' -> out = out'.
Proof. exact integer_text_one. Qed.
Print Assumptions C99_one_text.
Ltac numeral_of ds := split; [discriminate|]; split; [reflexivity|]; split; [first [discriminate|reflexivity]|]; repeat constructor.
Example C99_one_text_case : integer_text (conv "" five None "" "d") (Wanted false 5 None (AInt 42)) 42 (B "   42").
Proof.
  exists 10, false, (B "42"). split; [reflexivity|]. split; [numeral_of (B "42")|]. exists (B "   "), [], [].
  split; [reflexivity|]. split; [repeat constructor|]. split; [constructor|]. split; [constructor|]. split; [reflexivity|]. split; reflexivity.
Qed.
Ltac other good base ds ll ii rr :=
  match goal with |- ~ integer_text ?c ?w ?v _ => intros H; assert (G : integer_text c w v good); [|assert (E := C99_one_text _ _ _ _ _ H G); discriminate E] end;
  exists base, false, ds; split; [reflexivity|]; split; [numeral_of ds|]; exists ll, ii, rr;
  split; [reflexivity|]; split; [repeat constructor|]; split; [repeat constructor|]; split; [repeat constructor|]; split; [reflexivity|]; split; reflexivity.
Ltac asking k := split; [formed|]; split; [reflexivity|]; split; [reflexivity|]; split; [cbn; try lia; exact I|]; split; [reflexivity|]; split; [discriminate|];
  eexists; split; [reflexivity|]; typed k.

(** C99. Finding: [0] is not ignored beside [-]: [%-05d] prints 00042 for 42 and not 42 with three spaces behind it. *)
Theorem C99_zero_minus_refuted : exists c args w z v out, asked c args w z v /\ conversion_text c = B "%-05d"
  /\ (forall dbl, sprintf dbl (conversion_text c) args = Ok out) /\ out = B "00042" /\ ~ integer_text c w v out.
Proof.
  exists (conv "-0" five None "" "d"), [AInt 42], (Wanted true 5 None (AInt 42)), 42%Z, 42%Z, (B "00042").
  split; [asking 0%Z|]. split; [reflexivity|]. split; [intros; vm_compute; reflexivity|]. split; [reflexivity|].
  other (B "42   ") 10 (B "42") (@nil ascii) (@nil ascii) (B "   ").
Qed.
Print Assumptions C99_zero_minus_refuted.

(** C99. Finding: [0] is not ignored beside a precision: [%06.3d] prints 00-042 for -42, with the sign inside the zeros, and not -042 with
    two spaces before it. *)
Theorem C99_zero_precision_refuted : exists c args w z v out, asked c args w z v /\ conversion_text c = B "%06.3d"
  /\ (forall dbl, sprintf dbl (conversion_text c) args = Ok out) /\ out = B "00-042" /\ ~ integer_text c w v out.
Proof.
  exists (conv "0" (Given 6 (B "6")) (Some (Given 3 (B "3"))) "" "d"), [AInt (-42)], (Wanted false 6 (Some 3) (AInt (-42))), (-42)%Z, (-42)%Z, (B "00-042").
  split; [asking 0%Z|]. split; [reflexivity|]. split; [intros; vm_compute; reflexivity|]. split; [reflexivity|].
  other (B "  -042") 10 (B "42") (B "  ") (@nil ascii) (@nil ascii).
Qed.
Print Assumptions C99_zero_precision_refuted.

(** C99. Finding: zero with precision zero prints 0 and not nothing. *)
Theorem C99_nothing_refuted : exists c args w z v out, asked c args w z v /\ conversion_text c = B "%.0d"
  /\ (forall dbl, sprintf dbl (conversion_text c) args = Ok out) /\ out = B "0" /\ ~ integer_text c w v out.
Proof.
  exists (conv "" NoAmount (Some (Given 0 (B "0"))) "" "d"), [AInt 0], (Wanted false 0 (Some 0) (AInt 0)), 0%Z, 0%Z, (B "0").
  split; [asking 0%Z|]. split; [reflexivity|]. split; [intros; vm_compute; reflexivity|]. split; [reflexivity|].
  other (@nil ascii) 10 (B "0") (@nil ascii) (@nil ascii) (@nil ascii).
Qed.
Print Assumptions C99_nothing_refuted.

(** C99. Finding: a dot alone is not precision zero: with it [0] still pads with zeros, [%05.d] prints 00042 for 42 and not spaces and 42. *)
Theorem C99_dot_refuted : exists c args w z v out, asked c args w z v /\ conversion_text c = B "%05.d"
  /\ (forall dbl, sprintf dbl (conversion_text c) args = Ok out) /\ out = B "00042" /\ ~ integer_text c w v out.
Proof.
  exists (conv "0" five (Some NoAmount) "" "d"), [AInt 42], (Wanted false 5 (Some 0) (AInt 42)), 42%Z, 42%Z, (B "00042").
  split; [asking 0%Z|]. split; [reflexivity|]. split; [intros; vm_compute; reflexivity|]. split; [reflexivity|].
  other (B "   42") 10 (B "42") (B "   ") (@nil ascii) (@nil ascii).
Qed.
Print Assumptions C99_dot_refuted.

(** C99. Finding: sign flags are not ignored by the unsigned conversions: [%+x] prints +ff for 255. *)
Theorem C99_unsigned_sign_refuted : exists c args w z v out, asked c args w z v /\ conversion_text c = B "%+x"
  /\ (forall dbl, sprintf dbl (conversion_text c) args = Ok out) /\ out = B "+ff" /\ ~ integer_text c w v out.
Proof.
  exists (conv "+" NoAmount None "" "x"), [AInt 255], (Wanted false 0 None (AInt 255)), 255%Z, 255%Z, (B "+ff").
  split; [asking 0%Z|]. split; [reflexivity|]. split; [intros; vm_compute; reflexivity|]. split; [reflexivity|].
  other (B "ff") 16 (B "ff") (@nil ascii) (@nil ascii) (@nil ascii).
Qed.
Print Assumptions C99_unsigned_sign_refuted.

(** C99. Finding: whether the number is zero is asked before its conversion: [%#hhx] prints 0x0 for 256, which becomes zero, and not 0. *)
Theorem C99_mark_refuted : exists c args w z v out, asked c args w z v /\ conversion_text c = B "%#hhx"
  /\ (forall dbl, sprintf dbl (conversion_text c) args = Ok out) /\ out = B "0x0" /\ ~ integer_text c w v out.
Proof.
  exists (conv "#" NoAmount None "hh" "x"), [AInt 256], (Wanted false 0 None (AInt 256)), 256%Z, 0%Z, (B "0x0").
  split; [asking 1%Z|]. split; [reflexivity|]. split; [intros; vm_compute; reflexivity|]. split; [reflexivity|].
  other (B "0") 16 (B "0") (@nil ascii) (@nil ascii) (@nil ascii).
Qed.
Print Assumptions C99_mark_refuted.

(** C99. Finding: a negative [int] given to a 64-bit conversion goes through the unsigned 32-bit type: [%ld] prints 4294967295 for -1. (In C
    the call would be undefined; here the type of the argument is known and [%d] prints -1.) *)
Theorem C99_widened_refuted : exists c args w z v out, asked c args w z v /\ conversion_text c = B "%ld"
  /\ (forall dbl, sprintf dbl (conversion_text c) args = Ok out) /\ out = B "4294967295" /\ ~ integer_text c w v out.
Proof.
  exists (conv "" NoAmount None "l" "d"), [AInt (-1)], (Wanted false 0 None (AInt (-1))), (-1)%Z, (-1)%Z, (B "4294967295").
  split; [asking 0%Z|]. split; [reflexivity|]. split; [intros; vm_compute; reflexivity|]. split; [reflexivity|].
  other (B "-1") 10 (B "1") (@nil ascii) (@nil ascii) (@nil ascii).
Qed.
Print Assumptions C99_widened_refuted.

(** C99. Finding: with the modifier [L] a [char] argument is not converted, and a numeric conversion prints it twice, as a number and as a
    character: [%Ld] prints 97a for the letter a. *)
Theorem C99_char_twice_refuted : exists c a, well_formed c /\ conversion_text c = B "%Ld" /\ valid a /\ number_of a = Some 97%Z
  /\ forall dbl, sprintf dbl (conversion_text c) [a] = Ok (B "97" ++ B "a").
Proof.
  exists (conv "" NoAmount None "L" "d"), (AChar 97).
  split; [formed|]. split; [reflexivity|]. split; [cbn; lia|]. split; [reflexivity|]. intros; vm_compute; reflexivity.
Qed.
Print Assumptions C99_char_twice_refuted.

(** C100. [%s] prints the bytes of a string, no more than the precision, padded to the width. *)
Theorem C100_strings : forall dbl c args w s, well_formed c -> c_position c = None -> wants c args = Some w ->
  c_letter c = "s"%char -> text_of (subject w) s -> c_precision c <> Some NoAmount ->
  exists out, sprintf dbl (conversion_text c) args = Ok out /\ string_text w s out.
Proof. exact string_ok. Qed.
Print Assumptions C100_strings.
Example C100_strings_case : well_formed (conv "0" Asterisk (Some (Given 2 (B "2"))) "" "s")
  /\ wants (conv "0" Asterisk (Some (Given 2 (B "2"))) "" "s") [AInt (-5); ACString (Some (B "abc" ++ [NUL]))] = Some (Wanted true 5 (Some 2) (ACString (Some (B "abc" ++ [NUL]))))
  /\ text_of (ACString (Some (B "abc" ++ [NUL]))) (B "abc")
  /\ forall dbl, sprintf dbl (B "%0*.2s|%5s|%s") [AInt (-5); ACString (Some (B "abc" ++ [NUL])); AString (Some (B "xyzzz")) 3; AString (Some [NUL]) 0] = Ok (B "ab   |  xyz|").
Proof.
  split; [formed|]. split; [reflexivity|]. split; [|intros; vm_compute; reflexivity]. split; [|exists []; reflexivity].
  intros H. repeat (destruct H as [H|H]; [discriminate H|]). exact H.
Qed.

(** C100. [%c] prints the byte of a number, padded to the width with spaces. *)
Theorem C100_characters : forall dbl c args w z, well_formed c -> c_position c = None -> wants c args = Some w ->
  c_letter c = "c"%char -> c_length c = [] -> number_of (subject w) = Some z -> flag "0" c = false ->
  exists out, sprintf dbl (conversion_text c) args = Ok out /\ char_text w (Z.to_N (z mod 256)) out.
Proof. exact char_ok. Qed.
Print Assumptions C100_characters.
Example C100_characters_case : well_formed (conv "-" (Given 3 (B "3")) None "" "c") /\ wants (conv "-" (Given 3 (B "3")) None "" "c") [AInt 353] = Some (Wanted true 3 None (AInt 353))
  /\ forall dbl, sprintf dbl (B "%-3c|%3c|%c") [AInt 353; AChar 98; AInt (-159)] = Ok (B "a  |  b|a").
Proof. split; [formed|]. split; [reflexivity|]. intros; vm_compute; reflexivity. Qed.

(** C100. Finding: a dot alone is no precision: [%.s] prints the whole string and not nothing. *)
Theorem C100_dot_refuted : exists c args w s out, well_formed c /\ wants c args = Some w /\ text_of (subject w) s /\ conversion_text c = B "%.s"
  /\ (forall dbl, sprintf dbl (conversion_text c) args = Ok out) /\ out = B "abc" /\ ~ string_text w s out.
Proof.
  exists (conv "" NoAmount (Some NoAmount) "" "s"), [AString (Some (B "abc")) 3], (Wanted false 0 (Some 0) (AString (Some (B "abc")) 3)), (B "abc"), (B "abc").
  split; [formed|]. split; [reflexivity|]. split; [split; [reflexivity|exists []; split; [reflexivity|discriminate]]|]. split; [reflexivity|].
  split; [intros; vm_compute; reflexivity|]. split; [reflexivity|].
  intros (l & i & r & _ & _ & _ & _ & L & _). discriminate L.
Qed.
Print Assumptions C100_dot_refuted.

(** C100. Finding: the length of a C string is looked for without regard to the precision: an array of exactly the three characters that
    [%.3s] may print, without a NUL, is read beyond its end. *)
Theorem C100_unterminated_refuted : exists m, length_N m = 3 /\
  forall dbl, sprintf dbl (B "%.3s") [ACString (Some m)] = Undefined /\ sprintf dbl (B "%.3s") [AString (Some m) 3] = Ok m.
Proof. exists (B "abc"). split; [reflexivity|]. intros; split; vm_compute; reflexivity. Qed.
Print Assumptions C100_unterminated_refuted.

(** C101. With positions every conversion prints the argument at its position: the same as the conversions without positions and the
    arguments put in that order. *)
Theorem C101_positions : forall dbl ps args args', Forall placed_piece ps -> Forall2 (fun i a => nth_error args i = Some a) (places ps) args' ->
  sprintf dbl (format_text ps) args = sprintf dbl (format_text (map unplaced_piece ps)) args'.
Proof. exact positions_ok. Qed.
Print Assumptions C101_positions.
Definition at_place (n : N) (ds : string) (c : conversion) : conversion :=
  Conversion (Some (n, B ds)) (c_flags c) (c_width c) (c_precision c) (c_length c) (c_letter c).
Definition case_placed : list piece :=
  [Convert (at_place 2 "2" (conv "" NoAmount None "" "s")); Literal (B "="); Convert (at_place 1 "01" (conv "0" five None "" "d")); Convert (at_place 1 "1" (conv "" NoAmount None "" "x"))].
Example C101_positions_case : Forall placed_piece case_placed
  /\ Forall2 (fun i a => nth_error [AInt 26; AString (Some (B "k")) 1] i = Some a) (places case_placed) [AString (Some (B "k")) 1; AInt 26; AInt 26]
  /\ format_text case_placed = B "%2$s=%01$05d%1$x" /\ format_text (map unplaced_piece case_placed) = B "%s=%05d%x"
  /\ forall dbl, sprintf dbl (B "%2$s=%01$05d%1$x") [AInt 26; AString (Some (B "k")) 1] = Ok (B "k=000261a").
Proof.
  split; [|split; [repeat constructor|split; [reflexivity|split; [reflexivity|intros; vm_compute; reflexivity]]]].
  unfold case_placed. repeat apply Forall_cons; [| | | |apply Forall_nil]; cbn [placed_piece].
  - split; [formed|]. split; [discriminate|reflexivity].
  - intros [H|[]]. discriminate H.
  - split; [formed|]. split; [discriminate|reflexivity].
  - split; [formed|]. split; [discriminate|reflexivity].
Qed.

(** C101. A position after conversions without positions is refused, whatever follows. *)
Theorem C101_position_after : forall dbl ps c rest args out, Forall good_piece ps -> existsb is_conversion ps = true ->
  sprintf dbl (format_text ps) args = Ok out -> well_formed c -> c_position c <> None -> stars c = 0%nat ->
  sprintf dbl (format_text ps ++ conversion_text c ++ rest) args = Error EManualFromAuto.
Proof. exact manual_after_auto. Qed.
Print Assumptions C101_position_after.
Example C101_position_after_case : well_formed (at_place 1 "1" (conv "" NoAmount None "" "d"))
  /\ forall dbl, sprintf dbl (B "%d") [AInt 1; AInt 2] = Ok (B "1") /\ sprintf dbl (B "%d%1$d%") [AInt 1; AInt 2] = Error EManualFromAuto.
Proof. split; [formed|]. intros; split; vm_compute; reflexivity. Qed.

(** C101. A conversion without a position after conversions with positions is refused, whatever follows. *)
Theorem C101_none_after : forall dbl ps c rest args out, Forall placed_piece ps -> existsb is_conversion ps = true ->
  sprintf dbl (format_text ps) args = Ok out -> well_formed c -> c_position c = None ->
  sprintf dbl (format_text ps ++ conversion_text c ++ rest) args = Error EAutoFromManual.
Proof. exact auto_after_manual. Qed.
Print Assumptions C101_none_after.
Example C101_none_after_case : forall dbl, sprintf dbl (B "%2$s=%01$05d%1$x") [AInt 26; AString (Some (B "k")) 1] = Ok (B "k=000261a")
  /\ sprintf dbl (B "%2$s=%01$05d%1$x%*d") [AInt 26; AString (Some (B "k")) 1] = Error EAutoFromManual.
Proof. intros; split; vm_compute; reflexivity. Qed.

(** C101. Finding: a width cannot have a position: [%1$*2$d], which POSIX requires with positions, is refused. *)
Theorem C101_width_position_refuted : exists format args, format = B "%1$*2$d" /\ Forall valid args /\ length args = 2%nat /\
  forall dbl, sprintf dbl format args = Error EManualFromAuto.
Proof. exists (B "%1$*2$d"), [AInt 42; AInt 5]. split; [reflexivity|]. split; [repeat constructor; cbn; lia|]. split; [reflexivity|]. intros; vm_compute; reflexivity. Qed.
Print Assumptions C101_width_position_refuted.

(** C102. No format string, whatever its bytes, makes the call read or write outside its objects, if the arguments are readable: it prints
    or throws. Format strings with a dot and with a minus sign or an asterisk are left out. *)
Theorem C102_any_format : forall dbl format args, Forall valid args ->
  ~ In "."%char format \/ (~ In "-"%char format /\ ~ In "*"%char format) ->
  sprintf dbl format args <> Undefined.
Proof. exact sprintf_defined. Qed.
Print Assumptions C102_any_format.
Example C102_any_format_case : Forall valid [AInt 5; ALong 7; ACString None]
  /\ (~ In "."%char (B "%-*lld%%%s%$%") \/ (~ In "-"%char (B "%-*lld%%%s%$%") /\ ~ In "*"%char (B "%-*lld%%%s%$%")))
  /\ forall dbl, sprintf dbl (B "%-*lld%%%s%$%") [AInt 5; ALong 7; ACString None] = Error ENullString.
Proof.
  split; [repeat constructor; cbn; lia|]. split; [|intros; vm_compute; reflexivity].
  left. intros H. repeat (destruct H as [H|H]; [discriminate H|]). exact H.
Qed.

(** C102. Finding: with left-justification and a precision the digits are written through a pointer into the buffer that is taken before
    the buffer grows for the padding; the room asked for before leaves out what is already in it. Behind 490 characters [%-20.5d] writes
    to freed memory. *)
Theorem C102_moved_buffer_refuted : exists format args, Forall valid args /\ (forall dbl, sprintf dbl format args = Undefined)
  /\ format = repeat "x"%char 490 ++ B "%-20.5d".
Proof.
  exists (repeat "x"%char 490 ++ B "%-20.5d"), [AInt 42]. split; [repeat constructor; cbn; lia|]. split; [intros; vm_compute; reflexivity|reflexivity].
Qed.
Print Assumptions C102_moved_buffer_refuted.

(** C103. Fewer arguments than the conversions need: nothing is printed. *)
Theorem C103_missing : forall dbl ps args out, Forall good_piece ps -> (length args < all_needs ps)%nat -> sprintf dbl (format_text ps) args <> Ok out.
Proof. exact missing_ok. Qed.
Print Assumptions C103_missing.
Example C103_missing_case : (length [AInt 1; AInt 2] < all_needs case_pieces)%nat /\ forall dbl, sprintf dbl (format_text case_pieces) [AInt 1; AInt 2] = Error EIndexRange.
Proof. split; [cbn; lia|]. intros; vm_compute; reflexivity. Qed.

(** C103. The first conversion for which there is no argument is refused with that error. *)
Theorem C103_next_missing : forall dbl ps c rest args out, Forall good_piece ps -> sprintf dbl (format_text ps) args = Ok out -> all_needs ps = length args ->
  well_formed c -> c_position c = None ->
  sprintf dbl (format_text ps ++ conversion_text c ++ rest) args = Error EIndexRange.
Proof. exact next_missing_ok. Qed.
Print Assumptions C103_next_missing.
Example C103_next_missing_case : forall dbl, sprintf dbl (format_text case_pieces) [AInt 42; AInt 4; AString (Some (B "xyz")) 3] = Ok (B "100%   +42|  xy|")
  /\ all_needs case_pieces = length [AInt 42; AInt 4; AString (Some (B "xyz")) 3]
  /\ sprintf dbl (format_text case_pieces ++ B "%*d" ++ B "%") [AInt 42; AInt 4; AString (Some (B "xyz")) 3] = Error EIndexRange.
Proof. intros; split; [|split]; vm_compute; reflexivity. Qed.

(** C103. A conversion whose letter goes with the argument prints it; a null pointer is refused, and so is any other letter. *)
Theorem C103_kinds : forall dbl c args w, well_formed c -> c_position c = None -> wants c args = Some w -> valid (subject w) ->
  if fits (c_letter c) (subject w) then
    if null (subject w) then sprintf dbl (conversion_text c) args = Error ENullString
    else exists out, sprintf dbl (conversion_text c) args = Ok out
  else sprintf dbl (conversion_text c) args = Error EUnknownType.
Proof. exact kinds_ok. Qed.
Print Assumptions C103_kinds.
Example C103_kinds_case : forall dbl, sprintf dbl (B "%s") [AInt 1] = Error EUnknownType /\ sprintf dbl (B "%d") [ADouble 0] = Error EUnknownType
  /\ sprintf dbl (B "%s") [ACString None] = Error ENullString /\ sprintf (fun _ _ => B "0.0") (B "%f") [ADouble 0] = Ok (B "0.0")
  /\ fits "f" (ADouble 0) = true /\ fits "s" (AInt 1) = false.
Proof. intros; repeat split; vm_compute; reflexivity. Qed.

(** C103. A width taken from an argument that is not an integer, or does not fit in an [int] with its sign changed, is refused. *)
Theorem C103_width_argument : forall dbl c a args, well_formed c -> c_position c = None -> c_width c = Asterisk -> valid a ->
  match number_of a with
  | None => sprintf dbl (conversion_text c) (a :: args) = Error EWidthNotInteger
  | Some z => (2 ^ 31 <= Z.abs z)%Z -> sprintf dbl (conversion_text c) (a :: args) = Error ENumberTooBig
  end.
Proof. exact star_width. Qed.
Print Assumptions C103_width_argument.
Example C103_width_argument_case : well_formed (conv "" Asterisk None "" "d")
  /\ forall dbl, sprintf dbl (B "%*d") [ADouble 0; AInt 1] = Error EWidthNotInteger /\ sprintf dbl (B "%*d") [ALong (- 2 ^ 40); AInt 1] = Error ENumberTooBig
     /\ sprintf dbl (B "%*d") [AInt (- 2 ^ 31); AInt 1] = Error ENumberTooBig.
Proof. split; [formed|]. intros; repeat split; vm_compute; reflexivity. Qed.

(** C103. A conversion without its letter at the end of the format string is refused. *)
Theorem C103_incomplete : forall dbl c args, well_formed c -> stars c = 0%nat -> (place c < length args)%nat ->
  sprintf dbl (removelast (conversion_text c)) args = Error EInvalidString.
Proof. exact incomplete_ok. Qed.
Print Assumptions C103_incomplete.
Example C103_incomplete_case : well_formed (at_place 2 "2" (conv "-" five (Some NoAmount) "ll" "d"))
  /\ removelast (conversion_text (at_place 2 "2" (conv "-" five (Some NoAmount) "ll" "d"))) = B "%2$-5.ll"
  /\ forall dbl, sprintf dbl (B "%2$-5.ll") [AInt 1; AInt 2] = Error EInvalidString /\ sprintf dbl (B "%") [AInt 1] = Error EInvalidString.
Proof. split; [formed|]. split; [reflexivity|]. intros; split; vm_compute; reflexivity. Qed.
