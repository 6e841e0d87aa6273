(** Theorems about chains of [operator<<], printing to files and the error text of unknown types: C132 to C136. *)
From Verif Require Import Base FmtModel FmtSpec MetaFormatModel MetaFormatSpec ChainModel ChainSpec ChainProofs ChainMoreProofs.
From Verif Require PrintfModel.
Open Scope N_scope.

(** C132. A chain of any length writes what the format string with a placeholder for every item writes. *)
Theorem C132_chain : forall dbl is ps args, same_all is ps args ->
  exists out, chain dbl is = Some (Ok out) /\ write dbl (format_text ps) args = Ok out.
Proof. exact chain_lemma. Qed.
Print Assumptions C132_chain.
Definition case_items : list item :=
  [Value (VString (B "at ")); Pad (Some Hex) (VInt 51966) 8 "0"; Value (VChar ":"); Coded Bin (VLong (-5)); Pad None (VUint 7) 3 " ";
   PadText (Some (B "ab" ++ NUL :: B "rest")) 4 "."; Value (VCString (Some (B "|" ++ [NUL])))].
Definition case_args : list arg :=
  [AString (Some (B "at " ++ [NUL])) 3; AInt 51966; AChar 58; ALong (-5); AUint 7; ACString (Some (B "ab" ++ NUL :: B "rest")); ACString (Some (B "|" ++ [NUL]))].
Example C132_chain_case : exists ps, same_all case_items ps case_args /\ format_text ps = B "{}{:0>8x}{}{:b}{: >3}{:.<4}{}"
  /\ forall dbl, chain dbl case_items = Some (Ok (B "at 0000cafe:-101  7ab..|"))
  /\ write dbl (B "{}{:0>8x}{}{:b}{: >3}{:.<4}{}") case_args = Ok (B "at 0000cafe:-101  7ab..|").
Proof.
  assert (D8 : digits_of 8 (B "8")) by (split; [discriminate|split; [reflexivity|split; [discriminate|repeat constructor]]]).
  assert (D3 : digits_of 3 (B "3")) by (split; [discriminate|split; [reflexivity|split; [discriminate|repeat constructor]]]).
  assert (D4 : digits_of 4 (B "4")) by (split; [discriminate|split; [reflexivity|split; [discriminate|repeat constructor]]]).
  eexists. split; [|split].
  - apply SameCons; [apply (SameValue (VString (B "at "))); [exact I|intros []]|].
    apply SameCons; [apply (SamePad (Some Hex) (VInt 51966) 8 "0" (B "8")); [cbn; lia|exact I|lia|exact D8|discriminate|discriminate|discriminate]|].
    apply SameCons; [apply (SameValue (VChar ":")); [exact I|intros []]|].
    apply SameCons; [apply (SameCoded Bin (VLong (-5))); [cbn; lia|exact I]|].
    apply SameCons; [apply (SamePad None (VUint 7) 3 " " (B "3")); [cbn; lia|exact I|lia|exact D3|discriminate|discriminate|discriminate]|].
    apply SameCons; [apply (SamePadText (B "ab" ++ NUL :: B "rest") 4 "." (B "4")); [cbn; tauto|lia|exact D4|discriminate|discriminate|discriminate]|].
    apply SameCons; [apply (SameValue (VCString (Some (B "|" ++ [NUL])))); [cbn; tauto|intros []]|apply SameNil].
  - reflexivity.
  - intros. split; vm_compute; reflexivity.
Qed.

(** C132. Every integer type, every base, width and fill character (also braces, which format strings cannot have as fill): the canonical numeral,
    padded on the left. *)
Theorem C132_padded : forall dbl c v z width fill, proper v -> denotes v z ->
  exists ds out, put dbl (Pad c v width fill) = Some (Ok out) /\ numeral (fst (code_base c)) (snd (code_base c)) (Z.abs_N z) ds
    /\ field true ARight fill width (if (z <? 0)%Z then B "-" else []) ds out.
Proof. exact padded_lemma. Qed.
Print Assumptions C132_padded.
Example C132_padded_case : proper (VSchar (-128)) /\ denotes (VSchar (-128)) (-128) /\
  forall dbl, put dbl (Pad (Some Hexu) (VSchar (-128)) 6 "{") = Some (Ok (B "{{{-80")) /\ put dbl (Pad (Some Oct) (VBool true) 0 "{") = Some (Ok (B "1"))
    /\ put dbl (Pad (Some Hexu) (VUlong (2 ^ 64 - 1)) 3 "x") = Some (Ok (B "FFFFFFFFFFFFFFFF")).
Proof. split; [cbn; lia|]. split; [reflexivity|]. intros. repeat split; vm_compute; reflexivity. Qed.
Theorem C132_coded : forall dbl c v z, proper v -> denotes v z ->
  exists ds, put dbl (Coded c v) = Some (Ok ((if (z <? 0)%Z then B "-" else []) ++ ds))
    /\ numeral (fst (code_base (Some c))) (snd (code_base (Some c))) (Z.abs_N z) ds.
Proof. exact coded_lemma. Qed.
Print Assumptions C132_coded.
Example C132_coded_case : proper (VLongLong (- 2 ^ 63)) /\ denotes (VLongLong (- 2 ^ 63)) (- 2 ^ 63) /\
  forall dbl, put dbl (Coded Hex (VLongLong (- 2 ^ 63))) = Some (Ok (B "-8000000000000000")).
Proof. split; [cbn; lia|]. split; [reflexivity|]. intros. vm_compute. reflexivity. Qed.
(** C132. Texts are padded on the right, and end where the C string ends. *)
Theorem C132_column : forall dbl s m width fill, ~ In NUL s ->
  exists out, put dbl (PadText (Some (s ++ NUL :: m)) width fill) = Some (Ok out) /\ field false ALeft fill width [] s out.
Proof. exact column_lemma. Qed.
Print Assumptions C132_column.
Example C132_column_case : forall dbl, put dbl (PadText (Some (B "abc" ++ NUL :: B "secret")) 8 "}") = Some (Ok (B "abc}}}}}"))
  /\ put dbl (PadText (Some (B "abc" ++ NUL :: B "secret")) 2 "}") = Some (Ok (B "abc")).
Proof. intros. split; vm_compute; reflexivity. Qed.

(** C133. Numbers that are not negative can be padded with zeros: the text reads as the number. *)
Theorem C133_zeros : forall dbl c v z width, proper v -> denotes v z -> (0 <= z)%Z ->
  exists out, put dbl (Pad c v width "0") = Some (Ok out) /\ read_digits (fst (code_base c)) 0 out = Some (Z.to_N z)
    /\ width <= length_N out.
Proof. exact zeros_lemma. Qed.
Print Assumptions C133_zeros.
Example C133_zeros_case : proper (VUshort 65535) /\ denotes (VUshort 65535) 65535 /\
  forall dbl, put dbl (Pad None (VUshort 65535) 8 "0") = Some (Ok (B "00065535")).
Proof. split; [cbn; lia|]. split; [reflexivity|]. intros. vm_compute. reflexivity. Qed.
(** C133. Finding: the zeros of a negative number come before its sign, unlike those of the zero flag in a format string. *)
Theorem C133_negative_refuted : exists v z, proper v /\ denotes v z /\ forall dbl,
  put dbl (Pad None v 8 "0") = Some (Ok (B "00000-42")) /\ write dbl (B "{:08}") [make_value v] = Ok (B "-0000042").
Proof. exists (VInt (-42)), (-42)%Z. split; [cbn; lia|]. split; [reflexivity|]. intros. split; vm_compute; reflexivity. Qed.
Print Assumptions C133_negative_refuted.

(** C134. Printing to a file appends the formatted text, as far as the file takes it; an error of the format string prints nothing. *)
Theorem C134_print : forall dbl format args f s, write dbl format args = Ok s ->
  exists f', print dbl format args f = Returned f' tt /\ sent s f f'.
Proof. exact print_lemma. Qed.
Print Assumptions C134_print.
Theorem C134_print_error : forall dbl format args f e, write dbl format args = Error e -> print dbl format args f = Threw f e.
Proof. exact print_error_lemma. Qed.
Print Assumptions C134_print_error.
(** C134. In colour: between the escape sequence of the colour and the one that ends it. *)
Theorem C134_colored : forall dbl c format args f s, write dbl format args = Ok s ->
  exists f', print_colored dbl c format args f = Returned f' tt
    /\ sent (chr 27 :: B "[3" ++ [chr (48 + color_number c)] ++ B "m" ++ s ++ chr 27 :: B "[0m") f f'.
Proof. exact colored_lemma. Qed.
Print Assumptions C134_colored.
Example C134_case : forall dbl, write dbl (B "{}!") [AInt 5] = Ok (B "5!")
  /\ print dbl (B "{}!") [AInt 5] (File (B "so ") None) = Returned (File (B "so 5!") None) tt
  /\ print dbl (B "{}!") [AInt 5] (File (B "so ") (Some 1)) = Returned (File (B "so 5") (Some 0)) tt
  /\ print_colored dbl Red (B "{}!") [AInt 5] (File [] None) = Returned (File (chr 27 :: B "[31m5!" ++ chr 27 :: B "[0m") None) tt.
Proof. intros. repeat split; vm_compute; reflexivity. Qed.
Example C134_print_error_case : forall dbl, write dbl (B "a{}") [] = Error EIndexRange /\ print dbl (B "a{}") [] (File (B "so ") None) = Threw (File (B "so ") None) EIndexRange.
Proof. intros. split; vm_compute; reflexivity. Qed.
(** C134. Finding: an error of the format string leaves the terminal in the colour: the sequence was written, the one that ends it is not. *)
Theorem C134_error_refuted : exists format args, forall dbl,
  write dbl format args = Error EIndexRange /\
  print_colored dbl Red format args (File [] None) = Threw (File (chr 27 :: B "[31m") None) EIndexRange.
Proof. exists (B "{}"), []. intros. split; vm_compute; reflexivity. Qed.
Print Assumptions C134_error_refuted.

(** C135. [fprintf] prints what [sprintf] returns; it returns the number of bytes, or -1 if the file did not take them all. *)
Theorem C135_count : forall dbl format args f s, PrintfModel.sprintf dbl format args = Ok s -> length_N s < 2 ^ 31 ->
  exists f', fprintf dbl format args f
    = Returned f' (match f_room f with Some r => if r <? length_N s then (-1)%Z else Z.of_N (length_N s) | None => Z.of_N (length_N s) end)
    /\ sent s f f'.
Proof. exact fprintf_lemma. Qed.
Print Assumptions C135_count.
Example C135_count_case : forall dbl, PrintfModel.sprintf dbl (B "%d%%") [AInt 50] = Ok (B "50%")
  /\ fprintf dbl (B "%d%%") [AInt 50] (File [] None) = Returned (File (B "50%") None) 3%Z
  /\ fprintf dbl (B "%d%%") [AInt 50] (File [] (Some 3)) = Returned (File (B "50%") (Some 0)) 3%Z
  /\ fprintf dbl (B "%d%%") [AInt 50] (File [] (Some 2)) = Returned (File (B "50") (Some 0)) (-1)%Z.
Proof. intros. repeat split; vm_compute; reflexivity. Qed.
(** C135. Finding: for 2^31 bytes, all of them written, the number returned is negative, which means failure. *)
Theorem C135_long_refuted : exists args, forall dbl, exists out,
  fprintf dbl (B "%s") args (File [] None) = Returned (File out None) (- 2 ^ 31)%Z /\ length_N out = 2 ^ 31.
Proof. exact fprintf_wrong. Qed.
Print Assumptions C135_long_refuted.

(** C136. The error text names a printable letter itself, and a control character by its two hexadecimal digits. *)
Theorem C136_printable : forall dbl c type, 32 <= N_of_ascii c <= 126 -> ~ In NUL type ->
  report_unknown_type dbl c type = Ok (B "unknown format code '" ++ [c] ++ B "' for " ++ type).
Proof. exact printable_lemma. Qed.
Print Assumptions C136_printable.
Theorem C136_control : forall dbl c type, N_of_ascii c < 128 -> isprint c = false -> ~ In NUL type ->
  exists ds, two_digits (N_of_ascii c) ds /\ report_unknown_type dbl c type = Ok (B "unknown format code '\x" ++ ds ++ B "' for " ++ type).
Proof. exact control_lemma. Qed.
Print Assumptions C136_control.
(** C136. Never undefined, whatever the character: above 127 six more digits come first. *)
Theorem C136_high : forall dbl c type, 128 <= N_of_ascii c -> ~ In NUL type ->
  exists ds, two_digits (N_of_ascii c) ds /\ report_unknown_type dbl c type = Ok (B "unknown format code '\xffffff" ++ ds ++ B "' for " ++ type).
Proof. exact high_lemma. Qed.
Print Assumptions C136_high.
Example C136_case : forall dbl, report_unknown_type dbl "q" (B "integer") = Ok (B "unknown format code 'q' for integer")
  /\ report_unknown_type dbl (chr 10) (B "double") = Ok (B "unknown format code '\x0a' for double").
Proof. intros. split; vm_compute; reflexivity. Qed.
(** C136. Finding: a byte above 127 is not named by its two digits: [char] is signed and is extended to 32 bits. *)
Theorem C136_high_refuted : exists c type, forall dbl,
  report_unknown_type dbl c type = Ok (B "unknown format code '\xffffffe9' for char") /\ N_of_ascii c = 233 /\
  forall ds, two_digits (N_of_ascii c) ds -> report_unknown_type dbl c type <> Ok (B "unknown format code '\x" ++ ds ++ B "' for " ++ type).
Proof.
  exists (chr 233), (B "char"). intros dbl. assert (E : report_unknown_type dbl (chr 233) (B "char") = Ok (B "unknown format code '\xffffffe9' for char")) by (vm_compute; reflexivity).
  split; [exact E|]. split; [reflexivity|]. intros ds (L & _). rewrite E. destruct ds as [|a [|b [|]]]; try discriminate L. discriminate.
Qed.
Print Assumptions C136_high_refuted.
