(** C50, C59-C61: the formatting library.
    In every theorem [dbl] is the text of a double for a specification: they hold for every such function. *)
From Verif Require Import Base FmtModel FmtSpec FmtProofs FmtSubProofs.
Open Scope N_scope.

(** C50. For every integer argument and every specification of an integer type: the canonical numeral in the asked radix, behind the
    sign and the mark of the radix, padded as asked. *)
Theorem C50_integers : forall dbl w a z base upper mark,
  carries a z -> sensible a w -> radix (sp_type (asks w)) = Some (base, upper, mark) ->
  exists ds out, write dbl (B "{" ++ wish_text w ++ B "}") [a] = Ok out
    /\ numeral base upper (Z.abs_N z) ds
    /\ field true (sp_align (asks w)) (sp_fill (asks w)) (sp_width (asks w))
             (sign_text w z ++ (if w_hash w then mark else [])) ds out.
Proof. exact integer_field. Qed.
Print Assumptions C50_integers.
Definition case_wish := Wish (Some "*"%char) ACenter (Some "+"%char) true false (Some (12, B "12")) None (Some "X"%char).
Example C50_integers_case : carries (ALong (2 ^ 40 - 1)) (2 ^ 40 - 1) /\ sensible (ALong (2 ^ 40 - 1)) case_wish
  /\ B "{" ++ wish_text case_wish ++ B "}" = B "{:*^+#12X}"
  /\ forall dbl, write dbl (B "{:*^+#15X}") [ALong (2 ^ 40 - 1)] = Ok (B "*+0XFFFFFFFFFF*")
              /\ write dbl (B "{:<8}|{:08b}|{:=+6}") [AInt (-5); AUint 5; AInt 42] = Ok (B "-5      |00000101|+   42").
Proof.
  split; [cbn; lia|]. split; [|split; [reflexivity|intros; split; vm_compute; reflexivity]].
  unfold sensible, case_wish, digits_of, numeral. cbn [w_fill w_align w_sign w_hash w_zero w_width w_precision w_type number_kind].
  repeat split; try discriminate; try lia; try (left; reflexivity). repeat constructor.
Qed.

(** C50. [{}]. *)
Theorem C50_plain : forall dbl a z, carries a z ->
  exists ds, write dbl (B "{}") [a] = Ok ((if (z <? 0)%Z then B "-" else []) ++ ds) /\ numeral 10 false (Z.abs_N z) ds.
Proof. exact integer_plain. Qed.
Print Assumptions C50_plain.
Example C50_plain_case : carries (ALong (- 2 ^ 63)) (- 2 ^ 63) /\
  forall dbl, write dbl (B "{}") [ALong (- 2 ^ 63)] = Ok (B "-9223372036854775808").
Proof. split; [cbn; lia|intros; vm_compute; reflexivity]. Qed.

(** C50. There is only one canonical numeral, so the two theorems determine the digits. *)
Theorem C50_one_numeral : forall base upper, 2 <= base <= 16 ->
  forall s t n, numeral base upper n s -> numeral base upper n t -> s = t.
Proof. exact numeral_unique. Qed.
Print Assumptions C50_one_numeral.

(** C50. Any other type letter is refused. *)
Theorem C50_other_types : forall dbl w a z, carries a z -> sensible a w -> radix (sp_type (asks w)) = None ->
  write dbl (B "{" ++ wish_text w ++ B "}") [a] = Error EUnknownType.
Proof.
  exact (fun dbl w a z C S1 R => match carries_int dbl a z (asks w) C with
    | ex_intro _ wd (conj E _) => eq_trans (write_one dbl w a S1) (eq_trans E (write_int_unknown wd z (asks w) R)) end).
Qed.
Print Assumptions C50_other_types.
Example C50_other_types_case : forall dbl, write dbl (B "{:s}") [AInt 5] = Error EUnknownType /\ radix "s" = None.
Proof. intros. split; vm_compute; reflexivity. Qed.

(** C59. A format string of texts (braces doubled) and placeholders yields the texts and the renderings of the arguments
    in order; arguments left over are ignored; the first failing rendering fails the call. *)
Theorem C59_in_order : forall dbl ps args, (placeholders ps <= length args)%nat -> Forall sensible_pair (pairing ps args) ->
  write dbl (format_text ps) args = in_turn (format_arg dbl) (pairing ps args).
Proof. exact write_pieces. Qed.
Print Assumptions C59_in_order.
Definition case_pieces := [Text (B "a{b} "); Next None; Text (B " "); Next (Some (Wish None ADefault None false false None None (Some "x"%char)))].
Example C59_in_order_case : (placeholders case_pieces <= length [AInt (-5); AUint 255; AInt 9])%nat
  /\ Forall sensible_pair (pairing case_pieces [AInt (-5); AUint 255; AInt 9])
  /\ format_text case_pieces = B "a{{b}} {} {:x}"
  /\ forall dbl, write dbl (B "a{{b}} {} {:x}") [AInt (-5); AUint 255; AInt 9] = Ok (B "a{b} -5 ff").
Proof.
  split; [cbn; lia|]. split; [|split; [reflexivity|intros; vm_compute; reflexivity]].
  cbn [pairing case_pieces]. constructor; [|constructor; [exact I|constructor; [|constructor; [|constructor]]]].
  - intros H. repeat destruct H as [H|H]; try discriminate; destruct H.
  - intros H. repeat destruct H as [H|H]; try discriminate; destruct H.
  - repeat split; try discriminate; intros; try discriminate.
Qed.

(** C59. If there are fewer arguments than placeholders, the call is refused. *)
Theorem C59_missing_argument : forall dbl ps args, (length args < placeholders ps)%nat ->
  Forall sensible_pair (pairing ps args) -> ~ In NUL (format_text ps) ->
  write dbl (format_text ps) args
    = match in_turn (format_arg dbl) (pairing ps args) with Ok _ => Error EIndexRange | r => r end.
Proof. exact write_missing. Qed.
Print Assumptions C59_missing_argument.
Example C59_missing_argument_case : (length [AInt 1] < placeholders [Next None; Text (B "-"); Next None])%nat /\
  forall dbl, write dbl (B "{}-{}") [AInt 1] = Error EIndexRange.
Proof. split; [cbn; lia|intros; vm_compute; reflexivity]. Qed.

(** C59 is false of an empty specification: the text behind [{:}] is read as the alignment. *)
Theorem C59_empty_specification_refuted : exists args, forall dbl,
  write dbl (B "{:}-") args = Ok (B "a-") /\ write dbl (B "{:}=") args = Error EBadCharSpec.
Proof. exists [AChar 97]. intros. split; vm_compute; reflexivity. Qed.
Print Assumptions C59_empty_specification_refuted.

(** C60. A non-empty string view: its bytes, whatever they are and whatever follows them in memory, cut by the
    precision and padded to the width. *)
Theorem C60_view : forall dbl w m size, sensible (AString (Some m) size) w ->
  (w_type w = None \/ w_type w = Some "s"%char) -> 0 < size <= length_N m ->
  exists out, write dbl (B "{" ++ wish_text w ++ B "}") [AString (Some m) size] = Ok out
    /\ field false (sp_align (asks w)) (sp_fill (asks w)) (sp_width (asks w)) []
         (firstn (N.to_nat (match w_precision w with Some (q, _) => N.min q size | None => size end)) m) out.
Proof. exact string_field. Qed.
Print Assumptions C60_view.
Example C60_view_case : forall dbl,
  write dbl (B "{:*>9.4}") [AString (Some (B "hi" ++ [NUL] ++ B "there, more memory")) 8] = Ok (B "*****hi" ++ [NUL] ++ B "t").
Proof. intros. vm_compute. reflexivity. Qed.

(** C60. A C string: the bytes up to its NUL. *)
Theorem C60_c_string : forall dbl w s m, sensible (ACString (Some (s ++ NUL :: m))) w ->
  (w_type w = None \/ w_type w = Some "s"%char) -> ~ In NUL s ->
  exists out, write dbl (B "{" ++ wish_text w ++ B "}") [ACString (Some (s ++ NUL :: m))] = Ok out
    /\ field false (sp_align (asks w)) (sp_fill (asks w)) (sp_width (asks w)) []
         (match w_precision w with Some (q, _) => firstn (N.to_nat q) s | None => s end) out.
Proof. exact c_string_field. Qed.
Print Assumptions C60_c_string.
Example C60_c_string_case : forall dbl,
  write dbl (B "{:^7}") [ACString (Some (B "hi" ++ [NUL] ++ B "there"))] = Ok (B "  hi   ").
Proof. intros. vm_compute. reflexivity. Qed.

(** C60 is false of empty views: bytes behind the view are printed, or the call fails, or memory is read beyond its
    object. *)
Theorem C60_empty_view_refuted : exists m, forall dbl,
  write dbl (B "[{}]") [AString (Some m) 0] = Ok (B "[secret]") /\ write dbl (B "[{}]") [AString (Some (B "xyz")) 0] = Undefined
  /\ write dbl (B "[{}]") [AString None 0] = Error ENullString.
Proof. exists (B "secret" ++ [NUL]). intros. repeat split; vm_compute; reflexivity. Qed.
Print Assumptions C60_empty_view_refuted.

(** C61. A width between 2^31 and 2^32 is refused, and so is a wider one if its first wrapping is noticed. The full property is for every width
    of at least 2^31. *)
Theorem C61_too_big_partial : forall dbl n ds a, digits_of n ds -> noticed n ->
  write dbl (B "{:" ++ ds ++ B "}") [a] = Error ENumberTooBig.
Proof. exact too_big_width. Qed.
Print Assumptions C61_too_big_partial.
Example C61_too_big_case : digits_of (2 ^ 31) (B "2147483648") /\ noticed (2 ^ 31) /\
  (forall dbl, write dbl (B "{:2147483648}") [AInt 5] = Error ENumberTooBig) /\
  digits_of 43000000005 (B "43000000005") /\ noticed 43000000005 /\
  forall dbl, write dbl (B "{:43000000005}") [AInt 5] = Error ENumberTooBig.
Proof.
  split; [repeat split; try discriminate; repeat constructor|]. split; [left; lia|]. split; [intros; vm_compute; reflexivity|].
  split; [repeat split; try discriminate; repeat constructor|]. split; [|intros; vm_compute; reflexivity].
  right. exists 1. vm_compute. repeat split; congruence.
Qed.

(** C61. Any width: it is refused, or what is left of it in 32 bits is the width. A width that is too big and not refused is never less than 429496729. *)
Theorem C61_any_width : forall dbl n ds a, digits_of n ds -> 0 < n ->
  write dbl (B "{:" ++ ds ++ B "}") [a] = Error ENumberTooBig \/
  ((n < 2 ^ 31 \/ 429496729 <= n mod 2 ^ 32 < 2 ^ 31) /\
   forall ds', digits_of (n mod 2 ^ 32) ds' -> write dbl (B "{:" ++ ds ++ B "}") [a] = write dbl (B "{:" ++ ds' ++ B "}") [a]).
Proof. exact any_width. Qed.
Print Assumptions C61_any_width.
Example C61_any_width_case : digits_of 10000000000 (B "10000000000") /\ digits_of (10000000000 mod 2 ^ 32) (B "1410065408") /\
  digits_of 30064771076 (B "30064771076") /\ forall dbl, write dbl (B "{:10000000000}") [AInt 7] <> Error ENumberTooBig /\ write dbl (B "{:30064771076}") [AInt 5] = Error ENumberTooBig.
Proof.
  do 3 (split; [repeat split; try discriminate; repeat constructor|]). intros. split; [|vm_compute; reflexivity].
  intros E. destruct (wrapped_width dbl) as (out & W & _). rewrite W in E. discriminate E.
Qed.

(** C61 is false of wider numbers: the check for wrapping misses some. *)
Theorem C61_wrapped_refuted : forall dbl, exists out,
  write dbl (B "{:10000000000}") [AInt 7] = Ok out /\ length_N out = 1410065408.
Proof. exact wrapped_width. Qed.
Print Assumptions C61_wrapped_refuted.
