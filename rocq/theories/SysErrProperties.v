(** C90-C91: the texts of system errors. *)
From Verif Require Import Base FmtModel MembufModel MembufSpec SysErrModel SysErrSpec SysErrProofs.
From Verif Require StrSpec.
Open Scope N_scope.

(** C90: the description of a system error is the message and the whole text of the C library, however long it is. *)
Theorem C90_description : forall limit text env code message, limit < 2 ^ 63 -> (gnu text env \/ xsi text env) ->
  3 * (length_N message + length_N text + 500) <= limit ->
  exists b, format_system_error limit env fresh code message = Some (Done b) /\ contents b = Some (stored (message ++ B ": " ++ text)).
Proof. intros limit text env code message H. exact (describe_lemma limit H text env code message). Qed.
Print Assumptions C90_description.

(** It is reported as one line. *)
Theorem C90_reported : forall limit text env code message, limit < 2 ^ 63 -> (gnu text env \/ xsi text env) ->
  3 * (length_N message + length_N text + 500) <= limit ->
  report_system_error limit env code message = Some (stored (message ++ B ": " ++ text ++ [NL])).
Proof. intros limit text env code message H. exact (report_lemma limit H text env code message). Qed.
Print Assumptions C90_reported.

(** Whatever the C library answers and however little memory there is: the loop ends, and the description has that answer, or
    the code. *)
Theorem C90_any_answer : forall limit env code message, limit < 2 ^ 63 -> (- 10 ^ 9 < code < 2 ^ 31)%Z -> length_N message < 2 ^ 63 ->
  (forall size s, safe_strerror env size = (0%Z, s) -> length_N s < 2 ^ 63) ->
  exists b out, format_system_error limit env fresh code message = Some (Done b) /\ contents b = Some (stored out)
    /\ ((exists size s, 0 < size /\ safe_strerror env size = (0%Z, s) /\ out = message ++ B ": " ++ s) \/ bare code message out).
Proof. intros limit env code message H. exact (any_lemma limit H env code message). Qed.
Print Assumptions C90_any_answer.

(** A text of 499 bytes in a buffer of 500 is asked for again with 1000. *)
Definition case_text : bytes := repeat "e"%char 499.
Definition case_gnu (size : N) : answer := Placed (firstn (N.to_nat (size - 1)) case_text).
Definition case_xsi (size : N) : answer := if 499 <? size then Returned 0 0 case_text else Returned (-1) ERANGE [].
Example C90_case :
  gnu case_text case_gnu /\ xsi case_text case_xsi /\ safe_strerror case_gnu 500 = (ERANGE, case_text)
  /\ report_system_error 5000 case_gnu 2 (B "cannot open") = Some (stored (B "cannot open: " ++ case_text ++ [NL]))
  /\ report_system_error 5000 case_xsi 2 (B "cannot open") = Some (stored (B "cannot open: " ++ case_text ++ [NL]))
  /\ report_system_error 600 case_gnu 2 (B "cannot open") = Some (stored (B "cannot open: error 2" ++ [NL])).
Proof.
  split; [intros size H; right; reflexivity|]. split.
  - intros size H. change (length_N case_text) with 499. unfold case_xsi.
    destruct (499 <? size); [exists 0%Z; reflexivity|exists 0%Z, []; right; reflexivity].
  - vm_compute. repeat split.
Qed.

(** C91: the text with the code alone fits into the inline buffer: no memory is needed for it, whatever was written before. *)
Theorem C91_inline : forall limit ops out code message, limit < 2 ^ 63 -> Forall proper_op ops -> Forall external ops ->
  run (grow limit) ops fresh = Done out -> (- 10 ^ 9 < code < 2 ^ 31)%Z -> length_N message < 2 ^ 63 ->
  exists b s, format_error_code limit out code message = Done b /\ contents b = Some (stored s) /\ bare code message s /\ length_N s <= 500.
Proof. intros limit ops out code message H. exact (code_reach limit H ops out code message). Qed.
Print Assumptions C91_inline.
Example C91_case :
  match format_error_code 0 fresh (-42) (repeat "m"%char 482) with
  | Done b => contents b = Some (stored (repeat "m"%char 482 ++ B ": error -42"))
  | _ => False
  end
  /\ match format_error_code 0 fresh 2147483647 (repeat "m"%char 483) with Done b => contents b = Some (stored (B "error 2147483647")) | _ => False end.
Proof. vm_compute. split; reflexivity. Qed.

(** Refuted: it fits for all codes. The digits of a negative code are counted without its sign: with a code of -1000000000 or less and
    a message of 482 bytes the text has 501, so that the buffer grows in a [noexcept] function and the assertion behind fails. *)
Theorem C91_inline_refuted : exists code message b, (- 2 ^ 31 <= code < 2 ^ 31)%Z /\ length_N message = 482
  /\ format_error_code 2000 fresh code message = Thrown b /\ b_size b = 501 /\ b_heap b <> None.
Proof.
  exists (-1000000000)%Z, (repeat "m"%char 482). eexists. split; [lia|]. split; [reflexivity|]. split; [vm_compute; reflexivity|].
  split; [reflexivity|discriminate].
Qed.
Print Assumptions C91_inline_refuted.
