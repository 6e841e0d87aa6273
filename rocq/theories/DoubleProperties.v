(** C104-C108: floating-point numbers in the buffers. In every theorem [digits] is what the C library prints for a finite double that is
    not negative: they hold for every library that is [sane]. *)
From Verif Require Import Base FmtModel FmtSpec MembufModel MembufSpec DoubleModel DoubleSpec DoubleMoreProofs.
From Verif Require PrintfModel.
Open Scope N_scope.

(** C104: numbers are appended as their specifications ask, between all other operations on the buffer: those that are not centred, and
    padded on the right with spaces only; NaN and infinity with an alignment if they are padded. *)
Theorem C104_contents_partial : forall digits lenient limit acts b, sane digits -> limit < 2 ^ 63 -> Forall proper_act acts -> Forall supported_act acts ->
  perform_all digits lenient (grow limit) acts fresh = Some (Done b) -> exists c, acts_effect digits acts [] c /\ contents b = Some c.
Proof. intros digits lenient limit acts b SANE H. exact (number_contents digits SANE lenient limit H acts b). Qed.
Print Assumptions C104_contents_partial.

(** No array is left and the loop ends, whatever the allocator and the C library do. *)
Theorem C104_defined : forall digits lenient limit acts, sane digits -> limit < 2 ^ 63 -> Forall proper_act acts -> Forall (tolerable lenient) acts ->
  exists r, perform_all digits lenient (grow limit) acts fresh = Some r /\ r <> Bad.
Proof. intros digits lenient limit acts SANE H. exact (number_defined digits SANE lenient limit H acts). Qed.
Print Assumptions C104_defined.

(** If something throws, the buffer is as the operations before left it. *)
Theorem C104_thrown : forall digits lenient limit acts b, sane digits -> limit < 2 ^ 63 -> Forall proper_act acts -> Forall supported_act acts ->
  perform_all digits lenient (grow limit) acts fresh = Some (Thrown b) ->
  exists done a rest c, acts = done ++ a :: rest /\ acts_effect digits done [] c /\ contents b = Some c.
Proof. intros digits lenient limit acts b SANE H. exact (number_thrown digits SANE lenient limit H acts b). Qed.
Print Assumptions C104_thrown.

(** Once and a half of the length with the new text and a NUL is all the memory it takes. *)
Theorem C104_memory : forall digits lenient limit acts b c sp bits out, sane digits -> limit < 2 ^ 63 -> Forall proper_act acts -> Forall (tolerable lenient) acts ->
  perform_all digits lenient (grow limit) acts fresh = Some (Done b) -> contents b = Some c ->
  proper_act (Number sp bits) -> tolerable lenient (Number sp bits) -> known (sp_type sp) -> shows digits sp bits out -> length_N out < 2 ^ 31 ->
  (let m := length_N c + length_N out + 1 in m + m / 2 <= limit) ->
  exists b', write_double digits lenient (grow limit) b sp bits = Some (Done b').
Proof. intros digits lenient limit acts b c sp bits out SANE H. exact (number_memory digits SANE lenient limit H acts b c sp bits out). Qed.
Print Assumptions C104_memory.

(** Centred numbers are right if they have a sign or the buffer has the room for the width, and [std::copy] works on overlapping ranges. *)
Theorem C104_center_partial : forall digits limit acts b c sp bits b', sane digits -> limit < 2 ^ 63 -> Forall proper_act acts -> Forall (tolerable true) acts ->
  perform_all digits true (grow limit) acts fresh = Some (Done b) -> contents b = Some c -> proper_act (Number sp bits) -> finite bits -> sp_align sp = ACenter ->
  (length_N c + sp_width sp <= b_capacity b \/ mark sp bits <> []) -> write_double digits true (grow limit) b sp bits = Some (Done b') ->
  exists out, contents b' = Some (c ++ stored out) /\ shows digits sp bits out.
Proof.
  intros digits limit acts b c sp bits b' SANE H P T E C PA FI AL. exact (number_center digits SANE true limit H acts b c sp bits b' P T E C PA eq_refl FI AL).
Qed.
Print Assumptions C104_center_partial.

(** The format for snprintf fits the array it is built in (format.hpp:2451-2452). *)
Theorem C104_format : forall sp width type, length_N (format_string sp width type) + 1 <= 10.
Proof. exact format_fits. Qed.
Print Assumptions C104_format.

(** A library for the cases: two digits, and nothing for a precision of INT_MAX. *)
Definition case_digits (hash : bool) (precision : option N) (type : ascii) (bits : N) : option bytes :=
  if match precision with Some q => INT_MAX <=? q | None => false end then None
  else if Ascii.eqb type "f" then Some (B "1.500000") else Some (B "1.5").
Definition case_number : N := 1023 * 2 ^ 52 + 2 ^ 51.
Definition case_spec (width : N) (fill : ascii) (al : alignment) (plus : bool) (type : ascii) : spec := Spec width fill al plus plus false false None type.
Lemma case_sane : sane case_digits.
Proof.
  intros hash precision type bits s. unfold case_digits. destruct (match precision with Some q => _ | None => _ end); [discriminate|].
  destruct (Ascii.eqb type "f"); intros [= <-]; split; discriminate.
Qed.
Definition case_acts : list act :=
  [Plain (OAppend (Other (repeat "x"%char 495))); Number (case_spec 8 "*" ARight true NUL) case_number;
   Number (case_spec 6 "0" ANumeric false NUL) (2 ^ 63 + case_number); Number (case_spec 10 " " ALeft false "f") case_number].
Example C104_contents_case : sane case_digits /\ Forall proper_act case_acts /\ Forall supported_act case_acts
  /\ (forall lenient, exists b, perform_all case_digits lenient (grow 2000) case_acts fresh = Some (Done b)
        /\ contents b = Some (stored (repeat "x"%char 495 ++ B "****+1.5" ++ B "-001.5" ++ B "1.500000  ")))
  /\ (forall lenient, exists b, perform_all case_digits lenient (grow 600) case_acts fresh = Some (Thrown b) /\ contents b = Some (stored (repeat "x"%char 495))).
Proof.
  split; [exact case_sane|]. split; [repeat constructor; vm_compute; reflexivity|]. split.
  { apply Forall_cons; [exact I|]. do 3 (apply Forall_cons; [left; split; [vm_compute; discriminate|cbn; trivial; reflexivity]|]). apply Forall_nil. }
  split; intros lenient; eexists; split; vm_compute; reflexivity.
Qed.
Example C104_memory_case : known NUL /\ shows case_digits (case_spec 8 "*" ARight true NUL) case_number (B "****+1.5")
  /\ tolerable false (Number (case_spec 8 "*" ARight true NUL) case_number).
Proof.
  split; [left; reflexivity|]. split.
  - apply shows_finite with (B "1.5"); [vm_compute; discriminate|reflexivity|]. exists (B "****"), [], []. repeat split; repeat constructor.
  - intros _ E. discriminate.
Qed.
Example C104_center_case : forall out, out = B "--+1.5---" ->
  exists b', write_double case_digits true (grow 600) fresh (case_spec 9 "-" ACenter true NUL) case_number = Some (Done b') /\ contents b' = Some ([] ++ stored out)
  /\ shows case_digits (case_spec 9 "-" ACenter true NUL) case_number out /\ mark (case_spec 9 "-" ACenter true NUL) case_number <> [].
Proof.
  intros out ->. eexists. split; [vm_compute; reflexivity|]. split; [reflexivity|]. split; [|discriminate].
  apply shows_finite with (B "1.5"); [vm_compute; discriminate|reflexivity|]. exists (B "--"), [], (B "---"). repeat split; repeat constructor; vm_compute; discriminate.
Qed.
Example C104_format_case : length_N (format_string (Spec 8 " " ALeft true true false true (Some 3) "g") 7 "g") + 1 = 8.
Proof. reflexivity. Qed.

(** C104 does not hold for a fill character on the right: [{:*<8}] of 1.5 gives spaces. snprintf pads with spaces, and only those in
    front of the number are replaced (format.hpp:2511-2513). *)
Theorem C104_left_fill_refuted : exists digits sp bits b', sane digits /\ finite bits
  /\ shows digits sp bits (B "1.5*****")
  /\ (forall lenient, write_double digits lenient (grow 600) fresh sp bits = Some (Done b')) /\ contents b' = Some (stored (B "1.5     ")).
Proof.
  exists case_digits, (case_spec 8 "*" ALeft false NUL), case_number. eexists. split; [exact case_sane|]. split; [vm_compute; discriminate|].
  split; [|split; [intros lenient; vm_compute; reflexivity|reflexivity]].
  apply shows_finite with (B "1.5"); [vm_compute; discriminate|reflexivity|]. exists [], [], (B "*****"). repeat split; repeat constructor.
Qed.
Print Assumptions C104_left_fill_refuted.

(** C104 does not hold for a centred number without a sign that needs a bigger buffer: [{:^600}] of 1.5. The text is in the old array
    behind its size, which [grow] does not copy, so the new one has bytes that were never assigned where the number should be. *)
Theorem C104_center_lost_refuted : exists digits sp bits b' d, sane digits /\ finite bits /\ sp_align sp = ACenter /\ sp_width sp = 600
  /\ write_double digits true (grow 2000) fresh sp bits = Some (Done b') /\ contents b' = Some d
  /\ nth_error d 297 = Some (Some "-"%char) /\ nth_error d 298 = Some None /\ nth_error d 299 = Some None /\ nth_error d 300 = Some None
  /\ nth_error d 301 = Some (Some "-"%char).
Proof.
  exists case_digits, (case_spec 600 "-" ACenter false NUL), case_number. do 2 eexists. split; [exact case_sane|]. split; [vm_compute; discriminate|].
  split; [reflexivity|]. split; [reflexivity|]. split; [vm_compute; reflexivity|]. split; [vm_compute; reflexivity|]. vm_compute. repeat split.
Qed.
Print Assumptions C104_center_lost_refuted.

(** C104 does not hold if [std::copy] is undefined for a target within the source, as the standard says: [{:^8}] of 1.5 moves three
    characters by two places. *)
Theorem C104_overlap_refuted : exists digits sp bits, sane digits /\ finite bits /\ sp_width sp = 8
  /\ shows digits sp bits (B "--1.5---") /\ write_double digits false (grow 600) fresh sp bits = Some Bad.
Proof.
  exists case_digits, (case_spec 8 "-" ACenter false NUL), case_number. split; [exact case_sane|]. split; [vm_compute; discriminate|]. split; [reflexivity|].
  split; [|vm_compute; reflexivity].
  apply shows_finite with (B "1.5"); [vm_compute; discriminate|reflexivity|]. exists (B "--"), [], (B "---"). repeat split; repeat constructor; vm_compute; discriminate.
Qed.
Print Assumptions C104_overlap_refuted.

(** C105: NaN and infinity are in the field the specification asks for if it has an alignment other than the numeric one; otherwise they
    stand on the left like strings. *)
Theorem C105_special_partial : forall digits lenient limit acts b c sp bits b', sane digits -> limit < 2 ^ 63 -> Forall proper_act acts -> Forall (tolerable lenient) acts ->
  perform_all digits lenient (grow limit) acts fresh = Some (Done b) -> contents b = Some c -> proper_act (Number sp bits) -> ~ finite bits ->
  write_double digits lenient (grow limit) b sp bits = Some (Done b') ->
  exists out, contents b' = Some (c ++ stored out)
    /\ field true (match sp_align sp with ADefault | ANumeric => ALeft | al => al end) (sp_fill sp) (sp_width sp) (mark sp bits) (name (sp_type sp) bits) out.
Proof. intros digits lenient limit acts b c sp bits b' SANE H. exact (number_special digits SANE lenient limit H acts b c sp bits b'). Qed.
Print Assumptions C105_special_partial.

Definition case_infinity : N := 2047 * 2 ^ 52.
Example C105_special_case : ~ finite (2 ^ 63 + case_infinity)
  /\ exists b', write_double case_digits false (grow 600) fresh (case_spec 8 "*" ACenter false "F") (2 ^ 63 + case_infinity) = Some (Done b')
     /\ contents b' = Some (stored (B "**-INF**"))
     /\ exists b'', write_double case_digits false (grow 600) b' (case_spec 6 "." ARight true NUL) (case_infinity + 1) = Some (Done b'')
        /\ contents b'' = Some (stored (B "**-INF**" ++ B "..+nan")).
Proof. split; [intros F; apply F; reflexivity|]. eexists. split; [vm_compute; reflexivity|]. split; [reflexivity|]. eexists. split; vm_compute; reflexivity. Qed.

(** C105 does not hold without an alignment: [{:6}] of infinity is on the left, although numbers are on the right by default, and with the
    numeric one zeros are appended: [{:06}] gives [inf000]. *)
Theorem C105_default_refuted : exists digits sp sp' bits b' b'', sane digits /\ ~ finite bits /\ sp_align sp = ADefault /\ sp_align sp' = ANumeric
  /\ shows digits sp bits (B "   inf") /\ (forall lenient, write_double digits lenient (grow 600) fresh sp bits = Some (Done b')) /\ contents b' = Some (stored (B "inf   "))
  /\ shows digits sp' bits (B "000inf") /\ (forall lenient, write_double digits lenient (grow 600) fresh sp' bits = Some (Done b'')) /\ contents b'' = Some (stored (B "inf000")).
Proof.
  exists case_digits, (case_spec 6 " " ADefault false NUL), (case_spec 6 "0" ANumeric false NUL), case_infinity. do 2 eexists. split; [exact case_sane|].
  assert (NF : ~ finite case_infinity) by (intros F; apply F; reflexivity). split; [exact NF|]. split; [reflexivity|]. split; [reflexivity|].
  split; [apply shows_special; [exact NF|]; exists (B "   "), [], []; repeat split; repeat constructor|].
  split; [intros lenient; vm_compute; reflexivity|]. split; [reflexivity|].
  split; [apply shows_special; [exact NF|]; exists [], (B "000"), []; repeat split; repeat constructor|].
  split; [intros lenient; vm_compute; reflexivity|reflexivity].
Qed.
Print Assumptions C105_default_refuted.

(** C106: a number that snprintf cannot print, or whose text would be longer than INT_MAX, ends in an exception, and the contents stay.
    The exception comes from the allocator, though: by then the buffer has taken more than two thirds of all the memory there is. *)
Theorem C106_fails : forall digits lenient limit acts b c sp bits, sane digits -> limit < 2 ^ 63 -> Forall proper_act acts -> Forall (tolerable lenient) acts ->
  perform_all digits lenient (grow limit) acts fresh = Some (Done b) -> contents b = Some c ->
  proper_act (Number sp bits) -> tolerable lenient (Number sp bits) -> known (sp_type sp) -> finite bits ->
  (let d := digits (sp_hash sp) (sp_precision sp) (if Ascii.eqb (sp_type sp) NUL then "g"%char else sp_type sp) (bits mod 2 ^ 63) in
   d = None \/ exists body, d = Some body /\ INT_MAX < length_N body) ->
  exists b', write_double digits lenient (grow limit) b sp bits = Some (Thrown b') /\ contents b' = Some c
    /\ ((let m := length_N c + sp_width sp + 1 in m + m / 2 <= limit) -> limit < b_capacity b' + b_capacity b' / 2).
Proof. intros digits lenient limit acts b c sp bits SANE H. exact (number_fails digits SANE lenient limit H acts b c sp bits). Qed.
Print Assumptions C106_fails.

Example C106_case : sane case_digits /\ known "f" /\ case_digits false (Some INT_MAX) "f" case_number = None
  /\ exists b', write_double case_digits false (grow 20000) fresh (Spec 0 " " ADefault false false false false (Some INT_MAX) "f") case_number = Some (Thrown b')
     /\ contents b' = Some [] /\ b_capacity b' = 19210.
Proof. split; [exact case_sane|]. split; [right; cbn; tauto|]. split; [vm_compute; reflexivity|]. eexists. split; [vm_compute; reflexivity|]. split; reflexivity. Qed.

(** C106 does not hold in the sense that such a number is refused by itself: [{:.2147483647f}] takes as much memory as it can get. *)
Theorem C106_memory_refuted : exists digits sp bits, sane digits /\ finite bits /\ sp_width sp = 0
  /\ digits (sp_hash sp) (sp_precision sp) (sp_type sp) bits = None
  /\ forall lenient, exists b', write_double digits lenient (grow 20000) fresh sp bits = Some (Thrown b') /\ b_capacity b' = 19210.
Proof.
  exists case_digits, (Spec 0 " " ADefault false false false false (Some INT_MAX) "f"), case_number. split; [exact case_sane|]. split; [vm_compute; discriminate|].
  split; [reflexivity|]. split; [vm_compute; reflexivity|]. intros lenient. eexists. split; vm_compute; reflexivity.
Qed.
Print Assumptions C106_memory_refuted.

(** C107: in an array of the caller the program does what it says up to the first operation that throws. *)
Theorem C107_contents : forall digits lenient size acts, sane digits -> size < 2 ^ 63 -> Forall proper_act acts -> Forall supported_act acts ->
  match perform_all digits lenient fixed_grow acts (fixed_buffer size) with
  | Some (Done b) => exists c, acts_effect digits acts [] c /\ contents b = Some c
  | Some (Thrown b) => exists done a rest c, acts = done ++ a :: rest /\ acts_effect digits done [] c /\ contents b = Some c
  | _ => False
  end.
Proof. exact fixed_lemma. Qed.
Print Assumptions C107_contents.

(** A number is taken if it fits, with one place more than its text needs unless it is NaN or infinity. *)
Theorem C107_fits : forall digits lenient size acts b c sp bits out, sane digits -> size < 2 ^ 63 -> Forall proper_act acts -> Forall (tolerable lenient) acts ->
  perform_all digits lenient fixed_grow acts (fixed_buffer size) = Some (Done b) -> contents b = Some c ->
  proper_act (Number sp bits) -> supported sp bits -> known (sp_type sp) -> shows digits sp bits out -> length_N out < 2 ^ 31 ->
  ((exists b', write_double digits lenient fixed_grow b sp bits = Some (Done b') /\ contents b' = Some (c ++ stored out))
   <-> length_N c + length_N out + (if special bits then 0 else 1) <= size).
Proof. intros digits lenient size acts b c sp bits out SANE H. exact (fixed_number digits SANE lenient size H acts b c sp bits out). Qed.
Print Assumptions C107_fits.

Definition case_small : list act := [Plain (OAppend (Other (B "x="))); Number (case_spec 0 " " ADefault false NUL) case_number].
Example C107_case : Forall proper_act case_small /\ Forall supported_act case_small /\ shows case_digits (case_spec 0 " " ADefault false NUL) case_number (B "1.5")
  /\ (forall lenient, exists b, perform_all case_digits lenient fixed_grow case_small (fixed_buffer 6) = Some (Done b) /\ contents b = Some (stored (B "x=1.5")))
  /\ (forall lenient, exists b, perform_all case_digits lenient fixed_grow case_small (fixed_buffer 5) = Some (Thrown b) /\ contents b = Some (stored (B "x="))).
Proof.
  split; [repeat constructor; vm_compute; reflexivity|].
  split; [apply Forall_cons; [exact I|]; apply Forall_cons; [left; split; [vm_compute; discriminate|exact I]|]; apply Forall_nil|].
  split; [apply shows_finite with (B "1.5"); [vm_compute; discriminate|reflexivity|]; exists [], [], []; repeat split; repeat constructor|].
  split; intros lenient; eexists; split; vm_compute; reflexivity.
Qed.

(** C107 does not hold for a number that fits exactly: the NUL of snprintf has no place, so [1.5] is refused by an array of three. *)
Theorem C107_exact_refuted : exists digits sp bits, sane digits /\ supported sp bits /\ shows digits sp bits (B "1.5")
  /\ forall lenient, exists b, write_double digits lenient fixed_grow (fixed_buffer 3) sp bits = Some (Thrown b) /\ contents b = Some [].
Proof.
  exists case_digits, (case_spec 0 " " ADefault false NUL), case_number. split; [exact case_sane|].
  split; [left; split; [vm_compute; discriminate|exact I]|].
  split; [apply shows_finite with (B "1.5"); [vm_compute; discriminate|reflexivity|]; exists [], [], []; repeat split; repeat constructor|].
  intros lenient. eexists. split; vm_compute; reflexivity.
Qed.
Print Assumptions C107_exact_refuted.

(** C108: the text of a number depends on the specification and the number only: there is one that is right, *)
Theorem C108_one_text : forall digits sp bits o1 o2, shows digits sp bits o1 -> shows digits sp bits o2 -> o1 = o2.
Proof. exact one_text. Qed.
Print Assumptions C108_one_text.

(** and the one that is written is the same in every buffer, unless it is centred. So one function of specification and bits serves for the
    text in the models of the formatting functions, and the writer of the printf functions agrees with the buffer in text and capacity. *)
Theorem C108_function : forall digits, sane digits -> exists dbl, forall lenient limit acts b c sp bits b' o, limit < 2 ^ 63 -> Forall proper_act acts ->
  Forall (tolerable lenient) acts -> perform_all digits lenient (grow limit) acts fresh = Some (Done b) -> contents b = Some c ->
  proper_act (Number sp bits) -> (finite bits -> sp_align sp <> ACenter) -> write_double digits lenient (grow limit) b sp bits = Some (Done b') ->
  c = stored (PrintfModel.o_text o) -> b_capacity b = PrintfModel.o_capacity o ->
  PrintfModel.o_text (PrintfModel.add_double dbl sp bits o) = PrintfModel.o_text o ++ dbl sp bits
  /\ contents b' = Some (stored (PrintfModel.o_text (PrintfModel.add_double dbl sp bits o)))
  /\ b_capacity b' = PrintfModel.o_capacity (PrintfModel.add_double dbl sp bits o).
Proof. exact function_lemma. Qed.
Print Assumptions C108_function.

Example C108_case : exists b b', perform_all case_digits false (grow 2000) [Plain (OAppend (Other (repeat "x"%char 495)))] fresh = Some (Done b)
  /\ contents b = Some (stored (PrintfModel.o_text (PrintfModel.Out (repeat "x"%char 495) 500))) /\ b_capacity b = 500
  /\ write_double case_digits false (grow 2000) b (case_spec 8 "*" ARight true NUL) case_number = Some (Done b')
  /\ contents b' = Some (stored (repeat "x"%char 495 ++ B "****+1.5")) /\ b_capacity b' = 750
  /\ shows case_digits (case_spec 8 "*" ARight true NUL) case_number (B "****+1.5").
Proof.
  do 2 eexists. split; [vm_compute; reflexivity|]. split; [vm_compute; reflexivity|]. split; [reflexivity|]. split; [vm_compute; reflexivity|].
  split; [vm_compute; reflexivity|]. split; [reflexivity|]. apply C104_memory_case.
Qed.
