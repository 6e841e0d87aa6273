(** C85-C89: the buffers behind the writers, and the printing of single integers. *)
From Verif Require Import Base FmtModel MembufModel MembufSpec MembufProofs.
From Verif Require StrSpec.
Open Scope N_scope.

(** C85: a memory buffer holds what the operations on it say, whether it is inline or on the heap. *)
Theorem C85_contents : forall limit ops b, limit < 2 ^ 63 -> Forall proper_op ops -> Forall external ops ->
  run (grow limit) ops fresh = Done b -> exists c, effects ops [] c /\ contents b = Some c.
Proof. intros limit ops b H. exact (contents_lemma limit H ops b). Qed.
Print Assumptions C85_contents.

(** No array is left, whatever the allocator does. *)
Theorem C85_defined : forall limit ops, limit < 2 ^ 63 -> Forall proper_op ops -> Forall external ops -> run (grow limit) ops fresh <> Bad.
Proof. intros limit ops H. exact (defined_lemma limit H ops). Qed.
Print Assumptions C85_defined.

(** Once and a half of the largest size asked for is all the memory that a single array takes. *)
Theorem C85_memory : forall limit ops, limit < 2 ^ 63 -> Forall proper_op ops -> Forall external ops ->
  peak ops 0 + peak ops 0 / 2 <= limit -> exists b, run (grow limit) ops fresh = Done b.
Proof. intros limit ops H. exact (done_lemma limit H ops). Qed.
Print Assumptions C85_memory.

(** If the allocator refuses, the buffer is as the operations before left it. *)
Theorem C85_thrown : forall limit ops b, limit < 2 ^ 63 -> Forall proper_op ops -> Forall external ops ->
  run (grow limit) ops fresh = Thrown b ->
  exists done o rest c, ops = done ++ o :: rest /\ effects done [] c /\ contents b = Some c.
Proof. intros limit ops b H. exact (thrown_lemma limit H ops b). Qed.
Print Assumptions C85_thrown.

(** [c_str] puts a NUL behind the contents. *)
Theorem C85_c_str : forall limit ops b, limit < 2 ^ 63 -> Forall proper_op ops -> Forall external ops ->
  run (grow limit) (ops ++ [OCStr]) fresh = Done b ->
  exists c, effects ops [] c /\ load (array b) 0 (length_N c + 1) = Some (c ++ [Some NUL]).
Proof. intros limit ops b H. exact (c_str_lemma limit H ops b). Qed.
Print Assumptions C85_c_str.

Definition case_long : bytes := repeat "x"%char 499.
Definition case_ops : list op := [OAppend (Other case_long); OPush (Other (B "y")); OPush (Other (B "z")); OCStr].
Example C85_case :
  Forall proper_op case_ops /\ Forall external case_ops /\ peak case_ops 0 = 502
  /\ match run (grow 1000) case_ops fresh with
     | Done b => contents b = Some (stored (case_long ++ B "yz")) /\ b_capacity b = 750 /\ load (array b) 501 502 = Some [Some NUL]
     | _ => False
     end
  /\ match run (grow 600) case_ops fresh with Thrown b => contents b = Some (stored (case_long ++ B "y")) | _ => False end.
Proof.
  split; [repeat constructor|]. split; [repeat constructor|]. split; [reflexivity|]. split; [|vm_compute; reflexivity].
  vm_compute. repeat split.
Qed.

(** C86: a part of the buffer can be appended to it if the buffer is still inline, or has the room. *)
Theorem C86_own_part : forall limit ops b c o, limit < 2 ^ 63 -> Forall proper_op ops -> Forall external ops ->
  run (grow limit) ops fresh = Done b -> contents b = Some c -> proper_op o ->
  match o with
  | OPush (Own from to) | OAppend (Own from to) =>
      from <= to <= length_N c /\ (b_heap b = None \/ needs o (b_size b) <= b_capacity b)
  | _ => True
  end ->
  match step (grow limit) o b with Done b' => exists c', effect o c c' /\ contents b' = Some c' | Thrown b' => b' = b | Bad => False end.
Proof. intros limit ops b c o H. exact (self_lemma limit H ops b c o). Qed.
Print Assumptions C86_own_part.
Example C86_case :
  match run (grow 2000) [OAppend (Other case_long)] fresh with
  | Done b => b_heap b = None
              /\ match step (grow 2000) (OAppend (Own 0 499)) b with Done b' => contents b' = Some (stored (case_long ++ case_long)) | _ => False end
  | _ => False
  end.
Proof. vm_compute. split; reflexivity. Qed.

(** Refuted: a part of the buffer can always be appended to it. A heap array is given back before its part is copied. *)
Theorem C86_own_part_refuted : exists b c o, run (grow 2000) [OAppend (Other (repeat "x"%char 501))] fresh = Done b /\ contents b = Some c
  /\ o = OAppend (Own 0 501) /\ length_N c = 501 /\ step (grow 2000) o b = Bad.
Proof. do 3 eexists. split; [vm_compute; reflexivity|]. split; [vm_compute; reflexivity|]. repeat split. Qed.
Print Assumptions C86_own_part_refuted.

(** C87: a moved buffer has the contents of its source, and works on; nothing is given back with a wrong size. *)
Theorem C87_construct : forall limit ops b ops', limit < 2 ^ 63 -> Forall proper_op ops -> Forall external ops -> run (grow limit) ops fresh = Done b ->
  Forall proper_op ops' -> Forall external ops' ->
  exists n l c, move_construct b = Done (n, l) /\ effects ops [] c /\ contents n = Some c
    /\ match run (grow limit) ops' n with Done b' => exists c', effects ops' c c' /\ contents b' = Some c' | Thrown _ => True | Bad => False end
    /\ deallocates l = true /\ (b_heap b = None -> l = b).
Proof. intros limit ops b ops' H. exact (move_lemma limit H ops b ops'). Qed.
Print Assumptions C87_construct.

(** So has the target of an assignment, whatever was in it. *)
Theorem C87_assign : forall limit ops b ops' t ops2, limit < 2 ^ 63 -> Forall proper_op ops -> Forall external ops -> run (grow limit) ops fresh = Done b ->
  Forall proper_op ops' -> Forall external ops' -> run (grow limit) ops' fresh = Done t ->
  Forall proper_op ops2 -> Forall external ops2 ->
  exists n l c, move_assign t b = Done (n, l) /\ effects ops [] c /\ contents n = Some c
    /\ match run (grow limit) ops2 n with Done b' => exists c', effects ops2 c c' /\ contents b' = Some c' | Thrown _ => True | Bad => False end
    /\ deallocates l = true /\ (b_heap b = None -> l = b).
Proof. intros limit ops b ops' t ops2 H. exact (assign_lemma limit H ops b ops' t ops2). Qed.
Print Assumptions C87_assign.

Example C87_case :
  match run (grow 2000) case_ops fresh, run (grow 2000) [OAppend (Other (repeat "t"%char 600))] fresh with
  | Done b, Done t =>
      match move_assign t b, move_construct b with
      | Done (n, _), Done (m, _) =>
          contents n = Some (stored (case_long ++ B "yz")) /\ contents m = contents n
          /\ match run (grow 2000) [OAppend (Other case_long)] n with Done b' => contents b' = Some (stored (case_long ++ B "yz" ++ case_long)) | _ => False end
      | _, _ => False
      end
  | _, _ => False
  end.
Proof. vm_compute. repeat split. Qed.

(** Refuted: the buffer that was moved from can be used again. It keeps the capacity of the heap array, and its size, with the inline
    array of 500 bytes: its contents cannot be read, and after [clear] 501 bytes are stored in the 500. *)
Theorem C87_left_refuted : exists b n l, run (grow 2000) [OAppend (Other (repeat "x"%char 501))] fresh = Done b /\ move_construct b = Done (n, l)
  /\ contents l = None /\ move_construct l = Bad /\ run (grow 2000) [OClear; OAppend (Other (repeat "x"%char 501))] l = Bad.
Proof. do 3 eexists. split; [vm_compute; reflexivity|]. split; [vm_compute; reflexivity|]. vm_compute. repeat split. Qed.
Print Assumptions C87_left_refuted.

(** C88: a writer over an array of the caller takes what fits, and throws before the first operation that does not. *)
Theorem C88_fits : forall size ops, size < 2 ^ 63 -> Forall proper_op ops -> Forall external ops -> peak ops 0 <= size ->
  exists b, run fixed_grow ops (fixed_buffer size) = Done b.
Proof. intros size ops H. exact (fixed_done size H ops). Qed.
Print Assumptions C88_fits.

Theorem C88_contents : forall size ops, size < 2 ^ 63 -> Forall proper_op ops -> Forall external ops ->
  match run fixed_grow ops (fixed_buffer size) with
  | Done b => peak ops 0 <= size /\ exists c, effects ops [] c /\ contents b = Some c
  | Thrown b => exists done o rest c, ops = done ++ o :: rest /\ effects done [] c /\ contents b = Some c /\ size < needs o (length_N c)
  | Bad => False
  end.
Proof. intros size ops H. exact (fixed_run size H ops). Qed.
Print Assumptions C88_contents.

Definition case_fixed : list op := [OAppend (Other (B "abc")); OPush (Other (B "d")); OCStr].
Example C88_case :
  Forall proper_op case_fixed /\ Forall external case_fixed /\ peak case_fixed 0 = 5
  /\ match run fixed_grow case_fixed (fixed_buffer 5) with Done b => array b = stored (B "abcd") ++ [Some NUL] | _ => False end
  /\ match run fixed_grow case_fixed (fixed_buffer 4) with Thrown b => contents b = Some (stored (B "abcd")) | _ => False end.
Proof. split; [repeat constructor|]. split; [repeat constructor|]. repeat split. Qed.

(** C89: the decimal digits of every integer, within the 22 places of the object. *)
Theorem C89_unsigned : forall n, n < 2 ^ 64 -> exists s, format_unsigned n = Some s /\ StrSpec.decimal (Z.of_N n) s.
Proof. exact unsigned_lemma. Qed.
Print Assumptions C89_unsigned.
Theorem C89_signed : forall z, (- 2 ^ 63 <= z < 2 ^ 63)%Z -> exists s, format_signed z = Some s /\ StrSpec.decimal z s.
Proof. exact signed_lemma. Qed.
Print Assumptions C89_signed.
(** So for [format_decimal], for the integers of both widths. *)
Theorem C89_decimal : forall w z, (- 2 ^ (Z.of_N (bits_of w) - 1) <= z < 2 ^ Z.of_N (bits_of w))%Z ->
  exists s, format_decimal w z = Some s /\ StrSpec.decimal z s.
Proof. exact decimal_lemma. Qed.
Print Assumptions C89_decimal.
Example C89_case :
  format_signed (- 2 ^ 63)%Z = Some (B "-9223372036854775808") /\ format_unsigned (2 ^ 64 - 1) = Some (B "18446744073709551615")
  /\ format_decimal W32 (- 2 ^ 31)%Z = Some (B "-2147483648") /\ format_decimal W32 42 = Some (B "42") /\ format_decimal W64 7 = Some (B "7").
Proof. vm_compute. repeat split. Qed.
