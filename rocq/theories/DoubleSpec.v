(** What writing a double should append. *)
From Verif Require Import Base FmtModel FmtSpec MembufModel MembufSpec DoubleModel.
Open Scope N_scope.

(** The sign in front: of negative numbers (also zero and NaN, by the sign bit), or what the specification asks for. *)
Definition mark (sp : spec) (bits : N) : bytes :=
  if bits <? 2 ^ 63 then (if sp_sign sp then (if sp_plus sp then B "+" else B " ") else []) else B "-".
Definition finite (bits : N) : Prop := (bits / 2 ^ 52) mod 2 ^ 11 <> 2047.
Definition known (type : ascii) : Prop := type = NUL \/ In type (B "efgaEFGA").
Definition capital (type : ascii) : bool := (65 <=? N_of_ascii type) && (N_of_ascii type <=? 90).
(** The names of the values that are not finite. *)
Definition name (type : ascii) (bits : N) : bytes :=
  if bits mod 2 ^ 52 =? 0 then (if capital type then B "INF" else B "inf") else (if capital type then B "NAN" else B "nan").

(** The text: in a field, as for integers. The digits are the C library's for the magnitude; without a type those of [%g]. *)
Inductive shows (digits : bool -> option N -> ascii -> N -> option bytes) (sp : spec) (bits : N) (out : bytes) : Prop :=
| shows_finite body : finite bits ->
    digits (sp_hash sp) (sp_precision sp) (if Ascii.eqb (sp_type sp) NUL then "g"%char else sp_type sp) (bits mod 2 ^ 63) = Some body ->
    field true (sp_align sp) (sp_fill sp) (sp_width sp) (mark sp bits) body out -> shows digits sp bits out
| shows_special : ~ finite bits ->
    field true (sp_align sp) (sp_fill sp) (sp_width sp) (mark sp bits) (name (sp_type sp) bits) out -> shows digits sp bits out.

(** The C library writes something, and no space in front of it. *)
Definition sane (digits : bool -> option N -> ascii -> N -> option bytes) : Prop :=
  forall hash precision type bits s, digits hash precision type bits = Some s -> s <> [] /\ hd NUL s <> " "%char.

(** Specifications for which the text is right: not centred, and padded on the right with spaces only; NaN and infinity need an
    alignment to be padded. *)
Definition supported (sp : spec) (bits : N) : Prop :=
  (finite bits /\ match sp_align sp with ACenter => False | ALeft => sp_fill sp = " "%char | _ => True end)
  \/ (~ finite bits /\ match sp_align sp with ADefault | ANumeric => sp_width sp <= 3 + length_N (mark sp bits) | _ => True end).

Definition proper_act (a : act) : Prop :=
  match a with
  | Plain o => proper_op o /\ external o
  | Number sp bits => sp_width sp < 2 ^ 31 /\ bits < 2 ^ 64
  end.
Definition supported_act (a : act) : Prop := match a with Plain _ => True | Number sp bits => supported sp bits end.

(** Centred finite numbers need a [std::copy] that works for overlapping ranges. *)
Definition tolerable (lenient : bool) (a : act) : Prop :=
  match a with Plain _ => True | Number sp bits => finite bits -> sp_align sp = ACenter -> lenient = true end.

(** What a program of operations and numbers does to the list. *)
Inductive act_effect digits : act -> cells -> cells -> Prop :=
| act_plain o c d : effect o c d -> act_effect digits (Plain o) c d
| act_number sp bits c out : known (sp_type sp) -> shows digits sp bits out -> act_effect digits (Number sp bits) c (c ++ map Some out).
Inductive acts_effect digits : list act -> cells -> cells -> Prop :=
| acts_end c : acts_effect digits [] c c
| acts_step a l c d e : act_effect digits a c d -> acts_effect digits l d e -> acts_effect digits (a :: l) c e.
