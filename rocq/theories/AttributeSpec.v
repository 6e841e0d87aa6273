(** Ranges of the integer types, and what a view of an attribute shows. *)
From Verif Require Import Base StringViewModel StringViewSpec AttributeModel.
Open Scope Z_scope.

Definition bits (t : ctype) : Z :=
  match t with
  | CChar | CSignedChar | CUchar => 8
  | CShort | CUshort => 16
  | CInt | CUint => 32
  | CLong | CLongLong | CUlong | CUlonglong => 64
  end.
Definition in_type (t : ctype) (z : Z) : Prop :=
  match t with
  | CChar | CSignedChar | CShort | CInt | CLong | CLongLong => - 2 ^ (bits t - 1) <= z < 2 ^ (bits t - 1)
  | CUchar | CUshort | CUint | CUlong | CUlonglong => 0 <= z < 2 ^ bits t
  end.
Definition signed_type (t : ctype) : Prop := In t [CChar; CSignedChar; CShort; CInt; CLong; CLongLong].

(** Strings of a view are readable. *)
Definition readable (w : aview) : Prop := match w with WString v => exists s, shows v s | _ => True end.

(** The alternative in use. *)
Definition kind (w : aview) : gtype :=
  match w with
  | WNull => TNull | WBool _ => TBool | WInt _ => TInt | WUint _ => TUint | WDouble _ => TDouble | WString _ => TString | WFun _ => TFunction
  end.
Definition value_kind (v : value) : gtype :=
  match v with
  | VNull => TNull | VBool _ => TBool | VInt _ => TInt | VUint _ => TUint | VDouble _ => TDouble | VString _ => TString | VFun _ => TFunction
  end.

(** Doubles: a NaN has all exponent bits and some bit of the fraction, [sign * 2^63 + 2047 * 2^52 + fraction]. *)
Definition nan (n : N) : Prop := exists sign fraction, (sign < 2 /\ 0 < fraction < 2 ^ 52 /\ n = sign * 2 ^ 63 + 2047 * 2 ^ 52 + fraction)%N.
Definition zero (n : N) : Prop := (n = 0 \/ n = 2 ^ 63)%N.

(** The same content: the same kind and, for strings, the same bytes; for functions, the same object printed in the
    same way. *)
Inductive same_content : aview -> aview -> Prop :=
| same_null : same_content WNull WNull
| same_bool b : same_content (WBool b) (WBool b)
| same_int z : same_content (WInt z) (WInt z)
| same_uint n : same_content (WUint n) (WUint n)
| same_double n : ~ nan n -> same_content (WDouble n) (WDouble n)
| same_zero n m : zero n -> zero m -> same_content (WDouble n) (WDouble m)
| same_string v w s : shows v s -> shows w s -> same_content (WString v) (WString w)
| same_function o f t u : same_content (WFun (Lazy o f t)) (WFun (Lazy o f u)).
