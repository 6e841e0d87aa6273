(** What chains of [operator<<] and the printing functions should do. *)
From Verif Require Import Base FmtModel FmtSpec MetaFormatModel MetaFormatSpec ChainModel.
Open Scope N_scope.

(** The number an integer of C++ is. *)
Definition denotes (v : value) (z : Z) : Prop :=
  match v with
  | VBool b => z = if b then 1%Z else 0%Z
  | VChar c => z = if N_of_ascii c <? 128 then Z.of_N (N_of_ascii c) else (Z.of_N (N_of_ascii c) - 256)%Z
  | VSchar x | VShort x | VInt x | VLong x | VLongLong x => z = x
  | VUchar n | VUshort n | VUint n | VUlong n | VUlongLong n => z = Z.of_N n
  | VDouble _ | VCString _ | VString _ | VRef _ _ => False
  end.
(** The integer types that have functions of their own. *)
Definition wide_type (v : value) : Prop :=
  match v with VInt _ | VUint _ | VLong _ | VUlong _ | VLongLong _ | VUlongLong _ => True | _ => False end.

(** Base and case. *)
Definition code_base (c : option code) : N * bool :=
  match c with Some Bin => (2, false) | Some Oct => (8, false) | Some Hex => (16, false) | Some Hexu => (16, true) | None => (10, false) end.

(** The placeholder that asks for the same. *)
Definition code_letter (c : option code) : option ascii :=
  match c with Some Bin => Some "b"%char | Some Oct => Some "o"%char | Some Hex => Some "x"%char | Some Hexu => Some "X"%char | None => None end.
Definition width_digits (width : N) (ds : bytes) : option (N * bytes) := if width =? 0 then None else Some (width, ds).

Inductive same : item -> piece -> arg -> Prop :=
| SameValue v : proper v -> ~ treated_differently v -> same (Value v) (Next None) (make_value v)
| SameCoded c v : proper v -> wide_type v ->
    same (Coded c v) (Next (Some (Wish None ADefault None false false None None (code_letter (Some c))))) (make_value v)
| SamePad c v width fill ds : proper v -> wide_type v -> width < 2 ^ 31 -> digits_of width ds -> fill <> LBRACE -> fill <> RBRACE -> fill <> NUL ->
    same (Pad c v width fill) (Next (Some (Wish (Some fill) ARight None false false (width_digits width ds) None (code_letter c)))) (make_value v)
| SamePadText m width fill ds : In NUL m -> width < 2 ^ 31 -> digits_of width ds -> fill <> LBRACE -> fill <> RBRACE -> fill <> NUL ->
    same (PadText (Some m) width fill) (Next (Some (Wish (Some fill) ALeft None false false (width_digits width ds) None None)))
         (ACString (Some m)).

(** A chain, the format string for it and the arguments. *)
Inductive same_all : list item -> list piece -> list arg -> Prop :=
| SameNil : same_all [] [] []
| SameCons i is p ps a args : same i p a -> same_all is ps args -> same_all (i :: is) (p :: ps) (a :: args).

(** What a file shows of a text that was sent to it. *)
Definition sent (s : bytes) (f f' : file) : Prop :=
  match f_room f with
  | None => f_data f' = f_data f ++ s /\ f_room f' = None
  | Some r => f_data f' = f_data f ++ firstn (N.to_nat r) s /\ f_room f' = Some (r - length_N s)
  end.

(** Two hexadecimal digits. *)
Definition two_digits (n : N) (s : bytes) : Prop := length s = 2%nat /\ read_digits 16 0 s = Some n /\ Forall (fun c => is_upper c = false) s.
