(** What should become of a log call as a program writes it. *)
From Verif Require Import Base Values RootModel FactoriesModel SystemModel SayModel.
From Verif Require FmtModel FmtSpec MetaFormatModel MetaFormatSpec StrModel StrSpec StringViewModel SystemSpec.
Import MetaFormatModel.
Open Scope N_scope.

(** ---- what is behind a string ---- *)

(** Two arguments of which the same is to be seen: the same bytes of a view that is not empty, the same bytes in front of the NUL of a C
    string; or the same argument. *)
Definition same_seen (a b : FmtModel.arg) : Prop :=
  a = b \/
  (exists s m1 m2, s <> [] /\ a = FmtModel.AString (Some (s ++ m1)) (FmtModel.length_N s) /\ b = FmtModel.AString (Some (s ++ m2)) (FmtModel.length_N s)) \/
  (exists s m1 m2, ~ In NUL s /\ a = FmtModel.ACString (Some (s ++ NUL :: m1)) /\ b = FmtModel.ACString (Some (s ++ NUL :: m2))).

(** The same call, with something else behind the text in the writer. *)
Definition behind (u : said) (b : bytes) : said :=
  Said (s_severity u) (s_pattern u) (s_args u) (s_attributes u) (s_wrappers u) (s_scoped u) b (s_tid u) (s_now u) (s_env u) (s_circumstances u).

(** ---- what an argument looks like ---- *)

Section Doubles.
Variable dbl : FmtModel.spec -> N -> bytes.

(** A character in a field. *)
Definition shows_character (w : option FmtSpec.wish) (c : ascii) (out : bytes) : Prop :=
  FmtSpec.field false (FmtModel.sp_align (StrSpec.layout w)) (FmtModel.sp_fill (StrSpec.layout w)) (FmtModel.sp_width (StrSpec.layout w)) [] [c] out.

Definition shown (w : option FmtSpec.wish) (v : MetaFormatModel.value) (out : bytes) : Prop :=
  match v with
  | VBool b => if Ascii.eqb (StrSpec.type_of w) NUL then StrSpec.shows_text w (if b then B "true" else B "false") out
               else StrSpec.shows_number w (if b then 1 else 0)%Z out
  | VChar c => shows_character w c out
  | VSchar z => shows_character w (chr (Z.to_N (z mod 256))) out
  | VUchar n => shows_character w (chr n) out
  | VShort z | VInt z | VLong z | VLongLong z => StrSpec.shows_number w z out
  | VUshort n | VUint n | VUlong n | VUlongLong n => StrSpec.shows_number w (Z.of_N n) out
  | VDouble bits => out = dbl (StrSpec.layout w) bits
  | VCString p => exists s m, p = Some (s ++ NUL :: m) /\ ~ In NUL s /\ StrSpec.shows_text w s out
  | VString s => StrSpec.shows_text w s out
  | VRef m size => StrSpec.shows_text w (firstn (N.to_nat size) m) out
  end.

(** A specification a value can be shown with. *)
Definition for_characters (w : option FmtSpec.wish) : Prop :=
  match w with
  | Some w => FmtSpec.w_align w <> FmtModel.ANumeric /\ FmtSpec.w_sign w = None /\ FmtSpec.w_hash w = false /\ FmtSpec.w_zero w = false
              /\ (FmtSpec.w_type w = None \/ FmtSpec.w_type w = Some "c"%char)
  | None => True
  end.
Definition shows_well (w : option FmtSpec.wish) (v : MetaFormatModel.value) : Prop :=
  MetaFormatSpec.proper v /\
  match v with
  | VBool b => StrSpec.suits (FmtModel.ABool b) w /\ (StrSpec.type_of w = NUL \/ FmtSpec.radix (StrSpec.type_of w) <> None)
  | VChar _ | VSchar _ | VUchar _ => StrSpec.suits (FmtModel.AChar 0) w /\ for_characters w
  | VShort _ | VInt _ | VLong _ | VLongLong _ => StrSpec.suits_signed w
  | VUshort _ | VUint _ | VUlong _ | VUlongLong _ => StrSpec.suits_unsigned w
  | VDouble bits => StrSpec.suits (FmtModel.ADouble bits) w /\ In (StrSpec.type_of w) (NUL :: B "aAeEfFgG")
  | VCString _ | VString _ => StrSpec.suits_text w
  | VRef m size => StrSpec.suits_text w /\ (size = 0 -> hd_error m = Some NUL)
  end.

(** ---- format strings ---- *)

(** The texts of the pieces of a format string, the placeholders taking the arguments in order; all of them have one. *)
Inductive told : list FmtSpec.piece -> list MetaFormatModel.value -> list bytes -> Prop :=
| told_end args : told [] args []
| told_text s ps args outs : told ps args outs -> told (FmtSpec.Text s :: ps) args (s :: outs)
| told_next w ps v args out outs : shown w v out -> told ps args outs -> told (FmtSpec.Next w :: ps) (v :: args) (out :: outs).

(** All placeholders that have an argument can show it. *)
Fixpoint fitting (ps : list FmtSpec.piece) (args : list MetaFormatModel.value) : Prop :=
  match ps, args with
  | FmtSpec.Text s :: ps', _ => fitting ps' args
  | FmtSpec.Next w :: ps', v :: args' => shows_well w v /\ fitting ps' args'
  | FmtSpec.Next _ :: _, [] | [], _ => True
  end.

(** The pattern of a call is this format string: a C string in memory. *)
Definition written (u : said) (ps : list FmtSpec.piece) : Prop :=
  ~ In NUL (FmtSpec.format_text ps) /\ exists m, StringViewModel.v_data (s_pattern u) = Some (FmtSpec.format_text ps ++ NUL :: m).

(** A call that says a text. Without arguments: the bytes of its view; with arguments: what its format string makes of them. An empty
    text is said only without arguments, in front of a NUL. *)
Definition says (u : said) (text : bytes) : Prop :=
  (s_args u = [] /\ exists m, s_pattern u = StringViewModel.View (Some (text ++ m)) (FmtModel.length_N text) /\ (text = [] -> hd_error m = Some NUL)) \/
  (s_args u <> [] /\ text <> [] /\ exists ps outs, written u ps /\ fitting ps (s_args u) /\ told ps (s_args u) outs /\ text = concat outs).

(** A call with fewer arguments than placeholders, but some. *)
Definition stammers (u : said) : Prop :=
  s_args u <> [] /\ exists ps, written u ps /\ (length (s_args u) < FmtSpec.placeholders ps)%nat /\ fitting ps (s_args u).
End Doubles.

(** The record of a call that says a text. *)
Definition record_saying (u : said) (text : bytes) (r : record) : Prop :=
  r_formatted r = text /\ r_severity r = s_severity u /\ r_timestamp r = s_now u /\ r_tid r = s_tid u /\
  r_attributes r = match s_attributes u with Some l => [l] | None => [] end ++ s_wrappers u ++ s_scoped u.
