(** Specification of the string formatter: what a pattern, written by a person out of items, prints for a record. *)
From Verif Require Import Base ParserModel FmtModel FmtSpec StrModel.
From Verif Require ParserSpec.
Open Scope N_scope.

(** ---- renderings ---- *)

(** The layout an optional specification asks for, and its type letter (NUL for none). *)
Definition layout (w : option wish) : spec := match w with Some w => asks w | None => empty_spec end.
Definition type_of (w : option wish) : ascii := sp_type (layout w).

Definition cut (w : option wish) (s : bytes) : bytes :=
  match sp_precision (layout w) with Some q => firstn (N.to_nat q) s | None => s end.
Definition shows_text (w : option wish) (s out : bytes) : Prop :=
  field false (sp_align (layout w)) (sp_fill (layout w)) (sp_width (layout w)) [] (cut w s) out.

Definition sign_mark (w : option wish) (z : Z) : bytes :=
  match w with Some w => sign_text w z | None => if (z <? 0)%Z then B "-" else [] end.
Definition shows_number (w : option wish) (z : Z) (out : bytes) : Prop :=
  exists base upper mark ds, radix (type_of w) = Some (base, upper, mark) /\ numeral base upper (Z.abs_N z) ds
    /\ field true (sp_align (layout w)) (sp_fill (layout w)) (sp_width (layout w))
             (sign_mark w z ++ (if sp_hash (layout w) then mark else [])) ds out.

Section Doubles.
Variable dbl : spec -> N -> bytes.
Variable double_of : bytes -> N.

Definition shows_value (w : option wish) (v : aval) (out : bytes) : Prop :=
  match v with
  | ANull => shows_text w (B "none") out
  | ABoolean b => if Ascii.eqb (type_of w) NUL then shows_text w (if b then B "true" else B "false") out
                  else shows_number w (if b then 1 else 0)%Z out
  | ASigned z => shows_number w z out
  | AUnsigned n => shows_number w (Z.of_N n) out
  | AReal bits => out = dbl (layout w) bits
  | AText v => shows_text w (viewed v) out
  | ALazy text => out = text
  end.

(** ---- when a specification suits a value ---- *)

Definition suits (a : arg) (w : option wish) : Prop := match w with Some w => sensible a w | None => True end.
Definition text_type (w : option wish) : Prop := type_of w = NUL \/ type_of w = "s"%char.
Definition suits_text (w : option wish) : Prop := suits (AString None 0) w /\ text_type w.
Definition suits_signed (w : option wish) : Prop := suits (ALong 0) w /\ radix (type_of w) <> None.
Definition suits_unsigned (w : option wish) : Prop := suits (AUlong 0) w /\ radix (type_of w) <> None.

(** A view whose bytes are followed by a NUL and contain none; a view that is not empty or followed by a NUL. *)
Definition c_view (v : view) : Prop :=
  exists m, v_data v = Some (viewed v ++ NUL :: m) /\ ~ In NUL (viewed v).
Definition good_view (v : view) : Prop :=
  exists m, v_data v = Some m /\ v_size v <= length_N m /\ (v_size v = 0 -> hd_error m = Some NUL).

Definition suits_value (w : option wish) (v : aval) : Prop :=
  match v with
  | ANull => suits_text w
  | ABoolean b => suits (ABool b) w /\ (type_of w = NUL \/ radix (type_of w) <> None)
  | ASigned z => suits_signed w /\ (- 2 ^ 63 <= z < 2 ^ 63)%Z
  | AUnsigned n => suits_unsigned w /\ n < 2 ^ 64
  | AReal bits => suits (ADouble bits) w /\ In (type_of w) (NUL :: B "aAeEfFgG")
  | AText v => suits_text w /\ c_view v
  | ALazy _ => True
  end.

(** ---- attributes ---- *)

(** All attributes in the order of the pack; the first of a name. *)
Definition attributes (r : srecord) : list (view * aval) := concat (r_pack r).
Definition first_called (name : bytes) (r : srecord) (v : aval) : Prop :=
  exists before n after, attributes r = before ++ (n, v) :: after /\ viewed n = name
    /\ forall x, In x before -> viewed (fst x) <> name.
Definition none_called (name : bytes) (r : srecord) : Prop := forall x, In x (attributes r) -> viewed (fst x) <> name.

(** ---- the parts of `{...}` ---- *)

Inductive part := Words_ (t : bytes) | Name_ (w : option wish) | Value_ (w : option wish).
Definition default_parts : list part := [Name_ None; Words_ (B ": "); Value_ None].
Definition default_separator : bytes := B ", ".

Definition part_shows (a : view * aval) (p : part) (out : bytes) : Prop :=
  match p with
  | Words_ t => out = t
  | Name_ w => shows_text w (viewed (fst a)) out
  | Value_ w => shows_value w (snd a) out
  end.
Definition part_suits (a : view * aval) (p : part) : Prop :=
  match p with
  | Words_ _ => True
  | Name_ w => suits_text w /\ good_view (fst a)
  | Value_ w => suits_value w (snd a)
  end.

Definition join (sep : bytes) (ts : list bytes) : bytes :=
  match ts with [] => [] | t :: ts' => t ++ flat_map (fun t => sep ++ t) ts' end.

(** One text per attribute, in order. *)
Definition joined (parts : list part) (sep : bytes) (attrs : list (view * aval)) (out : bytes) : Prop :=
  exists texts, out = join sep texts
    /\ Forall2 (fun a t => exists ts, Forall2 (part_shows a) parts ts /\ t = concat ts) attrs texts.

(** Nothing at all is printed, not even padding, when there is no text. *)
Definition others_show (parts : list part) (sep : bytes) (w : option wish) (r : srecord) (out : bytes) : Prop :=
  exists text, joined parts sep (attributes r) text
    /\ match text with [] => out = [] | _ => shows_text w text out end.
Definition others_suit (parts : list part) (w : option wish) (r : srecord) : Prop :=
  suits_text w /\ Forall (fun a => Forall (part_suits a) parts) (attributes r).

(** ---- items ---- *)

Inductive item :=
| Words (t : bytes)
| Slot (name : bytes) (w : option wish)
| Fallback (name text : bytes) (w : wish)
| Clock (pattern : bytes) (w : wish)
| Rest (parts : option (list part)) (sep : option bytes) (w : wish).

(** Texts of items. *)
Definition after_colon (w : wish) : bytes := tl (wish_text w).
Definition spec_text (w : option wish) : bytes := match w with Some w => wish_text w | None => [] end.
Definition part_piece (p : part) : ParserSpec.subpiece :=
  match p with
  | Words_ t => ParserSpec.PText t
  | Name_ w => ParserSpec.PName (option_map after_colon w)
  | Value_ w => ParserSpec.PValue (option_map after_colon w)
  end.
Definition rest_body (parts : option (list part)) (sep : option bytes) (w : wish) : bytes :=
  match parts with Some ps => B "{" ++ ParserSpec.write_sub (map part_piece ps) ++ B ":p}" | None => [] end
  ++ match sep with Some s => B "{" ++ s ++ B ":s}" | None => [] end ++ after_colon w.
Definition item_text (i : item) : bytes :=
  match i with
  | Words t => ParserSpec.doubled t
  | Slot n w => B "{" ++ n ++ spec_text w ++ B "}"
  | Fallback n t w => B "{" ++ n ++ B ":" ++ (B "{" ++ t ++ B ":default}" ++ after_colon w) ++ B "}"
  | Clock p w => B "{timestamp:" ++ (B "{" ++ p ++ B "}" ++ after_colon w) ++ B "}"
  | Rest ps sep w => B "{...:" ++ rest_body ps sep w ++ B "}"
  end.
Definition pattern_text (is : list item) : bytes := flat_map item_text is.

(** Reserved names. *)
Definition reserved : list bytes := [B "message"; B "process"; B "thread"; B "severity"; B "timestamp"; B "..."].

(** Specifications the grammars of `{...}` and of a default allow. *)
Definition brief (types : bytes) (w : wish) : Prop :=
  w_fill w = None /\ w_align w <> ANumeric /\ w_sign w = None /\ w_hash w = false /\ w_zero w = false
  /\ w_precision w = None /\ exists t, w_type w = Some t /\ In t types.
Definition loose (w : wish) : Prop :=
  w_align w <> ANumeric /\ w_sign w = None /\ match w_type w with Some t => In t (B "sdfx") | None => True end.

(** A specification that suits some kind of argument. *)
Definition well_written (w : wish) : Prop := exists a, sensible a w.

Definition part_ok (p : part) : Prop :=
  match p with
  | Words_ t => t <> []
  | Name_ (Some w) | Value_ (Some w) => brief (B "sd") w /\ well_written w
  | _ => True
  end.
Definition is_words_ (p : part) : bool := match p with Words_ _ => true | _ => false end.
Definition is_words (i : item) : bool := match i with Words _ => true | _ => false end.
Fixpoint apart {A} (f : A -> bool) (l : list A) : Prop :=
  match l with
  | [] => True
  | x :: l' => (f x = true -> match l' with y :: _ => f y = false | [] => True end) /\ apart f l'
  end.

(** Texts are not empty; names are made of the allowed characters; a specification is written as it should be. *)
Definition item_ok (i : item) : Prop :=
  match i with
  | Words t => t <> []
  | Slot n None => ParserSpec.is_name n
  | Slot n (Some w) => ParserSpec.is_name n /\ n <> B "..." /\ well_written w
  | Fallback n t w => ParserSpec.is_name n /\ ~ In n reserved /\ ParserSpec.balanced t
                      /\ ~ ParserSpec.occurs (B ":default}") t /\ loose w /\ well_written w
  | Clock p w => p <> [] /\ ParserSpec.no_braces p /\ well_written w
                 /\ (w_type w = Some "s"%char \/ w_type w = Some "l"%char)
  | Rest ps sep w =>
      match ps with Some ps => Forall part_ok ps /\ apart is_words_ ps | None => True end
      /\ match sep with Some s => ~ ParserSpec.occurs (B ":s}") s | None => True end
      /\ (ps = None -> match sep with Some s => ~ ParserSpec.occurs (B ":p}") s | None => True end)
      /\ brief (B "s") w /\ well_written w /\ ParserSpec.balanced (rest_body ps sep w)
  end.
Definition pattern_ok (is : list item) : Prop := Forall item_ok is /\ apart is_words is.

(** ---- what items print ---- *)

Variable lexical_double : bytes -> bool.
Variable sevmap : severity_map.

Definition hex_wish : wish := Wish None ADefault None true false None None (Some "x"%char).
Definition microseconds (r : srecord) : Z := Z.quot (r_nanoseconds r) 1000.
Definition thread_name (r : srecord) : bytes := match r_thread_name r with Some s => s | None => B "<unnamed>" end.
Definition time_format : bytes := B "%Y-%m-%d %H:%M:%S.%f".

Definition typed (c : ascii) (w : option wish) : bool := Ascii.eqb (type_of w) c.

Definition default_value (t : bytes) : default :=
  match lexical_int t with
  | Some z => DInt z
  | None => if lexical_double t then DDouble t else DString t
  end.
(** A default is shown as the number it denotes, if any. *)
Definition default_shows (w : option wish) (d : default) (out : bytes) : Prop :=
  match d with
  | DInt z => shows_number w z out
  | DDouble t => out = dbl (layout w) (double_of t)
  | DString t => shows_text w t out
  end.
Definition default_suits (w : option wish) (d : default) : Prop :=
  match d with
  | DInt _ => suits_signed w
  | DDouble _ => suits (ADouble 0) w /\ In (type_of w) (NUL :: B "aAeEfFgG")
  | DString _ => suits_text w
  end.

Definition slot_shows (r : srecord) (name : bytes) (w : option wish) (out : bytes) : Prop :=
  if bytes_eqb name (B "message") then shows_text w (viewed (r_formatted r)) out
  else if bytes_eqb name (B "process") then
    if typed "s" w then shows_text w (r_procname r) out else shows_number w (Z.of_N (r_pid r)) out
  else if bytes_eqb name (B "thread") then
    if typed "d" w then shows_number w (Z.of_N (r_lwp r)) out
    else if typed "s" w then shows_text w (thread_name r) out
    else shows_number (match w with None => Some hex_wish | _ => w end) (Z.of_N (r_tid r)) out
  else if bytes_eqb name (B "severity") then
    if typed "d" w then shows_number w (r_severity r) out
    else sevmap (r_severity r) (B "{" ++ spec_text w ++ B "}") = Ok out
  else if bytes_eqb name (B "timestamp") then
    if typed "d" w then shows_number w (microseconds r) out
    else shows_text w (r_stamp r time_format (negb (typed "l" w))) out
  else if bytes_eqb name (B "...") then others_show default_parts default_separator None r out
  else exists v, first_called name r v /\ shows_value w v out.

Definition stamp_suits (r : srecord) (pattern : bytes) (utc : bool) : Prop :=
  r_stamp r pattern utc = [] -> hd_error (r_junk r) = Some NUL.
Definition suits_time (w : option wish) : Prop := suits (AString None 0) w /\ (text_type w \/ type_of w = "l"%char).

Definition slot_suits (r : srecord) (name : bytes) (w : option wish) : Prop :=
  if bytes_eqb name (B "message") then suits_text w /\ good_view (r_formatted r)
  else if bytes_eqb name (B "process") then
    if typed "s" w then suits_text w /\ ~ In NUL (r_procname r) else suits_unsigned w /\ r_pid r < 2 ^ 64
  else if bytes_eqb name (B "thread") then
    if typed "d" w then suits_unsigned w /\ r_lwp r < 2 ^ 64
    else if typed "s" w then suits_text w /\ ~ In NUL (thread_name r)
    else suits_unsigned w /\ r_tid r < 2 ^ 64
  else if bytes_eqb name (B "severity") then
    if typed "d" w then suits_signed w /\ (- 2 ^ 31 <= r_severity r < 2 ^ 31)%Z
    else exists out, sevmap (r_severity r) (B "{" ++ spec_text w ++ B "}") = Ok out
  else if bytes_eqb name (B "timestamp") then
    if typed "d" w then suits_signed w /\ (- 2 ^ 63 <= r_nanoseconds r < 2 ^ 63)%Z
    else suits_time w /\ stamp_suits r time_format (negb (typed "l" w))
  else if bytes_eqb name (B "...") then others_suit default_parts None r
  else exists v, first_called name r v /\ suits_value w v.

Definition or_default {A} (d : A) (o : option A) : A := match o with Some x => x | None => d end.

Definition item_shows (r : srecord) (i : item) (out : bytes) : Prop :=
  match i with
  | Words t => out = t
  | Slot n w => slot_shows r n w out
  | Fallback n t w =>
      (exists v, first_called n r v /\ shows_value (Some w) v out)
      \/ (none_called n r /\ default_shows (Some w) (default_value t) out)
  | Clock p w => shows_text (Some w) (r_stamp r p (negb (typed "l" (Some w)))) out
  | Rest ps sep w => others_show (or_default default_parts ps) (or_default default_separator sep) (Some w) r out
  end.
Definition item_suits (r : srecord) (i : item) : Prop :=
  match i with
  | Words _ => True
  | Slot n w => slot_suits r n w
  | Fallback n t w =>
      (exists v, first_called n r v /\ suits_value (Some w) v)
      \/ (none_called n r /\ default_suits (Some w) (default_value t))
  | Clock p w => suits_time (Some w) /\ stamp_suits r p (negb (typed "l" (Some w)))
  | Rest ps sep w => others_suit (or_default default_parts ps) (Some w) r
  end.
End Doubles.

(** Decimal numbers. *)
Definition decimal (z : Z) (out : bytes) : Prop :=
  exists ds, numeral 10 false (Z.abs_N z) ds /\ out = (if (z <? 0)%Z then B "-" else []) ++ ds.

(** ---- arguments and records with valid pointers ---- *)

(** A C string has a NUL; a view lies within its object, an empty one in front of a NUL. Null pointers are allowed. *)
Definition valid_arg (a : arg) : Prop :=
  match a with
  | AInt z => (- 2 ^ 31 <= z < 2 ^ 31)%Z
  | AUint n => n < 2 ^ 32
  | ALong z => (- 2 ^ 63 <= z < 2 ^ 63)%Z
  | AUlong n => n < 2 ^ 64
  | AChar z => (- 2 ^ 31 <= z < 2 ^ 31)%Z
  | ACString (Some m) => In NUL m
  | AString (Some m) n => n <= length_N m /\ (n = 0 -> In NUL m)
  | AString None n => n = 0
  | ABool _ | ADouble _ | ACString None => True
  end.
Definition valid_view (v : view) : Prop := valid_arg (AString (v_data v) (v_size v)).
Definition valid_value (v : aval) : Prop :=
  match v with
  | ASigned z => (- 2 ^ 63 <= z < 2 ^ 63)%Z
  | AUnsigned n => n < 2 ^ 64
  | AText v => match v_data v with Some m => In NUL m | None => True end
  | _ => True
  end.
Definition valid_record (r : srecord) : Prop :=
  valid_view (r_formatted r) /\ (- 2 ^ 31 <= r_severity r < 2 ^ 31)%Z /\ (- 2 ^ 63 <= r_nanoseconds r < 2 ^ 63)%Z
  /\ r_tid r < 2 ^ 64 /\ r_pid r < 2 ^ 64 /\ r_lwp r < 2 ^ 64
  /\ (forall p utc, r_stamp r p utc = [] -> In NUL (r_junk r))
  /\ Forall (fun a => valid_view (fst a) /\ valid_value (snd a)) (attributes r).

(** What a record prints with a pattern: the pattern is accepted and formatting succeeds. *)
Definition formats lexical_double ndebug dbl double_of sevmap (pattern : bytes) (r : srecord) (out : bytes) : Prop :=
  exists ts, tokenize lexical_double ndebug pattern = Some (Tokens ts) /\ format dbl double_of sevmap r ts = Done out.
