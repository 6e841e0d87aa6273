(** What the development handler should print: a header, the message, a line for each attribute; and what a terminal makes
    of it. *)
From Verif Require Import Base Decimal TimeModel TimeSpec FmtModel DevModel.
From Verif Require DateModel DateSpec StrModel.
Open Scope N_scope.

(** ---- the contents of a record ---- *)

Record content := Content {
  k_nanoseconds : Z;
  k_severity : Z;
  k_tid : N;
  k_pid : N;
  k_message : bytes;
  k_entries : list (bytes * bytes)
}.

(** A view of these bytes, wherever they are. *)
Definition views (v : StrModel.view) (s : bytes) : Prop :=
  StrModel.v_size v = length_N s
  /\ match StrModel.v_data v with Some m => exists rest, m = s ++ rest | None => s = [] end.

(** The text of a value on a stream in its initial state; a function is the text it writes. *)
Inductive value_text (real : N -> bytes) : dval -> bytes -> Prop :=
| text_null : value_text real DNull (B "none")
| text_true : value_text real (DBool true) (B "1")
| text_false : value_text real (DBool false) (B "0")
| text_int z : value_text real (DInt z) (sdec z)
| text_uint n : value_text real (DUint n) (dec n)
| text_double bits : value_text real (DDouble bits) (real bits)
| text_string v s : views v s -> value_text real (DString v) s
| text_function s : value_text real (DFun (Writes s)) s.

Definition holds (real : N -> bytes) (r : drecord) (k : content) : Prop :=
  views (d_formatted r) (k_message k)
  /\ d_severity r = k_severity k /\ d_nanoseconds r = k_nanoseconds k /\ d_tid r = k_tid k /\ d_pid r = k_pid k
  /\ Forall2 (fun a e => views (fst a) (fst e) /\ value_text real (snd a) (snd e)) (concat (d_pack r)) (k_entries k).

(** ---- the text ---- *)

Definition letter (severity : Z) : ascii :=
  (if severity =? 0 then "D" else if severity =? 1 then "I" else if severity =? 2 then "W" else if severity =? 3 then "E" else "T")%Z%char.

(** Sixteen columns: longer names are cut. *)
Definition column (name : bytes) : bytes := firstn 16 (name ++ repeat " "%char 16).

Definition entry (e : bytes * bytes) : bytes := NL :: B "    " ++ column (fst e) ++ B ": " ++ snd e.

Definition line (k : content) : bytes :=
  DateSpec.stamp_text (k_nanoseconds k) ++ B " " ++ [letter (k_severity k)] ++ B " " ++ dec (k_tid k) ++ B "/" ++ dec (k_pid k)
  ++ B " - " ++ k_message k ++ flat_map entry (k_entries k) ++ [NL].

(** [gmtime_r] of the C library breaks times down as the calendar says. *)
Definition keeps_calendar (z : DateModel.zone) : Prop := forall t, (0 <= t < year_limit)%Z ->
  let d := civil_day (Z.to_N (t / 86400)) in
  DateModel.z_gmtime_r z t = {| tm_sec := t mod 60; tm_min := (t / 60) mod 60; tm_hour := (t / 3600) mod 24;
                                tm_mday := d_day d; tm_mon := d_month d - 1; tm_year := d_year d - 1900;
                                tm_wday := d_week d; tm_yday := d_yday d; tm_isdst := 0 |}%Z.

(** ---- reading it back ---- *)

(** Texts without a line break; names of at most sixteen bytes that do not end in a space. *)
Definition one_line (k : content) : Prop :=
  ~ In NL (k_message k)
  /\ Forall (fun e => ~ In NL (fst e) /\ (length (fst e) <= 16)%nat /\ last (fst e) NUL <> " "%char /\ ~ In NL (snd e)) (k_entries k).

(** The same to a reader: times to the microsecond, severities by their letter. *)
Definition same_content (a b : content) : Prop :=
  (k_nanoseconds a / 1000 = k_nanoseconds b / 1000)%Z /\ letter (k_severity a) = letter (k_severity b)
  /\ k_tid a = k_tid b /\ k_pid a = k_pid b /\ k_message a = k_message b /\ k_entries a = k_entries b.

(** ---- a terminal ---- *)

(** How a character is shown: faint or not, in a colour (30-37) or the default one. *)
Record style := Style { y_faint : bool; y_color : option N }.
Definition normal : style := Style false None.

(** ECMA-48, select graphic rendition. *)
Definition rendition (n : N) (y : style) : style :=
  if n =? 0 then normal
  else if n =? 2 then Style true (y_color y)
  else if (30 <=? n) && (n <=? 37) then Style (y_faint y) (Some n)
  else if n =? 39 then Style (y_faint y) None
  else y.

(** Control sequences: ESC [ numbers separated by semicolons and a letter; all but those ending in [m] are ignored. *)
Inductive mode := Ground | Escape | Sequence (n : N).
Fixpoint display (m : mode) (y : style) (s : bytes) : list (ascii * style) * mode * style :=
  match s with
  | [] => ([], m, y)
  | c :: s' =>
      if Ascii.eqb c (chr 27) then display Escape y s'
      else match m with
           | Ground => let '(cells, m', y') := display Ground y s' in ((c, y) :: cells, m', y')
           | Escape => display (if Ascii.eqb c "[" then Sequence 0 else Ground) y s'
           | Sequence n =>
               if (48 <=? N_of_ascii c) && (N_of_ascii c <=? 57) then display (Sequence (10 * n + (N_of_ascii c - 48))) y s'
               else if Ascii.eqb c ";" then display (Sequence 0) (rendition n y) s'
               else display Ground (if Ascii.eqb c "m" then rendition n y else y) s'
           end
  end.

(** Everything in one style. *)
Definition in_style (y : style) (s : bytes) : list (ascii * style) := map (fun c => (c, y)) s.

Definition severity_style (severity : Z) : style :=
  Style true (if severity =? 1 then Some 32%N else if severity =? 2 then Some 33%N else if severity =? 3 then Some 31%N else None)%Z.

(** The line on a terminal: header and names faint, the letter and the numbers behind it coloured, the rest normal. *)
Definition entry_cells (e : bytes * bytes) : list (ascii * style) :=
  in_style normal [NL] ++ in_style (Style true None) (B "    " ++ column (fst e) ++ B ": ") ++ in_style normal (snd e).
Definition cells (k : content) : list (ascii * style) :=
  in_style (Style true None) (DateSpec.stamp_text (k_nanoseconds k) ++ B " ")
  ++ in_style (severity_style (k_severity k)) ([letter (k_severity k)] ++ B " " ++ dec (k_tid k) ++ B "/" ++ dec (k_pid k))
  ++ in_style (Style true None) (B " - ")
  ++ in_style normal (k_message k) ++ flat_map entry_cells (k_entries k) ++ in_style normal [NL].

(** No text begins a control sequence. *)
Definition no_escape (k : content) : Prop :=
  ~ In (chr 27) (k_message k) /\ Forall (fun e => ~ In (chr 27) (fst e) /\ ~ In (chr 27) (snd e)) (k_entries k).

(** ---- how the call ends ---- *)

(** Every view lies within its object. *)
Definition good_view (v : StrModel.view) : Prop := exists s, views v s.
Definition good_views (r : drecord) : Prop :=
  good_view (d_formatted r)
  /\ forall a, In a (concat (d_pack r)) -> good_view (fst a) /\ match snd a with DString v => good_view v | _ => True end.
(** What the function values of a record do, in their order. *)
Definition effects (r : drecord) : list effect :=
  flat_map (fun a => match snd a with DFun f => [f] | _ => [] end) (concat (d_pack r)).
