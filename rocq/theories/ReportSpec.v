(** Reading the report of an error in a pattern. *)
From Verif Require Import Base.

(** The text in front of the first newline, and what follows. *)
Fixpoint first_line (s : bytes) : option (bytes * bytes) :=
  match s with
  | [] => None
  | c :: s' => if Ascii.eqb c NL then Some ([], s') else match first_line s' with Some (l, r) => Some (c :: l, r) | None => None end
  end.

(** What is in front of the last newline, and the last line. *)
Fixpoint last_line (s : bytes) : option (bytes * bytes) :=
  match s with
  | [] => None
  | c :: s' =>
      match last_line s' with
      | Some (a, l) => Some (c :: a, l)
      | None => if Ascii.eqb c NL then Some ([], s') else None
      end
  end.

(** The column of the caret: tildes and then the caret, which ends the line. *)
Fixpoint caret (s : bytes) : option nat :=
  match s with
  | [] => None
  | c :: s' =>
      if Ascii.eqb c "^" then match s' with [] => Some 0%nat | _ => None end
      else if Ascii.eqb c "~" then option_map S (caret s') else None
  end.

(** A report: the reason in the first line, the column of the caret in the last, the text it is about between them. *)
Definition read_report (s : bytes) : option (bytes * bytes * nat) :=
  match first_line s with
  | None => None
  | Some (reason, rest) =>
      match last_line rest with
      | None => None
      | Some (pattern, mark) => match caret mark with Some k => Some (reason, pattern, k) | None => None end
      end
  end.

(** The lines of a text. *)
Fixpoint lines (s : bytes) : list bytes :=
  match s with
  | [] => [[]]
  | c :: s' => if Ascii.eqb c NL then [] :: lines s' else match lines s' with l :: ls => (c :: l) :: ls | [] => [[c]] end
  end.

(** In the report, the caret of the last line is below this character of the line above; or behind that line's last character ([None]). *)
Definition caret_below (s : bytes) (c : option ascii) : Prop :=
  exists front above mark k, lines s = front ++ [above; mark] /\ caret mark = Some k /\ nth_error above k = c /\ (k <= length above)%nat.
