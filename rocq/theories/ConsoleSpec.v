(** Specification of the console output. *)
From Verif Require Import Base ConsoleModel.

Definition is_prefix {A} (a b : list A) : Prop := exists rest, b = a ++ rest.

(** The texts whose writing began on stream [s], in that order. *)
Fixpoint texts (s : bool) (evs : list event) : list bytes :=
  match evs with
  | ETake _ q :: evs' => (if Bool.eqb (q_stream q) s then [q_bytes q] else []) ++ texts s evs'
  | _ :: evs' => texts s evs'
  | [] => []
  end.

(** Requests of thread [t]: begun, written (mutex taken), finished. *)
Fixpoint begun (t : nat) (evs : list event) : list request :=
  match evs with EBegin u q :: r => (if Nat.eqb u t then [q] else []) ++ begun t r | _ :: r => begun t r | [] => [] end.
Fixpoint taken (t : nat) (evs : list event) : list request :=
  match evs with ETake u q :: r => (if Nat.eqb u t then [q] else []) ++ taken t r | _ :: r => taken t r | [] => [] end.
Fixpoint finished (t : nat) (evs : list event) : list request :=
  match evs with EDone u q :: r => (if Nat.eqb u t then [q] else []) ++ finished t r | _ :: r => finished t r | [] => [] end.

(** The output consists of whole texts, except that the last may be unfinished. *)
Definition whole_texts (out : bytes) (ts : list bytes) : Prop :=
  out = concat ts \/ exists ts' t p, ts = ts' ++ [t] /\ is_prefix p t /\ out = concat ts' ++ p.

(** The last call concerning a record. *)
Definition concerns {R} (severity : R -> Z) (r : R) (x : colorize R) : bool :=
  match x with BySeverity s _ => (s =? severity r)%Z | ByFunction _ => true end.
Definition colour_given {R} (r : R) (x : colorize R) : termcolor :=
  match x with BySeverity _ c => c | ByFunction f => f r end.

(** The requests of a schedule all use one mutex. *)
Definition one_lock (l : nat) (acts : list act) : Prop := forall t q, In (Begin t q) acts -> q_lock q = l.
