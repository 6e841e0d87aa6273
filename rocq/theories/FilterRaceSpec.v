(** What reassigning a logger and replacing its filter should do, from the order of completed calls. *)
From Verif Require Import Base FilterRaceModel.

(** The object most recently assigned to a logger. *)
Fixpoint assigned (l : lid) (start : oid) (ls : list label) : oid :=
  match ls with
  | [] => start
  | AssignDone _ l' o :: ls' => assigned l (if Nat.eqb l' l then o else start) ls'
  | _ :: ls' => assigned l start ls'
  end.

(** The filter most recently put into an object. *)
Fixpoint installed (o : oid) (start : fid) (ls : list label) : fid :=
  match ls with
  | [] => start
  | FilterApply _ o' f :: ls' => installed o (if Nat.eqb o' o then f else start) ls'
  | _ :: ls' => installed o start ls'
  end.

(** No call of [filter] on the logger, no assignment to it. *)
Definition no_filter_calls (l : lid) (ls : list label) : Prop := forall t f, ~ In (FilterStart t l f) ls.
Definition no_assignments (l : lid) (ls : list label) : Prop := forall t src, ~ In (AssignStart t src l) ls.

(** All calls have returned. *)
Definition quiet (s : state) : Prop := forall t, pcs s t = Idle.

(** No assignment to the logger is completed during a call of [filter] on it. *)
Definition apart (l : lid) (ls : list label) : Prop :=
  forall ls1 t f ls2 t' o ls3, ls = ls1 ++ FilterStart t l f :: ls2 ++ AssignDone t' l o :: ls3 -> In (FilterDone t l f) ls2.
