(** What several threads that use one logger can rely on. *)
From Verif Require Import Base Values RootModel FactoriesModel SystemModel SystemSpec ThreadsModel.
From Verif Require FmtModel.

(** What one thread did; what all did; when a thread began its calls. *)
Definition of_thread (t : nat) (h : happening) : list event :=
  match h with Did t' e => if Nat.eqb t' t then [e] else [] | _ => [] end.
Definition of_any (h : happening) : list event := match h with Did _ e => [e] | _ => [] end.
Definition began (t : nat) (h : happening) : list Z := match h with Began t' now => if Nat.eqb t' t then [now] else [] | _ => [] end.
Definition by_thread (t : nat) (tr : list happening) : list event := flat_map (of_thread t) tr.
Definition all_events (tr : list happening) : list event := flat_map of_any tr.
Definition times (t : nat) (tr : list happening) : list Z := flat_map (began t) tr.

(** The calls made at those times. *)
Inductive made_at : list call -> list Z -> list call -> Prop :=
| made_none : made_at [] [] []
| made_more c now calls nows cs : made_at calls nows cs -> made_at (c :: calls) (now :: nows) (stamp c now :: cs).

(** Every thread has made all its calls. *)
Definition all_done (ts : list thread) : Prop := Forall (fun x => t_calls x = [] /\ t_stage x = Idle) ts.

(** The texts of one thread among those of all. *)
Definition texts_of (t : nat) (l : list (nat * bytes)) : list bytes := map snd (filter (fun x => Nat.eqb (fst x) t) l).

(** What is seen of a happening on the standard output: the line of a console sink in one piece, a complaint in its parts. *)
Definition shown (hs : list FactoriesModel.handler) (h : happening) : bytes :=
  match h with
  | Did _ (Emitted i j severity t q b) => on_stdout hs (Emitted i j severity t q b)
  | Wrote _ piece => piece
  | _ => []
  end.
Definition is_of (t : nat) (h : happening) : bool := match h with Began t' _ | Did t' _ | Wrote t' _ => Nat.eqb t' t end.
