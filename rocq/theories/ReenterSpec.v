(** Code of the user within log calls. *)
From Verif Require Import Base ReenterModel.

(** The loggers a command uses exist. *)
Definition uses (n : nat) (c : cmd) : Prop :=
  match c with
  | Log l _ | SetFilter l _ | Replace l _ _ => (l < n)%nat
  | Assign dst src => (dst < n)%nat /\ (src < n)%nat
  end.
Definition known (u : user) (n : nat) (cs : list cmd) : Prop := Forall (uses n) cs /\ forall e, Forall (uses n) (u_code u e).

(** Copying and destroying filters and destroying handlers does nothing with loggers, and destructors do not throw. *)
Definition silent (u : user) (e : event) : Prop := u_code u e = [] /\ u_throws u e = false.
Definition quiet (u : user) : Prop :=
  (forall f, u_code u (CopyFilter f) = []) /\ (forall f, silent u (DropFilter f)) /\ (forall h, silent u (DropHandler h)).

(** The state in which commands end, with an exception or without. *)
Definition ends (r : result) (s : state) : Prop := r = Done s \/ r = Threw s.

(** What was asked of the user: questions to filters, messages, records. *)
Definition asked (e : event) : bool := match e with AskFilter _ | Supply _ | Handle _ => true | _ => false end.

(** What was run at a level. *)
Definition at_level (k : nat) (tr : list (nat * event * list lock)) : list event :=
  map (fun x => snd (fst x)) (List.filter (fun x => Nat.eqb (fst (fst x)) k) tr).
