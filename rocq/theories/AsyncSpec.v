(** What may be observed of an asynchronous sink. *)
From Verif Require Import Base AsyncModel.

(** Records in the order they were accepted, taken, filled and delivered. *)
Fixpoint accepted (evs : list event) : list (producer * msg) :=
  match evs with [] => [] | EAccept p m :: l => (p, m) :: accepted l | _ :: l => accepted l end.
Fixpoint filled (evs : list event) : list (producer * msg) :=
  match evs with [] => [] | EFilled p m :: l => (p, m) :: filled l | _ :: l => filled l end.
Fixpoint taken (evs : list event) : list (producer * msg) :=
  match evs with [] => [] | ETake p m :: l => (p, m) :: taken l | _ :: l => taken l end.
Fixpoint delivered (evs : list event) : list (producer * msg) :=
  match evs with [] => [] | EDeliver p m :: l => (p, m) :: delivered l | _ :: l => delivered l end.

(** Messages passed to emit by one thread, in order. *)
Fixpoint calls (p : producer) (evs : list event) : list msg :=
  match evs with
  | [] => []
  | ECall p' m :: l => if Nat.eqb p' p then m :: calls p l else calls p l
  | _ :: l => calls p l
  end.
Definition by_producer (p : producer) (l : list (producer * msg)) : list msg :=
  map snd (filter (fun x => Nat.eqb (fst x) p) l).

Definition is_prefix {A} (a b : list A) : Prop := exists rest, b = a ++ rest.

(** [sub a b]: [a] is what remains of [b] after leaving out some elements. *)
Inductive sub {A} : list A -> list A -> Prop :=
| sub_nil : sub [] []
| sub_keep x a b : sub a b -> sub (x :: a) (x :: b)
| sub_skip x a b : sub a b -> sub a (x :: b).

(** The events of one producer's own thread. *)
Definition own_event (p : producer) (e : event) : bool :=
  match e with
  | ECall q _ | EAccept q _ | EFull q _ _ | ERetry q _ | EDrop q _ | EFilled q _ | EReturn q _ => Nat.eqb q p
  | _ => false
  end.

(** One whole emit. Waiting: any number of failed attempts, each with exactly [capacity] cells in use, then
    success. Dropping: a single attempt, which fails only with [capacity] cells in use. *)
Inductive whole_emit (c : config) (p : producer) (m : msg) : list event -> Prop :=
| emit_waits k : c_policy c = Wait ->
    whole_emit c p m (ECall p m :: concat (repeat [EFull p m (c_capacity c); ERetry p m] k) ++ [EAccept p m; EFilled p m; EReturn p m])
| emit_at_once : whole_emit c p m [ECall p m; EAccept p m; EFilled p m; EReturn p m]
| emit_drops : c_policy c = Drop ->
    whole_emit c p m [ECall p m; EFull p m (c_capacity c); EDrop p m; EReturn p m].

(** A sequence of whole emits by one thread. *)
Inductive emits (c : config) (p : producer) : list event -> Prop :=
| emits_nil : emits c p []
| emits_snoc m evs e : emits c p evs -> whole_emit c p m e -> emits c p (evs ++ e).

(** What the calls made on a builder ask for: the last overflow policy and factor mentioned. *)
Fixpoint asked_factor (cs : list call) (default : N) : N :=
  match cs with [] => default | SetFactor n :: l => asked_factor l n | _ :: l => asked_factor l default end.
Fixpoint asked_policy (cs : list call) (default : policy) : policy :=
  match cs with
  | [] => default
  | (DropLvalue | DropRvalue) :: l => asked_policy l Drop
  | (WaitLvalue | WaitRvalue) :: l => asked_policy l Wait
  | _ :: l => asked_policy l default
  end.
