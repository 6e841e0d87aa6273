(** What is accepted, delivered and lost by a queue. *)
From Verif Require Import Base AsyncModel JamModel.

(** The records that got a cell, with its position, and those that reached the wrapped sink, oldest first. *)
Definition accepted1 (e : jevent) : list (nat * producer * msg) := match e with JAccept pos p m => [(pos, p, m)] | _ => [] end.
Definition delivered1 (e : jevent) : list (nat * producer * msg) := match e with JDeliver pos p m => [(pos, p, m)] | _ => [] end.
Definition accepted (evs : list jevent) : list (nat * producer * msg) := flat_map accepted1 evs.
Definition delivered (evs : list jevent) : list (nat * producer * msg) := flat_map delivered1 evs.

(** No copy threw. *)
Definition no_throw (evs : list jevent) : Prop := forall pos p m, ~ In (JThrew pos p m) evs.

(** The worker has not found the queue empty. *)
Definition working (s : jstate) : Prop := match j_work s with JTake | JCheck (Some _) => True | _ => False end.
