(** Threads that wait for each other. *)
From Verif Require Import Base ReenterModel CrossModel.

(** Copying a filter, and destroying the one a logger had, does nothing with loggers. Everything else may. *)
Definition modest (u : xuser) : Prop := forall f, x_code u (XCopy f) = [] /\ x_code u (XDropOld f) = [].

Definition unfinished (s : xstate) (t : nat) : Prop := x_threads s t <> [].
(** Someone has something to do, and nobody can do anything. *)
Definition deadlocked (u : xuser) (s : xstate) : Prop := (exists t, unfinished s t) /\ forall t, xstep u s t = None.

(** Code of the user that is run within the lock of an object. *)
Definition within (e : xevent) : bool := match e with XCopy _ | XDropOld _ => true | _ => false end.
