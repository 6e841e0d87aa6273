(** Specification vocabulary. *)
From Verif Require Import Base ConsoleModel DeliveryModel.

(** The sinks reached: all of them, or up to and including the first that throws. *)
Definition reached (sinks : list bool) (n : nat) : Prop :=
  (Forall (fun b => b = false) sinks /\ n = length sinks) \/
  exists ok rest, sinks = ok ++ true :: rest /\ Forall (fun b => b = false) ok /\ n = S (length ok).

(** The sinks that got the text, in order, with it. *)
Definition deliveries (text : bytes) (n : nat) : list hevent := map (fun i => HEmit i text) (seq 0 n).

Definition no_nul (s : bytes) : Prop := ~ In NUL s.
