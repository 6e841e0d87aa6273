(** What is accepted and delivered, and sinks whose records about records come to an end. *)
From Verif Require Import Base AsyncModel EchoModel.

Definition got (e : eevent) : list msg := match e with EAccept m => [m] | _ => [] end.
Definition gave (e : eevent) : list msg := match e with EDeliver m => [m] | _ => [] end.
Definition taken_in (evs : list eevent) : list msg := flat_map got evs.
Definition passed_on (evs : list eevent) : list msg := flat_map gave evs.

(** Each record that the wrapped sink logs about a record is of lower rank, so that this comes to an end. *)
Definition dwindles (says : msg -> list msg) : Prop := exists rank : msg -> nat, forall m m', In m' (says m) -> (rank m' < rank m)%nat.

(** The worker has not found the queue empty. *)
Definition at_work (s : estate) : Prop := match e_worker s with ENothing | EExit => False | _ => True end.
