(** An asynchronous sink whose wrapped sink itself logs to it: src/sink/asynchronous.p.cpp:22-53, 85-147. A sink that reports its own trouble to the logger it belongs to
    is of this kind; emit then runs on the worker's thread (:136 -> root.cpp:193 -> asynchronous.p.cpp:94). AsyncModel has other threads as producers only. *)
From Verif Require Import Base AsyncModel.

(** Capacity and policy (asynchronous.p.cpp:12-18, 22-53), and the records that the wrapped sink logs to the same asynchronous sink while it is given a record. *)
Record econfig := EConfig { e_capacity : nat; e_policy : policy; e_says : msg -> list msg }.

(** Where the worker is: about to dequeue (:126); within the emit of the wrapped sink (:136) with records still to be logged; within [overflow] (:113) for the first of
    them; about to read [stopped] with nothing dequeued (:130); done. *)
Inductive eworker := EDequeue | EInside (todo : list msg) | EOverflow (m : msg) (todo : list msg) | ENothing | EExit.

(** A record got a cell, was discarded, was given to the wrapped sink; the worker's thread ended. *)
Inductive eevent := EAccept (m : msg) | EDrop (m : msg) | EDeliver (m : msg) | EExited.

(** The members of asynchronous_t (src/sink/asynchronous.hpp:40-53) and where its worker is. *)
Record estate := EState { e_queue : list msg; e_worker : eworker; e_stopped : bool }.

(** Scheduling: an emit of another thread takes its turn; the worker; the destructor stores [stopped] (:86). *)
Inductive eaction := EPut (m : msg) | EWork | EStop.

(** The attempt to enqueue: asynchronous.p.cpp:105-107. Taking a cell and filling it is one step here; that the two are apart is the matter of AsyncModel and JamModel. *)
Definition room (c : econfig) (s : estate) : bool := length (e_queue s) <? e_capacity c.

(** One step; [None]: not possible, or the thread waits. *)
Definition estep (c : econfig) (s : estate) (a : eaction) : option (estate * list eevent) :=
  match a with
  | EPut m =>                                                   (* asynchronous.p.cpp:94-120 by another thread *)
      if room c s then Some (EState (e_queue s ++ [m]) (e_worker s) (e_stopped s), [EAccept m])
      else match overflow (e_policy c) with
           | Retry => Some (s, [])
           | Discard => Some (s, [EDrop m])
           end
  | EWork =>
      match e_worker s with
      | EDequeue =>                                             (* asynchronous.p.cpp:126-136 *)
          match e_queue s with
          | m :: q => Some (EState q (EInside (e_says c m)) (e_stopped s), [EDeliver m])
          | [] => Some (EState [] ENothing (e_stopped s), [])
          end
      | EInside [] => Some (EState (e_queue s) EDequeue (e_stopped s), [])     (* asynchronous.p.cpp:137 *)
      | EInside (m :: todo) =>                                  (* asynchronous.p.cpp:105-112 by the worker *)
          if room c s then Some (EState (e_queue s ++ [m]) (EInside todo) (e_stopped s), [EAccept m])
          else Some (EState (e_queue s) (EOverflow m todo) (e_stopped s), [])
      | EOverflow m todo =>                                     (* asynchronous.p.cpp:113-118, 27-29, 42-48 *)
          match overflow (e_policy c) with
          | Retry => Some (EState (e_queue s) (EInside (m :: todo)) (e_stopped s), [])
          | Discard => Some (EState (e_queue s) (EInside todo) (e_stopped s), [EDrop m])
          end
      | ENothing =>                                             (* asynchronous.p.cpp:130-132, 142-145 *)
          if e_stopped s then Some (EState (e_queue s) EExit true, [EExited]) else Some (EState (e_queue s) EDequeue false, [])
      | EExit => None
      end
  | EStop => if e_stopped s then None else Some (EState (e_queue s) (e_worker s) true, [])
  end.

(** After the constructor: asynchronous.p.cpp:66-83. *)
Definition einit : estate := EState [] EDequeue false.

(** A schedule. *)
Fixpoint erun (c : econfig) (s : estate) (acts : list eaction) : option (estate * list eevent) :=
  match acts with
  | [] => Some (s, [])
  | a :: acts' =>
      match estep c s a with
      | None => None
      | Some (s', evs) => match erun c s' acts' with Some (s'', evs') => Some (s'', evs ++ evs') | None => None end
      end
  end.
