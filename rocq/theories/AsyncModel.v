(** The asynchronous sink (src/sink/asynchronous.p.cpp, src/sink/asynchronous.hpp): any number of
    producer threads calling [emit], the worker thread running [run], and the destructor. *)
From Verif Require Import Base.

(** Producer threads; records (and their messages) are opaque here, see RecordBufModel for the copying. *)
Definition producer := nat.
Definition msg := nat.

(** src/sink/asynchronous.p.cpp:22-53 [drop_overflow_policy_t], [wait_overflow_policy_t]. *)
Inductive policy := Drop | Wait.
(** src/sink/asynchronous.hpp:17-20 [overflow_policy_t::action_t]. *)
Inductive verdict := Retry | Discard.

(** src/sink/asynchronous.p.cpp:27-29 and 42-48. The wait policy sleeps at most a millisecond, whatever
    happens meanwhile, and asks for another attempt. *)
Definition overflow (p : policy) : verdict := match p with Drop => Discard | Wait => Retry end.

(** A cell of the queue between the two positions: reserved by a producer that has not finished filling
    it, or filled. The bounded queue of libcds (Vyukov) reserves a cell by advancing the enqueue position
    and then fills and publishes it; the consumer can take the oldest cell only when it is published. *)
Inductive cell := Reserved (p : producer) (m : msg) | Ready (p : producer) (m : msg).

(** Where a producer is inside [emit] (src/sink/asynchronous.p.cpp:94-121). *)
Inductive ppc :=
| PIdle                 (* not inside emit *)
| PTry (m : msg)        (* about to ask for a cell, line 105 *)
| PFill (m : msg)       (* cell reserved, copying the record into it, lines 105-107 *)
| PFull (m : msg).      (* no cell, about to ask the policy, line 113 *)

(** Where the worker is inside [run] (src/sink/asynchronous.p.cpp:123-147). *)
Inductive wpc :=
| WTake                                (* about to dequeue, line 126 *)
| WCheck (got : option (producer * msg))  (* dequeue done, about to read [stopped], line 130 *)
| WEmit (p : producer) (m : msg)       (* about to call the wrapped sink, line 136 *)
| WExit                                (* returned, line 131 *)
| WDead.                               (* an exception left the thread function, line 139: std::terminate *)

(** Destructor (src/sink/asynchronous.p.cpp:85-88). *)
Inductive dpc := DNone | DStopping | DDone.

(** What can be observed. *)
Inductive event :=
| ECall (p : producer) (m : msg)       (* emit entered *)
| EAccept (p : producer) (m : msg)     (* a cell was reserved *)
| EFull (p : producer) (m : msg) (waiting : nat)  (* no cell was free; number of cells in use *)
| ERetry (p : producer) (m : msg)
| EDrop (p : producer) (m : msg)
| EFilled (p : producer) (m : msg)     (* the record is in its cell *)
| EReturn (p : producer) (m : msg)     (* emit returned *)
| ETake (p : producer) (m : msg)       (* the worker took a record out of the queue *)
| EMiss                                (* the worker found nothing to take *)
| EDeliver (p : producer) (m : msg)    (* the wrapped sink was called *)
| EExit                                (* the worker returned *)
| ETerminate                           (* the process was terminated *)
| EStop                                (* the destructor started *)
| EDestroyed.                          (* the destructor returned *)

Record state := State {
  s_queue : list cell;                 (* oldest first *)
  s_prod : producer -> ppc;
  s_work : wpc;
  s_dtor : dpc
}.

(** src/sink/asynchronous.p.cpp:12-18 and 67-83: capacity and policy fixed at construction. *)
Record config := Config { c_capacity : nat; c_policy : policy }.

Definition upd {A} (f : nat -> A) (k : nat) (v : A) : nat -> A := fun x => if Nat.eqb x k then v else f x.

(** Publishing the reserved cell of a producer (a producer has at most one). *)
Fixpoint publish (q : list cell) (p : producer) : list cell :=
  match q with
  | [] => []
  | Reserved p' m :: q' => if Nat.eqb p' p then Ready p' m :: q' else Reserved p' m :: publish q' p
  | Ready p' m :: q' => Ready p' m :: publish q' p
  end.

Definition is_stopped (d : dpc) : bool := match d with DNone => false | _ => true end.

(** A scheduler decision: which thread does its next atomic step. *)
Inductive action :=
| Call (p : producer) (m : msg)        (* thread [p] calls emit *)
| Go (p : producer)                    (* thread [p] continues inside emit *)
| Work (throws : bool)                 (* the worker continues; [throws]: outcome of the wrapped sink if called *)
| Stop                                 (* the destructor sets the flag *)
| Join.                                (* the destructor joins *)

(** One atomic step with the events it produces; [None]: not possible in this state. *)
Definition step (c : config) (s : state) (a : action) : option (state * list event) :=
  match a with
  | Call p m =>
      match s_prod s p with
      | PIdle => Some (State (s_queue s) (upd (s_prod s) p (PTry m)) (s_work s) (s_dtor s), [ECall p m])
      | _ => None
      end
  | Go p =>
      match s_prod s p with
      | PIdle => None
      | PTry m =>                                              (* asynchronous.p.cpp:105 *)
          if length (s_queue s) <? c_capacity c
          then Some (State (s_queue s ++ [Reserved p m]) (upd (s_prod s) p (PFill m)) (s_work s) (s_dtor s), [EAccept p m])
          else Some (State (s_queue s) (upd (s_prod s) p (PFull m)) (s_work s) (s_dtor s), [EFull p m (length (s_queue s))])
      | PFill m =>                                             (* asynchronous.p.cpp:106, 109-111 *)
          Some (State (publish (s_queue s) p) (upd (s_prod s) p PIdle) (s_work s) (s_dtor s), [EFilled p m; EReturn p m])
      | PFull m =>                                             (* asynchronous.p.cpp:113-118 *)
          match overflow (c_policy c) with
          | Retry => Some (State (s_queue s) (upd (s_prod s) p (PTry m)) (s_work s) (s_dtor s), [ERetry p m])
          | Discard => Some (State (s_queue s) (upd (s_prod s) p PIdle) (s_work s) (s_dtor s), [EDrop p m; EReturn p m])
          end
      end
  | Work throws =>
      match s_work s with
      | WTake =>                                               (* asynchronous.p.cpp:126-128 *)
          match s_queue s with
          | Ready p m :: q' => Some (State q' (s_prod s) (WCheck (Some (p, m))) (s_dtor s), [ETake p m])
          | _ => Some (State (s_queue s) (s_prod s) (WCheck None) (s_dtor s), [EMiss])
          end
      | WCheck got =>                                          (* asynchronous.p.cpp:130-134, 142-145 *)
          match got with
          | Some (p, m) => Some (State (s_queue s) (s_prod s) (WEmit p m) (s_dtor s), [])
          | None =>
              if is_stopped (s_dtor s)
              then Some (State (s_queue s) (s_prod s) WExit (s_dtor s), [EExit])
              else Some (State (s_queue s) (s_prod s) WTake (s_dtor s), [])
          end
      | WEmit p m =>                                           (* asynchronous.p.cpp:135-141 *)
          if throws
          then Some (State (s_queue s) (s_prod s) WDead (s_dtor s), [EDeliver p m; ETerminate])
          else Some (State (s_queue s) (s_prod s) WTake (s_dtor s), [EDeliver p m])
      | WExit | WDead => None
      end
  | Stop =>                                                    (* asynchronous.p.cpp:86 *)
      match s_dtor s with
      | DNone => Some (State (s_queue s) (s_prod s) (s_work s) DStopping, [EStop])
      | _ => None
      end
  | Join =>                                                    (* asynchronous.p.cpp:87 *)
      match s_dtor s, s_work s with
      | DStopping, WExit => Some (State (s_queue s) (s_prod s) (s_work s) DDone, [EDestroyed])
      | _, _ => None
      end
  end.

Definition init : state := State [] (fun _ => PIdle) WTake DNone.

(** A schedule, the state it leads to and everything that happened, oldest first. After the process was
    terminated no thread runs. *)
Fixpoint run (c : config) (s : state) (acts : list action) : option (state * list event) :=
  match acts with
  | [] => Some (s, [])
  | a :: acts' =>
      match s_work s with
      | WDead => None
      | _ =>
          match step c s a with
          | None => None
          | Some (s', evs) =>
              match run c s' acts' with
              | Some (s'', evs') => Some (s'', evs ++ evs')
              | None => None
              end
          end
      end
  end.

(** ** Construction (src/sink/asynchronous.cpp, src/sink/asynchronous.p.cpp:12-18, 55-83) *)

Inductive build_result := Built (c : config) | InvalidArgument | UndefinedBehaviour.

(** src/sink/asynchronous.p.cpp:12-18 [exp2]. *)
Definition exp2 (factor : N) : option nat :=
  if (factor <? 2)%N || (20 <? factor)%N then None else Some (N.to_nat (2 ^ factor)).

(** src/sink/asynchronous.p.cpp:55-65 [overflow_policy_factory_t::create]. *)
Definition create_policy (name : bytes) : option policy :=
  if bytes_eqb name (B "drop") then Some Drop
  else if bytes_eqb name (B "wait") then Some Wait
  else None.

(** src/sink/asynchronous.cpp:16-21 [builder<asynchronous_t>::inner_t]. *)
Record builder := Builder { b_policy : policy; b_factor : N }.

Inductive call := SetFactor (n : N) | DropLvalue | DropRvalue | WaitLvalue | WaitRvalue.

(** src/sink/asynchronous.cpp:23-25 [builder]. *)
Definition builder_new : builder := Builder Wait 10.

(** src/sink/asynchronous.cpp:27-52: the setters; the rvalue overload of [drop] forwards to [wait]. *)
Definition builder_call (b : builder) (x : call) : builder :=
  match x with
  | SetFactor n => Builder (b_policy b) n
  | DropLvalue => Builder Drop (b_factor b)
  | DropRvalue | WaitLvalue | WaitRvalue => Builder Wait (b_factor b)
  end.

(** src/sink/asynchronous.cpp:54-56 [build]: the two-argument constructor (asynchronous.p.cpp:67-73),
    which always installs the wait policy. *)
Definition builder_build (b : builder) : build_result :=
  match exp2 (b_factor b) with Some cap => Built (Config cap Wait) | None => InvalidArgument end.

(** src/sink/asynchronous.cpp:62-81 [factory::from], for a wrapped sink that is created without error:
    options read with [.get()] on a possibly empty optional (undefined when absent). *)
Definition factory_from (factor : option N) (overflow_name : option bytes) : build_result :=
  match factor, overflow_name with
  | Some f, Some name =>
      match create_policy name with
      | None => InvalidArgument
      | Some p => match exp2 f with Some cap => Built (Config cap p) | None => InvalidArgument end
      end
  | _, _ => UndefinedBehaviour
  end.
