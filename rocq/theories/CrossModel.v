(** Several threads in root loggers, with the locks they take and the code of the user they run meanwhile: src/root.cpp:41-69, 88-92, 139-148, 175-201. ReenterModel has one
    thread; FilterRaceModel has no code of the user. Loggers are neither assigned nor destroyed here, so that each keeps its object; nothing throws. *)
From Verif Require Import Base ReenterModel.

(** What code of the user does with loggers: log, and set filters. *)
Inductive xcmd := XLog (l : lid) (m : sid) | XSet (l : lid) (f : fid).

(** When code of the user is run: a filter is copied (root.cpp:179), the copy is asked (:187) and destroyed (:201), the filter a logger had is destroyed (:144), a message is
    made (:188), a record is handed over (:193). A filter whose copies share something can tell its last destruction from others. *)
Inductive xevent := XCopy (f : fid) | XAsk (f : fid) | XDropCopy (f : fid) | XDropOld (f : fid) | XSupply (m : sid) | XHandle (h : hid).

(** The user's code and the filters' answers. *)
Record xuser := XUser { x_code : xevent -> list xcmd; x_accepts : fid -> bool }.

(** What a thread is about to do: take or drop a lock (the spin locks of root.cpp:47-48 for each logger and :73, 95 for each object, here named after its logger); a command; code of the
    user; within the lock of the object: copy the filter (:178-180) and go on with [consume], or set it (:143-145). *)
Inductive micro := UTake (x : lock) | UDrop (x : lock) | UCmd (c : xcmd) | UEvent (e : xevent) | UCopy (l : lid) (m : sid) | USet (l : lid) (f : fid).

(** The filters and handlers of the loggers, who holds each lock, and what each thread has still to do. *)
Record xstate := XState { x_filters : lid -> fid; x_handlers : lid -> list hid; x_holder : lock -> option nat; x_threads : nat -> list micro }.

Definition set_holder (h : lock -> option nat) (x : lock) (v : option nat) : lock -> option nat := fun y => if lock_eqb y x then v else h y.

(** root.cpp:175-180: [load] (:57-58) and the copy of the filter; root.cpp:139-148: [load], the assignment, [store] (:66-67). *)
Definition begin_cmd (c : xcmd) : list micro :=
  match c with
  | XLog l m => [UTake (OfLogger l); UDrop (OfLogger l); UTake (OfObject l); UCopy l m]
  | XSet l f => [UTake (OfLogger l); UDrop (OfLogger l); UTake (OfObject l); USet l f; UDrop (OfObject l); UTake (OfLogger l); UDrop (OfLogger l)]
  end.
(** root.cpp:178-201, from within the lock. *)
Definition consume (u : xuser) (f : fid) (hs : list hid) (l : lid) (m : sid) : list micro :=
  UEvent (XCopy f) :: UDrop (OfObject l) :: UEvent (XAsk f) ::
  (if x_accepts u f then UEvent (XSupply m) :: map (fun h => UEvent (XHandle h)) hs else []) ++ [UEvent (XDropCopy f)].

Definition with_thread (s : xstate) (t : nat) (ms : list micro) : xstate := XState (x_filters s) (x_handlers s) (x_holder s) (upd (x_threads s) t ms).

(** One step of a thread; [None]: it has ended, or it waits for a lock. *)
Definition xstep (u : xuser) (s : xstate) (t : nat) : option xstate :=
  match x_threads s t with
  | [] => None
  | UTake x :: r =>                                             (* src/spinlock.linux.hpp:25-27 *)
      match x_holder s x with
      | None => Some (XState (x_filters s) (x_handlers s) (set_holder (x_holder s) x (Some t)) (upd (x_threads s) t r))
      | Some _ => None
      end
  | UDrop x :: r => Some (XState (x_filters s) (x_handlers s) (set_holder (x_holder s) x None) (upd (x_threads s) t r))   (* src/spinlock.linux.hpp:29-31 *)
  | UCmd c :: r => Some (with_thread s t (begin_cmd c ++ r))
  | UEvent e :: r => Some (with_thread s t (map UCmd (x_code u e) ++ r))
  | UCopy l m :: r => Some (with_thread s t (consume u (x_filters s l) (x_handlers s l) l m ++ r))
  | USet l f :: r => Some (XState (upd (x_filters s) l f) (x_handlers s) (x_holder s) (upd (x_threads s) t (UEvent (XDropOld (x_filters s l)) :: r)))
  end.

(** A schedule: which thread is next. *)
Fixpoint xrun (u : xuser) (s : xstate) (sched : list nat) : option xstate :=
  match sched with
  | [] => Some s
  | t :: sched' => match xstep u s t with Some s' => xrun u s' sched' | None => None end
  end.

(** Loggers, and a program for each thread. *)
Definition xstart (filters : lid -> fid) (handlers : lid -> list hid) (programs : nat -> list xcmd) : xstate :=
  XState filters handlers (fun _ => None) (fun t => map UCmd (programs t)).
