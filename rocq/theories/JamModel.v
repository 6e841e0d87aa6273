(** The asynchronous sink when the copy of a record into the queue throws: src/sink/asynchronous.p.cpp:94-147 with the bounded queue of libcds. AsyncModel assumes that
    copies succeed. *)
From Verif Require Import Base AsyncModel.

(** The cells from the dequeue position on, in the order of their positions: being filled by a producer, filled, or left by a producer whose copy threw. [enqueue_with] of
    libcds advances the enqueue position, then calls the function (asynchronous.p.cpp:105-107), and publishes the cell after that; it has nothing that
    catches exceptions, so that a cell whose function threw is not published. (The library is not part of /repo; this is what is known of it.) (What [Left] is about is remembered here only; the cell has nothing usable.) *)
Inductive jcell := Filling (p : producer) (m : msg) | Filled (p : producer) (m : msg) | Left (p : producer) (m : msg).

(** Where the worker is: about to dequeue; with a record, or none, about to read [stopped] (:130); done. *)
Inductive jwork := JTake | JCheck (got : option (producer * msg)) | JExit.

(** What happens (asynchronous.p.cpp:85-147), with the positions in the queue. *)
Inductive jevent :=
| JCall (p : producer) (m : msg)                   (* emit entered *)
| JAccept (pos : nat) (p : producer) (m : msg)     (* a cell was reserved *)
| JFull (p : producer) (m : msg)                   (* no cell was free *)
| JReturn (p : producer) (m : msg)                 (* emit returned *)
| JThrew (pos : nat) (p : producer) (m : msg)      (* the copy threw, and emit with it *)
| JDeliver (pos : nat) (p : producer) (m : msg)    (* the wrapped sink was given the record *)
| JExited
| JDestroyed.

(** The members of asynchronous_t (src/sink/asynchronous.hpp:40-53), and where its threads are. *)
Record jstate := JState {
  j_head : nat;                        (* the dequeue position *)
  j_cells : list jcell;
  j_prod : producer -> ppc;
  j_work : jwork;
  j_dtor : dpc
}.

(** Capacity, policy, and what the queue's [dequeue_with] does at a cell that is reserved but not published: report that there is nothing (libcds 1), or try again
    for ever (libcds 2, where only the positions decide whether the queue is empty). The library is not part of /repo. *)
Record jconfig := JConfig { j_capacity : nat; j_policy : policy; j_spins : bool }.

(** What becomes of the cell the producer is filling (asynchronous.p.cpp:105-107). *)
Fixpoint settle (cells : list jcell) (p : producer) (x : jcell) : list jcell :=
  match cells with
  | [] => []
  | Filling p' m :: r => if Nat.eqb p' p then x :: r else Filling p' m :: settle r p x
  | y :: r => y :: settle r p x
  end.
(** And its position. *)
Fixpoint filling_at (cells : list jcell) (p : producer) (pos : nat) : nat :=
  match cells with
  | [] => pos
  | Filling p' m :: r => if Nat.eqb p' p then pos else filling_at r p (S pos)
  | _ :: r => filling_at r p (S pos)
  end.

(** Scheduling: a call of emit; the next step of a producer inside emit, whose copy throws or not, if it is one; the worker; the destructor. *)
Inductive jaction := DoCall (p : producer) (m : msg) | DoGo (p : producer) (throws : bool) | DoWork | DoStop | DoJoin.

(** Changes of one component of the state. *)
Definition with_prod (s : jstate) (p : producer) (x : ppc) : jstate := JState (j_head s) (j_cells s) (upd (j_prod s) p x) (j_work s) (j_dtor s).
Definition with_jcells (s : jstate) (cs : list jcell) : jstate := JState (j_head s) cs (j_prod s) (j_work s) (j_dtor s).
Definition with_work (s : jstate) (w : jwork) : jstate := JState (j_head s) (j_cells s) (j_prod s) w (j_dtor s).

(** One step; [None]: not possible. *)
Definition jstep (c : jconfig) (s : jstate) (a : jaction) : option (jstate * list jevent) :=
  match a with
  | DoCall p m => match j_prod s p with PIdle => Some (with_prod s p (PTry m), [JCall p m]) | _ => None end
  | DoGo p throws =>
      match j_prod s p with
      | PIdle => None
      | PTry m =>                                              (* asynchronous.p.cpp:105 *)
          if length (j_cells s) <? j_capacity c
          then Some (with_prod (with_jcells s (j_cells s ++ [Filling p m])) p (PFill m), [JAccept (j_head s + length (j_cells s)) p m])
          else Some (with_prod s p (PFull m), [JFull p m])
      | PFill m =>                                             (* asynchronous.p.cpp:106 *)
          if throws
          then Some (with_prod (with_jcells s (settle (j_cells s) p (Left p m))) p PIdle, [JThrew (filling_at (j_cells s) p (j_head s)) p m])
          else Some (with_prod (with_jcells s (settle (j_cells s) p (Filled p m))) p PIdle, [JReturn p m])
      | PFull m =>                                             (* asynchronous.p.cpp:113-118 *)
          match overflow (j_policy c) with
          | Retry => Some (with_prod s p (PTry m), [])
          | Discard => Some (with_prod s p PIdle, [JReturn p m])
          end
      end
  | DoWork =>
      match j_work s with
      | JTake =>                                               (* asynchronous.p.cpp:126-128 *)
          match j_cells s with
          | Filled p m :: r => Some (JState (S (j_head s)) r (j_prod s) (JCheck (Some (p, m))) (j_dtor s), [])
          | [] => Some (with_work s (JCheck None), [])
          | _ :: _ => if j_spins c then Some (s, []) else Some (with_work s (JCheck None), [])
          end
      | JCheck (Some (p, m)) =>                                (* asynchronous.p.cpp:130-138; the wrapped sink does not throw *)
          Some (with_work s JTake, [JDeliver (pred (j_head s)) p m])
      | JCheck None =>                                         (* asynchronous.p.cpp:130-132, 142-145 *)
          if is_stopped (j_dtor s) then Some (with_work s JExit, [JExited]) else Some (with_work s JTake, [])
      | JExit => None
      end
  | DoStop =>                                                  (* asynchronous.p.cpp:86 *)
      match j_dtor s with
      | DNone => Some (JState (j_head s) (j_cells s) (j_prod s) (j_work s) DStopping, [])
      | _ => None
      end
  | DoJoin =>                                                  (* asynchronous.p.cpp:87 *)
      match j_dtor s, j_work s with
      | DStopping, JExit => Some (JState (j_head s) (j_cells s) (j_prod s) (j_work s) DDone, [JDestroyed])
      | _, _ => None
      end
  end.

(** After the constructor: asynchronous.p.cpp:66-83. *)
Definition jinit : jstate := JState 0 [] (fun _ => PIdle) JTake DNone.

(** A schedule. *)
Fixpoint jrun (c : jconfig) (s : jstate) (acts : list jaction) : option (jstate * list jevent) :=
  match acts with
  | [] => Some (s, [])
  | a :: acts' =>
      match jstep c s a with
      | None => None
      | Some (s', evs) => match jrun c s' acts' with Some (s'', evs') => Some (s'', evs ++ evs') | None => None end
      end
  end.
