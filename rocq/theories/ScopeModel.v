(** Scoped attributes: src/scope/watcher.cpp, src/scope/holder.cpp and the thread-local pointer kept by
    the root logger (src/root.cpp:24-37, 108-137). *)
From Verif Require Import Base Values.

(** Loggers, threads and guard addresses. *)
Definition lid := nat.
Definition tid := nat.
Definition gid := nat.

(** include/blackhole/scope/watcher.hpp:30-32 [watcher_t] with the list of src/scope/holder.cpp:21-29
    [holder_t]: the manager it is registered with (identified by its logger), the previous watcher,
    the attributes. *)
Record guard := Guard { g_manager : lid; g_prev : option gid; g_attrs : attribute_list }.

(** The memory that matters: live guards by address, live loggers, and for each logger the
    thread-specific pointer of src/root.cpp:25. [st_count] counts the guards ever created; it only
    bounds the length of a walk. *)
Record state := State {
  st_guards : gid -> option guard;
  st_alive : lid -> bool;
  st_tls : lid -> tid -> option gid;
  st_count : nat
}.

Definition upd {A} (f : nat -> A) (k : nat) (v : A) : nat -> A := fun x => if Nat.eqb x k then v else f x.
Definition upd2 {A} (f : nat -> nat -> A) (k1 k2 : nat) (v : A) : nat -> nat -> A := upd f k1 (upd (f k1) k2 v).

(** What a program does with loggers and guards. *)
Inductive op :=
| NewLogger (l : lid)                               (* construct a root logger *)
| DestroyLogger (l : lid)
| Open (t : tid) (l : lid) (g : gid) (a : attribute_list)  (* thread [t] constructs a guard at address [g] *)
| Close (t : tid) (g : gid)                         (* thread [t] destroys the guard at [g] *)
| Log (t : tid) (l : lid)                           (* the scoped part of a log call *)
| MoveConstruct (t : tid) (src dst : lid)
| MoveAssign (t : tid) (src dst : lid).

(** Result of a step: the new state and, for a log call, the collected lists; or undefined behaviour
    (use of a dead guard or logger, a guard constructed over a live one, a failed BOOST_ASSERT). *)
Inductive step_result := Done (s : state) (out : option attribute_pack) | Undefined.

(** src/scope/watcher.cpp:25-31 [watcher_t::collect], started from a pointer. *)
Fixpoint collect (fuel : nat) (guards : gid -> option guard) (p : option gid) : option attribute_pack :=
  match p with
  | None => Some []
  | Some g =>
      match fuel, guards g with
      | S fuel', Some gd =>
          match collect fuel' guards (g_prev gd) with
          | Some rest => Some (g_attrs gd :: rest)
          | None => None
          end
      | _, _ => None
      end
  end.

(** src/scope/watcher.cpp:33-39 [watcher_t::rebind], started from a pointer. *)
Fixpoint rebind (fuel : nat) (guards : gid -> option guard) (p : option gid) (l : lid) : option (gid -> option guard) :=
  match p with
  | None => Some guards
  | Some g =>
      match fuel, guards g with
      | S fuel', Some gd => rebind fuel' (upd guards g (Some (Guard l (g_prev gd) (g_attrs gd)))) (g_prev gd) l
      | _, _ => None
      end
  end.

(** src/root.cpp:112-116 and 130-134: the destination takes the source's pointer of the calling
    thread and the chain is rebound to it. [alive], [tls]: after the destination exists. *)
Definition take_scopes (s : state) (t : tid) (src dst : lid) (alive : lid -> bool) (tls : lid -> tid -> option gid) : step_result :=
  match rebind (st_count s) (st_guards s) (tls src t) dst with
  | Some guards => Done (State guards alive (upd2 tls dst t (tls src t)) (st_count s)) None
  | None => Undefined
  end.

Definition step (s : state) (o : op) : step_result :=
  match o with
  | NewLogger l =>                                                    (* src/root.cpp:98-106 *)
      if st_alive s l then Undefined
      else Done (State (st_guards s) (upd (st_alive s) l true) (upd (st_tls s) l (fun _ => None)) (st_count s)) None
  | DestroyLogger l =>                                                (* src/root.cpp:119 *)
      if st_alive s l then Done (State (st_guards s) (upd (st_alive s) l false) (st_tls s) (st_count s)) None
      else Undefined
  | Open t l g a =>                                                   (* src/scope/watcher.cpp:13-18 *)
      match st_alive s l, st_guards s g with
      | true, None =>
          Done (State (upd (st_guards s) g (Some (Guard l (st_tls s l t) a))) (st_alive s)
                      (upd2 (st_tls s) l t (Some g)) (S (st_count s))) None
      | _, _ => Undefined
      end
  | Close t g =>                                                      (* src/scope/watcher.cpp:20-23 *)
      match st_guards s g with
      | Some gd =>
          if st_alive s (g_manager gd) then
            match st_tls s (g_manager gd) t with
            | Some p =>
                if Nat.eqb p g
                then Done (State (upd (st_guards s) g None) (st_alive s)
                                 (upd2 (st_tls s) (g_manager gd) t (g_prev gd)) (st_count s)) None
                else Undefined
            | None => Undefined
            end
          else Undefined
      | None => Undefined
      end
  | Log t l =>                                                        (* src/root.cpp:182-184 *)
      if st_alive s l then
        match collect (st_count s) (st_guards s) (st_tls s l t) with
        | Some pack => Done s (Some pack)
        | None => Undefined
        end
      else Undefined
  | MoveConstruct t src dst =>                                        (* src/root.cpp:108-117 *)
      if st_alive s src && negb (st_alive s dst)
      then take_scopes s t src dst (upd (st_alive s) dst true) (upd (st_tls s) dst (fun _ => None))
      else Undefined
  | MoveAssign t src dst =>                                           (* src/root.cpp:121-137 *)
      if st_alive s src && st_alive s dst
      then if Nat.eqb src dst then Done s None else take_scopes s t src dst (st_alive s) (st_tls s)
      else Undefined
  end.

(** A whole history: the packs collected by its log calls, in order; [None] on undefined behaviour. *)
Fixpoint run (s : state) (ops : list op) : option (state * list attribute_pack) :=
  match ops with
  | [] => Some (s, [])
  | o :: ops' =>
      match step s o with
      | Undefined => None
      | Done s' out =>
          match run s' ops' with
          | Some (s'', outs) => Some (s'', match out with Some p => p :: outs | None => outs end)
          | None => None
          end
      end
  end.

Definition init : state := State (fun _ => None) (fun _ => false) (fun _ _ => None) 0.
