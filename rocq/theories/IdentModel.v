(** The identity of syslog messages: the sinks of src/sink/syslog.cpp made and destroyed by several threads, and the one connection of the
    process to syslog, which the application may use as well. *)
From Verif Require Import Base DeliveryModel.
Open Scope N_scope.

(** A [std::string] of libstdc++: up to 15 characters are inside of the object, more in a block of memory. *)
Inductive characters := Short (s : bytes) | Long (block : N) (s : bytes).
Definition SHORT : N := 15.

(** src/sink/syslog.hpp:12-18 [syslog_t]: an object at an address. [option] and [facility] are always the same (src/sink/syslog.cpp:17-18). *)
Record object := Object { o_at : N; o_identity : characters; o_priorities : list Z }.

(** <syslog.h>. *)
Definition LOG_PID : Z := 1.
Definition LOG_USER : Z := 8.
Definition LOG_FACMASK : Z := 1016.

(** A pointer to characters: inside of an object, in a block, or to a text that always exists. *)
Inductive pointer := Inside (at_ : N) | Block (b : N) | Static (s : bytes).
Definition c_str (o : object) : pointer :=
  match o_identity o with Short _ => Inside (o_at o) | Long b _ => Block b end.

(** The variables of glibc's misc/syslog.c: [LogTag] (the pointer that was given, null at first), [LogStat], [LogFacility]. *)
Record connection := Connection { tag : option pointer; stat : Z; facility : Z }.

(** [openlog] of glibc: a null identity and a facility of zero or out of range keep what was; a change of facility is none of the sink's. *)
Definition openlog (c : connection) (ident : option pointer) (option fac : Z) : connection :=
  Connection (match ident with Some p => Some p | None => tag c end) option
    (if negb (fac =? 0)%Z && (Z.land fac (Z.lnot LOG_FACMASK) =? 0)%Z then fac else facility c).

(** [closelog] of glibc: the pointer becomes null, the rest stays. *)
Definition closelog (c : connection) : connection := Connection None (stat c) (facility c).

(** What syslog receives. *)
Record message := Message { m_ident : bytes; m_option : Z; m_priority : Z; m_text : bytes }.

(** The priority with the facility; bits that are neither are not modelled (a warning of glibc). *)
Definition with_facility (fac priority : Z) : Z :=
  if (Z.land priority LOG_FACMASK =? 0)%Z then Z.lor priority fac else priority.

(** What threads do. [Make]: src/sink/syslog.cpp:70-84 [from], with the priorities of the configuration; [None]: one of them is not a
    number, [to_sint64] throws. [Drop]: the destructor. [Emit]. The others are calls of the application. *)
Inductive command :=
| Make (k : N) (priorities : option (list Z))
| Drop (k : N)
| Emit (k : N) (severity : Z) (formatted : bytes)
| AppOpen (ident : option bytes) (option fac : Z)
| AppClose
| AppLog (priority : Z) (text : bytes).

(** Where a thread is. In [from]: the local object is built (before [openlog]), opened, has its priorities, was moved from (the object that
    is returned, unless something was thrown) and is about to be closed; was closed. In the destructor: closed. *)
Inductive phase :=
| Idle
| Opening (k : N) (o : object) (ps : option (list Z))
| Converting (k : N) (o : object) (ps : option (list Z))
| Moving (k : N) (o : object)
| Closing (k : N) (o : object) (made : option object)
| Freeing (k : N) (o : object) (made : option object)
| Dropping (o : object).

(** Objects exist as long as someone has them: a local variable, or the owner of a sink. Sinks have keys. *)
Record world := World {
  threads : list (phase * list command);
  sinks : list (N * object);
  log : connection;
  next : N;
  sent : list message }.

Definition some (o : option object) : list object := match o with Some x => [x] | None => [] end.
Definition phase_objects (p : phase) : list object :=
  match p with
  | Idle => []
  | Opening _ o _ | Converting _ o _ | Moving _ o | Dropping o => [o]
  | Closing _ o r | Freeing _ o r => o :: some r
  end.
Definition objects (w : world) : list object := flat_map (fun t => phase_objects (fst t)) (threads w) ++ map snd (sinks w).

(** What is read through a pointer: of an object or a block that is no more, it is undefined. *)
Definition is_block (b : N) (o : object) : bool := match o_identity o with Long b' _ => b' =? b | Short _ => false end.
Definition read (os : list object) (p : pointer) : option bytes :=
  match p with
  | Static s => Some s
  | Inside i => match List.find (fun o => o_at o =? i) os with
                | Some o => match o_identity o with Short s => Some s | Long _ _ => None end
                | None => None
                end
  | Block b => match List.find (is_block b) os with
               | Some o => match o_identity o with Long _ s => Some s | Short _ => None end
               | None => None
               end
  end.

Section Process.
(** [program_invocation_short_name], which src/procname.cpp:23-24 gives and which glibc uses when there is no identity. *)
Variable progname : bytes.

(** [syslog] of glibc. *)
Definition syslog (w : world) (priority : Z) (text : bytes) : option message :=
  match match tag (log w) with Some p => read (objects w) p | None => Some progname end with
  | Some ident => Some (Message ident (stat (log w)) (with_facility (facility (log w)) priority) text)
  | None => None
  end.

(** src/sink/syslog.cpp:16-21: the identity of a new object; the block has the number of the object that asked for it. *)
Definition new_identity (i : N) : characters :=
  if N.of_nat (length progname) <=? SHORT then Short progname else Long i progname.

Definition set_thread (ts : list (phase * list command)) (t : nat) (x : phase * list command) : list (phase * list command) :=
  firstn t ts ++ x :: skipn (S t) ts.
Fixpoint without (k : N) (ss : list (N * object)) : list (N * object) :=
  match ss with
  | [] => []
  | s :: ss' => if fst s =? k then ss' else s :: without k ss'
  end.
Definition sink_of (k : N) (ss : list (N * object)) : option object :=
  option_map snd (List.find (fun s => fst s =? k) ss).

(** One step of a thread that has something left to do; the calls of syslog are atomic (glibc locks them). [None]: undefined. *)
Definition step (w : world) (t : nat) : option world :=
  let go x := World (set_thread (threads w) t x) in
  match nth_error (threads w) t with
  | None | Some (Idle, []) => Some w
  | Some (Idle, c :: cs) =>
      match c with
      | Make k ps => Some (go (Opening k (Object (next w) (new_identity (next w)) []) ps, cs) (sinks w) (log w) (next w + 1) (sent w))
      | Drop k =>
          match sink_of k (sinks w) with
          | Some o => Some (go (Dropping o, cs) (without k (sinks w)) (closelog (log w)) (next w) (sent w))
          | None => Some (go (Idle, cs) (sinks w) (log w) (next w) (sent w))
          end
      | Emit k severity formatted =>
          match sink_of k (sinks w) with
          | Some o =>
              match syslog_text formatted with
              | Some text =>
                  match syslog w (syslog_priority (o_priorities o) severity) text with
                  | Some m => Some (go (Idle, cs) (sinks w) (log w) (next w) (sent w ++ [m]))
                  | None => None
                  end
              | None => None
              end
          | None => Some (go (Idle, cs) (sinks w) (log w) (next w) (sent w))
          end
      | AppOpen ident option fac =>
          Some (go (Idle, cs) (sinks w) (openlog (log w) (option_map Static ident) option fac) (next w) (sent w))
      | AppClose => Some (go (Idle, cs) (sinks w) (closelog (log w)) (next w) (sent w))
      | AppLog priority text =>
          match syslog w priority text with
          | Some m => Some (go (Idle, cs) (sinks w) (log w) (next w) (sent w ++ [m]))
          | None => None
          end
      end
  | Some (Opening k o ps, cs) =>
      Some (go (Converting k o ps, cs) (sinks w) (openlog (log w) (Some (c_str o)) LOG_PID LOG_USER) (next w) (sent w))
  | Some (Converting k o None, cs) => Some (go (Closing k o None, cs) (sinks w) (log w) (next w) (sent w))
  | Some (Converting k o (Some ps), cs) =>
      Some (go (Moving k (Object (o_at o) (o_identity o) (config_priorities ps)), cs) (sinks w) (log w) (next w) (sent w))
  | Some (Moving k o, cs) =>
      Some (go (Closing k (Object (o_at o) (Short []) []) (Some (Object (next w) (o_identity o) (o_priorities o))), cs)
              (sinks w) (log w) (next w + 1) (sent w))
  | Some (Closing k o made, cs) => Some (go (Freeing k o made, cs) (sinks w) (closelog (log w)) (next w) (sent w))
  | Some (Freeing k o made, cs) =>
      Some (go (Idle, cs) (match made with Some x => (k, x) :: sinks w | None => sinks w end) (log w) (next w) (sent w))
  | Some (Dropping o, cs) => Some (go (Idle, cs) (sinks w) (log w) (next w) (sent w))
  end.

Fixpoint run (w : world) (schedule : list nat) : option world :=
  match schedule with
  | [] => Some w
  | t :: ts => match step w t with Some w' => run w' ts | None => None end
  end.

Definition start (programs : list (list command)) : world :=
  World (map (fun p => (Idle, p)) programs) [] (Connection None 0 LOG_USER) 0 [].
End Process.
