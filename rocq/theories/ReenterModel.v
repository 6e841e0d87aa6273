(** One thread in the root logger, with the code of the user that the logger runs - filters, message suppliers, handlers, and the copying and destroying of filters and
    handlers - which may use loggers itself: src/root.cpp:41-201. FilterRaceModel has several threads, but no such code. *)
From Verif Require Import Base.

(** Loggers, the objects they share (src/root.cpp:72-96 [inner_t]), filters, handlers and message suppliers. *)
Definition lid := nat.
Definition oid := nat.
Definition fid := nat.
Definition hid := nat.
Definition sid := nat.

(** What code of the user does with loggers. [Replace l f hs] is [l = root_logger_t(f, hs)]. *)
Inductive cmd :=
| Log (l : lid) (m : sid)
| SetFilter (l : lid) (f : fid)
| Assign (dst src : lid)
| Replace (l : lid) (f : fid) (hs : list hid).

(** When the logger runs code of the user: copying a filter, destroying one, asking one, making a message, handing over a record, destroying a handler. *)
Inductive event := CopyFilter (f : fid) | DropFilter (f : fid) | AskFilter (f : fid) | Supply (m : sid) | Handle (h : hid) | DropHandler (h : hid).

(** The user's code: the commands; whether it catches what they throw; whether it throws at the end itself; and what the filters answer. *)
Record user := User { u_code : event -> list cmd; u_catches : event -> bool; u_throws : event -> bool; u_accepts : fid -> bool }.

(** The locks: src/root.cpp:47-48 of a logger and :73, 95 of a shared object. *)
Inductive lock := OfLogger (l : lid) | OfObject (o : oid).

(** Each logger's [inner]; the objects that have not been destroyed, with their filter and handlers; how many pointers to each; the next unused object;
    the locks this thread holds, latest first; and what was run, with the level of nesting and the locks held then. *)
Record state := State {
  s_cells : list oid;
  s_objects : oid -> option (fid * list hid);
  s_owners : oid -> nat;
  s_next : oid;
  s_held : list lock;
  s_trace : list (nat * event * list lock)
}.

(** [Threw]: an exception leaves the command. [Terminated]: one left a destructor or a [noexcept] function. [Deadlock]: the thread waits for a lock it holds, for ever. [Undefined]: an object is used that was destroyed, or a logger that does not exist. *)
Inductive result := Done (s : state) | Threw (s : state) | Terminated | Deadlock | Undefined | OutOfFuel.
Definition bind (r : result) (g : state -> result) : result := match r with Done s => g s | x => x end.
Definition noexcept (r : result) : result := match r with Threw _ => Terminated | x => x end.
(** What a destructor does at the end of a block, after an exception too. *)
Definition finally (r : result) (g : state -> result) : result :=
  match r with
  | Done s => noexcept (g s)
  | Threw s => match noexcept (g s) with Done s1 => Threw s1 | x => x end
  | x => x
  end.

Definition upd {A} (f : nat -> A) (k : nat) (v : A) : nat -> A := fun x => if Nat.eqb x k then v else f x.
Fixpoint replace_nth {A} (n : nat) (x : A) (l : list A) : list A :=
  match l, n with [], _ => [] | _ :: l', O => x :: l' | y :: l', S k => y :: replace_nth k x l' end.
Definition lock_eqb (a b : lock) : bool :=
  match a, b with OfLogger x, OfLogger y => Nat.eqb x y | OfObject x, OfObject y => Nat.eqb x y | _, _ => false end.

Definition with_cells (s : state) c := State c (s_objects s) (s_owners s) (s_next s) (s_held s) (s_trace s).
Definition with_objects (s : state) o := State (s_cells s) o (s_owners s) (s_next s) (s_held s) (s_trace s).
Definition with_owners (s : state) w := State (s_cells s) (s_objects s) w (s_next s) (s_held s) (s_trace s).
Definition with_next (s : state) n := State (s_cells s) (s_objects s) (s_owners s) n (s_held s) (s_trace s).
Definition with_held (s : state) h := State (s_cells s) (s_objects s) (s_owners s) (s_next s) h (s_trace s).
Definition with_trace (s : state) t := State (s_cells s) (s_objects s) (s_owners s) (s_next s) (s_held s) t.

(** src/spinlock.linux.hpp:25-31 with [std::lock_guard]. *)
Definition take (x : lock) (s : state) : result :=
  if existsb (lock_eqb x) (s_held s) then Deadlock else Done (with_held s (x :: s_held s)).
Definition drop (s : state) : result := Done (with_held s (tl (s_held s))).

(** Copying a [std::shared_ptr]. *)
Definition acquire (o : oid) (s : state) : state := with_owners s (upd (s_owners s) o (S (s_owners s o))).

Section Level.
Variable u : user.
(** The level of nesting, and how code one level further in is run. *)
Variable level : nat.
Variable go : state -> list cmd -> result.

(** Code of the user. *)
Definition run_user (e : event) (s : state) : result :=
  match go (with_trace s (s_trace s ++ [(level, e, s_held s)])) (u_code u e) with
  | Done s1 => if u_throws u e then Threw s1 else Done s1
  | Threw s1 => if u_catches u e then (if u_throws u e then Threw s1 else Done s1) else Threw s1
  | x => x
  end.
(** Destructors are [noexcept]. *)
Definition run_drop (e : event) (s : state) : result := noexcept (run_user e s).
Fixpoint run_each (es : list event) (s : state) : result :=
  match es with [] => Done s | e :: es' => bind (run_drop e s) (run_each es') end.

(** Destroying a [std::shared_ptr]: with the last one goes the object: its handlers (src/root.cpp:76), then its filter (:75). *)
Definition release (o : oid) (s : state) : result :=
  match s_owners s o with
  | O => Undefined
  | S O =>
      match s_objects s o with
      | None => Undefined
      | Some (f, hs) =>
          run_each (map DropHandler hs ++ [DropFilter f])
            (with_objects (with_owners s (upd (s_owners s) o O)) (upd (s_objects s) o None))
      end
  | S n => Done (with_owners s (upd (s_owners s) o n))
  end.

(** src/root.cpp:53-60 [load]. *)
Definition load (l : lid) (s : state) (g : oid -> state -> result) : result :=
  bind (take (OfLogger l) s) (fun s1 =>
    match nth_error (s_cells s1) l with
    | None => Undefined
    | Some o => bind (drop (acquire o s1)) (g o)
    end).

(** src/root.cpp:62-69 [store]; the pointer given becomes the logger's, and the one it had is destroyed by the assignment, within the lock. *)
Definition store (l : lid) (o : oid) (s : state) : result :=
  bind (take (OfLogger l) s) (fun s1 =>
    match nth_error (s_cells s1) l with
    | None => Undefined
    | Some old => bind (release old (with_cells s1 (replace_nth l o (s_cells s1)))) drop
    end).

(** src/root.cpp:178-180 with :88-92: a copy of the filter, made within the lock. *)
Definition copy_filter (o : oid) (s : state) (g : fid -> state -> result) : result :=
  bind (take (OfObject o) s) (fun s1 =>
    match s_objects s1 o with
    | None => Undefined
    | Some (f, _) => bind (finally (run_user (CopyFilter f) s1) drop) (g f)
    end).

(** src/root.cpp:143-145 with :88-92: the assignment destroys the old filter, within the lock. *)
Definition set_filter (o : oid) (f : fid) (s : state) : result :=
  bind (take (OfObject o) s) (fun s1 =>
    match s_objects s1 o with
    | None => Undefined
    | Some (old, hs) => bind (run_drop (DropFilter old) (with_objects s1 (upd (s_objects s1) o (Some (f, hs))))) drop
    end).

(** src/root.cpp:194-198: any exception is caught. (Writing to the standard output is assumed not to throw.) *)
Definition caught (r : result) : result := match r with Threw s => Done s | x => x end.

(** src/root.cpp:191-199: each round reads [inner->handlers]. *)
Fixpoint handle_each (o : oid) (n : nat) (hs : list hid) (s : state) : result :=
  match hs with
  | [] => Done s
  | h :: hs' =>
      match s_objects s o with
      | None => Undefined
      | Some (_, now) => match nth_error now n with
                         | Some h' => bind (caught (run_user (Handle h') s)) (handle_each o (S n) hs')
                         | None => Undefined
                         end
      end
  end.

(** src/root.cpp:175-201 [consume], without the scopes. *)
Definition log (l : lid) (m : sid) (s : state) : result :=
  load l s (fun o s1 =>
    finally
      (copy_filter o s1 (fun f s2 =>
        finally
          (bind (run_user (AskFilter f) s2) (fun s3 =>
            if u_accepts u f
            then bind (run_user (Supply m) s3) (fun s4 =>
                   match s_objects s4 o with None => Undefined | Some (_, hs) => handle_each o 0 hs s4 end)
            else Done s3))
          (run_drop (DropFilter f))))
      (release o)).

(** src/root.cpp:139-148 [filter]. *)
Definition filter (l : lid) (f : fid) (s : state) : result :=
  load l s (fun o s1 => bind (set_filter o f s1) (store l o)).

(** src/root.cpp:121-129 [operator=], without the scopes: the local pointer is constant, so that [store] is given a copy. *)
Definition assign (dst src : lid) (s : state) : result :=
  if Nat.eqb dst src then Done s
  else load src s (fun o s1 => finally (store dst o (acquire o s1)) (release o)).

(** src/root.cpp:98-108 and :121-129: a new logger is made, assigned and destroyed. It has a lock of its own that nobody else knows. *)
Definition replace (l : lid) (f : fid) (hs : list hid) (s : state) : result :=
  let o := s_next s in
  let s1 := with_next (with_objects (with_owners s (upd (s_owners s) o 2)) (upd (s_objects s) o (Some (f, hs)))) (S o) in
  finally (finally (store l o (acquire o s1)) (release o)) (release o).

Definition one (c : cmd) (s : state) : result :=
  match c with
  | Log l m => log l m s
  | SetFilter l f => filter l f s
  | Assign dst src => assign dst src s
  | Replace l f hs => replace l f hs s
  end.
Fixpoint all (cs : list cmd) (s : state) : result :=
  match cs with [] => Done s | c :: cs' => bind (one c s) (all cs') end.
End Level.

(** Code at a level that allows so many levels within it. *)
Fixpoint exec (u : user) (fuel : nat) (s : state) (cs : list cmd) : result :=
  match fuel with
  | O => match cs with [] => Done s | _ => OutOfFuel end
  | S k => all u k (exec u k) cs s
  end.

(** Loggers that have an object each, numbered alike. *)
Definition start (objects : list (fid * list hid)) : state :=
  State (seq 0 (length objects)) (nth_error objects) (fun o => if o <? length objects then 1 else 0) (length objects) [] [].
