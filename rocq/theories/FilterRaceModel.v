(** Concurrent use of the root logger's shared state: src/root.cpp:53-69 ([load], [store], each under
    a spinlock and therefore atomic), 88-92 ([apply], under the lock of the inner object). *)
From Verif Require Import Base.

(** Inner objects (handlers and filter), loggers, threads; filters are opaque. *)
Definition oid := nat.
Definition lid := nat.
Definition tid := nat.
Definition fid := nat.

(** Where a thread is inside a call; each constructor is the point after an atomic step. *)
Inductive pc :=
| Idle
| FilterLoaded (l : lid) (f : fid) (o : oid)   (* src/root.cpp:141 done *)
| FilterApplied (l : lid) (f : fid) (o : oid)  (* src/root.cpp:143-145 done *)
| AssignLoaded (dst : lid) (o : oid)           (* src/root.cpp:127 done *)
| LogLoaded (l : lid) (o : oid)                (* src/root.cpp:177 done *)
| LogCopied (l : lid) (o : oid) (f : fid).     (* src/root.cpp:178-180 done *)

(** [cells l] is the logger's [inner] pointer, [filters o] the filter stored in the object; the
    handlers are part of the object and never change (src/root.cpp:76). *)
Record state := State { cells : lid -> oid; filters : oid -> fid; pcs : tid -> pc }.

Definition upd {A} (f : nat -> A) (k : nat) (v : A) : nat -> A := fun x => if Nat.eqb x k then v else f x.

(** What happens at a step, for stating properties. *)
Inductive label :=
| FilterStart (t : tid) (l : lid) (f : fid)
| FilterApply (t : tid) (o : oid) (f : fid)
| FilterDone (t : tid) (l : lid) (f : fid)
| AssignStart (t : tid) (src dst : lid)
| AssignDone (t : tid) (dst : lid) (o : oid)
| LogStart (t : tid) (l : lid) (o : oid)
| LogCopy (t : tid) (l : lid) (o : oid) (f : fid)
| LogDone (t : tid) (l : lid) (o : oid) (f : fid).  (* filtered by [f], delivered to the handlers of [o] *)

Inductive step : state -> label -> state -> Prop :=
(* src/root.cpp:139-148 [filter] *)
| T_filter_load s t l f : pcs s t = Idle ->
    step s (FilterStart t l f) (State (cells s) (filters s) (upd (pcs s) t (FilterLoaded l f (cells s l))))
| T_filter_apply s t l f o : pcs s t = FilterLoaded l f o ->
    step s (FilterApply t o f) (State (cells s) (upd (filters s) o f) (upd (pcs s) t (FilterApplied l f o)))
| T_filter_store s t l f o : pcs s t = FilterApplied l f o ->
    step s (FilterDone t l f) (State (upd (cells s) l o) (filters s) (upd (pcs s) t Idle))
(* src/root.cpp:121-137 [operator=], without the scopes *)
| T_assign_load s t src dst : pcs s t = Idle -> src <> dst ->
    step s (AssignStart t src dst) (State (cells s) (filters s) (upd (pcs s) t (AssignLoaded dst (cells s src))))
| T_assign_store s t dst o : pcs s t = AssignLoaded dst o ->
    step s (AssignDone t dst o) (State (upd (cells s) dst o) (filters s) (upd (pcs s) t Idle))
(* src/root.cpp:175-201 [consume] *)
| T_log_load s t l : pcs s t = Idle ->
    step s (LogStart t l (cells s l)) (State (cells s) (filters s) (upd (pcs s) t (LogLoaded l (cells s l))))
| T_log_copy s t l o : pcs s t = LogLoaded l o ->
    step s (LogCopy t l o (filters s o)) (State (cells s) (filters s) (upd (pcs s) t (LogCopied l o (filters s o))))
| T_log_done s t l o f : pcs s t = LogCopied l o f ->
    step s (LogDone t l o f) (State (cells s) (filters s) (upd (pcs s) t Idle)).

Inductive steps : state -> list label -> state -> Prop :=
| steps_nil s : steps s [] s
| steps_snoc s ls s' x s'' : steps s ls s' -> step s' x s'' -> steps s (ls ++ [x]) s''.

Definition init (c : lid -> oid) (f : oid -> fid) : state := State c f (fun _ => Idle).
