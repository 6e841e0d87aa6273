(** What a buffered record should be: a value, fixed when the copy is made. *)
From Verif Require Import Base Values RecordBufModel.

(** The text a view of application memory shows at the moment. *)
Inductive Shows (app : nat -> option bytes) : sview -> bytes -> Prop :=
| Shows_app a before s after : app a = Some (before ++ s ++ after) ->
    Shows app (View (PApp a) (length before) (length s)) s.

(** The value an attribute of the original record has; lazy values count as the text they write. *)
Inductive ShowsValue (app : nat -> option bytes) : vview -> value -> Prop :=
| SV_null : ShowsValue app WNull VNull
| SV_bool b : ShowsValue app (WBool b) (VBool b)
| SV_int z : ShowsValue app (WInt z) (VInt z)
| SV_uint n : ShowsValue app (WUint n) (VUint n)
| SV_double d : ShowsValue app (WDouble d) (VDouble d)
| SV_string v s : Shows app v s -> ShowsValue app (WString v) (VString s)
| SV_fun a s : app a = Some s -> ShowsValue app (WFun (PApp a)) (VString s).

Definition ShowsAttribute (app : nat -> option bytes) (x : sview * vview) (a : attribute) : Prop :=
  Shows app (fst x) (fst a) /\ ShowsValue app (snd x) (snd a).

(** The snapshot of an original record: same fields, and all its attributes, in order, in one list. *)
Inductive Snapshot (app : nat -> option bytes) : rview -> record -> Prop :=
| Snapshot_intro mv fv sev ts tid pack message formatted lists :
    Shows app mv message -> Shows app fv formatted ->
    Forall2 (Forall2 (ShowsAttribute app)) pack lists ->
    Snapshot app (RView mv fv sev ts tid pack) (Rec message formatted sev ts tid [concat lists]).

(** Objects as values: absent, holding nothing usable, or holding a record. *)
Inductive content := Nothing | Holds (r : record).
Record sstate := SState { s_obj : obj -> option content; s_app : nat -> option bytes }.

Definition supd {A} (f : nat -> A) (k : nat) (v : A) (x : nat) : A := if Nat.eqb x k then v else f x.

Inductive sstep : sstate -> op -> sstate -> option record -> Prop :=
| S_new s o : s_obj s o = None ->
    sstep s (NewEmpty o) (SState (supd (s_obj s) o (Some Nothing)) (s_app s)) None
| S_copy s o v r : s_obj s o = None -> Snapshot (s_app s) v r ->
    sstep s (Copy o v) (SState (supd (s_obj s) o (Some (Holds r))) (s_app s)) None
| S_move_construct s src dst r : s_obj s src = Some (Holds r) -> s_obj s dst = None ->
    sstep s (MoveConstruct src dst) (SState (supd (supd (s_obj s) src (Some Nothing)) dst (Some (Holds r))) (s_app s)) None
| S_move_assign s src dst r c : src <> dst -> s_obj s src = Some (Holds r) -> s_obj s dst = Some c ->
    sstep s (MoveAssign src dst) (SState (supd (supd (s_obj s) src (Some Nothing)) dst (Some (Holds r))) (s_app s)) None
| S_move_self s o c : s_obj s o = Some c -> sstep s (MoveAssign o o) s None
| S_destroy s o c : s_obj s o = Some c ->
    sstep s (Destroy o) (SState (supd (s_obj s) o None) (s_app s)) None
| S_app s a x : sstep s (AppWrite a x) (SState (s_obj s) (supd (s_app s) a x)) None
| S_observe s o lwp r : s_obj s o = Some (Holds r) -> sstep s (Observe o lwp) s (Some r).

Inductive srun : sstate -> list op -> sstate -> list record -> Prop :=
| R_nil s : srun s [] s []
| R_silent s x s' ops s'' outs : sstep s x s' None -> srun s' ops s'' outs -> srun s (x :: ops) s'' outs
| R_out s x s' r ops s'' outs : sstep s x s' (Some r) -> srun s' ops s'' outs -> srun s (x :: ops) s'' (r :: outs).

Definition sinit (app : nat -> option bytes) : sstate := SState (fun _ => None) app.
