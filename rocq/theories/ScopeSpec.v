(** Scoped attributes as a stack per logger and thread. *)
From Verif Require Import Base Values ScopeModel.

(** The open scopes of each thread on each live logger, newest first. [None]: the scopes were moved
    to another logger and this one must not be used by that thread until it is assigned to. *)
Definition stack := list (gid * attribute_list).
Record sstate := SState { s_alive : lid -> bool; s_stack : lid -> tid -> option stack }.

Definition set_stack (s : sstate) (l : lid) (t : tid) (x : option stack) : lid -> tid -> option stack :=
  fun l' t' => if Nat.eqb l' l && Nat.eqb t' t then x else s_stack s l' t'.

Definition is_open (s : sstate) (g : gid) : Prop :=
  exists l t st, s_stack s l t = Some st /\ In g (map fst st).

(** Permitted operations and their meaning. Guards of one thread on one logger are closed newest
    first; an address is reused only after its guard is closed; a logger is destroyed only when no
    scope is open on it; the destination of an assignment has no open scope of the calling thread. *)
Inductive sstep : sstate -> op -> sstate -> option attribute_pack -> Prop :=
| S_new s l : s_alive s l = false ->
    sstep s (NewLogger l)
      (SState (fun l' => if Nat.eqb l' l then true else s_alive s l')
              (fun l' t' => if Nat.eqb l' l then Some [] else s_stack s l' t')) None
| S_destroy s l : s_alive s l = true -> (forall t st, s_stack s l t = Some st -> st = []) ->
    sstep s (DestroyLogger l)
      (SState (fun l' => if Nat.eqb l' l then false else s_alive s l')
              (fun l' t' => if Nat.eqb l' l then None else s_stack s l' t')) None
| S_open s t l g a st : s_alive s l = true -> s_stack s l t = Some st -> ~ is_open s g ->
    sstep s (Open t l g a) (SState (s_alive s) (set_stack s l t (Some ((g, a) :: st)))) None
| S_close s t l g a st : s_stack s l t = Some ((g, a) :: st) ->
    sstep s (Close t g) (SState (s_alive s) (set_stack s l t (Some st))) None
| S_log s t l st : s_alive s l = true -> s_stack s l t = Some st ->
    sstep s (Log t l) s (Some (map snd st))
| S_move_construct s t src dst st : s_alive s src = true -> s_alive s dst = false -> s_stack s src t = Some st ->
    sstep s (MoveConstruct t src dst)
      (SState (fun l' => if Nat.eqb l' dst then true else s_alive s l')
              (fun l' t' => if Nat.eqb l' dst then (if Nat.eqb t' t then Some st else Some [])
                            else if Nat.eqb l' src && Nat.eqb t' t then (match st with [] => Some [] | _ => None end)
                            else s_stack s l' t')) None
| S_move_assign s t src dst st : s_alive s src = true -> s_alive s dst = true -> src <> dst ->
    s_stack s src t = Some st -> (s_stack s dst t = Some [] \/ s_stack s dst t = None) ->
    sstep s (MoveAssign t src dst)
      (SState (s_alive s)
              (fun l' t' => if Nat.eqb l' dst && Nat.eqb t' t then Some st
                            else if Nat.eqb l' src && Nat.eqb t' t then (match st with [] => Some [] | _ => None end)
                            else s_stack s l' t')) None
| S_move_self s t l : s_alive s l = true -> sstep s (MoveAssign t l l) s None.

(** Permitted histories and what their log calls collect. *)
Inductive srun : sstate -> list op -> sstate -> list attribute_pack -> Prop :=
| R_nil s : srun s [] s []
| R_cons s o s' out ops s'' outs : sstep s o s' out -> srun s' ops s'' outs ->
    srun s (o :: ops) s'' (match out with Some p => p :: outs | None => outs end).

Definition sinit : sstate := SState (fun _ => false) (fun _ _ => None).
