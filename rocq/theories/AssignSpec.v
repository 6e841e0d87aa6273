(** Attribute values as variables: each holds a value of its own. *)
From Verif Require Import Base Values AssignModel.

(** What each variable holds. *)
Definition store := oid -> option value.
Definition set (st : store) (o : oid) (v : option value) : store := fun x => if Nat.eqb x o then v else st x.

(** What is left in a variable that was moved from. *)
Definition left (v : value) : value := match v with VString _ => VString [] | _ => v end.

(** Uses that make sense: what is used exists, what is made does not yet exist. *)
Definition legal (st : store) (p : op) : Prop :=
  match p with
  | New o _ _ => st o = None
  | NewCopy src dst _ | NewMove src dst => st src <> None /\ st dst = None
  | Assign src dst _ | AssignMove src dst => st src <> None /\ st dst <> None
  | Destroy o | Show o => st o <> None
  end.

(** The value an operation has to copy, if memory is short. *)
Definition copies (st : store) (p : op) : option value :=
  match p with
  | New _ v false => Some v
  | NewCopy src _ false => st src
  | Assign src dst false => if Nat.eqb dst src then None else st src
  | _ => None
  end.

Section Library.
(** How long a string can be without memory of its own. *)
Variable inside : nat.

(** One operation: what the program notices and what the variables hold then. Only copying a long string while memory is short can fail,
    and then nothing has changed. *)
Inductive does (st : store) : op -> out -> store -> Prop :=
| does_new o v ok : st o = None -> does st (New o v ok) Done (set st o (Some v))
| does_copy src dst ok v : st src = Some v -> st dst = None -> does st (NewCopy src dst ok) Done (set st dst (Some v))
| does_move src dst v : st src = Some v -> st dst = None -> does st (NewMove src dst) Done (set (set st src (Some (left v))) dst (Some v))
| does_assign src dst ok v d : st src = Some v -> st dst = Some d -> does st (Assign src dst ok) Done (set st dst (Some v))
| does_assign_move src dst v d : st src = Some v -> st dst = Some d -> src <> dst ->
    does st (AssignMove src dst) Done (set (set st src (Some (left v))) dst (Some v))
| does_self_move o v : st o = Some v -> does st (AssignMove o o) Done st
| does_destroy o v : st o = Some v -> does st (Destroy o) Done (set st o None)
| does_show o v : st o = Some v -> does st (Show o) (Saw v) st
| does_fail p s : legal st p -> copies st p = Some (VString s) -> (inside < length s)%nat -> does st p BadAlloc st.

Inductive does_all : store -> list op -> list out -> store -> Prop :=
| does_nothing st st' : (forall o, st' o = st o) -> does_all st [] [] st'
| does_then st p x st1 ps xs st2 : does st p x st1 -> does_all st1 ps xs st2 -> does_all st (p :: ps) (x :: xs) st2.

End Library.

Definition empty : store := fun _ => None.
