(** What programs may expect of wrappers, and how long the texts that wrappers show stay where they are. *)
From Verif Require Import Base Values.
From Verif Require Import WrapperModel.

(** An ideal wrapper is a value: the logger it wraps and its attributes. *)
Definition ideal := wid -> option (option wid * attribute_list).
Definition set {A} (f : nat -> A) (k : nat) (v : A) : nat -> A := fun x => if Nat.eqb x k then v else f x.

(** A log call through [w] adds the attributes of [w], then those of the wrapper inside, and so on. *)
Inductive shows (m : ideal) : wid -> attribute_pack -> Prop :=
| Shows_last w l : m w = Some (None, l) -> shows m w [l]
| Shows_more w v l r : m w = Some (Some v, l) -> shows m v r -> shows m w (l :: r).

(** One operation on ideal wrappers: copies are equal and independent, a moved wrapper keeps what it had (and the source has
    nothing left). Only living wrappers are used, and new ones are made where none lives. *)
Inductive expected (m : ideal) : op -> ideal -> list attribute_pack -> Prop :=
| Expected_make w inner l :
    m w = None -> (forall v, inner = Some v -> m v <> None) ->
    expected m (Make w inner l) (set m w (Some (inner, l))) []
| Expected_copy src dst x :
    m src = Some x -> m dst = None -> expected m (Copy src dst) (set m dst (Some x)) []
| Expected_move src dst inner l :
    m src = Some (inner, l) -> m dst = None ->
    expected m (Move src dst) (set (set m src (Some (inner, []))) dst (Some (inner, l))) []
| Expected_destroy w : m w <> None -> expected m (Destroy w) (set m w None) []
| Expected_log w p : shows m w p -> expected m (Log w) m [p].

Inductive expects (m : ideal) : list op -> ideal -> list attribute_pack -> Prop :=
| Expects_nil : expects m [] m []
| Expects_cons o m1 out ops m2 outs :
    expected m o m1 out -> expects m1 ops m2 outs -> expects m (o :: ops) m2 (out ++ outs).

Definition nobody : ideal := fun _ => None.

(** Programs that neither copy nor move wrappers, and programs that do not copy them. *)
Definition keeps (o : op) : Prop := match o with Copy _ _ | Move _ _ => False | _ => True end.
Definition no_copy (o : op) : Prop := match o with Copy _ _ => False | _ => True end.
Definition no_log (o : op) : Prop := match o with Log _ => False | _ => True end.

(** Attributes that stay where they are when their wrapper is moved: too many to be inside of it, or all of their texts too
    long to be inside of a string. *)
Definition long_texts (lib : library) (a : attribute) : Prop :=
  l_text lib < length (fst a) /\ match snd a with VString s => l_text lib < length s | _ => True end.
Definition portable (lib : library) (l : attribute_list) : Prop :=
  l_elements lib < length l \/ Forall (long_texts lib) l.

(** Who owns the texts that a wrapper shows: itself when it is made; a copy shows those of the wrapper that the original
    shows; if they stay where they are, they belong to the new wrapper after a move. *)
Definition lenders := wid -> wid.
Definition lend (lend : lenders) (o : op) : lenders :=
  match o with
  | Make w _ _ => set lend w w
  | Copy src dst => set lend dst (lend src)
  | Move src dst =>
      set (set (fun x => if Nat.eqb (lend x) src then dst else lend x) src src)
          dst (if Nat.eqb (lend src) src then dst else lend src)
  | Destroy _ | Log _ => lend
  end.

(** An operation is orderly if nobody else shows texts that it takes away. *)
Definition orderly (lib : library) (m : ideal) (lend : lenders) (o : op) : Prop :=
  match o with
  | Destroy w => forall x, m x <> None -> lend x = w -> x = w
  | Move src dst =>
      forall inner l, m src = Some (inner, l) ->
      portable lib l \/ (forall x, m x <> None -> lend x <> src)
  | _ => True
  end.

Inductive orderlies (lib : library) : ideal -> lenders -> list op -> Prop :=
| Orderlies_nil m lender : orderlies lib m lender []
| Orderlies_cons m lender o ops m1 out :
    orderly lib m lender o -> expected m o m1 out -> orderlies lib m1 (lend lender o) ops -> orderlies lib m lender (o :: ops).
