(** What a log call may be observed to do. *)
From Verif Require Import Base Values RootModel.

(** Deliveries, diagnostics and supplier calls of a trace. *)
Definition deliveries (t : list event) : list (nat * record) :=
  flat_map (fun e => match e with EvHandle i r => [(i, r)] | _ => [] end) t.
Definition printed (t : list event) : list bytes :=
  flat_map (fun e => match e with EvPrint l => [l] | _ => [] end) t.
Definition supplies (t : list event) : nat :=
  length (List.filter (fun e => match e with EvSupply => true | _ => false end) t).
Definition filter_calls (t : list event) : list record :=
  flat_map (fun e => match e with EvFilter r => [r] | _ => [] end) t.

(** The documented diagnostic for what a handler threw, if it threw. *)
Definition diagnostic (x : result unit) : list bytes :=
  match x with
  | Ret _ => []
  | Throw (StdExn what) => [B "logging core error occurred: " ++ what]
  | Throw (OtherExn _) => [B "logging core error occurred: unknown"]
  end.

(** The text a handler must see: the supplied one, or the pattern when nothing was supplied. *)
Definition text_of (pattern : bytes) (v : sview) : bytes :=
  match v with SNull => pattern | SView s => s end.

(** [a] happens before [b] wherever both occur in the trace. *)
Definition before (a b : event -> Prop) (t : list event) : Prop :=
  forall t1 x t2, t = t1 ++ x :: t2 -> b x -> forall y, In y t2 -> ~ a y.

(** Wrappers applied to the root logger, outermost first. *)
Definition wrapped (ws : list attribute_list) : logger := fold_right Wrapper Root ws.

(** A name is bound by an attribute list. *)
Definition binds (name : bytes) (l : attribute_list) : Prop := exists v, In (name, v) l.

(** [v] is the value of the first binding of [name] in [l]. *)
Definition first_binding (name : bytes) (l : attribute_list) (v : value) : Prop :=
  exists l1 l2, l = l1 ++ (name, v) :: l2 /\ ~ binds name l1.
