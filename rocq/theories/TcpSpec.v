(** Trace properties of the TCP sink. *)
From Verif Require Import Base TcpModel.

Definition is_prefix {A} (a b : list A) : Prop := exists rest, b = a ++ rest.

(** All writes of a trace. *)
Fixpoint writes (evs : list event) : list (conn * bytes * bool) :=
  match evs with
  | EWrite c d ok :: evs' => (c, d, ok) :: writes evs'
  | _ :: evs' => writes evs'
  | [] => []
  end.

(** The records whose emit returned normally. *)
Fixpoint returned (ms : list bytes) (threw : list bool) : list bytes :=
  match ms, threw with
  | m :: ms', b :: threw' => (if b then [] else [m]) ++ returned ms' threw'
  | _, _ => []
  end.

(** The bytes of the successful writes. *)
Definition delivered (evs : list event) : list bytes :=
  map (fun w => snd (fst w)) (filter snd (writes evs)).

(** The bytes that went through connection [c]. *)
Definition stream (c : conn) (evs : list event) : bytes :=
  concat (map (fun w => snd (fst w)) (filter (fun w => Nat.eqb (fst (fst w)) c) (writes evs))).
(** ... and the whole records among them. *)
Definition stream_ok (c : conn) (evs : list event) : list bytes :=
  map (fun w => snd (fst w)) (filter (fun w => Nat.eqb (fst (fst w)) c && snd w) (writes evs)).

(** Connection [c] is used in [evs]. *)
Definition uses (c : conn) (evs : list event) : Prop := exists d ok, In (EWrite c d ok) evs.
