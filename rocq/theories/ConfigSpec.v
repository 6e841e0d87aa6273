(** C42: what a configuration holds at a path, and what reading an option should give. *)
From Verif Require Import Base Decimal ConfigModel.

(** The value below another one: an element of an array by its position, a member of an object by its name (the first
    one of that name). *)
Inductive child : json -> access -> json -> Prop :=
| child_index pre v post : child (JArray (pre ++ v :: post)) (Index (N.of_nat (length pre))) v
| child_key pre k v post : ~ In k (map fst pre) -> child (JObject (pre ++ (k, v) :: post)) (Key k) v.

Inductive at_path : json -> list access -> json -> Prop :=
| at_here v : at_path v [] v
| at_below v a w path u : child v a w -> at_path w path u -> at_path v (a :: path) u.

(** A path as text, and as the place named in an error. *)
Fixpoint path_text (path : list access) : bytes :=
  match path with
  | [] => []
  | Index i :: path' => B "/" ++ dec i ++ path_text path'
  | Key k :: path' => B "/" ++ k ++ path_text path'
  end.
Definition place (path : list access) : bytes := match path with [] => B "/" | _ => path_text path end.

Definition no_nul (s : bytes) : Prop := ~ In NUL s.
Definition plain_access (a : access) : Prop := match a with Index _ => True | Key k => no_nul k end.
Definition plain_path : list access -> Prop := Forall plain_access.

(** What the parser can make: integers of 64 bits. *)
Definition parsed (v : json) : Prop := forall path z, at_path v path (JInt z) -> (- 2 ^ 63 <= z < 2 ^ 64)%Z.

(** What is read for a value. *)
Definition is_bool_of (v : json) (b : bool) : Prop := v = JBool b.
Definition is_sint64_of (v : json) (z : Z) : Prop := v = JInt z /\ (- 2 ^ 63 <= z < 2 ^ 63)%Z.
Definition is_uint64_of (v : json) (n : N) : Prop := v = JInt (Z.of_N n) /\ (n < 2 ^ 64)%N.
Definition is_double_of (v : json) (bits : N) : Prop := v = JReal bits.
Definition is_string_of (v : json) (s : bytes) : Prop := v = JString s.

(** The kinds of values as named in errors. *)
Definition named (v : json) (name : bytes) : Prop :=
  match v with
  | JNull => name = B "null"
  | JBool _ => name = B "bool"
  | JInt _ | JReal _ => name = B "number"
  | JString _ => name = B "string"
  | JArray _ => name = B "array"
  | JObject _ => name = B "object"
  end.

(** Reading an option: the exact value if there is one of the wanted kind, nothing if there is no value, an error that
    says where and what otherwise. *)
Definition reads {A} (read : option_t -> outcome (option A)) (means : json -> A -> Prop) (expected : bytes)
  (v : json) (path : list access) : Prop :=
  (forall w a, at_path v path w -> means w a -> read (walk v path) = Ret (Some a)) /\
  ((~ exists w, at_path v path w) -> read (walk v path) = Ret None) /\
  (forall w name, at_path v path w -> (~ exists a, means w a) -> named w name ->
     read (walk v path) = Throw (TypeMismatch (place path) expected name)).
