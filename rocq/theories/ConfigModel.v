(** The configuration tree: src/config/json.hpp, src/config/option.cpp, include/blackhole/config/option.hpp.
    Not modelled: the JSON parser (RapidJSON); the tree it makes is the input. *)
From Verif Require Import Base Decimal.
From Verif Require FmtModel.

(** [rapidjson::Value]. Numbers: [JInt z] is an integer the parser keeps as such, -2^63 <= z < 2^64 ([valid]); every
    other number is a double, here its bits. Members of an object are kept in the order of the text, repeated names
    included. *)
Inductive json :=
| JNull
| JBool (b : bool)
| JInt (z : Z)
| JReal (bits : N)
| JString (s : bytes)
| JArray (l : list json)
| JObject (l : list (bytes * json)).

(** src/config/json.hpp:61-73 [json_t]: a value and the cursor. *)
Record node := Node { n_value : json; n_cursor : bytes }.

(** include/blackhole/config/option.hpp:19-33 [option<node_t>]: empty or a node. *)
Definition option_t := option node.

(** What a call does: returns, throws, or is undefined. The exceptions: src/config/json.hpp:26-59 [type_mismatch] with
    the cursor, the expected and the actual type; std::out_of_range and std::invalid_argument with their texts;
    [BadCast]: boost::bad_lexical_cast; [FormatError]: fmt::FormatError; [BadPattern]: any exception of the
    string formatter's parser. *)
Inductive exn :=
| TypeMismatch (cursor expected actual : bytes)
| OutOfRange (what : bytes)
| InvalidArgument (what : bytes)
| BadCast
| FormatError
| BadPattern.

Inductive outcome (A : Type) := Ret (a : A) | Throw (e : exn) | Undefined.
Arguments Ret {A} a.
Arguments Throw {A} e.
Arguments Undefined {A}.

Definition bind {A C} (o : outcome A) (f : A -> outcome C) : outcome C :=
  match o with Ret a => f a | Throw e => Throw e | Undefined => Undefined end.

(** src/config/json.hpp:34-37: the text of the exception ([what()]). *)
Definition mismatch_text (cursor expected actual : bytes) : bytes :=
  B "type mismatch at """ ++ cursor ++ B """: " ++ B "expected """ ++ expected ++ B """, actual """ ++ actual ++ B """".

(** src/config/json.hpp:192-208 [type]. *)
Definition type_name (v : json) : bytes :=
  match v with
  | JNull => B "null"
  | JBool _ => B "bool"
  | JInt _ | JReal _ => B "number"
  | JString _ => B "string"
  | JArray _ => B "array"
  | JObject _ => B "object"
  end.

(** src/config/json.hpp:188-190 [type_mismatch]. *)
Definition mismatch {A} (n : node) (expected : bytes) : outcome A :=
  Throw (TypeMismatch (match n_cursor n with [] => B "/" | c => c end) expected (type_name (n_value n))).

(** src/config/json.hpp:180-186 [advance]; boost::lexical_cast writes the index in decimal. *)
Definition advance_index (n : node) (i : N) : bytes := n_cursor n ++ B "/" ++ dec i.
Definition advance_key (n : node) (key : bytes) : bytes := n_cursor n ++ B "/" ++ key.

(** src/config/json.hpp:75-101. RapidJSON: an integer is Int64 below 2^63, Uint64 from 0. *)
Definition is_sint64 (v : json) : bool := match v with JInt z => (z <? 2 ^ 63)%Z | _ => false end.
Definition is_uint64 (v : json) : bool := match v with JInt z => (0 <=? z)%Z | _ => false end.
Definition is_string (v : json) : bool := match v with JString _ => true | _ => false end.

(** src/config/json.hpp:103-141 [to_bool], [to_sint64], [to_uint64], [to_double], [to_string]. The last makes a
    std::string of a [const char*], which ends at the first NUL. *)
Definition node_bool (n : node) : outcome bool :=
  match n_value n with JBool b => Ret b | _ => mismatch n (B "bool") end.
Definition node_sint64 (n : node) : outcome Z :=
  match n_value n with
  | JInt z => if (z <? 2 ^ 63)%Z then Ret z else mismatch n (B "int64")
  | _ => mismatch n (B "int64")
  end.
Definition node_uint64 (n : node) : outcome N :=
  match n_value n with
  | JInt z => if (0 <=? z)%Z then Ret (Z.to_N z) else mismatch n (B "uint64")
  | _ => mismatch n (B "uint64")
  end.
Definition node_double (n : node) : outcome N :=
  match n_value n with JReal bits => Ret bits | _ => mismatch n (B "double") end.
Definition node_string (n : node) : outcome bytes :=
  match n_value n with JString s => Ret (FmtModel.c_string s) | _ => mismatch n (B "string") end.

(** [FindMember] of RapidJSON: the first member with that name. *)
Fixpoint find_member (l : list (bytes * json)) (name : bytes) : option json :=
  match l with
  | [] => None
  | (k, v) :: l' => if bytes_eqb k name then Some v else find_member l' name
  end.

(** src/config/json.hpp:163-169 and 171-177 [operator[]]; the name is looked up as a C string. *)
Definition node_index (n : node) (i : N) : option_t :=
  match n_value n with
  | JArray l => match nth_error l (N.to_nat i) with Some v => Some (Node v (advance_index n i)) | None => None end
  | _ => None
  end.
Definition node_key (n : node) (key : bytes) : option_t :=
  match n_value n with
  | JObject l => match find_member l (FmtModel.c_string key) with Some v => Some (Node v (advance_key n key)) | None => None end
  | _ => None
  end.

(** src/config/json.hpp:143-161: the nodes [each] and the keys and nodes [each_map] call the function with, in order. *)
Fixpoint elements_from (n : node) (i : N) (l : list json) : list node :=
  match l with [] => [] | v :: l' => Node v (advance_index n i) :: elements_from n (i + 1) l' end.
Definition node_each (n : node) : outcome (list node) :=
  match n_value n with JArray l => Ret (elements_from n 0 l) | _ => mismatch n (B "array") end.
Definition node_each_map (n : node) : outcome (list (bytes * node)) :=
  match n_value n with
  | JObject l => Ret (map (fun m => let k := FmtModel.c_string (fst m) in (k, Node (snd m) (advance_key n k))) l)
  | _ => mismatch n (B "object")
  end.

(** The loop of a function that may throw over the nodes: the first exception leaves it. *)
Fixpoint for_each {A C S} (f : S -> A -> outcome S) (s : S) (l : list A) (k : S -> outcome C) : outcome C :=
  match l with [] => k s | a :: l' => bind (f s a) (fun s' => for_each f s' l' k) end.

(** src/config/option.cpp:80-87 [to]: nothing is done on an empty option; lines 26-54 the conversions, 56-66 the loops,
    68-78 [operator[]]. *)
Definition opt_to {A} (f : node -> outcome A) (o : option_t) : outcome (option A) :=
  match o with Some n => bind (f n) (fun a => Ret (Some a)) | None => Ret None end.
Definition opt_bool : option_t -> outcome (option bool) := opt_to node_bool.
Definition opt_sint64 : option_t -> outcome (option Z) := opt_to node_sint64.
Definition opt_uint64 : option_t -> outcome (option N) := opt_to node_uint64.
Definition opt_double : option_t -> outcome (option N) := opt_to node_double.
Definition opt_string : option_t -> outcome (option bytes) := opt_to node_string.
Definition opt_each (o : option_t) : outcome (list node) := match o with Some n => node_each n | None => Ret [] end.
Definition opt_each_map (o : option_t) : outcome (list (bytes * node)) :=
  match o with Some n => node_each_map n | None => Ret [] end.
Definition opt_index (o : option_t) (i : N) : option_t := match o with Some n => node_index n i | None => None end.
Definition opt_key (o : option_t) (key : bytes) : option_t := match o with Some n => node_key n key | None => None end.

(** src/config/json.cpp:23-37: the root node has an empty cursor. *)
Definition root (v : json) : node := Node v [].

(** One [operator[]] of an expression like [config["a"][0]["b"]], and all of them. *)
Inductive access := Index (i : N) | Key (k : bytes).
Definition opt_access (o : option_t) (a : access) : option_t :=
  match a with Index i => opt_index o i | Key k => opt_key o k end.
Definition walk (v : json) (l : list access) : option_t := fold_left opt_access l (Some (root v)).
