(** The JSON formatter (src/formatter/json.cpp). RapidJSON is not part of the repository; what is used of it
    (Pointer::GetWithDefault, AddMember) is modelled as documented for RapidJSON 1.1. *)
From Verif Require Import Base Decimal Values StdMap.

(** JSON values. A double is its bit pattern. *)
Inductive leaf := LNull | LBool (b : bool) | LInt (z : Z) | LUint (n : N) | LDouble (bits : N) | LStr (s : bytes).
Inductive json :=
| JLeaf (l : leaf)
| JObj (members : list (bytes * json))
| JArr (elements : list json).

(** ** RapidJSON *)

Fixpoint split_slash (s : bytes) : list bytes :=
  match s with
  | [] => [[]]
  | c :: s' =>
      match split_slash s' with
      | t :: ts => if Ascii.eqb c "/" then [] :: t :: ts else (c :: t) :: ts
      | [] => []
      end
  end.

(** "~0" is '~', "~1" is '/', another '~' is an error. *)
Fixpoint unescape_token (s : bytes) : option bytes :=
  match s with
  | [] => Some []
  | c :: s' =>
      if Ascii.eqb c "~" then
        match s' with
        | d :: s'' =>
            if Ascii.eqb d "0" then match unescape_token s'' with Some t => Some ("~"%char :: t) | None => None end
            else if Ascii.eqb d "1" then match unescape_token s'' with Some t => Some ("/"%char :: t) | None => None end
            else None
        | [] => None
        end
      else match unescape_token s' with Some t => Some (c :: t) | None => None end
  end.

Fixpoint unescape_tokens (l : list bytes) : option (list bytes) :=
  match l with
  | [] => Some []
  | t :: l' => match unescape_token t, unescape_tokens l' with Some t', Some ts => Some (t' :: ts) | _, _ => None end
  end.

(** Pointer's constructor: the tokens of "/a/b". [None]: not a valid pointer; the fragment form, which starts with
    '#', is not modelled and counted here too. *)
Definition pointer_tokens (s : bytes) : option (list bytes) :=
  match s with
  | [] => Some []
  | c :: s' => if Ascii.eqb c "/" then unescape_tokens (split_slash s') else None
  end.

Definition is_digit (c : ascii) : bool := ((48 <=? N_of_ascii c) && (N_of_ascii c <=? 57))%N.

(** Pointer::Token::index: digits without a leading zero, below 2^32 - 1. *)
Definition token_index (t : bytes) : option N :=
  match t with
  | [] => None
  | c :: t' =>
      if forallb is_digit t && negb (Ascii.eqb c "0" && negb (Nat.eqb (length t') 0)) && (value_of 10 t <? 2 ^ 32 - 1)%N
      then Some (value_of 10 t) else None
  end.

Section Create.
(** What is done with a child: whether it is a new one, and its value. *)
Context (child : bool -> json -> option json).

(** FindMember and, if there is none of that name, AddMember of a null. *)
Fixpoint in_member (t : bytes) (ms : list (bytes * json)) : option (list (bytes * json)) :=
  match ms with
  | [] => match child true (JLeaf LNull) with Some c => Some [(t, c)] | None => None end
  | (k, c) :: ms' =>
      if bytes_eqb k t then match child false c with Some c' => Some ((k, c') :: ms') | None => None end
      else match in_member t ms' with Some ms'' => Some ((k, c) :: ms'') | None => None end
  end.

(** The element of an array, which is extended with nulls if it is too short. *)
Fixpoint in_element (i : nat) (es : list json) : option (list json) :=
  match i, es with
  | O, [] => match child true (JLeaf LNull) with Some c => Some [c] | None => None end
  | O, e :: es' => match child false e with Some c => Some (c :: es') | None => None end
  | S i', [] => match in_element i' [] with Some es'' => Some (JLeaf LNull :: es'') | None => None end
  | S i', e :: es' => match in_element i' es' with Some es'' => Some (e :: es'') | None => None end
  end.
End Create.

(** Pointer::GetWithDefault(root, kObjectType) and then [use] of the value found: a value that stands in the way
    is replaced by an empty object, or by an empty array if the token is an index; a new last value is an object. *)
Fixpoint at_pointer (p : list bytes) (use : json -> option json) (fresh : bool) (v : json) : option json :=
  match p with
  | [] => use (if fresh then JObj [] else v)
  | t :: p' =>
      let go := at_pointer p' use in
      match v with
      | JObj ms => match in_member go t ms with Some ms' => Some (JObj ms') | None => None end
      | JArr es =>
          if bytes_eqb t (B "-") then match go true (JLeaf LNull) with Some c => Some (JArr (es ++ [c])) | None => None end
          else match token_index t with
               | Some i => match in_element go (N.to_nat i) es with Some es' => Some (JArr es') | None => None end
               | None => match in_member go t [] with Some ms => Some (JObj ms) | None => None end
               end
      | JLeaf _ =>
          match token_index t with
          | Some i => match in_element go (N.to_nat i) [] with Some es' => Some (JArr es') | None => None end
          | None => match in_member go t [] with Some ms => Some (JObj ms) | None => None end
          end
      end
  end.

(** AddMember: appends, without looking for the name; it asserts that the value is an object ([None]: undefined
    when assertions are off). *)
Definition add_member (k : bytes) (l : leaf) (v : json) : option json :=
  match v with JObj ms => Some (JObj (ms ++ [(k, JLeaf l)])) | _ => None end.

(** ** Configuration *)

(** src/formatter/json.cpp:126-146 [properties_t]; the two hash maps are only looked up in, so they are kept like
    the others. *)
Record properties := Props {
  p_unique : bool;
  p_newline : bool;
  p_timestamp : option bytes;
  p_severity : list bytes;
  p_specified : list (bytes * list bytes);
  p_unspecified : bytes;
  p_mapping : list (bytes * bytes);
  p_formatting : list (bytes * bytes)
}.

(** src/formatter/json.cpp:410-498, the builder's calls. *)
Inductive call :=
| RouteRest (route : bytes)
| Route (route : bytes) (names : list bytes)
| Rename (from to : bytes)
| Unique
| Newline
| Severity (names : list bytes)
| Timestamp (pattern : bytes)
| Format (name spec : bytes).

(** src/formatter/json.cpp:142-145, 406-408. *)
Definition builder_init : properties := Props false false None [] [] [] [] [].

Definition builder_call (d : properties) (c : call) : properties :=
  let '(Props u n t s sp un m f) := d in
  match c with
  | RouteRest r => Props u n t s sp r m f
  | Route r names => Props u n t s (map_set r names sp) un m f
  | Rename a b => Props u n t s sp un (map_set a b m) f
  | Unique => Props true n t s sp un m f
  | Newline => Props u true t s sp un m f
  | Severity names => Props u n t names sp un m f
  | Timestamp p => Props u n (Some p) s sp un m f
  | Format a spec => Props u n t s sp un m (map_set a spec f)
  end.

Definition build (calls : list call) : properties := fold_left builder_call calls builder_init.

(** src/formatter/json.cpp:175-179: name to route; the routes come in the order of their texts, and [insert] keeps
    the first. *)
Definition routing (d : properties) : list (bytes * bytes) :=
  fold_left (fun m (route : bytes * list bytes) => fold_left (fun m name => map_insert name (fst route) m) (snd route) m)
    (p_specified d) [].

(** src/formatter/json.cpp:182-193 [get]: which pointer. *)
Definition route_of (d : properties) (name : bytes) : bytes :=
  match map_get name (routing d) with Some r => r | None => p_unspecified d end.

(** src/formatter/json.cpp:198-206 [renamed]. *)
Definition renamed (d : properties) (name : bytes) : bytes :=
  match map_get name (p_mapping d) with Some to => to | None => name end.

(** ** Formatting *)

(** Outcomes: a tree, an exception (of cppformat, for a bad format string), undefined behaviour. *)
Inductive outcome := Done (t : json) | Thrown | Undefined.

Fixpoint c_string (s : bytes) : bytes :=
  match s with [] => [] | c :: s' => if Ascii.eqb c NUL then [] else c :: c_string s' end.

(** src/formatter/json.cpp:35-76 [visitor_t]: the JSON value of an attribute's value. *)
Definition to_leaf (v : value) : leaf :=
  match v with
  | VNull => LNull
  | VBool b => LBool b
  | VInt z => LInt z
  | VUint n => LUint n
  | VDouble b => LDouble b
  | VString s => LStr s
  | VFun text => LStr text
  end.

(** src/formatter/json.cpp:299-341, the three [apply]; [fmt spec v] is the text cppformat makes of a value, [None]
    if it throws. [attr] distinguishes attributes, which go through [view_visitor] (79-105): null becomes "none",
    strings end at a NUL (the byte behind them is taken to be one), functions ignore the format. *)
Definition formatted_leaf (fmt : bytes -> value -> option bytes) (d : properties) (attr : bool) (name : bytes) (v : value) : option leaf :=
  match map_get name (p_formatting d) with
  | None => Some (to_leaf v)
  | Some spec =>
      let text :=
        if attr then
          match v with
          | VNull => fmt spec (VString (B "none"))
          | VString s => fmt spec (VString (c_string s))
          | VFun text => Some text
          | _ => fmt spec v
          end
        else fmt spec v in
      match text with Some t => Some (LStr t) | None => None end
  end.

Definition apply (fmt : bytes -> value -> option bytes) (d : properties) (attr : bool) (name : bytes) (v : value) (root : json) : outcome :=
  match pointer_tokens (route_of d name) with
  | None => Undefined
  | Some p =>
      match formatted_leaf fmt d attr name v with
      | None => Thrown
      | Some l => match at_pointer p (add_member (renamed d name) l) false root with Some t => Done t | None => Undefined end
      end
  end.

(** src/formatter/json.cpp:247-255. *)
Definition severity_value (names : list bytes) (severity : Z) : value :=
  let id := Z.to_N (severity mod 2 ^ 64)%Z in
  if match names with [] => true | _ => false end || (N.of_nat (length names) <=? id)%N
  then VInt severity else VString (nth (N.to_nat id) names []).

(** What is not in the record: the process, the light-weight process, the text of the timestamp by pattern, the
    timestamp in microseconds. *)
Record environment := Env { e_pid : N; e_lwp : N; e_stamp : bytes -> bytes; e_micros : Z }.

(** src/formatter/json.cpp:222-267: the built-in fields in the order of 385-390. *)
Definition builtin_fields (e : environment) (d : properties) (r : record) : list (bytes * value) :=
  [(B "message", VString (r_formatted r));
   (B "lwp", VUint (e_lwp e));
   (B "thread", VString (B "0x" ++ hex (r_tid r)));
   (B "process", VUint (e_pid e));
   (B "severity", severity_value (p_severity d) (r_severity r));
   (B "timestamp", match p_timestamp d with Some p => VString (e_stamp e p) | None => VInt (e_micros e) end)].

(** src/formatter/json.cpp:276-287: the attributes whose name was not seen before. *)
Fixpoint unseen (seen : list bytes) (l : list attribute) : list attribute :=
  match l with
  | [] => []
  | (n, v) :: l' => if set_has n seen then unseen seen l' else (n, v) :: unseen (set_insert n seen) l'
  end.

(** src/formatter/json.cpp:275-297. *)
Definition attribute_fields (d : properties) (r : record) : list attribute :=
  if p_unique d then unseen [] (concat (r_attributes r)) else concat (r_attributes r).

Fixpoint apply_all (fmt : bytes -> value -> option bytes) (d : properties) (attr : bool) (l : list (bytes * value)) (root : json) : outcome :=
  match l with
  | [] => Done root
  | (n, v) :: l' =>
      match apply fmt d attr n v root with Done root' => apply_all fmt d attr l' root' | o => o end
  end.

(** src/formatter/json.cpp:367-393 [format]: the document. *)
Definition document (fmt : bytes -> value -> option bytes) (e : environment) (d : properties) (r : record) : outcome :=
  match apply_all fmt d false (builtin_fields e d r) (JObj []) with
  | Done root => apply_all fmt d true (attribute_fields d r) root
  | o => o
  end.
