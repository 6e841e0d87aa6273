(** Where the fields of a record belong in the JSON document. Of the model only the types (trees, configuration
    calls, environment) are used. *)
From Verif Require Import Base Decimal Values StdMap JsonFmtModel.

(** ** Configuration: the last call counts *)

Fixpoint last_such {A B : Type} (f : A -> option B) (l : list A) : option B :=
  match l with
  | [] => None
  | x :: l' => match last_such f l' with Some y => Some y | None => f x end
  end.
Definition or_else {A} (o : option A) (a : A) : A := match o with Some x => x | None => a end.

Definition names_of (calls : list call) (route : bytes) : list bytes :=
  or_else (last_such (fun c => match c with Route r names => if bytes_dec r route then Some names else None | _ => None end) calls) [].
Definition default_route (calls : list call) : bytes :=
  or_else (last_such (fun c => match c with RouteRest r => Some r | _ => None end) calls) [].
Definition new_name (calls : list call) (n : bytes) : bytes :=
  or_else (last_such (fun c => match c with Rename a b => if bytes_dec a n then Some b else None | _ => None end) calls) n.
Definition format_of (calls : list call) (n : bytes) : option bytes :=
  last_such (fun c => match c with Format a s => if bytes_dec a n then Some s else None | _ => None end) calls.
Definition pattern_of (calls : list call) : option bytes :=
  last_such (fun c => match c with Timestamp p => Some p | _ => None end) calls.
Definition severities (calls : list call) : list bytes :=
  or_else (last_such (fun c => match c with Severity l => Some l | _ => None end) calls) [].

(** The route of a name: among the routes that list it, the one with the least text; the default route if there is
    none. *)
Inductive routed (calls : list call) (n : bytes) : bytes -> Prop :=
| routed_to r : In n (names_of calls r) ->
    (forall r', In n (names_of calls r') -> r' = r \/ bytes_ltb r r' = true) -> routed calls n r
| routed_default : (forall r', ~ In n (names_of calls r')) -> routed calls n (default_route calls).

(** The text of a JSON pointer. *)
Definition token_text (t : bytes) : bytes :=
  flat_map (fun c => if Ascii.eqb c "~" then B "~0" else if Ascii.eqb c "/" then B "~1" else [c]) t.
Definition pointer_text (p : list bytes) : bytes := flat_map (fun t => "/"%char :: token_text t) p.

(** A token that would be taken for an array index. *)
Definition numeric (t : bytes) : Prop := t <> [] /\ Forall (fun c => 48 <= N_of_ascii c <= 57)%N t.

(** ** Fields *)

(** A field: where its name is routed, its key, its value. *)
Record field := Field { f_path : list bytes; f_key : bytes; f_value : leaf }.

(** The value of a field as JSON; as a text if a format is set for it. *)
Definition plain_value (v : value) : leaf :=
  match v with
  | VNull => LNull | VBool b => LBool b | VInt z => LInt z | VUint n => LUint n | VDouble b => LDouble b
  | VString s => LStr s | VFun t => LStr t
  end.

(** What cppformat is given to format an attribute. *)
Inductive formatted_attribute (fmt : bytes -> value -> option bytes) (spec : bytes) : value -> bytes -> Prop :=
| formatted_null t : fmt spec (VString (B "none")) = Some t -> formatted_attribute fmt spec VNull t
| formatted_bool b t : fmt spec (VBool b) = Some t -> formatted_attribute fmt spec (VBool b) t
| formatted_int z t : fmt spec (VInt z) = Some t -> formatted_attribute fmt spec (VInt z) t
| formatted_uint n t : fmt spec (VUint n) = Some t -> formatted_attribute fmt spec (VUint n) t
| formatted_double b t : fmt spec (VDouble b) = Some t -> formatted_attribute fmt spec (VDouble b) t
| formatted_string s t : ~ In NUL s -> fmt spec (VString s) = Some t -> formatted_attribute fmt spec (VString s) t
| formatted_cut s s' t : ~ In NUL s -> fmt spec (VString s) = Some t -> formatted_attribute fmt spec (VString (s ++ NUL :: s')) t
| formatted_fun t : formatted_attribute fmt spec (VFun t) t.

Inductive field_of (fmt : bytes -> value -> option bytes) (calls : list call) : bool -> bytes * value -> field -> Prop :=
| field_plain attr n v p r : format_of calls n = None -> routed calls n r -> r = pointer_text p ->
    field_of fmt calls attr (n, v) (Field p (new_name calls n) (plain_value v))
| field_builtin n v p r spec t : format_of calls n = Some spec -> fmt spec v = Some t -> routed calls n r -> r = pointer_text p ->
    field_of fmt calls false (n, v) (Field p (new_name calls n) (LStr t))
| field_attribute n v p r spec t : format_of calls n = Some spec -> formatted_attribute fmt spec v t -> routed calls n r -> r = pointer_text p ->
    field_of fmt calls true (n, v) (Field p (new_name calls n) (LStr t)).

(** The severity: its name if there is one. *)
Inductive severity_field (names : list bytes) : Z -> value -> Prop :=
| severity_named i name : nth_error names i = Some name -> severity_field names (Z.of_nat i) (VString name)
| severity_number z : (z < 0 \/ Z.of_nat (length names) <= z)%Z -> severity_field names z (VInt z).

(** The first attribute of each name. *)
Inductive first_of_each : list bytes -> list attribute -> list attribute -> Prop :=
| first_nil seen : first_of_each seen [] []
| first_again seen n v l l' : In n seen -> first_of_each seen l l' -> first_of_each seen ((n, v) :: l) l'
| first_new seen n v l l' : ~ In n seen -> first_of_each (n :: seen) l l' -> first_of_each seen ((n, v) :: l) ((n, v) :: l').

(** The built-in fields and the attributes to report, in order. *)
Inductive reported (e : environment) (calls : list call) (r : record) : list (bytes * value) -> list attribute -> Prop :=
| reported_intro sev attrs :
    severity_field (severities calls) (r_severity r) sev ->
    (In Unique calls -> first_of_each [] (concat (r_attributes r)) attrs) ->
    (~ In Unique calls -> attrs = concat (r_attributes r)) ->
    reported e calls r
      [(B "message", VString (r_formatted r)); (B "lwp", VUint (e_lwp e)); (B "thread", VString (B "0x" ++ hex (r_tid r)));
       (B "process", VUint (e_pid e)); (B "severity", sev);
       (B "timestamp", match pattern_of calls with Some p => VString (e_stamp e p) | None => VInt (e_micros e) end)]
      attrs.

(** ** Trees *)

(** The nodes that a path of keys leads to. *)
Fixpoint nodes (p : list bytes) (t : json) : list json :=
  match p with
  | [] => [t]
  | k :: p' =>
      match t with
      | JObj ms => flat_map (fun m => if bytes_dec (fst m) k then nodes p' (snd m) else []) ms
      | _ => []
      end
  end.

(** The scalar members of an object, in order. *)
Fixpoint scalars (ms : list (bytes * json)) : list (bytes * leaf) :=
  match ms with
  | [] => []
  | (k, JLeaf l) :: ms' => (k, l) :: scalars ms'
  | _ :: ms' => scalars ms'
  end.

Definition is_prefix {A} (a b : list A) : Prop := exists c, b = a ++ c.

Definition path_eqb (a b : list bytes) : bool := if list_eq_dec bytes_dec a b then true else false.

(** The fields at a path, in order. *)
Definition fields_at (p : list bytes) (fs : list field) : list (bytes * leaf) :=
  map (fun f => (f_key f, f_value f)) (filter (fun f => path_eqb (f_path f) p) fs).

(** The document of the fields: a path leads to one object if it is the start of some field's path (or empty), with
    exactly the fields of that path as scalar members, in order; and otherwise to exactly the fields whose path
    with their key it is. *)
Definition holds_exactly (t : json) (fs : list field) : Prop :=
  forall p,
    (p = [] \/ (exists f, In f fs /\ is_prefix p (f_path f)) ->
       exists ms, nodes p t = [JObj ms] /\ scalars ms = fields_at p fs) /\
    (p <> [] -> (forall f, In f fs -> ~ is_prefix p (f_path f)) ->
       nodes p t = map (fun f => JLeaf (f_value f)) (filter (fun f => path_eqb (f_path f ++ [f_key f]) p) fs)).

(** No route leads through a field or to it, or into an array. *)
Definition no_conflict (fs : list field) : Prop :=
  (forall f g, In f fs -> In g fs -> ~ is_prefix (f_path f ++ [f_key f]) (f_path g)) /\
  (forall f, In f fs -> Forall (fun t => ~ numeric t) (tl (f_path f))).
