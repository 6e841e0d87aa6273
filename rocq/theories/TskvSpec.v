(** What a TSKV line is for its reader, and which fields it should have. Of the model only the type of the
    builder's calls is used. *)
From Verif Require Import Base Decimal Values StdMap TskvModel.

(** The bytes a value may not contain raw. *)
Definition unsafe_codes : list N := [0; 7; 8; 9; 10; 11; 12; 13; 27]%N.
Definition safe (s : bytes) : Prop := forall c, In c s -> ~ In (N_of_ascii c) unsafe_codes.

(** Undoing value escapes; a sequence that is none is left as it is. *)
Definition escape_codes : list (ascii * N) :=
  [("a", 7); ("b", 8); ("t", 9); ("n", 10); ("v", 11); ("f", 12); ("r", 13); ("e", 27); ("0", 0); ("\", 92)]%char%N.

Fixpoint assoc (c : ascii) (l : list (ascii * N)) : option N :=
  match l with [] => None | (x, n) :: l' => if Ascii.eqb c x then Some n else assoc c l' end.

Fixpoint unescape (s : bytes) : bytes :=
  match s with
  | [] => []
  | c :: s' =>
      if Ascii.eqb c "\" then
        match s' with
        | e :: s'' => match assoc e escape_codes with Some n => chr n :: unescape s'' | None => c :: unescape s' end
        | [] => [c]
        end
      else c :: unescape s'
  end.

(** Cutting at tabs. *)
Fixpoint split_tabs (s : bytes) : list bytes :=
  match s with
  | [] => [[]]
  | c :: s' =>
      match split_tabs s' with
      | f :: fs => if Ascii.eqb c TAB then [] :: f :: fs else (c :: f) :: fs
      | [] => []
      end
  end.

(** The key ends at the first '=' that has no backslash before it. *)
Fixpoint read_key (s : bytes) : option (bytes * bytes) :=
  match s with
  | [] => None
  | c :: s' =>
      if Ascii.eqb c "=" then Some ([], s')
      else
        match s' with
        | e :: s'' =>
            if Ascii.eqb c "\" && Ascii.eqb e "=" then
              match read_key s'' with Some (k, v) => Some ("="%char :: k, v) | None => None end
            else match read_key s' with Some (k, v) => Some (c :: k, v) | None => None end
        | [] => None
        end
  end.

Definition read_field (s : bytes) : option (bytes * bytes) :=
  match read_key s with Some (k, v) => Some (k, unescape v) | None => None end.

Fixpoint sequence {A} (l : list (option A)) : option (list A) :=
  match l with
  | [] => Some []
  | Some x :: l' => match sequence l' with Some xs => Some (x :: xs) | None => None end
  | None :: _ => None
  end.

(** A line: its first word and its fields. *)
Definition read_line (s : bytes) : option (bytes * list (bytes * bytes)) :=
  match split_tabs s with
  | h :: fs => match sequence (map read_field fs) with Some l => Some (h, l) | None => None end
  | [] => None
  end.

(** The text of an attribute value; strings up to their first NUL. *)
Inductive value_text (dbl : N -> bytes) : value -> bytes -> Prop :=
| text_null : value_text dbl VNull (B "none")
| text_true : value_text dbl (VBool true) (B "true")
| text_false : value_text dbl (VBool false) (B "false")
| text_int z : value_text dbl (VInt z) (sdec z)
| text_uint n : value_text dbl (VUint n) (dec n)
| text_double b : value_text dbl (VDouble b) (dbl b)
| text_string s : ~ In NUL s -> value_text dbl (VString s) s
| text_cut s s' : ~ In NUL s -> value_text dbl (VString (s ++ NUL :: s')) s
| text_fun t : value_text dbl (VFun t) t.

(** What was configured: the last call for a name counts; there is a timestamp to start with. *)
Fixpoint last_such {A B : Type} (f : A -> option B) (l : list A) : option B :=
  match l with
  | [] => None
  | x :: l' => match last_such f l' with Some y => Some y | None => f x end
  end.

Definition constant (calls : list call) (n : bytes) : option bytes :=
  last_such (fun c => match c with Create n' v => if bytes_dec n' n then Some v else None | _ => None end) calls.
Definition stamp_of (calls : list call) (n : bytes) : option (bytes * bool) :=
  last_such (fun c => match c with Timestamp n' p g => if bytes_dec n' n then Some (p, g) else None | _ => None end)
    (Timestamp (B "timestamp") (B "%Y-%m-%d %H:%M:%S %z") true :: calls).
Definition new_name (calls : list call) (n : bytes) : bytes :=
  match last_such (fun c => match c with Rename n' to => if bytes_dec n' n then Some to else None | _ => None end) calls with
  | Some to => to
  | None => n
  end.
Definition removed (calls : list call) (n : bytes) : Prop := In (Remove n) calls.

(** [m] lists exactly the entries of [f], by increasing name. *)
Definition lists {V} (f : bytes -> option V) (m : list (bytes * V)) : Prop :=
  sorted_keys m /\ forall n v, In (n, v) m <-> f n = Some v.

(** The fields of a record before removal and renaming, in order: constants [cs], timestamps [ts], built-ins,
    attributes (all lists of the pack, in order). *)
Inductive raw_fields (dbl : N -> bytes) (stamp : bytes -> bool -> bytes) (pid : N)
    (cs : list (bytes * bytes)) (ts : list (bytes * (bytes * bool))) (r : record) : list (bytes * bytes) -> Prop :=
| raw_fields_intro attrs :
    Forall2 (fun a f => fst a = fst f /\ value_text dbl (snd a) (snd f)) (concat (r_attributes r)) attrs ->
    raw_fields dbl stamp pid cs ts r
      (cs ++ map (fun t => (fst t, stamp (fst (snd t)) (snd (snd t)))) ts
       ++ [(B "severity", sdec (r_severity r)); (B "pid", dec pid); (B "tid", B "0x" ++ hex (r_tid r)); (B "message", r_formatted r)]
       ++ attrs).

(** Removal and renaming: the fields shown out of all of them. *)
Inductive shown (calls : list call) : list (bytes * bytes) -> list (bytes * bytes) -> Prop :=
| shown_nil : shown calls [] []
| shown_not n v all rest : removed calls n -> shown calls all rest -> shown calls ((n, v) :: all) rest
| shown_as n v all rest : ~ removed calls n -> shown calls all rest ->
    shown calls ((n, v) :: all) ((new_name calls n, v) :: rest).

(** Keys the format can carry. *)
Definition plain_key (k : bytes) : Prop := ~ In TAB k /\ forall p, k <> p ++ ["\"%char].
(** Texts the format can carry unescaped. *)
Definition plain_text (v : bytes) : Prop := ~ In TAB v /\ ~ In "\"%char v.
