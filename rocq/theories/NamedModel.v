(** Argument lists of the formatting library (src/format.cpp, include/blackhole/extensions/format.hpp): how any number of arguments is
    stored, named arguments, and their selection by automatic number, by given number and by name. *)
From Verif Require Import Base FmtModel.
Open Scope N_scope.

(** What a caller passes: a value, or format.hpp:2949-2952 [arg(name, value)], an object of the type [NamedArg] (:1119-1128) that holds
    a name and an argument; the argument is never itself a named one (:2959-2964). The object lives as long as the call. *)
Inductive given := Plain (a : arg) | Named (name : bytes) (a : arg).

(** format.hpp:892-899 [Arg::Type]: the numbers of the types; [Type] of an argument given (:1112-1116, 1030-1110 [MakeValue::type]). *)
Definition NONE : N := 0.
Definition NAMED_ARG : N := 1.
Definition type_of_arg (a : arg) : N :=
  match a with
  | AInt _ => 2
  | AUint _ => 3
  | ALong _ => 4
  | AUlong _ => 5
  | ABool _ => 6
  | AChar _ => 7
  | ADouble _ => 8
  | ACString _ => 10
  | AString _ _ => 11
  end.
Definition type_of (g : given) : N :=
  match g with Plain a => type_of_arg a | Named _ _ => NAMED_ARG end.

(** format.hpp:1678-1699 [make_type]: the types in a 64-bit word, 4 bits each. The overload for one argument gives what the general one
    gives with an empty rest. *)
Fixpoint make_type (l : list given) : N :=
  match l with
  | [] => 0
  | g :: tail => N.lor (type_of g) (wrap64 (N.shiftl (make_type tail) 4))
  end.

(** format.hpp:862-890 [Value], a union: the argument stored last, if any; for a named one the pointer to it. *)
Definition value := option given.

(** format.hpp:904-906 [Arg]; a type not yet written is [None]. *)
Record slot := Slot { s_type : option N; s_value : value }.

(** format.hpp:1683-1693 [ArgArray]: an array of values if there are less than 16 arguments, of arguments otherwise, and
    format.hpp:1268-1282 [ArgList]. *)
Inductive storage := Values (vs : list value) | Args (ss : list slot).
Record arg_list := ArgList { types : N; stored : storage }.

(** format.hpp:1296. *)
Definition MAX_PACKED_ARGS : N := 16.

(** format.hpp:1701-1707 [do_set_types]; a write behind the array is undefined. *)
Fixpoint do_set_types (ss : list slot) (l : list given) {struct l} : result (list slot) :=
  match l, ss with
  | [], _ => Ok ss
  | g :: l', s :: ss' => r <- do_set_types ss' l'; Ok (Slot (Some (type_of g)) (s_value s) :: r)
  | _ :: _, [] => Undefined
  end.

(** [array[n].type = Arg::NONE]. *)
Fixpoint set_none (ss : list slot) (n : nat) : result (list slot) :=
  match n, ss with
  | O, s :: ss' => Ok (Slot (Some NONE) (s_value s) :: ss')
  | S n', s :: ss' => r <- set_none ss' n'; Ok (s :: r)
  | _, [] => Undefined
  end.

(** format.hpp:1709-1714 [set_types]. *)
Definition set_types (ss : list slot) (l : list given) : result (list slot) :=
  r <- (if MAX_PACKED_ARGS <? length_N l then do_set_types ss l else Ok ss);
  set_none r (length l).

(** format.hpp:1721-1731 [store_args] into an array of values and into one of arguments, of which the types stay. *)
Fixpoint store_values (vs : list value) (l : list given) {struct l} : result (list value) :=
  match l, vs with
  | [], _ => Ok vs
  | g :: l', _ :: vs' => r <- store_values vs' l'; Ok (Some g :: r)
  | _ :: _, [] => Undefined
  end.
Fixpoint store_args (ss : list slot) (l : list given) {struct l} : result (list slot) :=
  match l, ss with
  | [], _ => Ok ss
  | g :: l', s :: ss' => r <- store_args ss' l'; Ok (Slot (s_type s) (Some g) :: r)
  | _ :: _, [] => Undefined
  end.

(** format.hpp:1684-1693: the size of the array; 1733-1740 [make_arg_list], called by [write] (:1771-1776). *)
Definition array_size (n : N) : N := n + (if (n =? 0) || (MAX_PACKED_ARGS <=? n) then 1 else 0).
Definition make_arg_list (l : list given) : result arg_list :=
  let size := N.to_nat (array_size (length_N l)) in
  if length_N l <? MAX_PACKED_ARGS then
    vs <- store_values (repeat None size) l; Ok (ArgList (make_type l) (Values vs))
  else
    ss <- set_types (repeat (Slot None None) size) l;
    ss' <- store_args ss l;
    Ok (ArgList (make_type l) (Args ss')).

(** format.hpp:1284-1289 [ArgList::type]; a shift by 64 or more is undefined. *)
Definition type_at (l : arg_list) (index : N) : result N :=
  let shift := index * 4 in
  if shift <? 64 then Ok (N.shiftr (N.land (types l) (wrap64 (N.shiftl 15 shift))) shift) else Undefined.

(** An argument read: none, or what a union holds read as what the type says. *)
Definition read_as (t : N) (v : value) : result (option given) :=
  match v with
  | Some g => if type_of g =? t then Ok (Some g) else Undefined
  | None => Undefined
  end.

Definition nth_value (s : storage) (use_values : bool) (i : N) : result value :=
  match s, use_values with
  | Values vs, true => match nth_error vs (N.to_nat i) with Some v => Ok v | None => Undefined end
  | Args ss, false => match nth_error ss (N.to_nat i) with Some s => Ok (s_value s) | None => Undefined end
  | _, _ => Undefined
  end.

(** format.hpp:1324-1328: the loop from [args_[i]] to [args_[i + left]]. *)
Fixpoint walk_to (ss : list slot) (left : nat) : result (option given) :=
  match ss with
  | [] => Undefined
  | s :: ss' =>
      match s_type s with
      | None => Undefined
      | Some t => if t =? NONE then Ok None
                  else match left with O => read_as t (s_value s) | S left' => walk_to ss' left' end
      end
  end.

(** format.hpp:1305-1329 [ArgList::operator[]]. *)
Definition at_index (l : arg_list) (index : N) : result (option given) :=
  last <- type_at l (MAX_PACKED_ARGS - 1);
  let use_values := last =? NONE in
  if index <? MAX_PACKED_ARGS then
    t <- type_at l index;
    if t =? NONE then Ok None else v <- nth_value (stored l) use_values index; read_as t v
  else if use_values then Ok None
  else match stored l with
       | Args ss => walk_to (skipn (N.to_nat MAX_PACKED_ARGS) ss) (N.to_nat (index - MAX_PACKED_ARGS))
       | Values _ => Undefined
       end.

(** format.hpp:321-328 [BasicStringRef::compare]; [char_traits<char>::compare] compares unsigned bytes. *)
Fixpoint compare_bytes (a b : bytes) : comparison :=
  match a, b with
  | x :: a', y :: b' => match N_of_ascii x ?= N_of_ascii y with Eq => compare_bytes a' b' | c => c end
  | _, _ => Eq
  end.
Definition compare (a b : bytes) : comparison :=
  let size := Nat.min (length a) (length b) in
  match compare_bytes (firstn size a) (firstn size b) with
  | Eq => if Nat.eqb (length a) (length b) then Eq else if Nat.ltb (length a) (length b) then Lt else Gt
  | c => c
  end.
Definition less (a b : bytes) : bool := match compare a b with Lt => true | _ => false end.
Definition equivalent (a b : bytes) : bool := negb (less a b) && negb (less b a).

(** format.hpp:1336-1351 [ArgMap], a [std::map]: [insert] leaves an element with an equivalent key alone. *)
Definition arg_map := list (bytes * arg).
Definition find (m : arg_map) (name : bytes) : option arg :=
  option_map snd (List.find (fun e => equivalent (fst e) name) m).
Definition insert (m : arg_map) (name : bytes) (a : arg) : arg_map :=
  match find m name with Some _ => m | None => m ++ [(name, a)] end.

(** The named argument that a pointer in a union points to. *)
Definition named_of (v : value) : result (bytes * arg) :=
  match v with Some (Named name a) => Ok (name, a) | _ => Undefined end.

(** src/format.cpp:746-761: the loop over values from [i]; [fuel] is 16 - [i], and [type(16)] is undefined. *)
Fixpoint init_values (l : arg_list) (fuel : nat) (i : N) (m : arg_map) : result arg_map :=
  match fuel with
  | O => Undefined
  | S fuel' =>
      t <- type_at l i;
      if t =? NONE then Ok m
      else if t =? NAMED_ARG then
        v <- nth_value (stored l) true i;
        e <- named_of v;
        init_values l fuel' (i + 1) (insert m (fst e) (snd e))
      else init_values l fuel' (i + 1) m
  end.

(** src/format.cpp:762-768: the loop over the first 16 arguments, [left] of them left. *)
Fixpoint init_packed (l : arg_list) (left : nat) (i : N) (m : arg_map) : result arg_map :=
  match left with
  | O => Ok m
  | S left' =>
      t <- type_at l i;
      if t =? NAMED_ARG then
        v <- nth_value (stored l) false i;
        e <- named_of v;
        init_packed l left' (i + 1) (insert m (fst e) (snd e))
      else init_packed l left' (i + 1) m
  end.

(** src/format.cpp:769-780: the loop over the others. *)
Fixpoint init_rest (ss : list slot) (m : arg_map) : result arg_map :=
  match ss with
  | [] => Undefined
  | s :: ss' =>
      match s_type s with
      | None => Undefined
      | Some t =>
          if t =? NONE then Ok m
          else if t =? NAMED_ARG then e <- named_of (s_value s); init_rest ss' (insert m (fst e) (snd e))
          else init_rest ss' m
      end
  end.

(** src/format.cpp:738-781 [ArgMap::init]. *)
Definition init (l : arg_list) (m : arg_map) : result arg_map :=
  match m with
  | _ :: _ => Ok m
  | [] =>
      last <- type_at l (MAX_PACKED_ARGS - 1);
      if last =? NONE then init_values l (N.to_nat MAX_PACKED_ARGS) 0 m
      else
        m' <- init_packed l (N.to_nat MAX_PACKED_ARGS) 0 m;
        match stored l with
        | Args ss => init_rest (skipn (N.to_nat MAX_PACKED_ARGS) ss) m'
        | Values _ => Undefined
        end
  end.

(** ---- the parser of FmtModel.v, for any way to select an argument ---- *)

Section Parser.
Variables (State : Type) (select : State -> bytes -> result (arg * State * bytes)) (dbl : spec -> N -> bytes).

(** src/format.cpp:1139-1168, 1177-1205. *)
Definition parse_nested (st : State) (negative not_integer : error) (s : bytes) : result (N * State * bytes) :=
  r <- select st s;
  let '(a, st', s') := r : arg * State * bytes in
  match s' with
  | c :: s'' => if Ascii.eqb c RBRACE then n <- int_of_arg negative not_integer a; Ok (n, st', s'') else Error EInvalidString
  | [] => Error EInvalidString
  end.

(** src/format.cpp:1136-1169. *)
Definition parse_width (st : State) (s : bytes) : result (N * State * bytes) :=
  if is_digit (peek s) then ns <- parse_int s; Ok (fst ns, st, snd ns)
  else match s with
       | c :: s' => if Ascii.eqb c LBRACE then parse_nested st ENegativeWidth EWidthNotInteger s' else Ok (0, st, s)
       | [] => Ok (0, st, s)
       end.

(** src/format.cpp:1171-1215. *)
Definition parse_precision (a : arg) (st : State) (s : bytes) : result (option N * State * bytes) :=
  match s with
  | c :: s' =>
      if Ascii.eqb c "." then
        r <- (if is_digit (peek s') then ns <- parse_int s'; Ok (fst ns, st, snd ns)
              else match s' with
                   | c' :: s'' => if Ascii.eqb c' LBRACE then parse_nested st ENegativePrecision EPrecisionNotInteger s''
                                  else Error EMissingPrecision
                   | [] => Error EMissingPrecision
                   end);
        let '(n, st', s'') := r : N * State * bytes in
        if is_integer a then Error EPrecisionNotAllowed else Ok (Some n, st', s'')
      else Ok (None, st, s)
  | [] => Ok (None, st, s)
  end.

(** src/format.cpp:1063-1220. *)
Definition parse_spec (a : arg) (st : State) (s : bytes) : result (spec * State * bytes) :=
  match s with
  | c :: s0 =>
      if Ascii.eqb c ":" then
        r1 <- parse_align a s0;
        let '(al, fill, s1) := r1 : alignment * ascii * bytes in
        r2 <- parse_sign a s1;
        let '(sign, plus, minus, s2) := r2 : bool * bool * bool * bytes in
        r3 <- parse_flag "#" a s2;
        let (hash, s3) := r3 : bool * bytes in
        r4 <- parse_flag "0" a s3;
        let (zero, s4) := r4 : bool * bytes in
        r5 <- parse_width st s4;
        let '(width, st5, s5) := r5 : N * State * bytes in
        r6 <- parse_precision a st5 s5;
        let '(precision, st6, s6) := r6 : option N * State * bytes in
        let (type, s7) := match s6 with
                          | c :: s7 => if Ascii.eqb c RBRACE then (NUL, s6) else (c, s7)
                          | [] => (NUL, s6)
                          end in
        Ok (Spec width (if zero then "0"%char else fill) (if zero then ANumeric else al) sign plus minus hash
              precision type, st6, s7)
      else Ok (empty_spec, st, s)
  | [] => Ok (empty_spec, st, s)
  end.

(** src/format.cpp:1061-1228. *)
Definition format_placeholder (a : arg) (st : State) (s : bytes) : result (bytes * State * bytes) :=
  r <- parse_spec a st s;
  let '(sp, st', s') := r : spec * State * bytes in
  match s' with
  | c :: s'' => if Ascii.eqb c RBRACE then out <- format_arg dbl sp a; Ok (out, st', s'') else Error EMissingBrace
  | [] => Error EMissingBrace
  end.

(** src/format.cpp:1230-1249; [fuel] is more than the length of the string. *)
Fixpoint format_go (fuel : nat) (st : State) (s : bytes) : result bytes :=
  match fuel with
  | O => Undefined
  | S fuel' =>
      match s with
      | [] => Ok []
      | c :: s' =>
          if negb (Ascii.eqb c LBRACE) && negb (Ascii.eqb c RBRACE) then
            out <- format_go fuel' st s'; Ok (c :: out)
          else if Ascii.eqb (peek s') c then
            out <- format_go fuel' st (tl s'); Ok (c :: out)
          else if Ascii.eqb c RBRACE then Error EUnmatchedBrace
          else
            r1 <- select st s';
            let '(a, st1, s1) := r1 : arg * State * bytes in
            r2 <- format_placeholder a st1 s1;
            let '(text, st2, s2) := r2 : bytes * State * bytes in
            out <- format_go fuel' st2 s2; Ok (text ++ out)
      end
  end.
End Parser.

(** ---- the selection ---- *)

Section WithList.
Variable l : arg_list.

(** [next_arg_index_], with [None] for -1, and [map_] (format.hpp:1353-1357, 1379-1383). *)
Definition formatter := (index * arg_map)%type.

(** src/format.cpp:852-866 [do_get_arg]: a named argument is replaced by what it holds. *)
Definition do_get_arg (i : N) : result arg :=
  g <- at_index l i;
  match g with
  | None => Error EIndexRange
  | Some (Plain a) => Ok a
  | Some (Named _ a) => Ok a
  end.

(** src/format.cpp:825-835 [parse_arg_index] with [next_arg], [check_no_auto_index] and [get_arg] (:868-887). *)
Definition parse_arg_index (f : formatter) (s : bytes) : result (arg * formatter * bytes) :=
  let (ix, m) := f in
  let fail (s : bytes) (e : error) : result (arg * formatter * bytes) :=
    Error (if negb (Ascii.eqb (peek s) RBRACE) && negb (Ascii.eqb (peek s) ":") then EInvalidString else e) in
  if is_digit (peek s) then
    ns <- parse_int s;
    let (n, s') := ns : N * bytes in
    match ix with
    | Some (N.pos _) => fail s' EManualFromAuto
    | _ => match do_get_arg n with Ok a => Ok (a, (None, m), s') | Error e => fail s' e | Undefined => Undefined end
    end
  else
    match ix with
    | None => fail s EAutoFromManual
    | Some i => match do_get_arg i with
                | Ok a => Ok (a, (Some (i + 1), m), s)
                | Error e => fail s e
                | Undefined => Undefined
                end
    end.

(** src/format.cpp:841-844: the characters of a name. *)
Definition is_name_char (c : ascii) : bool := is_name_start c || is_digit c.
Fixpoint name_run (s : bytes) : bytes * bytes :=
  match s with
  | c :: s' => if is_name_char c then let (n, r) := name_run s' in (c :: n, r) else ([], s)
  | [] => ([], s)
  end.

(** src/format.cpp:837-850 [parse_arg_name], called on the start of a name, and [get_arg(name)] (:812-823). *)
Definition parse_arg_name (f : formatter) (s : bytes) : result (arg * formatter * bytes) :=
  let (ix, m) := f in
  let (name, s') := name_run s in
  match ix with
  | Some (N.pos _) => Error EManualFromAuto
  | _ =>
      m' <- init l m;
      match find m' name with
      | Some a => Ok (a, (None, m'), s')
      | None => Error ENotFound
      end
  end.

(** src/format.cpp:1244, 1141-1142, 1179-1180. *)
Definition parse_arg (f : formatter) (s : bytes) : result (arg * formatter * bytes) :=
  if is_name_start (peek s) then parse_arg_name f s else parse_arg_index f s.
End WithList.

(** format.hpp:2093-2096 [write(format, args...)] and 1771-1776: what is appended. *)
Definition write (dbl : spec -> N -> bytes) (format : bytes) (l : list given) : result bytes :=
  al <- make_arg_list l;
  let s := c_string format in format_go formatter (parse_arg al) dbl (S (length s)) (Some 0, []) s.
