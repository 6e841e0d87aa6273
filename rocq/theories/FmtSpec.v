(** What formatting should do, without reference to the library's algorithms. *)
From Verif Require Import Base FmtModel.
Open Scope N_scope.

(** ---- numerals ---- *)

(** The number a digit stands for. *)
Definition digit_number (c : ascii) : option N :=
  let n := N_of_ascii c in
  if (48 <=? n) && (n <=? 57) then Some (n - 48)
  else if (97 <=? n) && (n <=? 102) then Some (n - 87)
  else if (65 <=? n) && (n <=? 70) then Some (n - 55)
  else None.
Definition is_upper (c : ascii) : bool := (65 <=? N_of_ascii c) && (N_of_ascii c <=? 90).
Definition is_lower (c : ascii) : bool := (97 <=? N_of_ascii c) && (N_of_ascii c <=? 122).

(** Reading digits from left to right. *)
Fixpoint read_digits (base acc : N) (s : bytes) : option N :=
  match s with
  | [] => Some acc
  | c :: s' => match digit_number c with
               | Some d => if d <? base then read_digits base (acc * base + d) s' else None
               | None => None
               end
  end.

(** The canonical numeral: it reads back to the number, has no superfluous zero in front and letters of one case. *)
Definition numeral (base : N) (upper : bool) (n : N) (s : bytes) : Prop :=
  s <> [] /\ read_digits base 0 s = Some n /\ (hd NUL s = "0"%char -> s = B "0") /\
  Forall (fun c => (if upper then is_lower c else is_upper c) = false) s.

(** The radix a type letter asks for, the case of its letters and the mark written for [#]. *)
Definition radix (type : ascii) : option (N * bool * bytes) :=
  if Ascii.eqb type NUL || Ascii.eqb type "d" then Some (10, false, [])
  else if Ascii.eqb type "x" then Some (16, false, B "0x")
  else if Ascii.eqb type "X" then Some (16, true, B "0X")
  else if Ascii.eqb type "b" then Some (2, false, B "0b")
  else if Ascii.eqb type "B" then Some (2, false, B "0B")
  else if Ascii.eqb type "o" then Some (8, false, B "0")
  else None.

(** Integer arguments and the numbers they carry. *)
Definition carries (a : arg) (z : Z) : Prop :=
  match a with
  | AInt x => x = z /\ (- 2 ^ 31 <= z < 2 ^ 31)%Z
  | AUint n => Z.of_N n = z /\ (z < 2 ^ 32)%Z
  | ALong x => x = z /\ (- 2 ^ 63 <= z < 2 ^ 63)%Z
  | AUlong n => Z.of_N n = z /\ (z < 2 ^ 64)%Z
  | _ => False
  end.

(** ---- layout ---- *)

Definition fills (c : ascii) (s : bytes) : Prop := Forall (eq c) s.

(** A [body] of a mark and digits in a field: fill characters where the alignment puts them, and no more than needed.
    Strings have an empty mark and are left-aligned by default. *)
Definition field (number : bool) (al : alignment) (fill : ascii) (width : N) (mark body out : bytes) : Prop :=
  exists l i r, out = l ++ mark ++ i ++ body ++ r
    /\ fills fill l /\ fills fill i /\ fills fill r
    /\ length_N out = N.max width (length_N (mark ++ body))
    /\ match al with
       | ALeft => l = [] /\ i = []
       | ARight => i = [] /\ r = []
       | ANumeric => if number then l = [] /\ r = [] else l = [] /\ i = []
       | ACenter => i = [] /\ length_N l <= length_N r <= length_N l + 1
       | ADefault => if number then i = [] /\ r = [] else l = [] /\ i = []
       end.

(** ---- specifications as text ---- *)

(** The decimal numeral of a width, written by a person. *)
Definition digits_of (n : N) (s : bytes) : Prop := numeral 10 false n s.

(** Numbers that are found to be too big for an [int]: those that fit 32 bits, and those of which the shortest beginning that does not fit
    is, modulo 2^32, less than that beginning without its last digit. *)
Definition noticed (n : N) : Prop :=
  2 ^ 31 <= n < 2 ^ 32 \/
  exists k, 2 ^ 32 <= n / 10 ^ k /\ n / 10 ^ (k + 1) < 2 ^ 32 /\ (n / 10 ^ k) mod 2 ^ 32 < n / 10 ^ (k + 1).

Definition align_text (al : alignment) : bytes :=
  match al with ALeft => B "<" | ARight => B ">" | ANumeric => B "=" | ACenter => B "^" | ADefault => [] end.

(** What can be asked for: a fill only together with an alignment; zero padding instead of both. *)
Record wish := Wish {
  w_fill : option ascii;
  w_align : alignment;
  w_sign : option ascii;
  w_hash : bool;
  w_zero : bool;
  w_width : option (N * bytes);
  w_precision : option (N * bytes);
  w_type : option ascii
}.

Definition opt_text (o : option ascii) : bytes := match o with Some c => [c] | None => [] end.

Definition wish_text (w : wish) : bytes :=
  ":"%char :: opt_text (w_fill w) ++ align_text (w_align w) ++ opt_text (w_sign w)
   ++ (if w_hash w then B "#" else []) ++ (if w_zero w then B "0" else [])
   ++ match w_width w with Some (_, ds) => ds | None => [] end
   ++ match w_precision w with Some (_, ds) => "."%char :: ds | None => [] end
   ++ opt_text (w_type w).

Definition is_align (c : ascii) : bool := existsb (Ascii.eqb c) (B "<>=^").

(** Kinds of arguments. *)
Definition whole_kind (a : arg) : bool :=
  match a with AInt _ | AUint _ | ALong _ | AUlong _ | ABool _ | AChar _ => true | ADouble _ | ACString _ | AString _ _ => false end.
Definition number_kind (a : arg) : bool :=
  match a with ACString _ | AString _ _ => false | _ => true end.

(** A well-formed wish for an argument. It asks for something. The width does not start with a zero and fits in an [int]. The type is a
    letter. *)
Definition letter (c : ascii) : bool := is_upper c || is_lower c.
Definition sensible (a : arg) (w : wish) : Prop :=
  wish_text w <> B ":"
  /\ match w_fill w with
  | Some c => c <> LBRACE /\ c <> RBRACE /\ c <> NUL /\ w_align w <> ADefault
  | None => True
  end
  /\ (w_align w = ANumeric -> number_kind a = true)
  /\ match w_sign w with
     | Some c => (c = "+" \/ c = "-" \/ c = " ")%char /\ number_kind a = true
                 /\ match a with AUint _ | AUlong _ => False | _ => True end
     | None => True
     end
  /\ (w_hash w = true -> number_kind a = true)
  /\ (w_zero w = true -> number_kind a = true)
  /\ match w_width w with Some (n, ds) => digits_of n ds /\ 0 < n < 2 ^ 31 | None => True end
  /\ match w_precision w with Some (n, ds) => digits_of n ds /\ n < 2 ^ 31 /\ whole_kind a = false | None => True end
  /\ match w_type w with Some c => letter c = true | None => True end.

(** The specification a wish asks for. *)
Definition asks (w : wish) : spec :=
  Spec (match w_width w with Some (n, _) => n | None => 0 end)
       (if w_zero w then "0"%char else match w_fill w with Some c => c | None => " "%char end)
       (if w_zero w then ANumeric else w_align w)
       (match w_sign w with Some c => negb (Ascii.eqb c "-") | None => false end)
       (match w_sign w with Some c => Ascii.eqb c "+" | None => false end)
       (match w_sign w with Some c => Ascii.eqb c "-" | None => false end)
       (w_hash w)
       (option_map fst (w_precision w))
       (match w_type w with Some c => c | None => NUL end).

(** The mark in front of a number's digits. *)
Definition sign_text (w : wish) (z : Z) : bytes :=
  if (z <? 0)%Z then B "-"
  else match w_sign w with
       | Some c => if Ascii.eqb c "-" then [] else [c]
       | None => []
       end.

(** ---- format strings ---- *)

(** A format string as a person thinks of it: text, and placeholders that take the next argument, with or without
    a wish. *)
Inductive piece := Text (s : bytes) | Next (w : option wish).

Definition brace_text (c : ascii) : bytes :=
  if Ascii.eqb c LBRACE then B "{{" else if Ascii.eqb c RBRACE then B "}}" else [c].
Definition piece_text (p : piece) : bytes :=
  match p with
  | Text s => flat_map brace_text s
  | Next None => B "{}"
  | Next (Some w) => B "{" ++ wish_text w ++ B "}"
  end.
Definition format_text (ps : list piece) : bytes := flat_map piece_text ps.

(** Placeholders take the arguments in order. *)
Fixpoint pairing (ps : list piece) (args : list arg) : list (bytes + (option wish * arg)) :=
  match ps, args with
  | Text s :: ps', _ => inl s :: pairing ps' args
  | Next w :: ps', a :: args' => inr (w, a) :: pairing ps' args'
  | Next _ :: _, [] => []
  | [], _ => []
  end.

(** Text is copied, placeholders become their arguments' renderings; the first failure is the result. *)
Fixpoint in_turn (render : spec -> arg -> result bytes) (xs : list (bytes + (option wish * arg))) : result bytes :=
  match xs with
  | [] => Ok []
  | x :: xs' =>
      match (match x with
             | inl s => Ok s
             | inr (w, a) => render (match w with Some w => asks w | None => empty_spec end) a
             end) with
      | Ok t => match in_turn render xs' with Ok out => Ok (t ++ out) | Error e => Error e | Undefined => Undefined end
      | Error e => Error e
      | Undefined => Undefined
      end
  end.

Definition sensible_pair (x : bytes + (option wish * arg)) : Prop :=
  match x with
  | inl s => ~ In NUL s
  | inr (Some w, a) => sensible a w
  | inr (None, _) => True
  end.

Fixpoint placeholders (ps : list piece) : nat :=
  match ps with [] => 0 | Text _ :: ps' => placeholders ps' | Next _ :: ps' => S (placeholders ps') end.
