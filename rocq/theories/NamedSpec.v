(** What arguments and placeholders mean, without reference to how they are stored and found. *)
From Verif Require Import Base FmtModel FmtSpec NamedModel.
Open Scope N_scope.

(** The value of an argument, named or not. *)
Definition value_of (g : given) : arg := match g with Plain a => a | Named _ a => a end.

(** Two arguments of one kind: both named or both values of one type. *)
Definition same_kind (g h : given) : Prop :=
  match g, h with
  | Named _ _, Named _ _ => True
  | Plain a, Plain b =>
      match a, b with
      | AInt _, AInt _ | AUint _, AUint _ | ALong _, ALong _ | AUlong _, AUlong _ | ABool _, ABool _ | AChar _, AChar _ | ADouble _, ADouble _
      | ACString _, ACString _ | AString _ _, AString _ _ => True
      | _, _ => False
      end
  | _, _ => False
  end.

(** The first argument of a name, and the position of it. *)
Fixpoint called (name : bytes) (l : list given) : option arg :=
  match l with
  | [] => None
  | Named n a :: l' => if bytes_eqb n name then Some a else called name l'
  | Plain _ :: l' => called name l'
  end.
Fixpoint place_of (name : bytes) (l : list given) : option N :=
  match l with
  | [] => None
  | Named n a :: l' => if bytes_eqb n name then Some 0 else option_map N.succ (place_of name l')
  | Plain _ :: l' => option_map N.succ (place_of name l')
  end.

(** ---- format strings ---- *)

(** How an argument is chosen: the following one, the one at a position (its number and its digits), the one of a name. *)
Inductive choice := Following | Position (n : N) (ds : bytes) | Called (name : bytes).

(** A width or a precision: a number and its digits, or that of an argument. *)
Inductive size := Number (n : N) (ds : bytes) | Of (c : choice).

(** A wish of FmtSpec.v ([w_width] and [w_precision] are not looked at) and its width and precision. *)
Record desire := Desire { d_wish : wish; d_width : option size; d_precision : option size }.

Inductive part := Words (s : bytes) | Place (c : choice) (d : option desire).

Definition choice_text (c : choice) : bytes :=
  match c with Following => [] | Position _ ds => ds | Called name => name end.
Definition size_text (s : size) : bytes :=
  match s with Number _ ds => ds | Of c => B "{" ++ choice_text c ++ B "}" end.
Definition desire_text (d : desire) : bytes :=
  let w := d_wish d in
  ":"%char :: opt_text (w_fill w) ++ align_text (w_align w) ++ opt_text (w_sign w)
   ++ (if w_hash w then B "#" else []) ++ (if w_zero w then B "0" else [])
   ++ match d_width d with Some s => size_text s | None => [] end
   ++ match d_precision d with Some s => "."%char :: size_text s | None => [] end
   ++ opt_text (w_type w).
Definition part_text (p : part) : bytes :=
  match p with
  | Words s => flat_map brace_text s
  | Place c None => B "{" ++ choice_text c ++ B "}"
  | Place c (Some d) => B "{" ++ choice_text c ++ desire_text d ++ B "}"
  end.
Definition parts_text (ps : list part) : bytes := flat_map part_text ps.

(** Names that can be written in a placeholder. *)
Definition name_start (c : ascii) : bool := letter c || Ascii.eqb c "_".
Definition decimal (c : ascii) : bool := match digit_number c with Some d => d <? 10 | None => false end.
Definition identifier (name : bytes) : Prop :=
  match name with
  | c :: rest => name_start c = true /\ Forall (fun c => name_start c || decimal c = true) rest
  | [] => False
  end.

Definition sound_choice (c : choice) : Prop :=
  match c with
  | Following => True
  | Position n ds => digits_of n ds /\ n < 2 ^ 31
  | Called name => identifier name
  end.
Definition sound_size (lowest : N) (s : option size) : Prop :=
  match s with
  | None => True
  | Some (Number n ds) => digits_of n ds /\ lowest <= n < 2 ^ 31
  | Some (Of c) => sound_choice c
  end.

(** A well-formed desire for an argument; compare [sensible]. *)
Definition sound_desire (a : arg) (d : desire) : Prop :=
  let w := d_wish d in
  desire_text d <> B ":"
  /\ match w_fill w with
     | Some c => c <> LBRACE /\ c <> RBRACE /\ c <> NUL /\ w_align w <> ADefault
     | None => True
     end
  /\ (w_align w = ANumeric -> number_kind a = true)
  /\ match w_sign w with
     | Some c => (c = "+" \/ c = "-" \/ c = " ")%char /\ number_kind a = true
                 /\ match a with AUint _ | AUlong _ => False | _ => True end
     | None => True
     end
  /\ (w_hash w = true -> number_kind a = true)
  /\ (w_zero w = true -> number_kind a = true)
  /\ sound_size 1 (d_width d)
  /\ sound_size 0 (d_precision d)
  /\ (d_precision d <> None -> whole_kind a = false)
  /\ match w_type w with Some c => letter c = true | None => True end.

(** ---- what parts mean ---- *)

(** The number an argument gives to a width or a precision. *)
Definition number_of (a : arg) : option Z :=
  match a with
  | AInt z | ALong z => Some z
  | AUint n | AUlong n => Some (Z.of_N n)
  | _ => None
  end.
Definition size_of (negative not_integer : error) (a : arg) : result N :=
  match number_of a with
  | None => Error not_integer
  | Some z => if (z <? 0)%Z then Error negative else if (z <? 2 ^ 31)%Z then Ok (Z.to_N z) else Error ENumberTooBig
  end.

(** What is asked for once width and precision are known. *)
Definition settled (d : desire) (width : N) (precision : option N) : spec :=
  let w := d_wish d in
  asks (Wish (w_fill w) (w_align w) (w_sign w) (w_hash w) (w_zero w) (Some (width, []))
         (option_map (fun n => (n, [])) precision) (w_type w)).

(** The argument that a position or a name chooses. *)
Definition chosen (l : list given) (c : choice) : result arg :=
  match c with
  | Following => Error EAutoFromManual
  | Position n _ => match nth_error l (N.to_nat n) with Some g => Ok (value_of g) | None => Error EIndexRange end
  | Called name => match called name l with Some a => Ok a | None => Error ENotFound end
  end.

Definition size_chosen (l : list given) (negative not_integer : error) (s : size) : result N :=
  match s with
  | Number n _ => Ok n
  | Of c => match chosen l c with Ok a => size_of negative not_integer a | Error e => Error e | Undefined => Undefined end
  end.

Definition place_meaning (render : spec -> arg -> result bytes) (l : list given) (c : choice) (d : option desire) : result bytes :=
  a <- chosen l c;
  match d with
  | None => render empty_spec a
  | Some d =>
      w <- match d_width d with Some s => size_chosen l ENegativeWidth EWidthNotInteger s | None => Ok 0 end;
      p <- match d_precision d with
           | Some s => n <- size_chosen l ENegativePrecision EPrecisionNotInteger s; Ok (Some n)
           | None => Ok None
           end;
      render (settled d w p) a
  end.

(** Text is copied, places become what they ask for; the first failure is the result. *)
Fixpoint meaning (render : spec -> arg -> result bytes) (l : list given) (ps : list part) : result bytes :=
  match ps with
  | [] => Ok []
  | p :: ps' =>
      t <- match p with Words s => Ok s | Place c d => place_meaning render l c d end;
      out <- meaning render l ps';
      Ok (t ++ out)
  end.

(** Well-formed parts for a list of arguments: the desires fit the arguments that are chosen. *)
Definition sound_part (l : list given) (p : part) : Prop :=
  match p with
  | Words s => ~ In NUL s
  | Place c d => sound_choice c /\ match d with
                                   | Some d => (forall a, chosen l c = Ok a -> sound_desire a d)
                                               /\ exists a, sound_desire a d
                                   | None => True
                                   end
  end.

(** ---- kinds of format strings ---- *)

Definition size_choices (s : option size) : list choice := match s with Some (Of c) => [c] | _ => [] end.
Definition choices_of (p : part) : list choice :=
  match p with
  | Words _ => []
  | Place c None => [c]
  | Place c (Some d) => c :: size_choices (d_width d) ++ size_choices (d_precision d)
  end.

(** No choice is that of the following argument, or all are. *)
Definition explicit (c : choice) : Prop := c <> Following.
Definition all_explicit (ps : list part) : Prop := Forall explicit (flat_map choices_of ps).
Definition all_following (ps : list part) : Prop := Forall (eq Following) (flat_map choices_of ps).

Definition has_place (ps : list part) : Prop := flat_map choices_of ps <> [].

(** The same with positions instead of names, or counted from [k]. [digits] gives the digits of a number. *)
Section Positions.
Variable digits : N -> bytes.
Definition at_position (n : N) : choice := Position n (digits n).

Definition placed (l : list given) (c : choice) : choice :=
  match c with
  | Called name => match place_of name l with Some n => at_position n | None => c end
  | _ => c
  end.
Definition placed_size (l : list given) (s : size) : size := match s with Of c => Of (placed l c) | _ => s end.
Definition placed_part (l : list given) (p : part) : part :=
  match p with
  | Words s => p
  | Place c d => Place (placed l c) (option_map (fun d => Desire (d_wish d) (option_map (placed_size l) (d_width d))
                                                            (option_map (placed_size l) (d_precision d))) d)
  end.

Definition counted_size (k : N) (s : option size) : option size * N :=
  match s with Some (Of Following) => (Some (Of (at_position k)), k + 1) | _ => (s, k) end.
Fixpoint counted (k : N) (ps : list part) : list part :=
  match ps with
  | [] => []
  | Words s :: ps' => Words s :: counted k ps'
  | Place Following None :: ps' => Place (at_position k) None :: counted (k + 1) ps'
  | Place Following (Some d) :: ps' =>
      let (w, k1) := counted_size (k + 1) (d_width d) in
      let (p, k2) := counted_size k1 (d_precision d) in
      Place (at_position k) (Some (Desire (d_wish d) w p)) :: counted k2 ps'
  | p :: ps' => p :: counted k ps'
  end.
End Positions.
