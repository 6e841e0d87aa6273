(** Views of character sequences: include/blackhole/stdext/string_view.hpp. *)
From Verif Require Import Base.
Open Scope N_scope.

(** What a pointer sees: the bytes from it to the end of the object it points into. *)
Definition memory := bytes.

(** include/blackhole/stdext/string_view.hpp:40-45, data members of [basic_string_view<char>]: a pointer, null or into an
    object, and a size ([size_t], 64 bits). *)
Record view := View { v_data : option memory; v_size : N }.

(** How a call ends: with a value, with std::out_of_range, with std::logic_error (std::string of a null pointer), or by
    reading outside of an object. *)
Inductive outcome (A : Type) := Done (a : A) | OutOfRange | LogicError | Undefined.
Arguments Done {A} a.
Arguments OutOfRange {A}.
Arguments LogicError {A}.
Arguments Undefined {A}.

(** string_view.hpp:49-52. *)
Definition view_empty : view := View None 0.
(** string_view.hpp:57-61: from a character array, of which the last element is left out whatever it is. *)
Definition view_array (object : bytes) : view := View (Some object) (N.of_nat (length object) - 1).
(** string_view.hpp:69-72. *)
Definition view_pointer (p : option memory) (size : N) : view := View p size.
(** string_view.hpp:76-80; the characters of a std::string are followed by a NUL. *)
Definition view_string (s : bytes) : view := View (Some (s ++ [NUL])) (N.of_nat (length s)).

(** string_view.hpp:28, [npos]. *)
Definition npos : N := two64 - 1.

(** Reading through a pointer. *)
Definition load (p : option memory) (i : N) : outcome ascii :=
  match p with
  | None => Undefined
  | Some m => match nth_error m (N.to_nat i) with Some c => Done c | None => Undefined end
  end.
Definition load_many (p : option memory) (n : N) : outcome bytes :=
  if n =? 0 then Done []
  else match p with
       | None => Undefined
       | Some m => if n <=? N.of_nat (length m) then Done (firstn (N.to_nat n) m) else Undefined
       end.

(** string_view.hpp:103-107 [operator[]]. *)
Definition index (v : view) (id : N) : outcome ascii := if id <? v_size v then load (v_data v) id else OutOfRange.

(** string_view.hpp:112-118 [to_string]: the constructor of std::string from a pointer and a size. *)
Definition to_string (v : view) : outcome bytes :=
  match v_data v with
  | None => if v_size v =? 0 then Done [] else LogicError
  | Some _ => load_many (v_data v) (v_size v)
  end.

(** string_view.hpp:122-127 [substr]. Moving a pointer beyond the end of its object is undefined. *)
Definition advance (p : option memory) (n : N) : outcome (option memory) :=
  if n =? 0 then Done p
  else match p with
       | None => Undefined
       | Some m => if n <=? N.of_nat (length m) then Done (Some (skipn (N.to_nat n) m)) else Undefined
       end.
Definition substr (v : view) (pos count : N) : outcome view :=
  if pos <=? v_size v
  then match advance (v_data v) pos with
       | Done p => Done (View p (N.min count (v_size v - pos)))
       | OutOfRange => OutOfRange | LogicError => LogicError | Undefined => Undefined
       end
  else OutOfRange.

(** string_view.hpp:138-163 [operator==] (three overloads with one body): sizes, then [char_traits::compare]. *)
Definition view_eq (v w : view) : outcome bool :=
  if v_size v =? v_size w
  then match load_many (v_data v) (v_size v), load_many (v_data w) (v_size v) with
       | Done a, Done b => Done (bytes_eqb a b)
       | _, _ => Undefined
       end
  else Done false.

(** [char] is signed on the platforms with a POSIX x86 ABI. *)
Definition signed_char (c : ascii) : Z :=
  if N_of_ascii c <? 128 then Z.of_N (N_of_ascii c) else (Z.of_N (N_of_ascii c) - 256)%Z.

(** std::lexicographical_compare of two ranges of [char]: compares with [<] of [char]. *)
Fixpoint lexicographical_compare (a b : bytes) : bool :=
  match a, b with
  | _, [] => false
  | [], _ :: _ => true
  | x :: a', y :: b' =>
      if (signed_char x <? signed_char y)%Z then true
      else if (signed_char y <? signed_char x)%Z then false
      else lexicographical_compare a' b'
  end.

(** string_view.hpp:165-171 [operator<]. The whole ranges are taken to be readable, although the call may stop early. *)
Definition view_lt (v w : view) : outcome bool :=
  match load_many (v_data v) (v_size v), load_many (v_data w) (v_size w) with
  | Done a, Done b => Done (lexicographical_compare a b)
  | _, _ => Undefined
  end.
