(** Attribute values and their views: include/blackhole/attribute.hpp, src/attribute.cpp, src/attribute.hpp, and the
    conversion back to owned values of src/recordbuf.hpp. *)
From Verif Require Import Base StringViewModel.
Open Scope Z_scope.

(** The C++ integer types with a constructor of their own, and [signed char], which is promoted to [int]. *)
Inductive ctype := CChar | CSignedChar | CShort | CInt | CLong | CLongLong
  | CUchar | CUshort | CUint | CUlong | CUlonglong.
(** Whether the chosen constructor casts to [int64_t] ([char] is signed on x86) or to [uint64_t]. *)
Definition is_signed (t : ctype) : bool :=
  match t with CChar | CSignedChar | CShort | CInt | CLong | CLongLong => true | _ => false end.

(** static_cast<std::int64_t> and static_cast<std::uint64_t>. *)
Definition to_i64 (z : Z) : Z := (z + 2 ^ 63) mod 2 ^ 64 - 2 ^ 63.
Definition to_u64 (z : Z) : N := Z.to_N (z mod 2 ^ 64).

(** A function object at an address, with the text it writes to a writer. *)
Record callable := Callable { f_address : N; f_text : bytes }.

(** src/attribute.hpp:9-16 [value_t::inner_t]: a variant of seven types; a double is its bit pattern. *)
Inductive value :=
| VNull | VBool (b : bool) | VInt (z : Z) | VUint (n : N) | VDouble (bits : N) | VString (s : bytes) | VFun (f : callable).

(** include/blackhole/attribute.hpp:191-202 [view_t::function_type]: the address of an object and the address of the
    function that prints it. [w_text] is what it writes. *)
Record lazy := Lazy { w_object : N; w_fn : N; w_text : bytes }.
(** src/attribute.hpp:18-25 [view_t::inner_t]. *)
Inductive aview :=
| WNull | WBool (b : bool) | WInt (z : Z) | WUint (n : N) | WDouble (bits : N) | WString (v : view) | WFun (f : lazy).

(** What the user passes: a null pointer constant, a bool, an integer of a type, a double (a float is converted to
    double, which is exact), a character array, a pointer to characters, a string. *)
Inductive source :=
| XNull | XBool (b : bool) | XInteger (t : ctype) (z : Z) | XDouble (bits : N)
| XArray (object : bytes) | XPointer (p : option memory) | XString (s : bytes).

(** src/attribute.cpp:53-111 and include/blackhole/attribute.hpp:140-141, the constructors of [value_t]. A [const char*] is no array; of
    the constructors it converts to, the one from [bool] is a standard conversion and preferred to the one from
    [std::string]. *)
Definition make_value (x : source) : value :=
  match x with
  | XNull => VNull
  | XBool b => VBool b
  | XInteger t z => if is_signed t then VInt (to_i64 z) else VUint (to_u64 z)
  | XDouble bits => VDouble bits
  | XArray object => VString (removelast object)
  | XPointer p => VBool (match p with Some _ => true | None => false end)
  | XString s => VString s
  end.

(** src/attribute.cpp:180-246 and include/blackhole/attribute.hpp:267-268, the constructors of [view_t], likewise. *)
Definition make_view (x : source) : aview :=
  match x with
  | XNull => WNull
  | XBool b => WBool b
  | XInteger t z => if is_signed t then WInt (to_i64 z) else WUint (to_u64 z)
  | XDouble bits => WDouble bits
  | XArray object => WString (view_array object)
  | XPointer p => WBool (match p with Some _ => true | None => false end)
  | XString s => WString (view_string s)
  end.

(** src/attribute.cpp:16-32 [call], [into_view], 248-250: viewing an owned value. [call_address] is the address of [call]. *)
Definition call_address : N := 0.
Definition into_view (v : value) : aview :=
  match v with
  | VNull => WNull
  | VBool b => WBool b
  | VInt z => WInt z
  | VUint n => WUint n
  | VDouble bits => WDouble bits
  | VString s => WString (view_string s)
  | VFun f => WFun (Lazy (f_address f) call_address (f_text f))
  end.

(** src/recordbuf.hpp:24-42 [into_owned_t]. *)
Definition into_owned (w : aview) : outcome value :=
  match w with
  | WNull => Done VNull
  | WBool b => Done (VBool b)
  | WInt z => Done (VInt z)
  | WUint n => Done (VUint n)
  | WDouble bits => Done (VDouble bits)
  | WString v =>
      match to_string v with
      | Done s => Done (VString s) | OutOfRange => OutOfRange | LogicError => LogicError | Undefined => Undefined
      end
  | WFun f => Done (VString (w_text f))
  end.

(** src/attribute.cpp:158-176 and 273-294 [get<T>]: a pointer to the content if the variant holds exactly that type, else
    std::bad_cast ([None]). Six instances for values, seven for views. *)
Inductive gtype := TNull | TBool | TInt | TUint | TDouble | TString | TFunction.
Inductive got := GNull | GBool (b : bool) | GInt (z : Z) | GUint (n : N) | GDouble (bits : N) | GString (s : bytes).
Definition get_value (t : gtype) (v : value) : option got :=
  match t, v with
  | TNull, VNull => Some GNull
  | TBool, VBool b => Some (GBool b)
  | TInt, VInt z => Some (GInt z)
  | TUint, VUint n => Some (GUint n)
  | TDouble, VDouble bits => Some (GDouble bits)
  | TString, VString s => Some (GString s)
  | _, _ => None
  end.
Inductive gotview := HNull | HBool (b : bool) | HInt (z : Z) | HUint (n : N) | HDouble (bits : N) | HString (v : view) | HFun (f : lazy).
Definition get_view (t : gtype) (w : aview) : option gotview :=
  match t, w with
  | TNull, WNull => Some HNull
  | TBool, WBool b => Some (HBool b)
  | TInt, WInt z => Some (HInt z)
  | TUint, WUint n => Some (HUint n)
  | TDouble, WDouble bits => Some (HDouble bits)
  | TString, WString v => Some (HString v)
  | TFunction, WFun f => Some (HFun f)
  | _, _ => None
  end.

(** [==] of doubles, by their bits: not a number is equal to nothing, the two zeros are equal. *)
Definition is_nan (bits : N) : bool :=
  ((bits / 2 ^ 52) mod 2 ^ 11 =? 2047)%N && negb (bits mod 2 ^ 52 =? 0)%N.
Definition is_zero (bits : N) : bool := (bits mod 2 ^ 63 =? 0)%N.
Definition double_eq (a b : N) : bool :=
  negb (is_nan a) && negb (is_nan b) && ((a =? b)%N || (is_zero a && is_zero b)).

(** src/attribute.cpp:252-254 [view_t::operator==]: that of boost::variant, which compares the alternative in use and
    then the contents, functions with include/blackhole/attribute.hpp:199-201. *)
Definition view_equal (a b : aview) : outcome bool :=
  match a, b with
  | WNull, WNull => Done true
  | WBool x, WBool y => Done (Bool.eqb x y)
  | WInt x, WInt y => Done (x =? y)
  | WUint x, WUint y => Done (x =? y)%N
  | WDouble x, WDouble y => Done (double_eq x y)
  | WString x, WString y => view_eq x y
  | WFun x, WFun y => Done ((w_object x =? w_object y)%N && (w_fn x =? w_fn y)%N)
  | _, _ => Done false
  end.
