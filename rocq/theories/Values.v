(** Attribute values, attribute lists and records, as seen through the public API. *)
From Verif Require Import Base.

(** include/blackhole/attribute.hpp:181-213 [view_t] and :68-88 [value_t]: the seven alternatives.
    A double is its 64-bit pattern. A function value is represented by the text it writes to the
    writer it is given (the function is assumed to write the same text each time and not to throw). *)
Inductive value :=
| VNull
| VBool (b : bool)
| VInt (z : Z)
| VUint (n : N)
| VDouble (bits : N)
| VString (s : bytes)
| VFun (text : bytes).

(** include/blackhole/attributes.hpp:43-76 [attribute_t], [attribute_list], [attribute_pack]
    (a pack is a vector of references to lists; here, of the lists). *)
Definition attribute := (bytes * value)%type.
Definition attribute_list := list attribute.
Definition attribute_pack := list attribute_list.

(** src/record.hpp:8-20 [record_t::inner_t], by value. [r_timestamp] counts from the clock's epoch;
    [lwp] and the process id are not stored (src/record.cpp:52-62 asks the OS when called). *)
Record record := Rec {
  r_message : bytes;
  r_formatted : bytes;
  r_severity : Z;
  r_timestamp : Z;
  r_tid : N;
  r_attributes : attribute_pack
}.
