(** Specification of the flush policies and size strings, independent of the model's state. *)
From Verif Require Import Base FlusherModel.
Open Scope N_scope.

(** Effective limit: zero stands for "practically never", the largest 64-bit number. *)
Definition limit_of (threshold : N) : N := if threshold =? 0 then 2 ^ 64 - 1 else threshold.

(** Number of non-empty writes in a list. *)
Definition nonempty_writes (sizes : list N) : N :=
  N.of_nat (List.length (List.filter (fun n => negb (n =? 0)) sizes)).

Definition total (sizes : list N) : N := List.fold_right N.add 0 sizes.

(** What remains unflushed after a history of (write, reported result): the writes after the last
    reported flush. *)
Fixpoint unflushed_go (acc : list N) (h : list (N * flush_result)) : list N :=
  match h with
  | [] => acc
  | (_, Flush) :: h' => unflushed_go [] h'
  | (n, Idle) :: h' => unflushed_go (acc ++ [n]) h'
  end.
Definition unflushed (h : list (N * flush_result)) : list N := unflushed_go [] h.

(** Size strings: a non-empty run of decimal digits denotes a number ... *)
Inductive Numeral : bytes -> N -> Prop :=
| numeral_one d : d < 10 -> Numeral [ascii_of_N (48 + d)] d
| numeral_snoc s n d : Numeral s n -> d < 10 -> Numeral (s ++ [ascii_of_N (48 + d)]) (10 * n + d).

(** ... and a unit multiplies it: decimal and binary prefixes of the byte, no unit meaning bytes. *)
Inductive Unit : bytes -> N -> Prop :=
| unit_none : Unit [] 1
| unit_b : Unit (B "B") 1
| unit_kb : Unit (B "kB") (10 ^ 3)
| unit_mb : Unit (B "MB") (10 ^ 6)
| unit_gb : Unit (B "GB") (10 ^ 9)
| unit_kib : Unit (B "KiB") (2 ^ 10)
| unit_mib : Unit (B "MiB") (2 ^ 20)
| unit_gib : Unit (B "GiB") (2 ^ 30).

(** The string [s] denotes [n] units of [m] bytes. *)
Definition Denotes (s : bytes) (n m : N) : Prop :=
  exists ds u, s = ds ++ u /\ Numeral ds n /\ Unit u m.
