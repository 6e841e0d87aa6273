(** What a view shows, and orders on byte strings. *)
From Verif Require Import Base StringViewModel.
Open Scope N_scope.

(** The view covers the bytes [bs], which are followed by anything in the object; a null view covers nothing. *)
Inductive shows : view -> bytes -> Prop :=
| shows_null : shows (View None 0) []
| shows_bytes bs rest : shows (View (Some (bs ++ rest)) (N.of_nat (length bs))) bs.

(** The order of std::string: by the values of the bytes, 0 to 255. *)
Fixpoint string_before (a b : bytes) : Prop :=
  match a, b with
  | _, [] => False
  | [], _ :: _ => True
  | x :: a', y :: b' => N_of_ascii x < N_of_ascii y \/ (x = y /\ string_before a' b')
  end.

Definition ascii_only (s : bytes) : Prop := Forall (fun c => N_of_ascii c < 128) s.
