(** Whose identity a syslog message carries, without reference to pointers and objects. *)
From Verif Require Import Base DeliveryModel IdentModel.
Open Scope N_scope.

(** Commands that only concern sinks, and texts that printf can print with a precision (see C54). *)
Definition of_sinks (c : command) : Prop := match c with Make _ _ | Drop _ | Emit _ _ _ => True | _ => False end.
Definition printable (c : command) : Prop :=
  match c with Emit _ _ s => (Z.of_nat (length s) < 2 ^ 31)%Z | _ => True end.

(** A thread inside of the factory, behind the move of the local sink and in front of the end of its connection. *)
Definition moved (t : phase * list command) : Prop := match fst t with Closing _ _ (Some _) => True | _ => False end.

(** The priority of a message: it has a facility of its own (bits 3 to 9), or gets this one. *)
Definition in_facility (fac priority : Z) : Z := if ((priority / 8) mod 128 =? 0)%Z then (priority + fac)%Z else priority.

(** ---- one thread: the latest opening or closing counts ---- *)

(** Histories, the latest command first. *)
Section Histories.
Variable progname : bytes.

Fixpoint ident_after (h : list command) : bytes :=
  match h with
  | [] => progname
  | AppOpen (Some ident) _ _ :: _ => ident
  | Make _ _ :: _ | Drop _ :: _ | AppClose :: _ => progname
  | _ :: h' => ident_after h'
  end.
Fixpoint option_after (h : list command) : Z :=
  match h with
  | [] => 0
  | AppOpen _ option _ :: _ => option
  | Make _ _ :: _ => LOG_PID
  | _ :: h' => option_after h'
  end.
Fixpoint facility_after (h : list command) : Z :=
  match h with
  | [] => LOG_USER
  | AppOpen _ _ fac :: h' => if (fac =? 0)%Z then facility_after h' else fac
  | Make _ _ :: _ => LOG_USER
  | _ :: h' => facility_after h'
  end.
Fixpoint priorities_of (k : N) (h : list command) : list Z :=
  match h with
  | [] => []
  | Make k' (Some ps) :: h' => if k' =? k then map to_int ps else priorities_of k h'
  | _ :: h' => priorities_of k h'
  end.

Definition message_after (h : list command) (priority : Z) (text : bytes) : message :=
  Message (ident_after h) (option_after h) (in_facility (facility_after h) priority) text.

(** The messages of further commands. *)
Fixpoint messages (h cs : list command) : list message :=
  match cs with
  | [] => []
  | c :: cs' =>
      match c with
      | Emit k severity formatted => [message_after h (syslog_priority (priorities_of k h) severity) (until_nul formatted)]
      | AppLog priority text => [message_after h priority text]
      | _ => []
      end ++ messages (c :: h) cs'
  end.
End Histories.

(** Sinks are used between their making and their destruction, and no key is used twice. Facilities are those of syslog, or 0. *)
Fixpoint used_well (live known : list N) (cs : list command) : Prop :=
  match cs with
  | [] => True
  | c :: cs' =>
      match c with
      | Make k ps => ~ In k known /\ used_well (match ps with Some _ => k :: live | None => live end) (k :: known) cs'
      | Drop k => In k live /\ used_well (List.remove N.eq_dec k live) known cs'
      | Emit k _ _ => In k live /\ used_well live known cs'
      | AppOpen _ _ fac => (exists n, n < 128 /\ fac = Z.of_N (8 * n)) /\ used_well live known cs'
      | _ => used_well live known cs'
      end
  end.
