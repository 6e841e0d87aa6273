(** The root logger and attribute wrappers: src/root.cpp, src/wrapper.cpp, src/record.cpp. *)
From Verif Require Import Base Values.

(** A C++ exception: derived from [std::exception] with its [what()], or any other object. *)
Inductive exn := StdExn (what : bytes) | OtherExn (id : N).

(** How a call ends. *)
Inductive result (A : Type) := Ret (a : A) | Throw (e : exn).
Arguments Ret {A} a.
Arguments Throw {A} e.

(** What [lazy_message_t::supplier] returns: a [string_view] whose data pointer is null, or not. *)
Inductive sview := SNull | SView (s : bytes).

(** Observable effects of one log call, in order. *)
Inductive event :=
| EvFilter (r : record)              (* the filter is called *)
| EvSupply                           (* the message supplier is called *)
| EvHandle (i : nat) (r : record)    (* handler number [i] is called *)
| EvPrint (line : bytes).            (* a line on standard output *)

(** One call meets each filter and handler at most once, so they are their outcome on a record. *)
Definition filter_fn := record -> result bool.
Definition handler := record -> result unit.

(** src/root.cpp:72-96 [inner_t]. *)
Record inner := Inner { i_filter : filter_fn; i_handlers : list handler }.

(** src/record.cpp:18-34 [record_t::record_t]; the clock's epoch is 0. *)
Definition record_new (severity : Z) (message : bytes) (tid : N) (pack : attribute_pack) : record :=
  {| r_message := message; r_formatted := message; r_severity := severity; r_timestamp := 0%Z;
     r_tid := tid; r_attributes := pack |}.

(** src/record.cpp:76-78 [record_t::is_active]. *)
Definition is_active (r : record) : bool := negb (r_timestamp r =? 0)%Z.

(** src/record.cpp:80-87 [record_t::activate]; [now] is the clock's reading. *)
Definition activate (r : record) (formatted : sview) (now : Z) : record :=
  {| r_message := r_message r;
     r_formatted := match formatted with SNull => r_formatted r | SView s => s end;
     r_severity := r_severity r; r_timestamp := now; r_tid := r_tid r; r_attributes := r_attributes r |}.

(** src/root.cpp:194-198: the two catch clauses. *)
Definition report (e : exn) : bytes :=
  match e with
  | StdExn what => B "logging core error occurred: " ++ what
  | OtherExn _ => B "logging core error occurred: unknown"
  end.

(** src/root.cpp:191-199: the loop over the handlers, from number [i]. *)
Fixpoint deliver (i : nat) (hs : list handler) (r : record) : list event :=
  match hs with
  | [] => []
  | h :: hs' =>
      EvHandle i r ::
      match h r with
      | Ret _ => deliver (S i) hs' r
      | Throw e => EvPrint (report e) :: deliver (S i) hs' r
      end
  end.

(** Result of a log call: effects, how it ended, and the caller's attribute pack afterwards (it is
    taken by reference). *)
Record outcome := Outcome { o_events : list event; o_exit : result unit; o_pack : attribute_pack }.

(** src/root.cpp:175-201 [root_logger_t::consume]. [scoped] is what
    [sync->manager.get()->collect(pack)] appends (empty when there is no watcher), see ScopeModel.v.
    [tid] and [now] are the environment. The loads of the shared state are in FilterRaceModel.v. *)
Definition consume (lg : inner) (scoped : attribute_pack) (tid : N) (now : Z)
    (severity : Z) (pattern : bytes) (pack : attribute_pack) (supplier : result sview) : outcome :=
  let pack' := pack ++ scoped in
  let r := record_new severity pattern tid pack' in
  match i_filter lg r with
  | Throw e => Outcome [EvFilter r] (Throw e) pack'
  | Ret false => Outcome [EvFilter r] (Ret tt) pack'
  | Ret true =>
      match supplier with
      | Throw e => Outcome [EvFilter r; EvSupply] (Throw e) pack'
      | Ret formatted =>
          let r' := activate r formatted now in
          Outcome (EvFilter r :: EvSupply :: deliver 0 (i_handlers lg) r') (Ret tt) pack'
      end
  end.

(** A logger as the user builds it: the root logger, or a wrapper around another logger
    (src/wrapper.cpp:8-16). *)
Inductive logger := Root | Wrapper (attributes : attribute_list) (inner : logger).

(** src/wrapper.cpp:23-31 [wrapper_t::log] with a pack and src/root.cpp:167-173. *)
Fixpoint log_pack (l : logger) (lg : inner) (scoped : attribute_pack) (tid : N) (now : Z)
    (severity : Z) (pattern : bytes) (pack : attribute_pack) (supplier : result sview) : outcome :=
  match l with
  | Root => consume lg scoped tid now severity pattern pack supplier
  | Wrapper attributes l' => log_pack l' lg scoped tid now severity pattern (pack ++ [attributes]) supplier
  end.

(** src/root.cpp:152-158 [null_message_t]: the supplier of a plain message. *)
Definition null_message : result sview := Ret SNull.

(** src/wrapper.cpp:18-21 and src/root.cpp:162-165: [log] without a pack. *)
Definition log_plain (l : logger) (lg : inner) (scoped : attribute_pack) (tid : N) (now : Z)
    (severity : Z) (message : bytes) : outcome :=
  match l with
  | Root => consume lg scoped tid now severity message [] null_message
  | Wrapper attributes l' => log_pack l' lg scoped tid now severity message [attributes] null_message
  end.

(** src/formatter/string.cpp:286-296 [visitor_t::find]. *)
Fixpoint find_in_list (name : bytes) (l : attribute_list) : option value :=
  match l with
  | [] => None
  | (k, v) :: l' => if bytes_eqb k name then Some v else find_in_list name l'
  end.
Fixpoint find (name : bytes) (pack : attribute_pack) : option value :=
  match pack with
  | [] => None
  | l :: pack' => match find_in_list name l with Some v => Some v | None => find name pack' end
  end.

(** src/root.cpp:207-231 [builder<root_logger_t>]: [add] appends, [build] keeps the permissive filter. *)
Definition builder_add (handlers : list handler) (h : handler) : list handler := handlers ++ [h].
Definition builder_build (adds : list handler) : inner :=
  {| i_filter := fun _ => Ret true; i_handlers := fold_left builder_add adds [] |}.
