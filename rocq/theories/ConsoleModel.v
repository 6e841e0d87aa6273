(** The console sink (src/sink/console.cpp), terminal colours (src/termcolor.cpp), and the writing of lines to
    the standard streams by several threads. *)
From Verif Require Import Base Decimal.

(** include/blackhole/termcolor.hpp:10-12, src/termcolor.cpp:26-34. *)
Record termcolor := Color { attr : Z; code : Z }.
Definition default_color : termcolor := Color 0 39.
Definition gray := Color 0 2.       (* src/termcolor.cpp:36-38 *)
Definition blue := Color 0 34.      (* src/termcolor.cpp:40-42 *)
Definition green := Color 0 32.     (* src/termcolor.cpp:44-46 *)
Definition yellow := Color 0 33.    (* src/termcolor.cpp:48-50 *)
Definition red := Color 0 31.       (* src/termcolor.cpp:52-54 *)
Definition reset := Color 0 0.      (* src/termcolor.cpp:56-58 *)

Definition ESC : ascii := chr 27.

(** src/termcolor.cpp:81-83 [operator<<]. *)
Definition print_color (c : termcolor) : bytes := [ESC; "["%char] ++ sdec (code c) ++ ["m"%char].

(** src/termcolor.cpp:60-62,77-79 [operator==], [colored]. *)
Definition colored (c : termcolor) : bool := negb ((code c =? code default_color)%Z && (attr c =? attr default_color)%Z).

(** src/termcolor.cpp:68-75 [write]: the colour, the data, the reset by the scope's destructor. *)
Definition color_write (c : termcolor) (data : bytes) : bytes :=
  if colored c then print_color c ++ data ++ print_color reset else data.

(** ** The builder's colour mapping, over records of type [R] with a severity *)
Section Mapping.
Variable R : Type.
Variable severity : R -> Z.

Inductive colorize := BySeverity (s : Z) (c : termcolor) | ByFunction (f : R -> termcolor).

(** src/sink/console.cpp:141-151 and 157-160. *)
Definition apply_colorize (mapping : R -> termcolor) (x : colorize) : R -> termcolor :=
  match x with
  | BySeverity s c => let fallback := mapping in fun r => if (s =? severity r)%Z then c else fallback r
  | ByFunction f => f
  end.

(** src/sink/console.cpp:119-121 and 166-168: the mapping of the built sink. *)
Definition built_mapping (calls : list colorize) : R -> termcolor :=
  fold_left apply_colorize calls (fun _ => default_color).
End Mapping.
Arguments BySeverity {R}.
Arguments ByFunction {R}.

(** include/blackhole/filter.hpp [action_t]. *)
Inductive action := Neutral | Accept | Deny.

(** src/sink/console.cpp:90-109 [emit], the bytes it writes while it holds the mutex ([None]: the filter denies
    the record and emit returns). *)
Definition emit_bytes (filter : action) (tty : bool) (color : termcolor) (formatted : bytes) : option bytes :=
  match filter with
  | Deny => None
  | Neutral | Accept => Some ((if tty then color_write color formatted else formatted) ++ [NL])
  end.

(** ** Threads *)

(** A component writing to a standard stream: which mutex it uses (0: src/sink/console.cpp:34, 1:
    src/handler/dev.cpp:31), which stream (false: stdout, true: stderr), what it writes. *)
Record request := Request { q_lock : nat; q_stream : bool; q_bytes : bytes }.

Inductive tstate := TIdle | TWait (q : request) | TWrite (q : request) (rest : bytes).

Record world := World {
  w_lock : nat -> option nat;    (* the thread holding each mutex *)
  w_thread : nat -> tstate;
  w_out : bool -> bytes
}.

Definition upd {A} (f : nat -> A) (k : nat) (v : A) : nat -> A := fun x => if Nat.eqb x k then v else f x.
Definition out_add (f : bool -> bytes) (s : bool) (c : ascii) : bool -> bytes :=
  fun x => if Bool.eqb x s then f x ++ [c] else f x.

(** Steps of a thread: begin an emit that the filter let pass, take the mutex, write one byte, release the
    mutex when all is written. A step not enabled makes the schedule invalid. *)
Inductive act := Begin (t : nat) (q : request) | Take (t : nat) | Put (t : nat) | Done (t : nat).
Inductive event := EBegin (t : nat) (q : request) | ETake (t : nat) (q : request) | EDone (t : nat) (q : request).

Definition step (w : world) (a : act) : option (world * list event) :=
  match a with
  | Begin t q =>
      match w_thread w t with
      | TIdle => Some (World (w_lock w) (upd (w_thread w) t (TWait q)) (w_out w), [EBegin t q])
      | _ => None
      end
  | Take t =>
      match w_thread w t with
      | TWait q =>
          match w_lock w (q_lock q) with
          | None => Some (World (upd (w_lock w) (q_lock q) (Some t)) (upd (w_thread w) t (TWrite q (q_bytes q))) (w_out w), [ETake t q])
          | Some _ => None
          end
      | _ => None
      end
  | Put t =>
      match w_thread w t with
      | TWrite q (c :: rest) => Some (World (w_lock w) (upd (w_thread w) t (TWrite q rest)) (out_add (w_out w) (q_stream q) c), [])
      | _ => None
      end
  | Done t =>
      match w_thread w t with
      | TWrite q [] => Some (World (upd (w_lock w) (q_lock q) None) (upd (w_thread w) t TIdle) (w_out w), [EDone t q])
      | _ => None
      end
  end.

Fixpoint run (w : world) (acts : list act) : option (world * list event) :=
  match acts with
  | [] => Some (w, [])
  | a :: acts' =>
      match step w a with
      | None => None
      | Some (w1, e1) => match run w1 acts' with None => None | Some (w2, e2) => Some (w2, e1 ++ e2) end
      end
  end.

Definition init : world := World (fun _ => None) (fun _ => TIdle) (fun _ => []).
