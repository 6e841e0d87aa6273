(** What can be relied on if sinks are asynchronous. *)
From Verif Require Import Base Values RootModel FactoriesModel SystemModel SystemSpec ThreadsModel ThreadsSpec QueuedModel.
From Verif Require FmtModel AsyncModel AsyncSpec.
From Coq Require Permutation.

(** What the threads of the program did, in ThreadsModel's words. *)
Definition own (tr : list happening) : list ThreadsModel.happening := flat_map (fun h => match h with Own h => [h] | _ => [] end) tr.

(** A severity and a text, with the thread that logged it. What the threads gave to sink [j] of handler [i]; what reached the sink at the end of its
    queues; what was dropped in front of one of them. *)
Notation parcel := (nat * (Z * bytes))%type.
Definition parcel_of (d : delivery) : parcel := (d_thread d, (d_severity d, d_text d)).
Definition gave (i j : nat) (tr : list happening) : list parcel :=
  flat_map (fun h => match h with
    | Own (Did t (Emitted i' j' severity text _ _)) => if Nat.eqb i' i && Nat.eqb j' j then [(t, (severity, text))] else []
    | _ => [] end) tr.
Definition reached (i j : nat) (tr : list happening) : list parcel :=
  flat_map (fun h => match h with
    | Reached i' j' d _ => if Nat.eqb i' i && Nat.eqb j' j then [parcel_of d] else []
    | _ => [] end) tr.
Definition dropped (i j : nat) (tr : list happening) : list parcel :=
  flat_map (fun h => match h with
    | Dropped i' j' _ d => if Nat.eqb i' i && Nat.eqb j' j then [parcel_of d] else []
    | _ => [] end) tr.
(** Those of one thread. *)
Definition from (t : nat) (l : list parcel) : list (Z * bytes) := map snd (filter (fun x => Nat.eqb (fst x) t) l).

(** All queues of a sink wait for room. *)
Definition patient (hs : list FactoriesModel.handler) (i j : nat) : Prop :=
  Forall (fun c => AsyncModel.c_policy c = AsyncModel.Wait) (layers_at hs i j).
(** How many records can be under way to the sink: each queue's, and one in the hands of its worker. *)
Definition room (hs : list FactoriesModel.handler) (i j : nat) : nat := list_sum (map (fun c => AsyncModel.c_capacity c + 1)%nat (layers_at hs i j)).

(** The threads are between two calls; they are done; the destructor of the logger has returned. *)
Definition all_idle (s : state) : Prop := Forall (fun x => q_stage x = QIdle) (g_threads s).
Definition all_done (s : state) : Prop := Forall (fun x => q_calls x = [] /\ q_stage x = QIdle) (g_threads s).
Definition destroyed (s : state) : Prop := all_done s /\ g_todo s = [] /\ g_dead s = false.
(** No flag was set while a worker was on its way from an attempt that failed to the test of the flag and there were records in its queue again. *)
Definition in_time (i j : nat) (tr : list happening) : Prop :=
  forall k n, In (Stopping i j k true n) tr -> n = 0%nat.

(** The emits of the sinks at the end of the queues, in SystemModel's words. *)
Definition arrivals (tr : list happening) : list event :=
  flat_map (fun h => match h with Reached i j d threw => [Emitted i j (d_severity d) (d_text d) (d_q d) threw] | _ => [] end) tr.
(** What is seen of a happening on the standard output. *)
Definition seen (hs : list FactoriesModel.handler) (h : happening) : bytes :=
  match h with
  | Reached i j d threw => on_stdout (map strip hs) (Emitted i j (d_severity d) (d_text d) (d_q d) threw)
  | Own (Wrote _ piece) => piece
  | _ => []
  end.
(** What a thread printed of its complaints, and the complaints. *)
Definition printed (t : nat) (tr : list happening) : bytes :=
  flat_map (fun h => match h with Own (Wrote t' piece) => if Nat.eqb t' t then piece else [] | _ => [] end) tr.
Definition complaint (e : event) : bytes :=
  match e with
  | Emitted _ _ _ _ _ _ => []
  | Complained _ (StdExn w) => B "logging core error occurred: " ++ w ++ [chr 10]
  | Complained _ (OtherExn _) => B "logging core error occurred: unknown" ++ [chr 10]
  end.

(** Behind the queues [cs] of a sink, the outermost first, there is [y]. *)
Inductive behind : sink -> list AsyncModel.config -> sink -> Prop :=
| behind_none y : (forall wrapped c, y <> SAsynchronous wrapped c) -> behind y [] y
| behind_queue x c cs y : behind x cs y -> behind (SAsynchronous x c) (c :: cs) y.
