(** What leaves the process when a configured logger is used. *)
From Verif Require Import Base Values RootModel FactoriesModel SystemModel.
From Verif Require FmtModel FileSinkModel FileSinkSpec TcpModel TcpSpec RootSpec StrModel.

(** Sink number [j] of handler number [i]. *)
Definition sink_at (hs : list FactoriesModel.handler) (i j : nat) (s : sink) : Prop :=
  exists f sinks, nth_error hs i = Some (HBlocking f sinks) /\ nth_error sinks j = Some s.
Definition formatter_at (hs : list FactoriesModel.handler) (i : nat) (f : formatter) : Prop :=
  exists sinks, nth_error hs i = Some (HBlocking f sinks).

(** No other sink has this path. *)
Definition only_file (hs : list FactoriesModel.handler) (p : bytes) (i j : nat) : Prop :=
  forall i' j' c, sink_at hs i' j' (SFile p c) -> i' = i /\ j' = j.
Definition only_tcp (hs : list FactoriesModel.handler) (h : bytes) (p : N) (i j : nat) : Prop :=
  forall i' j', sink_at hs i' j' (STcp h p) -> i' = i /\ j' = j.

(** The record of a call whose message is made. *)
Definition record_of (c : call) (r : record) : Prop :=
  exists m, c_supplier c = Ret m /\
    r = {| r_message := c_pattern c; r_formatted := RootSpec.text_of (c_pattern c) m; r_severity := c_severity c;
           r_timestamp := c_now c; r_tid := c_tid c; r_attributes := c_pack c ++ c_scoped c |}.

(** A handler of [n] more sinks, the next one being number [j], gives the text to each, up to the first that throws. *)
Inductive given (c : call) (i : nat) (text : bytes) : nat -> nat -> list event -> Prop :=
| given_end j : given c i text j 0 []
| given_on j n evs : given c i text (S j) n evs ->
    given c i text j (S n) (Emitted i j (c_severity c) text (c_circumstances c i j) false :: evs)
| given_stop j n e : given c i text j (S n) [Emitted i j (c_severity c) text (c_circumstances c i j) true; Complained i e].

Section Spec.
Variable dbl : FmtModel.spec -> N -> bytes.
Variable dbl_json : N -> bytes.
Variable double_of : bytes -> N.
Variable what : FmtModel.error -> bytes.
Variable json_fmt : bytes -> value -> option bytes.
Notation render := (render dbl dbl_json double_of what json_fmt).

(** The handlers of a logger, from number [i], one after the other, whatever happens to those before. *)
Inductive handled (c : call) (r : record) : nat -> list FactoriesModel.handler -> list event -> Prop :=
| handled_end i : handled c r i [] []
| handled_text i f sinks hs text evs evs' :
    render f (c_env c) r = Text text -> given c i text 0 (length sinks) evs -> handled c r (S i) hs evs' ->
    handled c r i (HBlocking f sinks :: hs) (evs ++ evs')
| handled_raise i f sinks hs e evs :
    render f (c_env c) r = Raises e -> handled c r (S i) hs evs ->
    handled c r i (HBlocking f sinks :: hs) (Complained i e :: evs).

(** What a call does: nothing if its message cannot be made. *)
Definition called (hs : list FactoriesModel.handler) (c : call) (evs : list event) : Prop :=
  ((exists e, c_supplier c = Throw e) /\ evs = []) \/ exists r, record_of c r /\ handled c r 0 hs evs.

(** The formatter makes this text of the call. *)
Definition makes (f : formatter) (c : call) (text : bytes) : Prop := exists r, record_of c r /\ render f (c_env c) r = Text text.

(** How severities are shown: by their names, if there are any (C49). *)
Definition severity_names (sevmap : option (list bytes)) : StrModel.severity_map :=
  match sevmap with Some names => StrModel.list_map dbl names | None => StrModel.number_map dbl end.
End Spec.

(** The texts given to a sink, with the circumstances and whether it threw; those it did not throw at. *)
Definition at_sink (i j : nat) (e : event) : list (bytes * circumstances * bool) :=
  match e with
  | Emitted i' j' _ t q b => if Nat.eqb i' i && Nat.eqb j' j then [(t, q, b)] else []
  | Complained _ _ => []
  end.
Definition arrived (i j : nat) (evs : list event) : list bytes := map (fun x => fst (fst x)) (flat_map (at_sink i j) evs).
Definition taken (i j : nat) (evs : list event) : list bytes :=
  map (fun x => fst (fst x)) (filter (fun x => negb (snd x)) (flat_map (at_sink i j) evs)).

(** What the file called by a path holds. *)
Definition content (s : FileSinkModel.fs) : bytes :=
  match FileSinkModel.f_path s with Some f => FileSinkModel.f_data s f | None => [] end.

(** What is seen of an event on the standard output, on the network, in the system log; [hs] says what the sinks are. *)
Definition sink_of (hs : list FactoriesModel.handler) (i j : nat) : option sink :=
  match nth_error hs i with Some (HBlocking _ sinks) => nth_error sinks j | None => None end.
Definition on_stdout (hs : list FactoriesModel.handler) (e : event) : bytes :=
  match e with
  | Emitted i j severity t _ _ =>
      match sink_of hs i j with
      | Some (SConsole None) => t ++ [chr 10]
      | Some (SConsole (Some threshold)) => if (severity <? threshold)%Z then [] else t ++ [chr 10]
      | _ => []
      end
  | Complained _ (StdExn w) => B "logging core error occurred: " ++ w ++ [chr 10]
  | Complained _ (OtherExn _) => B "logging core error occurred: unknown" ++ [chr 10]
  end.
Definition on_network (hs : list FactoriesModel.handler) (e : event) : list (bytes * N * bytes) :=
  match e with
  | Emitted i j _ t _ false => match sink_of hs i j with Some (SUdp h p) => [(h, p, t)] | _ => [] end
  | _ => []
  end.

(** The part of a text before the first NUL; the priority of a severity. *)
Fixpoint before_nul (s : bytes) : bytes :=
  match s with [] => [] | c :: s' => if Ascii.eqb c (chr 0) then [] else c :: before_nul s' end.
Definition priority_of (l : list Z) (severity : Z) : Z :=
  if (0 <=? severity)%Z then nth (Z.to_nat severity) l 3%Z else 3%Z.
Definition in_syslog (hs : list FactoriesModel.handler) (e : event) : list (Z * bytes) :=
  match e with
  | Emitted i j severity t _ _ =>
      match sink_of hs i j with Some (SSyslog l) => [(priority_of l severity, before_nul t)] | _ => [] end
  | Complained _ _ => []
  end.

(** A text that is no longer than an [int]; a severity that is an [int]. *)
Definition text_fits (e : event) : Prop :=
  match e with
  | Emitted _ _ severity t _ _ => (Z.of_nat (length t) < 2 ^ 31 /\ - 2 ^ 31 <= severity < 2 ^ 31)%Z
  | Complained _ _ => True
  end.

(** What happened on the connections of an address. *)
Definition connections (h : bytes) (p : N) (l : list (bytes * N * TcpModel.event)) : list TcpModel.event :=
  flat_map (fun x => if bytes_eqb (fst (fst x)) h && (snd (fst x) =? p)%N then [snd x] else []) l.
