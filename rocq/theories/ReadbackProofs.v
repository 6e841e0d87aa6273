From Verif Require Import Base Values RootModel FactoriesModel SystemModel SystemSpec SystemProofs ThreadsModel ThreadsSpec ThreadsProofs.
From Verif Require Import QueuedModel QueuedSpec QueuedProofs QueuedSubProofs QueuedMoreProofs QueuedEndProofs QueuedWorldProofs ReadbackSpec.
From Verif Require FmtModel TskvModel TskvSpec TskvProofs JsonFmtModel JsonFmtSpec JsonFmtProofs JsonTextModel JsonTextSpec JsonTextProofs StrSpec StrSubProofs FileSinkSpec FileSinkModel.
From Coq Require Permutation.

(** ---- lines ---- *)

Lemma cut_some s : cut s <> [].
Proof. induction s as [|x s IH]; cbn; [discriminate|]. destruct (cut s); [contradiction|]. destruct (Ascii.eqb x NL); discriminate. Qed.
Lemma cut_line l rest : ~ In NL l -> cut (l ++ NL :: rest) = l :: cut rest.
Proof.
  induction l as [|c l IH]; intros H; cbn [app cut].
  - rewrite Ascii.eqb_refl. pose proof (cut_some rest). destruct (cut rest); [contradiction|reflexivity].
  - rewrite IH by (intros X; apply H; right; exact X). destruct (Ascii.eqb_spec c NL) as [E|_]; [|reflexivity].
    exfalso. apply H. left. exact E.
Qed.

Section Log.
Context {A : Type} (reader : bytes -> option A).
Lemma read_line_rest l rest : ~ In NL l -> read_log reader (l ++ NL :: rest) =
  match reader l, read_log reader rest with Some x, Some xs => Some (x :: xs) | _, _ => None end.
Proof.
  intros H. unfold read_log. rewrite (cut_line l rest H). pose proof (cut_some rest). destruct (cut rest) as [|y ys]; [contradiction|].
  cbn [read_lines]. destruct l; reflexivity.
Qed.
Lemma cut_first s : (exists l rest, ~ In NL l /\ s = l ++ NL :: rest) \/ ~ In NL s.
Proof.
  induction s as [|c s IH]; [right; intros []|]. destruct (Ascii.eqb_spec c NL) as [->|N]; [left; exists [], s; split; [intros []|reflexivity]|].
  destruct IH as [(l & rest & H & ->)|H]; [left; exists (c :: l), rest; split; [intros [X|X]; [exact (N X)|exact (H X)]|reflexivity]|].
  right. intros [X|X]; [exact (N X)|exact (H X)].
Qed.
Lemma cut_last s : ~ In NL s -> cut s = [s].
Proof.
  induction s as [|c s IH]; intros H; [reflexivity|]. cbn. rewrite IH by (intros X; apply H; right; exact X).
  destruct (Ascii.eqb_spec c NL) as [E|_]; [exfalso; apply H; left; exact E|reflexivity].
Qed.
Lemma read_log_app : forall n s old rest new, (length s <= n)%nat -> read_log reader s = Some old -> read_log reader rest = Some new -> read_log reader (s ++ rest) = Some (old ++ new).
Proof.
  induction n as [|n IH]; intros s old rest new L H1 H2.
  - destruct s; [|cbn in L; lia]. injection H1 as <-. exact H2.
  - destruct (cut_first s) as [(l & tail & Hl & ->)|Hs].
    + rewrite (read_line_rest l tail Hl) in H1. rewrite <- app_assoc. cbn [app]. rewrite (read_line_rest l (tail ++ rest) Hl).
      destruct (reader l) as [x|]; [|discriminate H1]. destruct (read_log reader tail) as [xs|] eqn:E; [|discriminate H1]. injection H1 as <-.
      rewrite (IH tail xs rest new); [reflexivity| |exact E|exact H2]. rewrite app_length in L. cbn in L. lia.
    + unfold read_log in H1. rewrite (cut_last s Hs) in H1. destruct s; [|discriminate H1]. injection H1 as <-. exact H2.
Qed.
Lemma read_log_lines : forall ls xs, Forall2 (fun l x => ~ In NL l /\ reader l = Some x) ls xs -> read_log reader (concat (map (fun l => l ++ [NL]) ls)) = Some xs.
Proof.
  induction 1 as [|l x ls xs [N R] F IH]; [reflexivity|]. cbn [map concat]. rewrite <- app_assoc. cbn [app]. rewrite (read_line_rest l _ N), R, IH. reflexivity.
Qed.

(** The lines of threads. *)
Lemma entries_exist (P : bytes -> A -> Prop) (lines : list (nat * bytes)) :
  Forall (fun x => exists e, P (snd x) e) lines ->
  exists entries, Forall2 (fun x y => fst x = fst y /\ P (snd x) (snd y)) lines entries.
Proof.
  induction 1 as [|[t l] lines [e H] F [es IH]]; [exists []; constructor|]. exists ((t, e) :: es). constructor; [split; [reflexivity|exact H]|exact IH].
Qed.
Lemma entries_threads (P : bytes -> A -> Prop) t lines entries : Forall2 (fun x y => fst x = fst y /\ P (snd x) (snd y)) lines entries ->
  Forall2 P (texts_of t lines) (entries_of t entries).
Proof.
  unfold texts_of, entries_of. induction 1 as [|[u l] [u' e] lines entries [E H] F IH]; [constructor|]. cbn in E. subst u'. cbn [filter fst].
  destruct (Nat.eqb u t); [cbn [map snd]; constructor; [exact H|exact IH]|exact IH].
Qed.
End Log.

(** Whose a line is. *)
Lemma texts_of_in t l lines : In (t, l) lines -> In l (texts_of t lines).
Proof. intros H. unfold texts_of. apply in_map_iff. exists (t, l). split; [reflexivity|]. apply filter_In. split; [exact H|]. cbn. apply Nat.eqb_refl. Qed.
Lemma forall2_in_r {X Y} (R : X -> Y -> Prop) l l' y : Forall2 R l l' -> In y l' -> exists x, In x l /\ R x y.
Proof. induction 1 as [|a b l l' H F IH]; intros I; [destruct I|]. destruct I as [<-|I]; [exists a; split; [left; reflexivity|exact H]|]. destruct (IH I) as (x & H1 & H2). exists x. split; [right; exact H1|exact H2]. Qed.
Lemma forall2_compose {X Y Z} (R : X -> Y -> Prop) (Q : Y -> Z -> Prop) (W : X -> Z -> Prop) l m n : Forall2 R l m -> Forall2 Q m n ->
  (forall x y z, In x l -> R x y -> Q y z -> W x z) -> Forall2 W l n.
Proof.
  intros F. revert n. induction F as [|x y l m H F IH]; intros n G K; inversion G; subst; constructor.
  - eapply K; [left; reflexivity|eassumption|eassumption].
  - apply IH; [assumption|]. intros a b c I. apply K. right; exact I.
Qed.

Section Runs.
Variable dbl : FmtModel.spec -> N -> bytes.
Variable dbl_json : N -> bytes.
Variable double_of : bytes -> N.
Variable what : FmtModel.error -> bytes.
Variable json_fmt : bytes -> value -> option bytes.
Notation makes := (makes dbl dbl_json double_of what json_fmt).
Notation run := (run dbl dbl_json double_of what json_fmt).
Variables (hs : list FactoriesModel.handler) (ws : list working) (w : world) (programs : list (list call)) (sched : list action) (s : state) (tr : list happening).
Hypothesis started : start_handlers (map strip hs) = Some ws.
Hypothesis ran : run (initial w hs ws programs) sched = Some (s, tr).

(** Any formatter whose texts are lines that can be read. *)
Lemma file_read {A} (reader : bytes -> option A) (P : call -> A -> Prop) p c i j x f old : destroyed s -> patient hs i j -> in_time i j tr ->
  sink_at hs i j x -> core x = SFile p c -> only_file (map strip hs) p i j -> FileSinkSpec.fs_ok (w_files w p) -> formatter_at hs i f ->
  (forall calls cl, In calls programs -> In cl calls -> exists dev ino spill, q_file (c_circumstances cl i j) = FileSinkSpec.calm dev ino spill) ->
  (forall calls cl now, In calls programs -> In cl calls -> exists text e, makes f (stamp cl now) text /\ ~ In NL text /\ reader text = Some e /\ P (stamp cl now) e) ->
  (forall j' sev t q b, (j' < j)%nat -> In (Emitted i j' sev t q b) (all_events (own tr)) -> b = false) ->
  read_log reader (content (w_files w p)) = Some old ->
  exists entries, read_log reader (content (w_files (close_all (g_world s) (g_sinks s)) p)) = Some (old ++ map snd entries) /\
    Forall (fun x => fst x < length programs)%nat entries /\
    forall t calls, nth_error programs t = Some calls ->
      exists cs, made_at calls (times t (own tr)) cs /\ Forall2 P cs (entries_of t entries).
Proof.
  intros D PA IT Hs CO HO OK Hf HC HM HF RO.
  destruct (queued_file _ _ _ _ _ hs ws w programs sched s tr started ran p c i j x f D PA IT Hs CO HO OK Hf HC) as (lines & EC & LT & HL); [|exact HF|].
  { intros calls cl now H1 H2. destruct (HM calls cl now H1 H2) as (text & e & H & _). exists text. exact H. }
  assert (UN : forall cl text text', makes f cl text -> makes f cl text' -> text = text').
  { intros cl text text' (r & R1 & E1) (r' & R2 & E2). rewrite (record_of_unique _ _ _ R1 R2), E2 in E1. injection E1 as ->. reflexivity. }
  set (Q := fun l e => ~ In NL l /\ reader l = Some e).
  assert (HE : Forall (fun y => exists e, Q (snd y) e) lines).
  { apply Forall_forall. intros [t l] HI. rewrite Forall_forall in LT. pose proof (LT _ HI) as LL. cbn in LL.
    destruct (nth_error programs t) as [calls|] eqn:HP; [|apply nth_error_None in HP; lia]. destruct (HL t calls HP) as (cs & MA & F2).
    destruct (forall2_in_r _ _ _ _ F2 (texts_of_in _ _ _ HI)) as (cl & HI1 & M1). destruct (made_at_in _ _ _ MA cl HI1) as (c0 & now & HI2 & ->).
    destruct (HM calls c0 now (nth_error_In _ _ HP) HI2) as (text & e & M2 & N & R & _). exists e. rewrite (UN _ _ _ M1 M2). split; assumption. }
  destruct (entries_exist Q lines HE) as (entries & F2). exists entries. split; [|split].
  - rewrite EC. eapply read_log_app; [apply Nat.le_refl|exact RO|].
    match goal with |- read_log _ ?y = _ => replace y with (concat (map (fun l => l ++ [NL]) (map snd lines))) by (rewrite map_map; reflexivity) end.
    apply read_log_lines. clear - F2. induction F2 as [|a b l l' [_ H] F IH]; [constructor|]. cbn. constructor; [exact H|exact IH].
  - clear - F2 LT. induction F2 as [|a b l l' [E H] F IH]; [constructor|]. inversion LT; subst. constructor; [rewrite <- E; assumption|apply IH; assumption].
  - intros t calls HP. destruct (HL t calls HP) as (cs & MA & FM). exists cs. split; [exact MA|].
    eapply forall2_compose; [exact FM|exact (entries_threads Q t _ _ F2)|]. intros cl l e HI M1 [N R].
    destruct (made_at_in _ _ _ MA cl HI) as (c0 & now & HI2 & ->). destruct (HM calls c0 now (nth_error_In _ _ HP) HI2) as (text & e' & M2 & _ & R' & PE).
    rewrite (UN _ _ _ M1 M2), R' in R. injection R as <-. exact PE.
Qed.
End Runs.
