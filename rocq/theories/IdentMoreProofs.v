(** Proofs about one thread that uses sinks and syslog itself. *)
From Verif Require Import Base DeliveryModel IdentModel IdentSpec IdentProofs.
Open Scope N_scope.

Section Process.
Variable progname : bytes.

Record related (h : list command) (live known : list N) (cs : list command) (w : world) : Prop := Related {
  r_threads : threads w = [(Idle, cs)];
  r_stat : stat (log w) = option_after h;
  r_facility : facility (log w) = facility_after h;
  r_range : exists n, n < 128 /\ facility_after h = Z.of_N (8 * n);
  r_tag : tag (log w) = None /\ ident_after progname h = progname \/ tag (log w) = Some (Static (ident_after progname h));
  r_sinks : forall k, In k live -> exists o, sink_of k (sinks w) = Some o /\ o_priorities o = priorities_of k h;
  r_live : forall k, In k live -> In k known }.

Lemma run_app s1 : forall s2 w, run progname w (s1 ++ s2) = match run progname w s1 with Some w' => run progname w' s2 | None => None end.
Proof.
  induction s1 as [|t s1 IH]; intros s2 w; [reflexivity|]. cbn [app run]. destruct (step progname w t) as [w1|]; [apply IH|reflexivity].
Qed.

Lemma found_related h live known cs w : related h live known cs w -> found progname w = Some (ident_after progname h).
Proof. intros R. unfold found. destruct (r_tag _ _ _ _ _ R) as [[-> ->]| ->]; reflexivity. Qed.

Lemma valid_facility n : n < 128 -> negb (Z.of_N (8 * n) =? 0)%Z && (Z.land (Z.of_N (8 * n)) (Z.lnot LOG_FACMASK) =? 0)%Z = negb (Z.of_N (8 * n) =? 0)%Z.
Proof.
  intros H. assert (C : forallb (fun n => (Z.land (Z.of_N (8 * N.of_nat n)) (Z.lnot LOG_FACMASK) =? 0)%Z) (seq 0 128) = true) by (vm_compute; reflexivity).
  rewrite forallb_forall in C. specialize (C (N.to_nat n)). rewrite N2Nat.id in C. rewrite C; [apply andb_true_r|]. apply in_seq. lia.
Qed.

Lemma sink_without_other k k' ss : k' <> k -> sink_of k' (without k ss) = sink_of k' ss.
Proof.
  intros N. unfold sink_of. induction ss as [|s ss IH]; [reflexivity|]. cbn [without List.find]. destruct (N.eqb_spec (fst s) k) as [E|_].
  - destruct (N.eqb_spec (fst s) k') as [E'|_]; [congruence|reflexivity].
  - cbn [List.find]. destruct (fst s =? k'); [reflexivity|exact IH].
Qed.

(** The live and the known keys after a command. *)
Definition live_after (c : command) (live : list N) : list N :=
  match c with Make k (Some _) => k :: live | Drop k => List.remove N.eq_dec k live | _ => live end.
Definition known_after (c : command) (known : list N) : list N := match c with Make k _ => k :: known | _ => known end.

Lemma command_ok h live known c cs w : related h live known (c :: cs) w -> Forall printable (c :: cs) -> used_well live known (c :: cs) ->
  exists n w', run progname w (repeat 0%nat n) = Some w' /\ related (c :: h) (live_after c live) (known_after c known) cs w'
    /\ used_well (live_after c live) (known_after c known) cs
    /\ sent w' = sent w ++ match c with
                           | Emit k severity formatted => [message_after progname h (syslog_priority (priorities_of k h) severity) (until_nul formatted)]
                           | AppLog priority text => [message_after progname h priority text]
                           | _ => []
                           end.
Proof.
  intros R PR U. apply Forall_cons_iff in PR as [PC _]. assert (F := found_related _ _ _ _ _ R). destruct R as [RT RS RF RR RG RK RL].
  destruct w as [ts ss lg nx se]. cbn [threads sinks log next sent] in *. subst ts.
  assert (PLAIN : forall h' lg' c', stat lg' = option_after (c' :: h) -> facility lg' = facility_after (c' :: h) -> (exists n, n < 128 /\ facility_after (c' :: h) = Z.of_N (8 * n)) ->
    (tag lg' = None /\ ident_after progname (c' :: h) = progname \/ tag lg' = Some (Static (ident_after progname (c' :: h)))) ->
    (forall k, priorities_of k (c' :: h) = priorities_of k h) -> h' = c' :: h -> forall se', related h' live known cs (World [(Idle, cs)] ss lg' nx se')).
  { intros h' lg' c' H1 H2 HR H3 H4 -> se'. constructor; cbn [threads log sinks]; auto. intros k I. rewrite H4. apply RK, I. }
  destruct c as [k ps|k|k severity formatted|ident option fac| |priority text]; cbn [used_well live_after known_after] in *.
  - destruct U as [U1 U2]. destruct ps as [ps|].
    + exists 6%nat. eexists. split; [reflexivity|]. split; [|split; [exact U2|cbn [sent]; rewrite app_nil_r; reflexivity]].
      constructor; cbn [threads log sinks]; try reflexivity.
      * exists 1. split; [lia|reflexivity].
      * left. split; reflexivity.
      * intros k' [<-|I].
        { eexists. split; [unfold sink_of; cbn [List.find fst]; rewrite N.eqb_refl; reflexivity|]. cbn [o_priorities priorities_of]. rewrite N.eqb_refl. reflexivity. }
        { assert (N : k' <> k) by (intros ->; exact (U1 (RL _ I))). destruct (RK k' I) as (o & A & C). exists o.
          split; [unfold sink_of; cbn [List.find fst]; destruct (N.eqb_spec k k') as [E|_]; [congruence|]; exact A|].
          cbn [priorities_of]. destruct (N.eqb_spec k k') as [E|_]; [congruence|exact C]. }
      * intros k' [<-|I]; [left; reflexivity|right; auto].
    + exists 5%nat. eexists. split; [reflexivity|]. split; [|split; [exact U2|cbn [sent]; rewrite app_nil_r; reflexivity]].
      constructor; cbn [threads log sinks]; try reflexivity.
      * exists 1. split; [lia|reflexivity].
      * left. split; reflexivity.
      * exact RK.
      * intros k' I. right. auto.
  - destruct U as [U1 U2]. destruct (RK k U1) as (o & A & _). exists 2%nat. eexists. split.
    { cbn [repeat run step nth_error threads sinks]. rewrite A. reflexivity. }
    split; [|split; [exact U2|cbn [sent]; rewrite app_nil_r; reflexivity]]. constructor; cbn [threads log sinks closelog stat facility tag]; auto.
    + intros k' I. apply in_remove in I as [I N]. rewrite (sink_without_other k k' ss N). exact (RK k' I).
    + intros k' I. apply in_remove in I as [I _]. auto.
  - destruct U as [U1 U2]. destruct (RK k U1) as (o & A & C). exists 1%nat. eexists. split.
    { cbn [repeat run step nth_error threads sinks]. rewrite A, (printable_text formatted PC), syslog_found, F. cbn [option_map]. reflexivity. }
    split; [|split; [exact U2|]].
    + cbn [set_thread firstn skipn app next log sinks]. eapply (PLAIN _ _ (Emit k severity formatted)); try reflexivity; assumption.
    + cbn [sent log]. unfold message_after. destruct RR as (n & N1 & RR). rewrite C, RS, RF, RR, facility_lemma by exact N1. reflexivity.
  - destruct U as [(n & N1 & N2) U2]. exists 1%nat. eexists. split; [reflexivity|]. split; [|split; [exact U2|cbn [sent]; rewrite app_nil_r; reflexivity]].
    cbn [set_thread firstn skipn app next log sinks]. eapply (PLAIN _ _ (AppOpen ident option fac)); try reflexivity.
    + cbn [openlog facility facility_after]. subst fac. rewrite (valid_facility n N1). destruct (Z.of_N (8 * n) =? 0)%Z; [exact RF|reflexivity].
    + cbn [facility_after]. destruct (fac =? 0)%Z; [exact RR|exists n; auto].
    + cbn [openlog tag ident_after]. destruct ident as [i|]; cbn [option_map]; [right; reflexivity|exact RG].
  - exists 1%nat. eexists. split; [reflexivity|]. split; [|split; [exact U|cbn [sent]; rewrite app_nil_r; reflexivity]].
    cbn [set_thread firstn skipn app next log sinks]. eapply (PLAIN _ _ AppClose); try reflexivity; try assumption. left. split; reflexivity.
  - exists 1%nat. eexists. split.
    { cbn [repeat run step nth_error threads sinks]. rewrite syslog_found, F. cbn [option_map]. reflexivity. }
    split; [|split; [exact U|]].
    + cbn [set_thread firstn skipn app next log sinks]. eapply (PLAIN _ _ (AppLog priority text)); try reflexivity; assumption.
    + cbn [sent log]. unfold message_after. destruct RR as (n & N1 & RR). rewrite RS, RF, RR, facility_lemma by exact N1. reflexivity.
Qed.

Lemma commands_ok cs : forall h live known w, related h live known cs w -> Forall printable cs -> used_well live known cs ->
  exists n w', run progname w (repeat 0%nat n) = Some w' /\ threads w' = [(Idle, [])] /\ sent w' = sent w ++ messages progname h cs.
Proof.
  induction cs as [|c cs IH]; intros h live known w R PR U.
  - exists 0%nat, w. split; [reflexivity|]. split; [exact (r_threads _ _ _ _ _ R)|]. cbn [messages]. rewrite app_nil_r. reflexivity.
  - destruct (command_ok h live known c cs w R PR U) as (n & w1 & RU & R1 & U1 & S1).
    destruct (IH _ _ _ w1 R1 (Forall_inv_tail PR) U1) as (n2 & w2 & RU2 & T2 & S2). exists (n + n2)%nat, w2.
    rewrite repeat_app, run_app, RU. split; [exact RU2|]. split; [exact T2|]. rewrite S2, S1, <- app_assoc. reflexivity.
Qed.

Lemma idle_stays w n : threads w = [(Idle, [])] -> run progname w (repeat 0%nat n) = Some w.
Proof. intros T. induction n as [|n IH]; [reflexivity|]. cbn [repeat run]. unfold step. rewrite T. cbn [nth_error]. exact IH. Qed.

Lemma alone_lemma cs : Forall printable cs -> used_well [] [] cs ->
  exists n, forall m, (n <= m)%nat -> exists w, run progname (start [cs]) (repeat 0%nat m) = Some w /\ sent w = messages progname [] cs.
Proof.
  intros PR U. assert (R : related [] [] [] cs (start [cs])).
  { constructor; try reflexivity; try contradiction; [exists 1; split; [lia|reflexivity]|left; split; reflexivity]. }
  destruct (commands_ok cs [] [] [] (start [cs]) R PR U) as (n & w & RU & T & S). exists n. intros m L. exists w. split; [|exact S].
  replace m with (n + (m - n))%nat by lia. rewrite repeat_app, run_app, RU. apply idle_stays, T.
Qed.
End Process.
