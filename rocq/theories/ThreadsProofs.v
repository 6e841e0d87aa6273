(** Lemmas about several threads that use one logger. *)
From Verif Require Import Base Values RootModel FactoriesModel SystemModel SystemSpec SystemProofs ThreadsModel ThreadsSpec.
From Verif Require FmtModel FileSinkModel FileSinkSpec TcpModel TcpSpec ConsoleModel DeliveryModel.

(** ---- lists ---- *)

Lemma put_length {A} (x : A) : forall l n, length (put l n x) = length l.
Proof. induction l as [|y l IH]; intros [|n]; cbn; auto. Qed.
Lemma put_same {A} (x : A) : forall l n y, nth_error l n = Some y -> nth_error (put l n x) n = Some x.
Proof. induction l as [|z l IH]; intros [|n] y E; try discriminate E; cbn; [reflexivity|]. eapply IH. exact E. Qed.
Lemma put_other {A} (x : A) : forall l n m, n <> m -> nth_error (put l n x) m = nth_error l m.
Proof. induction l as [|y l IH]; intros [|n] [|m] NE; cbn; try reflexivity; [contradiction|]. apply IH. lia. Qed.

Lemma sink_now_lookup ws i j : sink_now ws i j = lookup ws i j.
Proof. reflexivity. Qed.

Lemma put_sink_lookup ws i j s s' : lookup ws i j = Some s ->
  forall a b, lookup (put_sink ws i j s') a b = if at_ a b i j then Some s' else lookup ws a b.
Proof.
  intros HL a b. unfold lookup in HL. unfold put_sink. destruct (nth_error ws i) as [[f sinks]|] eqn:E; [|discriminate].
  unfold at_. destruct (Nat.eqb_spec a i) as [->|NA]; cbn [andb].
  - unfold lookup. rewrite (put_same _ _ _ _ E), E. destruct (Nat.eqb_spec b j) as [->|NB].
    + exact (put_same _ _ _ _ HL).
    + apply put_other. lia.
  - unfold lookup. rewrite put_other by lia. reflexivity.
Qed.

Lemma put_shape ws i f sinks sinks' : nth_error ws i = Some (f, sinks) -> length sinks' = length sinks ->
  shape (put ws i (f, sinks')) = shape ws.
Proof.
  revert i. induction ws as [|[g l] ws IH]; intros [|i] E L; try discriminate E.
  - cbn in E. injection E as -> ->. cbn. rewrite L. reflexivity.
  - cbn [put]. unfold shape in *. cbn [map]. f_equal. apply IH; assumption.
Qed.
Lemma put_sink_shape ws i j s : shape (put_sink ws i j s) = shape ws.
Proof.
  unfold put_sink. destruct (nth_error ws i) as [[f sinks]|] eqn:E; [|reflexivity].
  apply put_shape with (1 := E). apply put_length.
Qed.

Lemma flat_map_single_other {A B} (f : A -> list B) l : (forall x, In x l -> f x = []) -> flat_map f l = [].
Proof. induction l as [|x l IH]; intros H; [reflexivity|]. cbn. rewrite (H x (or_introl eq_refl)). apply IH. intros y Hy. apply H. right; exact Hy. Qed.

Section Runs.
Variable dbl : FmtModel.spec -> N -> bytes.
Variable dbl_json : N -> bytes.
Variable double_of : bytes -> N.
Variable what : FmtModel.error -> bytes.
Variable json_fmt : bytes -> value -> option bytes.
Notation advance := (advance dbl dbl_json double_of what json_fmt).
Notation run := (run dbl dbl_json double_of what json_fmt).
Notation render := (render dbl dbl_json double_of what json_fmt).
Notation handled := (handled dbl dbl_json double_of what json_fmt).
Notation called := (called dbl dbl_json double_of what json_fmt).
Notation makes := (makes dbl dbl_json double_of what json_fmt).

(** What a step puts into the trace is the thread's. *)
Definition mine (t : nat) (h : happening) : Prop := match h with Began t' _ | Did t' _ | Wrote t' _ => t' = t end.
Lemma advance_mine w hs t now x w' hs' x' tr : advance w hs t now x = Some (w', hs', x', tr) -> Forall (mine t) tr.
Proof.
  unfold ThreadsModel.advance. intros E. destruct (t_stage x) as [|c r i|c r i text j|c r i [|p ps]].
  - destruct (t_calls x) as [|c rest]; [injection E as <- <- <- <-; constructor|].
    cbv zeta in E. destruct (c_supplier (stamp c now)); injection E as <- <- <- <-; repeat constructor.
  - destruct (nth_error hs i) as [[f sinks]|]; [|injection E as <- <- <- <-; constructor].
    destruct (render f (c_env c) r); try discriminate; injection E as <- <- <- <-; repeat constructor.
  - destruct (sink_now hs i j) as [s|]; [|injection E as <- <- <- <-; constructor]. cbv zeta in E.
    destruct (emit _ _ _ _ _ _) as [[[w1 s1] [e|]]|]; try discriminate; injection E as <- <- <- <-; repeat constructor.
  - injection E as <- <- <- <-; constructor.
  - injection E as <- <- <- <-; repeat constructor.
Qed.
Lemma mine_other t u : t <> u -> forall tr, Forall (mine t) tr -> by_thread u tr = [] /\ times u tr = [].
Proof.
  intros NE tr F. split; apply flat_map_single_other; intros h Hh; rewrite Forall_forall in F; specialize (F h Hh);
    destruct h; cbn in F; subst; cbn; try reflexivity; destruct (Nat.eqb_spec t u); congruence.
Qed.

Lemma by_thread_app t a b : by_thread t (a ++ b) = by_thread t a ++ by_thread t b.
Proof. apply flat_map_app. Qed.
Lemma times_app t a b : times t (a ++ b) = times t a ++ times t b.
Proof. apply flat_map_app. Qed.
Lemma all_events_app a b : all_events (a ++ b) = all_events a ++ all_events b.
Proof. apply flat_map_app. Qed.

Lemma advance_shape w hs t now x w' hs' x' tr : advance w hs t now x = Some (w', hs', x', tr) -> shape hs' = shape hs.
Proof.
  unfold ThreadsModel.advance. intros E. destruct (t_stage x) as [|c r i|c r i text j|c r i [|p ps]].
  - destruct (t_calls x) as [|c rest]; [injection E as <- <- <- <-; reflexivity|].
    cbv zeta in E. destruct (c_supplier (stamp c now)); injection E as <- <- <- <-; reflexivity.
  - destruct (nth_error hs i) as [[f sinks]|]; [|injection E as <- <- <- <-; reflexivity].
    destruct (render f (c_env c) r); try discriminate; injection E as <- <- <- <-; reflexivity.
  - destruct (sink_now hs i j) as [s|]; [|injection E as <- <- <- <-; reflexivity]. cbv zeta in E.
    destruct (emit _ _ _ _ _ _) as [[[w1 s1] [e|]]|]; try discriminate; injection E as <- <- <- <-; apply put_sink_shape.
  - injection E as <- <- <- <-; reflexivity.
  - injection E as <- <- <- <-; reflexivity.
Qed.

(** ---- what a thread still does ---- *)

(** The events with which the call a thread is in ends. *)
Definition finishes (hs : list FactoriesModel.handler) (s : stage) (evs : list event) : Prop :=
  match s with
  | Idle => evs = []
  | Handling c r i => handled c r i (skipn i hs) evs
  | Sinking c r i text j =>
      exists f sinks a b, nth_error hs i = Some (HBlocking f sinks) /\ evs = a ++ b /\
        given c i text j (length sinks - j) a /\ handled c r (S i) (skipn (S i) hs) b
  | Printing c r i _ => handled c r (S i) (skipn (S i) hs) evs
  end.
(** Stages that occur. *)
Definition sane (hs : list FactoriesModel.handler) (s : stage) : Prop :=
  match s with
  | Idle => True
  | Handling c r _ | Printing c r _ _ => r_severity r = c_severity c
  | Sinking c r i _ _ => r_severity r = c_severity c /\ (i < length hs)%nat
  end.

Lemma skipn_nth {A} : forall (l : list A) n x, nth_error l n = Some x -> skipn n l = x :: skipn (S n) l.
Proof. induction l as [|y l IH]; intros [|n] x E; try discriminate E; cbn in E |- *; [injection E as ->; reflexivity|]. apply IH. exact E. Qed.
Lemma skipn_none {A} : forall (l : list A) n, nth_error l n = None -> skipn n l = [].
Proof. induction l as [|y l IH]; intros [|n] E; try discriminate E; try reflexivity. cbn in *. apply IH. exact E. Qed.

Lemma shape_nth : forall ws hs, shape ws = config_shape hs -> forall i,
  match nth_error ws i with
  | Some (f, l) => exists sinks, nth_error hs i = Some (HBlocking f sinks) /\ length l = length sinks
  | None => nth_error hs i = None
  end.
Proof.
  induction ws as [|[f l] ws IH]; intros [|[g sinks] hs] S i; try discriminate S.
  - destruct i; reflexivity.
  - unfold shape, config_shape in S. cbn in S. injection S as -> E S. destruct i as [|i]; cbn [nth_error].
    + exists sinks. split; [reflexivity|exact E].
    + apply IH. exact S.
Qed.

(** One step: what the thread was to do is what it does and what it is to do then. *)
Lemma advance_finishes hs w ws t now x w' ws' x' tr : shape ws = config_shape hs -> sane hs (t_stage x) ->
  advance w ws t now x = Some (w', ws', x', tr) ->
  sane hs (t_stage x') /\
  match t_stage x with
  | Idle =>
      match t_calls x with
      | [] => x' = x /\ tr = []
      | c :: rest => t_calls x' = rest /\ times t tr = [now] /\ by_thread t tr = [] /\
          forall evs, finishes hs (t_stage x') evs -> called hs (stamp c now) evs
      end
  | s => t_calls x' = t_calls x /\ times t tr = [] /\
      forall evs, finishes hs (t_stage x') evs -> finishes hs s (by_thread t tr ++ evs)
  end.
Proof.
  intros SH SA E. unfold ThreadsModel.advance in E. destruct (t_stage x) as [|c r i|c r i text j|c r i [|p ps]] eqn:ST; cbn [sane] in SA.
  - destruct (t_calls x) as [|c rest]; [injection E as <- <- <- <-; rewrite ST; repeat split|].
    cbv zeta in E. destruct (c_supplier (stamp c now)) as [m|e] eqn:ES; injection E as <- <- <- <-.
    + cbn [t_calls t_stage]. split; [reflexivity|]. split; [reflexivity|]. split; [cbn; rewrite Nat.eqb_refl; reflexivity|]. split; [reflexivity|].
      intros evs F. cbn [finishes] in F. right.
      eexists. split; [eexists; split; [exact ES|]|exact F].
      unfold activate, record_new, RootSpec.text_of. cbn. destruct m; reflexivity.
    + cbn [t_calls t_stage]. split; [exact I|]. split; [reflexivity|]. split; [cbn; rewrite Nat.eqb_refl; reflexivity|]. split; [reflexivity|].
      intros evs F. left. split; [exists e; exact ES|exact F].
  - pose proof (shape_nth _ _ SH i) as HN. destruct (nth_error ws i) as [[f l]|].
    + destruct HN as (sinks & HN & HL). destruct (render f (c_env c) r) as [text|e|] eqn:ER; try discriminate; injection E as <- <- <- <-.
      * cbn [t_calls t_stage]. split; [cbn; split; [exact SA|apply nth_error_Some; congruence]|].
        split; [reflexivity|]. split; [reflexivity|]. intros evs F. cbn [finishes] in F |- *.
        destruct F as (f' & sinks' & a & b & HN' & -> & HG & HH). rewrite HN in HN'. injection HN' as <- <-.
        rewrite (skipn_nth _ _ _ HN). rewrite Nat.sub_0_r in HG. cbn [by_thread flat_map app].
        eapply handled_text; eassumption.
      * cbn [t_calls t_stage]. split; [exact SA|]. split; [reflexivity|]. split; [reflexivity|]. intros evs F. cbn [finishes] in F |- *.
        rewrite (skipn_nth _ _ _ HN). cbn [by_thread flat_map of_thread app]. rewrite Nat.eqb_refl. cbn [app]. apply handled_raise; [exact ER|]. exact F.
    + injection E as <- <- <- <-. cbn [t_calls t_stage]. split; [exact I|]. split; [reflexivity|]. split; [reflexivity|].
      intros evs F. cbn [finishes] in F |- *. subst evs. rewrite (skipn_none _ _ HN). constructor.
  - destruct SA as [R LI]. unfold sink_now in E. pose proof (shape_nth _ _ SH i) as HN. destruct (nth_error ws i) as [[f l]|].
    2:{ apply nth_error_Some in LI. contradiction. }
    destruct HN as (sinks & HN & HL). destruct (nth_error l j) as [s|] eqn:EJ.
    + assert (LJ : (j < length sinks)%nat) by (rewrite <- HL; apply nth_error_Some; congruence).
      cbv zeta in E. destruct (emit _ _ _ _ _ _) as [[[w1 s1] [e|]]|]; try discriminate; injection E as <- <- <- <-;
        cbn [t_calls t_stage]; (split; [cbn; auto|]); (split; [reflexivity|]); (split; [reflexivity|]); intros evs F; cbn [finishes] in F |- *.
      * exists f, sinks, [Emitted i j (c_severity c) text (c_circumstances c i j) true; Complained i e], evs.
        split; [exact HN|]. split; [cbn; rewrite Nat.eqb_refl, R; reflexivity|]. split; [|exact F].
        replace (length sinks - j)%nat with (S (length sinks - S j)) by lia. apply given_stop.
      * destruct F as (f' & sinks' & a & b & HN' & -> & HG & HH). rewrite HN in HN'. injection HN' as <- <-.
        exists f, sinks, (Emitted i j (c_severity c) text (c_circumstances c i j) false :: a), b.
        split; [exact HN|]. split; [cbn; rewrite Nat.eqb_refl, R; reflexivity|]. split; [|exact HH].
        replace (length sinks - j)%nat with (S (length sinks - S j)) by lia. apply given_on. exact HG.
    + injection E as <- <- <- <-. cbn [t_calls t_stage]. split; [exact R|]. split; [reflexivity|]. split; [reflexivity|]. intros evs F. cbn [finishes] in F |- *.
      exists f, sinks, [], evs. split; [exact HN|]. split; [reflexivity|]. split; [|exact F].
      apply nth_error_None in EJ. replace (length sinks - j)%nat with 0%nat by lia. apply given_end.
  - injection E as <- <- <- <-. cbn [t_calls t_stage]. split; [exact SA|]. split; [reflexivity|]. split; [reflexivity|]. intros evs F. exact F.
  - injection E as <- <- <- <-. cbn [t_calls t_stage]. split; [exact SA|]. split; [reflexivity|]. split; [reflexivity|]. intros evs F. exact F.
Qed.

Lemma run_thread hs : forall sched w ws ts w' ws' ts' tr, shape ws = config_shape hs ->
  (forall u x, nth_error ts u = Some x -> sane hs (t_stage x)) ->
  run w ws ts sched = Some (w', ws', ts', tr) ->
  forall t x rest, nth_error ts t = Some x -> nth_error ts' t = Some (Thread rest Idle) ->
  exists done cur cs blocks, t_calls x = done ++ rest /\ finishes hs (t_stage x) cur /\
    made_at done (times t tr) cs /\ Forall2 (called hs) cs blocks /\ by_thread t tr = cur ++ concat blocks.
Proof.
  induction sched as [|[u now] sched IH]; intros w ws ts w' ws' ts' tr SH SA E t x rest HX HX'; cbn [ThreadsModel.run] in E.
  - injection E as <- <- <- <-. rewrite HX in HX'. injection HX' as ->. exists [], [], [], []. cbn. repeat split; constructor.
  - destruct (nth_error ts u) as [y|] eqn:EU; [|exact (IH _ _ _ _ _ _ _ SH SA E _ _ _ HX HX')].
    destruct (advance w ws u now y) as [[[[w1 ws1] y1] tr1]|] eqn:EA; [|discriminate].
    destruct (run w1 ws1 (put ts u y1) sched) as [[[[w2 ws2] ts2] tr2]|] eqn:ER; [|discriminate].
    injection E as <- <- <- <-. pose proof (advance_finishes hs _ _ _ _ _ _ _ _ _ SH (SA _ _ EU) EA) as (SA1 & AF).
    assert (SH1 : shape ws1 = config_shape hs) by (rewrite (advance_shape _ _ _ _ _ _ _ _ _ EA); exact SH).
    assert (SA2 : forall v z, nth_error (put ts u y1) v = Some z -> sane hs (t_stage z)).
    { intros v z HZ. destruct (Nat.eq_dec u v) as [->|NE].
      - rewrite (put_same _ _ _ _ EU) in HZ. injection HZ as <-. exact SA1.
      - rewrite put_other in HZ by exact NE. exact (SA _ _ HZ). }
    rewrite by_thread_app, times_app. destruct (Nat.eq_dec u t) as [->|NE].
    + rewrite HX in EU. injection EU as <-.
      destruct (IH _ _ _ _ _ _ _ SH1 SA2 ER t y1 rest (put_same _ _ _ _ HX) HX') as (done & cur & cs & blocks & HD & HF & HM & HB & HE).
      destruct (t_stage x) as [|c r i|c r i text j|c r i ps] eqn:ST.
      * destruct (t_calls x) as [|c calls] eqn:EC.
        -- destruct AF as [-> ->]. rewrite ST in HF. exists done, cur, cs, blocks. cbn [app times by_thread flat_map]. rewrite <- HD.
           repeat split; auto.
        -- destruct AF as (HR & HT & HE1 & HC). exists (c :: done), [], (stamp c now :: cs), (cur :: blocks).
           split; [rewrite <- HR, HD; reflexivity|]. split; [reflexivity|]. rewrite HT, HE1, HE. cbn [app concat].
           split; [constructor; exact HM|]. split; [|reflexivity]. constructor; [apply HC; exact HF|exact HB].
      * destruct AF as (HR & HT & HC). exists done, (by_thread t tr1 ++ cur), cs, blocks. rewrite HT, HE, app_assoc. rewrite <- HR. auto 6.
      * destruct AF as (HR & HT & HC). exists done, (by_thread t tr1 ++ cur), cs, blocks. rewrite HT, HE, app_assoc. rewrite <- HR. auto 6.
      * destruct AF as (HR & HT & HC). exists done, (by_thread t tr1 ++ cur), cs, blocks. rewrite HT, HE, app_assoc. rewrite <- HR. auto 6.
    + destruct (mine_other u t NE _ (advance_mine _ _ _ _ _ _ _ _ _ EA)) as [-> ->]. cbn [app].
      apply (IH _ _ _ _ _ _ _ SH1 SA2 ER t x rest); [rewrite put_other by exact NE; exact HX|exact HX'].
Qed.

Lemma fresh_sane hs programs u x : nth_error (map fresh programs) u = Some x -> sane hs (t_stage x).
Proof. intros E. apply nth_error_In in E. apply in_map_iff in E as (c & <- & _). exact I. Qed.

Lemma threads_routes : forall hs ws w programs sched w' ws' ts' tr, start_handlers hs = Some ws ->
  run w ws (map fresh programs) sched = Some (w', ws', ts', tr) ->
  forall t calls rest, nth_error programs t = Some calls -> nth_error ts' t = Some (Thread rest Idle) ->
  exists done cs blocks, calls = done ++ rest /\ made_at done (times t tr) cs /\ Forall2 (called hs) cs blocks /\ by_thread t tr = concat blocks.
Proof.
  intros hs ws w programs sched w' ws' ts' tr S E t calls rest HP HT.
  destruct (run_thread hs _ _ _ _ _ _ _ _ (start_shape _ _ S) (fresh_sane hs programs) E t (fresh calls) rest) as (done & cur & cs & blocks & H1 & H2 & H3 & H4 & H5).
  - apply map_nth_error. exact HP.
  - exact HT.
  - cbn in H1, H2. subst cur. exists done, cs, blocks. auto.
Qed.

(** ---- the trace as steps of the system ---- *)

(** Worlds that differ on the standard output only. *)
Definition alike (a b : world) : Prop :=
  w_files a = w_files b /\ w_datagrams a = w_datagrams b /\ w_tcp a = w_tcp b /\ w_syslog a = w_syslog b.

Lemma emit_alike a b tty severity text s q a' s' e : alike a b -> emit a tty severity text s q = Some (a', s', e) ->
  exists b', emit b tty severity text s q = Some (b', s', e) /\ alike a' b'.
Proof.
  intros (H1 & H2 & H3 & H4) E. unfold emit in *. rewrite <- H1, <- H2, <- H3, <- H4. destruct s as [|t|p c k|h p t|h p|l].
  - injection E as <- <- <-. eexists. split; [reflexivity|]. repeat split; assumption.
  - destruct (ConsoleModel.emit_bytes _ _ _ _); injection E as <- <- <-; eexists; (split; [reflexivity|]); repeat split; assumption.
  - destruct (FileSinkModel.emit _ _ _ _ _) as [[fs k'] threw]. injection E as <- <- <-. eexists. split; [reflexivity|]. repeat split; assumption.
  - destruct (TcpModel.emit _ _ _) as [[t' evs] threw]. injection E as <- <- <-. eexists. split; [reflexivity|]. repeat split; assumption.
  - destruct (q_udp q); injection E as <- <- <-; eexists; (split; [reflexivity|]); repeat split; assumption.
  - destruct (DeliveryModel.syslog_text text); [|discriminate]. injection E as <- <- <-. eexists. split; [reflexivity|]. repeat split; assumption.
Qed.

Lemma advance_steps w ws t now x w' ws' x' tr : advance w ws t now x = Some (w', ws', x', tr) ->
  forall v, alike w v -> exists v', esteps (v, ws) (all_events tr) (v', ws') /\ alike w' v'.
Proof.
  unfold ThreadsModel.advance. intros E v AL. destruct (t_stage x) as [|c r i|c r i text j|c r i [|p ps]].
  - destruct (t_calls x) as [|c rest]; [injection E as <- <- <- <-; exists v; split; [constructor|exact AL]|].
    cbv zeta in E. destruct (c_supplier (stamp c now)); injection E as <- <- <- <-; exists v; (split; [constructor|exact AL]).
  - destruct (nth_error ws i) as [[f sinks]|]; [|injection E as <- <- <- <-; exists v; split; [constructor|exact AL]].
    destruct (render f (c_env c) r) as [text|e|]; try discriminate; injection E as <- <- <- <-.
    + exists v. split; [constructor|exact AL].
    + exists (complain v e). split; [|exact AL]. cbn. eapply esteps_cons; [apply step_complain|constructor].
  - destruct (sink_now ws i j) as [s|] eqn:ES; [|injection E as <- <- <- <-; exists v; split; [constructor|exact AL]]. cbv zeta in E.
    rewrite sink_now_lookup in ES.
    destruct (emit w (e_tty (c_env c)) (r_severity r) text s (c_circumstances c i j)) as [[[w1 s1] e]|] eqn:EE; [|discriminate].
    destruct (emit_alike _ _ _ _ _ _ _ _ _ _ AL EE) as (v1 & EV & AL1).
    pose proof (step_emit v ws i j (r_severity r) text (c_circumstances c i j) (e_tty (c_env c)) s v1 s1 e (put_sink ws i j s1) ES EV
      (put_sink_lookup _ _ _ _ s1 ES)) as ST.
    destruct e as [e|]; injection E as <- <- <- <-.
    + exists (complain v1 e). split; [|exact AL1]. cbn. eapply esteps_cons; [exact ST|]. eapply esteps_cons; [apply step_complain|constructor].
    + exists v1. split; [|exact AL1]. cbn. eapply esteps_cons; [exact ST|constructor].
  - injection E as <- <- <- <-. exists v. split; [constructor|exact AL].
  - injection E as <- <- <- <-. exists v. split; [constructor|exact AL].
Qed.

Lemma run_steps : forall sched w ws ts w' ws' ts' tr, run w ws ts sched = Some (w', ws', ts', tr) ->
  forall v, alike w v -> exists v', esteps (v, ws) (all_events tr) (v', ws') /\ alike w' v'.
Proof.
  induction sched as [|[u now] sched IH]; intros w ws ts w' ws' ts' tr E v AL; cbn [ThreadsModel.run] in E.
  - injection E as <- <- <- <-. exists v. split; [constructor|exact AL].
  - destruct (nth_error ts u) as [y|] eqn:EU; [|exact (IH _ _ _ _ _ _ _ E _ AL)].
    destruct (advance w ws u now y) as [[[[w1 ws1] y1] tr1]|] eqn:EA; [|discriminate].
    destruct (run w1 ws1 (put ts u y1) sched) as [[[[w2 ws2] ts2] tr2]|] eqn:ER; [|discriminate].
    injection E as <- <- <- <-. destruct (advance_steps _ _ _ _ _ _ _ _ _ EA v AL) as (v1 & S1 & AL1).
    destruct (IH _ _ _ _ _ _ _ ER v1 AL1) as (v2 & S2 & AL2). exists v2. split; [|exact AL2].
    rewrite all_events_app. eapply esteps_app; eassumption.
Qed.

(** ---- results ---- *)

(** Texts of one sink with the threads that gave them. *)
Definition tag (i j : nat) (h : happening) : list (nat * bytes) :=
  match h with
  | Did t (Emitted i' j' _ x _ _) => if Nat.eqb i' i && Nat.eqb j' j then [(t, x)] else []
  | _ => []
  end.
Definition tagged (i j : nat) (tr : list happening) : list (nat * bytes) := flat_map (tag i j) tr.

Lemma tagged_arrived i j tr : map snd (tagged i j tr) = arrived i j (all_events tr).
Proof.
  induction tr as [|h tr IH]; [reflexivity|]. unfold tagged in *. cbn [flat_map]. rewrite map_app, IH.
  change (all_events (h :: tr)) with (of_any h ++ all_events tr). rewrite arrived_app. f_equal.
  destruct h as [t now|t [i' j' sev x q b|i' e]|t p]; try reflexivity. cbn. destruct (Nat.eqb i' i && Nat.eqb j' j); reflexivity.
Qed.
Lemma texts_of_app t a b : texts_of t (a ++ b) = texts_of t a ++ texts_of t b.
Proof. unfold texts_of. rewrite filter_app, map_app. reflexivity. Qed.
Lemma tagged_thread i j t tr : texts_of t (tagged i j tr) = arrived i j (by_thread t tr).
Proof.
  induction tr as [|h tr IH]; [reflexivity|]. unfold tagged in *. cbn [flat_map]. rewrite texts_of_app, IH.
  change (by_thread t (h :: tr)) with (of_thread t h ++ by_thread t tr). rewrite arrived_app. f_equal.
  destruct h as [u now|u [i' j' sev x q b|i' e]|u p]; cbn; try reflexivity.
  - unfold texts_of. destruct (Nat.eqb i' i && Nat.eqb j' j) eqn:E; cbn; destruct (Nat.eqb u t) eqn:E'; cbn; rewrite ?E; reflexivity.
  - destruct (Nat.eqb u t); reflexivity.
Qed.

Definition tag_of (h : happening) : nat := match h with Began t _ | Did t _ | Wrote t _ => t end.
Lemma run_tags : forall sched w ws ts w' ws' ts' tr, run w ws ts sched = Some (w', ws', ts', tr) ->
  length ts' = length ts /\ Forall (fun h => tag_of h < length ts)%nat tr.
Proof.
  induction sched as [|[u now] sched IH]; intros w ws ts w' ws' ts' tr E; cbn [ThreadsModel.run] in E.
  - injection E as <- <- <- <-. split; [reflexivity|constructor].
  - destruct (nth_error ts u) as [y|] eqn:EU; [|exact (IH _ _ _ _ _ _ _ E)].
    destruct (advance w ws u now y) as [[[[w1 ws1] y1] tr1]|] eqn:EA; [|discriminate].
    destruct (run w1 ws1 (put ts u y1) sched) as [[[[w2 ws2] ts2] tr2]|] eqn:ER; [|discriminate].
    injection E as <- <- <- <-. destruct (IH _ _ _ _ _ _ _ ER) as [L F]. rewrite put_length in L, F. split; [exact L|].
    apply Forall_app. split; [|exact F]. assert (LU : (u < length ts)%nat) by (apply nth_error_Some; congruence).
    eapply Forall_impl; [|exact (advance_mine _ _ _ _ _ _ _ _ _ EA)]. intros h M. destruct h; cbn in M; subst; exact LU.
Qed.

Lemma all_events_in e tr : In e (all_events tr) -> exists t, In e (by_thread t tr) /\ In (Did t e) tr.
Proof.
  intros H. apply in_flat_map in H as (h & Hh & He). destruct h as [t now|t e'|t p]; cbn in He; try contradiction.
  destruct He as [->|[]]. exists t. split; [|exact Hh]. apply in_flat_map. exists (Did t e). split; [exact Hh|]. cbn. rewrite Nat.eqb_refl. left; reflexivity.
Qed.

Lemma made_at_in : forall calls nows cs, made_at calls nows cs -> forall c, In c cs -> exists c0 now, In c0 calls /\ c = stamp c0 now.
Proof.
  induction 1 as [|c now calls nows cs M IH]; intros x Hx; [destruct Hx|]. destruct Hx as [<-|Hx].
  - exists c, now. split; [left; reflexivity|reflexivity].
  - destruct (IH x Hx) as (c0 & n & HI & E). exists c0, n. split; [right; exact HI|exact E].
Qed.

Lemma done_idle ts t : all_done ts -> (t < length ts)%nat -> nth_error ts t = Some (Thread [] Idle).
Proof.
  intros D L. destruct (nth_error ts t) as [[calls st]|] eqn:E; [|apply nth_error_None in E; lia].
  unfold all_done in D. rewrite Forall_forall in D. destruct (D _ (nth_error_In _ _ E)) as [A B0]. cbn in A, B0. subst. reflexivity.
Qed.

Lemma run_events hs ws w programs sched w' ws' ts' tr : start_handlers hs = Some ws ->
  run w ws (map fresh programs) sched = Some (w', ws', ts', tr) -> all_done ts' ->
  forall i j sev t q b, In (Emitted i j sev t q b) (all_events tr) ->
  exists calls c, In calls programs /\ In c calls /\ q = c_circumstances c i j.
Proof.
  intros S E D i j sev x q b HI. destruct (all_events_in _ _ HI) as (t & HT & HD).
  destruct (run_tags _ _ _ _ _ _ _ _ E) as [L F]. rewrite map_length in L, F. rewrite Forall_forall in F. specialize (F _ HD). cbn in F.
  destruct (nth_error programs t) as [calls|] eqn:EP; [|apply nth_error_None in EP; lia].
  destruct (threads_routes _ _ _ _ _ _ _ _ _ S E t calls [] EP) as (done & cs & blocks & HC & HM & HB & HE).
  { apply done_idle; [exact D|]. lia. }
  rewrite app_nil_r in HC. subst done. rewrite HE in HT. destruct (events_of_blocks _ _ _ _ _ _ _ _ HB _ _ _ _ _ _ HT) as (c & Hc & _ & ->).
  destruct (made_at_in _ _ _ HM c Hc) as (c0 & now & HI0 & ->). exists calls, c0. split; [exact (nth_error_In _ _ EP)|]. split; [exact HI0|reflexivity].
Qed.

Lemma threads_complete hs ws w programs sched w' ws' ts' tr i j s f : start_handlers hs = Some ws ->
  run w ws (map fresh programs) sched = Some (w', ws', ts', tr) ->
  sink_at hs i j s -> formatter_at hs i f ->
  (forall calls c now, In calls programs -> In c calls -> exists text, makes f (stamp c now) text) ->
  (forall j' sev t q b, (j' < j)%nat -> In (Emitted i j' sev t q b) (all_events tr) -> b = false) ->
  forall t calls rest, nth_error programs t = Some calls -> nth_error ts' t = Some (Thread rest Idle) ->
  exists done cs, calls = done ++ rest /\ made_at done (times t tr) cs /\ Forall2 (makes f) cs (texts_of t (tagged i j tr)).
Proof.
  intros S E Hs Hf HM HF t calls rest HP HT.
  destruct (threads_routes _ _ _ _ _ _ _ _ _ S E t calls rest HP HT) as (done & cs & blocks & HC & HA & HB & HE).
  exists done, cs. split; [exact HC|]. split; [exact HA|]. rewrite tagged_thread, HE.
  apply (complete_blocks _ _ _ _ _ _ _ _ _ _ _ _ HB Hs Hf).
  - apply Forall_forall. intros c Hc. destruct (made_at_in _ _ _ HA c Hc) as (c0 & now & HI & ->).
    apply (HM calls); [exact (nth_error_In _ _ HP)|]. rewrite HC. apply in_or_app. left; exact HI.
  - intros j' sev x q b Hj HI. rewrite <- HE in HI. apply (HF j' sev x q b Hj).
    apply in_flat_map in HI as (h & Hh & He). apply in_flat_map. exists h. split; [exact Hh|].
    destruct h as [u now|u e|u p]; cbn in He |- *; try contradiction. destruct (Nat.eqb u t); [exact He|destruct He].
Qed.

Lemma alike_refl w : alike w w.
Proof. repeat split. Qed.

Lemma threads_content hs ws w programs sched w' ws' ts' tr p c i j : start_handlers hs = Some ws ->
  run w ws (map fresh programs) sched = Some (w', ws', ts', tr) -> all_done ts' ->
  sink_at hs i j (SFile p c) -> only_file hs p i j -> FileSinkSpec.fs_ok (w_files w p) ->
  (forall calls cl, In calls programs -> In cl calls -> exists dev ino spill, q_file (c_circumstances cl i j) = FileSinkSpec.calm dev ino spill) ->
  content (w_files (close_all w' ws') p) = content (w_files w p) ++ concat (map (fun x => snd x ++ [chr 10]) (tagged i j tr)).
Proof.
  intros S E D Hs HO OK HC. pose proof (run_events _ _ _ _ _ _ _ _ _ S E D) as HV.
  destruct (run_steps _ _ _ _ _ _ _ _ E w (alike_refl w)) as (v & HS & (AF & _ & _ & _)).
  assert (HR : content (w_files (close_all v ws') p) = content (w_files w p) ++ concat (map FileSinkSpec.line (arrived i j (all_events tr)))).
  { eapply file_steps; try eassumption. intros sev t q b He. destruct (HV _ _ _ _ _ _ He) as (calls & cl & H1 & H2 & ->). exact (HC _ _ H1 H2). }
  assert (EC : w_files (close_all w' ws') p = w_files (close_all v ws') p).
  { unfold close_all. clear -AF. revert w' v AF. induction (flat_map snd ws') as [|s l IH]; intros a b0 H; [cbn; rewrite H; reflexivity|].
    cbn [fold_left]. apply IH. destruct s; cbn; rewrite ?H; try exact H; reflexivity. }
  rewrite EC, HR, <- tagged_arrived, map_map. reflexivity.
Qed.

Lemma threads_file hs ws w programs sched w' ws' ts' tr p c i j f : start_handlers hs = Some ws ->
  run w ws (map fresh programs) sched = Some (w', ws', ts', tr) -> all_done ts' ->
  sink_at hs i j (SFile p c) -> only_file hs p i j -> FileSinkSpec.fs_ok (w_files w p) -> formatter_at hs i f ->
  (forall calls cl, In calls programs -> In cl calls -> exists dev ino spill, q_file (c_circumstances cl i j) = FileSinkSpec.calm dev ino spill) ->
  (forall calls cl now, In calls programs -> In cl calls -> exists text, makes f (stamp cl now) text) ->
  (forall j' sev t q b, (j' < j)%nat -> In (Emitted i j' sev t q b) (all_events tr) -> b = false) ->
  exists lines, content (w_files (close_all w' ws') p) = content (w_files w p) ++ concat (map (fun x => snd x ++ [chr 10]) lines) /\
    Forall (fun x => fst x < length programs)%nat lines /\
    forall t calls, nth_error programs t = Some calls ->
      exists cs, made_at calls (times t tr) cs /\ Forall2 (makes f) cs (texts_of t lines).
Proof.
  intros S E D Hs HO OK Hf HC HM HF. exists (tagged i j tr). split; [|split].
  - exact (threads_content _ _ _ _ _ _ _ _ _ p c i j S E D Hs HO OK HC).
  - destruct (run_tags _ _ _ _ _ _ _ _ E) as [_ F]. rewrite map_length in F. apply Forall_forall. intros [t x] Hx. cbn.
    apply in_flat_map in Hx as (h & Hh & Hx). rewrite Forall_forall in F. specialize (F _ Hh).
    destruct h as [u now|u [i' j' sev y q b|i' e]|u q]; cbn in Hx, F; try contradiction.
    destruct (Nat.eqb i' i && Nat.eqb j' j); [|contradiction]. destruct Hx as [Hx|[]]. injection Hx as <- <-. exact F.
  - intros t calls HP. destruct (run_tags _ _ _ _ _ _ _ _ E) as [L _]. rewrite map_length in L.
    assert (LT : (t < length programs)%nat) by (apply nth_error_Some; congruence).
    destruct (threads_complete _ _ _ _ _ _ _ _ _ i j _ f S E Hs Hf HM HF t calls [] HP) as (done & cs & EC & HA & HB).
    { apply done_idle; [exact D|lia]. }
    rewrite app_nil_r in EC. subst done. exists cs. auto.
Qed.

(** Two parts of a run. *)
Lemma run_app : forall s1 s2 w ws ts, run w ws ts (s1 ++ s2) =
  match run w ws ts s1 with
  | None => None
  | Some (w1, ws1, ts1, tr1) => match run w1 ws1 ts1 s2 with None => None | Some (w2, ws2, ts2, tr2) => Some (w2, ws2, ts2, tr1 ++ tr2) end
  end.
Proof.
  induction s1 as [|[u now] s1 IH]; intros s2 w ws ts; cbn [app ThreadsModel.run].
  - destruct (run w ws ts s2) as [[[[w2 ws2] ts2] tr2]|]; reflexivity.
  - destruct (nth_error ts u) as [y|]; [|apply IH]. destruct (advance w ws u now y) as [[[[w1 ws1] y1] tr1]|]; [|reflexivity].
    rewrite IH. destruct (run w1 ws1 (put ts u y1) s1) as [[[[w2 ws2] ts2] tr2]|]; [|reflexivity].
    destruct (run w2 ws2 ts2 s2) as [[[[w3 ws3] ts3] tr3]|]; [|reflexivity]. rewrite app_assoc. reflexivity.
Qed.

(** ---- standard output ---- *)

Lemma shown_step hs w ws t now x w' ws' x' tr : advance w ws t now x = Some (w', ws', x', tr) ->
  (forall i j, kinds ws i j = sink_of hs i j) ->
  w_stdout w' = w_stdout w ++ flat_map (shown hs) tr /\ (forall i j, kinds ws' i j = sink_of hs i j).
Proof.
  unfold ThreadsModel.advance. intros E K. destruct (t_stage x) as [|c r i|c r i text j|c r i [|p ps]].
  - destruct (t_calls x) as [|c rest]; [injection E as <- <- <- <-; cbn; rewrite app_nil_r; auto|].
    cbv zeta in E. destruct (c_supplier (stamp c now)); injection E as <- <- <- <-; cbn; rewrite app_nil_r; auto.
  - destruct (nth_error ws i) as [[f sinks]|]; [|injection E as <- <- <- <-; cbn; rewrite app_nil_r; auto].
    destruct (render f (c_env c) r) as [text|e|]; try discriminate; injection E as <- <- <- <-; cbn; rewrite app_nil_r; auto.
  - destruct (sink_now ws i j) as [s|] eqn:ES; [|injection E as <- <- <- <-; cbn; rewrite app_nil_r; auto]. cbv zeta in E.
    rewrite sink_now_lookup in ES.
    destruct (emit w (e_tty (c_env c)) (r_severity r) text s (c_circumstances c i j)) as [[[w1 s1] e]|] eqn:EE; [|discriminate].
    pose proof (step_emit w ws i j (r_severity r) text (c_circumstances c i j) (e_tty (c_env c)) s w1 s1 e (put_sink ws i j s1) ES EE
      (put_sink_lookup _ _ _ _ s1 ES)) as ST.
    pose proof (estep_stdout hs _ _ _ _ _ ST K) as HO. pose proof (estep_kinds _ _ _ _ _ ST) as HK.
    destruct e as [e|]; injection E as <- <- <- <-; (split; [|intros; rewrite HK; apply K]).
    + rewrite HO. cbn [flat_map shown on_stdout app]. rewrite !app_nil_r. reflexivity.
    + rewrite HO. cbn [flat_map shown on_stdout app]. rewrite !app_nil_r. reflexivity.
  - injection E as <- <- <- <-; cbn; rewrite app_nil_r; auto.
  - injection E as <- <- <- <-; cbn; rewrite app_nil_r; auto.
Qed.

Lemma shown_run hs : forall sched w ws ts w' ws' ts' tr, run w ws ts sched = Some (w', ws', ts', tr) ->
  (forall i j, kinds ws i j = sink_of hs i j) -> w_stdout w' = w_stdout w ++ flat_map (shown hs) tr.
Proof.
  induction sched as [|[u now] sched IH]; intros w ws ts w' ws' ts' tr E K; cbn [ThreadsModel.run] in E.
  - injection E as <- <- <- <-. cbn. rewrite app_nil_r. reflexivity.
  - destruct (nth_error ts u) as [y|] eqn:EU; [|exact (IH _ _ _ _ _ _ _ E K)].
    destruct (advance w ws u now y) as [[[[w1 ws1] y1] tr1]|] eqn:EA; [|discriminate].
    destruct (run w1 ws1 (put ts u y1) sched) as [[[[w2 ws2] ts2] tr2]|] eqn:ER; [|discriminate].
    injection E as <- <- <- <-. destruct (shown_step hs _ _ _ _ _ _ _ _ _ EA K) as [H1 K1].
    rewrite (IH _ _ _ _ _ _ _ ER K1), H1, flat_map_app, app_assoc. reflexivity.
Qed.

(** The parts of the complaints of a thread, as far as printed, are its complaints. *)
Definition owed (s : stage) : bytes := match s with Printing _ _ _ ps => concat ps | _ => [] end.
Definition seen (hs : list FactoriesModel.handler) (t : nat) (tr : list happening) : bytes := flat_map (shown hs) (filter (is_of t) tr).

Lemma seen_app hs t a b : seen hs t (a ++ b) = seen hs t a ++ seen hs t b.
Proof. unfold seen. rewrite filter_app, flat_map_app. reflexivity. Qed.
Lemma seen_other hs t u : t <> u -> forall tr, Forall (mine t) tr -> seen hs u tr = [].
Proof.
  intros NE tr F. unfold seen. replace (filter (is_of u) tr) with (@nil happening); [reflexivity|]. symmetry.
  induction F as [|h tr M F IH]; [reflexivity|]. cbn [filter]. destruct h; cbn in M; subst; cbn; destruct (Nat.eqb_spec t u); try contradiction; exact IH.
Qed.

Lemma pieces_text hs i e : concat (pieces e) = on_stdout hs (Complained i e).
Proof. destruct e; reflexivity. Qed.

Lemma seen_step hs w ws t now x w' ws' x' tr : advance w ws t now x = Some (w', ws', x', tr) ->
  seen hs t tr ++ owed (t_stage x') = owed (t_stage x) ++ flat_map (on_stdout hs) (by_thread t tr).
Proof.
  unfold ThreadsModel.advance. intros E. destruct (t_stage x) as [|c r i|c r i text j|c r i [|p ps]] eqn:EX.
  - destruct (t_calls x) as [|c rest]; [injection E as <- <- <- <-; rewrite EX; reflexivity|].
    cbv zeta in E. destruct (c_supplier (stamp c now)); injection E as <- <- <- <-; cbn; rewrite Nat.eqb_refl; reflexivity.
  - destruct (nth_error ws i) as [[f sinks]|]; [|injection E as <- <- <- <-; reflexivity].
    destruct (render f (c_env c) r) as [text|e|]; try discriminate; injection E as <- <- <- <-; [reflexivity|].
    unfold seen, by_thread. cbn [filter is_of flat_map of_thread t_stage owed]. rewrite !Nat.eqb_refl. cbn [flat_map shown app]. rewrite (pieces_text hs i e).
    rewrite app_nil_r. reflexivity.
  - destruct (sink_now ws i j) as [s|]; [|injection E as <- <- <- <-; reflexivity]. cbv zeta in E.
    destruct (emit _ _ _ _ _ _) as [[[w1 s1] [e|]]|]; try discriminate; injection E as <- <- <- <-;
      unfold seen, by_thread; cbn [filter is_of flat_map of_thread t_stage owed]; rewrite !Nat.eqb_refl; cbn [flat_map shown app].
    + rewrite (pieces_text hs i e), !app_nil_r. reflexivity.
    + rewrite !app_nil_r. reflexivity.
  - injection E as <- <- <- <-. reflexivity.
  - injection E as <- <- <- <-. unfold seen, by_thread. cbn [filter is_of flat_map of_thread t_stage owed concat]. rewrite Nat.eqb_refl. cbn [flat_map shown app].
    rewrite !app_nil_r. reflexivity.
Qed.

Lemma seen_run hs : forall sched w ws ts w' ws' ts' tr, run w ws ts sched = Some (w', ws', ts', tr) ->
  forall t x x', nth_error ts t = Some x -> nth_error ts' t = Some x' ->
  seen hs t tr ++ owed (t_stage x') = owed (t_stage x) ++ flat_map (on_stdout hs) (by_thread t tr).
Proof.
  induction sched as [|[u now] sched IH]; intros w ws ts w' ws' ts' tr E t x x' HX HX'; cbn [ThreadsModel.run] in E.
  - injection E as <- <- <- <-. rewrite HX in HX'. injection HX' as <-. cbn. rewrite app_nil_r. reflexivity.
  - destruct (nth_error ts u) as [y|] eqn:EU; [|exact (IH _ _ _ _ _ _ _ E _ _ _ HX HX')].
    destruct (advance w ws u now y) as [[[[w1 ws1] y1] tr1]|] eqn:EA; [|discriminate].
    destruct (run w1 ws1 (put ts u y1) sched) as [[[[w2 ws2] ts2] tr2]|] eqn:ER; [|discriminate].
    injection E as <- <- <- <-. rewrite seen_app, by_thread_app, flat_map_app. destruct (Nat.eq_dec u t) as [->|NE].
    + rewrite HX in EU. injection EU as <-. rewrite <- app_assoc.
      rewrite (IH _ _ _ _ _ _ _ ER t y1 x' (put_same _ _ _ _ HX) HX'), !app_assoc. f_equal. exact (seen_step hs _ _ _ _ _ _ _ _ _ EA).
    + destruct (mine_other u t NE _ (advance_mine _ _ _ _ _ _ _ _ _ EA)) as [-> _].
      rewrite (seen_other hs u t NE _ (advance_mine _ _ _ _ _ _ _ _ _ EA)). cbn [flat_map app].
      apply (IH _ _ _ _ _ _ _ ER); [rewrite put_other by exact NE; exact HX|exact HX'].
Qed.

Lemma threads_stdout hs ws w programs sched w' ws' ts' tr : start_handlers hs = Some ws ->
  run w ws (map fresh programs) sched = Some (w', ws', ts', tr) ->
  w_stdout w' = w_stdout w ++ flat_map (shown hs) tr /\
  forall t rest, nth_error ts' t = Some (Thread rest Idle) ->
    flat_map (shown hs) (filter (is_of t) tr) = flat_map (on_stdout hs) (by_thread t tr).
Proof.
  intros S E. split.
  - exact (shown_run hs _ _ _ _ _ _ _ _ E (start_kinds _ _ S)).
  - intros t rest HT. destruct (run_tags _ _ _ _ _ _ _ _ E) as [L _]. rewrite map_length in L.
    assert (LT : (t < length ts')%nat) by (apply nth_error_Some; congruence).
    destruct (nth_error (map fresh programs) t) as [x|] eqn:EX; [|apply nth_error_None in EX; rewrite map_length in EX; lia].
    pose proof (seen_run hs _ _ _ _ _ _ _ _ E t _ _ EX HT) as HS. unfold seen in HS. cbn [t_stage owed] in HS.
    apply nth_error_In in EX. apply in_map_iff in EX as (calls & <- & _). cbn in HS. rewrite app_nil_r in HS. exact HS.
Qed.

Lemma threads_datagrams hs ws w programs sched w' ws' ts' tr : start_handlers hs = Some ws ->
  run w ws (map fresh programs) sched = Some (w', ws', ts', tr) ->
  w_datagrams w' = w_datagrams w ++ flat_map (on_network hs) (all_events tr).
Proof.
  intros S E. destruct (run_steps _ _ _ _ _ _ _ _ E w (alike_refl w)) as (v & HS & (_ & -> & _ & _)).
  apply (esteps_sum w_datagrams (on_network hs) hs (fun _ => True)) with (1 := fun w ws e w' ws' A B _ => estep_datagrams hs w ws e w' ws' A B) (2 := HS).
  - exact (start_kinds _ _ S).
  - apply Forall_all. auto.
Qed.

Lemma threads_syslog hs ws w programs sched w' ws' ts' tr : start_handlers hs = Some ws ->
  run w ws (map fresh programs) sched = Some (w', ws', ts', tr) ->
  Forall text_fits (all_events tr) -> (forall i j l, sink_at hs i j (SSyslog l) -> (Z.of_nat (length l) < 2 ^ 63)%Z) ->
  w_syslog w' = w_syslog w ++ flat_map (in_syslog hs) (all_events tr).
Proof.
  intros S E F HL. destruct (run_steps _ _ _ _ _ _ _ _ E w (alike_refl w)) as (v & HS & (_ & _ & _ & ->)).
  apply (esteps_sum w_syslog (in_syslog hs) hs text_fits) with (1 := fun w ws e w' ws' A B C => estep_syslog hs w ws e w' ws' A B C HL) (2 := HS).
  - exact (start_kinds _ _ S).
  - exact F.
Qed.

Lemma threads_tcp hs ws w programs sched w' ws' ts' tr h p i j : start_handlers hs = Some ws ->
  run w ws (map fresh programs) sched = Some (w', ws', ts', tr) ->
  sink_at hs i j (STcp h p) -> only_tcp hs h p i j ->
  exists new, connections h p (w_tcp w') = connections h p (w_tcp w) ++ new /\ TcpSpec.delivered new = taken i j (all_events tr).
Proof.
  intros S E Hs HO. destruct (run_steps _ _ _ _ _ _ _ _ E w (alike_refl w)) as (v & HS & (_ & _ & -> & _)).
  eapply tcp_steps; eassumption.
Qed.

(** ---- nothing undefined; every thread ends ---- *)

Definition good (hs : list FactoriesModel.handler) (c : call) : Prop :=
  forall now r f i, record_of (stamp c now) r -> formatter_at hs i f ->
    match render f (c_env c) r with Text t => (Z.of_nat (length t) < 2 ^ 31)%Z | Raises _ => True | Undefined => False end.
Definition good_stage (hs : list FactoriesModel.handler) (s : stage) : Prop :=
  match s with
  | Idle => True
  | Handling c r _ | Printing c r _ _ => exists c0 now, c = stamp c0 now /\ record_of c r /\ good hs c0
  | Sinking c r _ text _ => (exists c0 now, c = stamp c0 now /\ record_of c r /\ good hs c0) /\ (Z.of_nat (length text) < 2 ^ 31)%Z
  end.
Definition good_thread hs (x : thread) : Prop := Forall (good hs) (t_calls x) /\ good_stage hs (t_stage x).

Lemma activate_record c now m : c_supplier c = Ret m ->
  record_of (stamp c now) (activate (record_new (c_severity c) (c_pattern c) (c_tid c) (c_pack c ++ c_scoped c)) m now).
Proof. intros E. exists m. split; [exact E|]. unfold activate, record_new, RootSpec.text_of. cbn. destruct m; reflexivity. Qed.

Lemma advance_some hs w ws t now x : shape ws = config_shape hs -> good_thread hs x ->
  exists w' ws' x' tr, advance w ws t now x = Some (w', ws', x', tr) /\ good_thread hs x'.
Proof.
  intros SH [GC GS]. unfold ThreadsModel.advance. destruct (t_stage x) as [|c r i|c r i text j|c r i [|p ps]] eqn:ST; cbn [good_stage] in GS.
  - destruct (t_calls x) as [|c rest] eqn:EC.
    + do 4 eexists. split; [reflexivity|]. split; [rewrite EC; constructor|rewrite ST; exact I].
    + inversion GC as [|? ? G1 G2]; subst. cbv zeta. destruct (c_supplier (stamp c now)) as [m|e] eqn:ES.
      * do 4 eexists. split; [reflexivity|]. split; [exact G2|]. cbn [t_stage good_stage]. exists c, now. split; [reflexivity|].
        split; [exact (activate_record c now m ES)|exact G1].
      * do 4 eexists. split; [reflexivity|]. split; [exact G2|exact I].
  - pose proof GS as GS0. destruct GS as (c0 & n & -> & HR & HG). pose proof (shape_nth _ _ SH i) as HN. destruct (nth_error ws i) as [[f l]|].
    + destruct HN as (sinks & HN & _). pose proof (HG n r f i HR (ex_intro _ sinks HN)) as HG'. cbn [c_env stamp].
      destruct (render f (c_env c0) r) as [text|e|] eqn:ER; [| |contradiction].
      * do 4 eexists. split; [reflexivity|]. split; [exact GC|]. split; [exact GS0|exact HG'].
      * do 4 eexists. split; [reflexivity|]. split; [exact GC|exact GS0].
    + do 4 eexists. split; [reflexivity|]. split; [exact GC|exact I].
  - destruct GS as [GS L]. destruct (sink_now ws i j) as [s|].
    + cbv zeta. destruct (emit_some w (e_tty (c_env c)) (r_severity r) text s (c_circumstances c i j) L) as [[[w1 s1] [e|]] ->].
      * do 4 eexists. split; [reflexivity|]. split; [exact GC|exact GS].
      * do 4 eexists. split; [reflexivity|]. split; [exact GC|]. split; [exact GS|exact L].
    + do 4 eexists. split; [reflexivity|]. split; [exact GC|exact GS].
  - do 4 eexists. split; [reflexivity|]. split; [exact GC|exact GS].
  - do 4 eexists. split; [reflexivity|]. split; [exact GC|exact GS].
Qed.

Lemma run_some hs : forall sched w ws ts, shape ws = config_shape hs -> (forall u x, nth_error ts u = Some x -> good_thread hs x) ->
  exists w' ws' ts' tr, run w ws ts sched = Some (w', ws', ts', tr).
Proof.
  induction sched as [|[u now] sched IH]; intros w ws ts SH G; cbn [ThreadsModel.run]; [do 4 eexists; reflexivity|].
  destruct (nth_error ts u) as [y|] eqn:EU; [|apply IH; assumption].
  destruct (advance_some hs w ws u now y SH (G _ _ EU)) as (w1 & ws1 & y1 & tr1 & EA & GA). rewrite EA.
  destruct (IH w1 ws1 (put ts u y1)) as (w2 & ws2 & ts2 & tr2 & ER).
  - rewrite (advance_shape _ _ _ _ _ _ _ _ _ EA). exact SH.
  - intros v z HZ. destruct (Nat.eq_dec u v) as [->|NE].
    + rewrite (put_same _ _ _ _ EU) in HZ. injection HZ as <-. exact GA.
    + rewrite put_other in HZ by exact NE. exact (G _ _ HZ).
  - rewrite ER. do 4 eexists. reflexivity.
Qed.

Lemma threads_defined hs ws w programs sched : start_handlers hs = Some ws ->
  (forall calls c now r f i, In calls programs -> In c calls -> record_of (stamp c now) r -> formatter_at hs i f ->
     match render f (c_env c) r with Text t => (Z.of_nat (length t) < 2 ^ 31)%Z | Raises _ => True | Undefined => False end) ->
  exists w' ws' ts' tr, run w ws (map fresh programs) sched = Some (w', ws', ts', tr).
Proof.
  intros S H. apply (run_some hs _ _ _ _ (start_shape _ _ S)). intros u x HX. apply nth_error_In in HX. apply in_map_iff in HX as (calls & <- & HI).
  split; [|exact I]. apply Forall_forall. intros c Hc now r f i HR HF. exact (H calls c now r f i HI Hc HR HF).
Qed.

(** How many steps a thread has left, at most. *)
Definition handler_cost (x : nat) : nat := (x + 6)%nat.
Fixpoint costs (l : list nat) : nat := match l with [] => 0 | x :: l' => handler_cost x + costs l' end%nat.
Definition sizes (ws : list working) : list nat := map (fun x => length (snd x)) ws.
Definition stage_cost (l : list nat) (s : stage) : nat :=
  match s with
  | Idle => 0
  | Handling _ _ i => 1 + costs (skipn i l)
  | Sinking _ _ i _ j => (nth i l 0 - j) + 6 + costs (skipn (S i) l)
  | Printing _ _ i ps => length ps + 2 + costs (skipn (S i) l)
  end%nat.
Definition cost (l : list nat) (x : thread) : nat := (length (t_calls x) * (2 + costs l) + stage_cost l (t_stage x))%nat.

Lemma pieces_length e : (length (pieces e) <= 3)%nat.
Proof. destruct e; cbn; lia. Qed.
Lemma shape_sizes a b : shape a = shape b -> sizes a = sizes b.
Proof.
  revert b. induction a as [|[f l] a IH]; intros [|[g m] b] E; try discriminate E; [reflexivity|].
  unfold shape in E. cbn in E. injection E as -> E1 E2. unfold sizes in *. cbn. f_equal; [exact E1|]. apply IH. exact E2.
Qed.

Lemma advance_cost w ws t now x w' ws' x' tr : advance w ws t now x = Some (w', ws', x', tr) ->
  (cost (sizes ws) x = 0 -> x' = x)%nat /\ (cost (sizes ws) x <> 0 -> cost (sizes ws) x' < cost (sizes ws) x)%nat.
Proof.
  unfold ThreadsModel.advance, cost. intros E. destruct (t_stage x) as [|c r i|c r i text j|c r i ps] eqn:ST.
  - destruct (t_calls x) as [|c rest] eqn:EC.
    + injection E as <- <- <- <-. split; [reflexivity|]. cbn. congruence.
    + cbv zeta in E. destruct (c_supplier (stamp c now)); injection E as <- <- <- <-; cbn [t_calls t_stage length stage_cost skipn]; split; lia.
  - assert (ES : nth_error (sizes ws) i = option_map (fun x => length (snd x)) (nth_error ws i)) by apply nth_error_map.
    destruct (nth_error ws i) as [[f l]|]; cbn [option_map snd] in ES.
    + pose proof (nth_error_nth _ _ 0%nat ES) as EN.
      destruct (render f (c_env c) r) as [text|e|]; try discriminate; injection E as <- <- <- <-;
        cbn [t_calls t_stage stage_cost]; rewrite (skipn_nth _ _ _ ES); cbn [costs]; unfold handler_cost; [rewrite EN; split; lia|].
      pose proof (pieces_length e). split; lia.
    + injection E as <- <- <- <-. cbn [t_calls t_stage stage_cost]. split; lia.
  - unfold sink_now in E. destruct (nth_error ws i) as [[f l]|] eqn:EW.
    + assert (ES : nth_error (sizes ws) i = Some (length l)) by (unfold sizes; rewrite nth_error_map, EW; reflexivity).
      pose proof (nth_error_nth _ _ 0%nat ES) as EN. destruct (nth_error l j) as [s|] eqn:EJ.
      * assert (LJ : (j < length l)%nat) by (apply nth_error_Some; congruence). cbv zeta in E.
        destruct (emit _ _ _ _ _ _) as [[[w1 s1] [e|]]|]; try discriminate; injection E as <- <- <- <-; cbn [t_calls t_stage stage_cost]; rewrite EN.
        -- pose proof (pieces_length e). split; lia.
        -- split; lia.
      * injection E as <- <- <- <-. cbn [t_calls t_stage stage_cost]. split; lia.
    + injection E as <- <- <- <-. cbn [t_calls t_stage stage_cost]. split; lia.
  - destruct ps as [|p ps]; injection E as <- <- <- <-; cbn [t_calls t_stage stage_cost length]; split; lia.
Qed.

Lemma cost_zero l x : cost l x = 0%nat -> t_calls x = [] /\ t_stage x = Idle.
Proof.
  unfold cost. intros E. destruct x as [calls st]. cbn [t_calls t_stage] in *. split.
  - destruct calls; [reflexivity|]. cbn in E. lia.
  - destruct st; [reflexivity| | |]; cbn [stage_cost] in E; lia.
Qed.

Lemma run_cost : forall sched w ws ts w' ws' ts' tr, run w ws ts sched = Some (w', ws', ts', tr) ->
  forall t x', nth_error ts' t = Some x' -> exists x, nth_error ts t = Some x /\
    (cost (sizes ws) x' <= cost (sizes ws) x - count_occ Nat.eq_dec (map fst sched) t)%nat.
Proof.
  induction sched as [|[u now] sched IH]; intros w ws ts w' ws' ts' tr E t x' HX'; cbn [ThreadsModel.run] in E.
  - injection E as <- <- <- <-. exists x'. split; [exact HX'|]. cbn. lia.
  - cbn [map fst count_occ]. destruct (nth_error ts u) as [y|] eqn:EU.
    + destruct (advance w ws u now y) as [[[[w1 ws1] y1] tr1]|] eqn:EA; [|discriminate].
      destruct (run w1 ws1 (put ts u y1) sched) as [[[[w2 ws2] ts2] tr2]|] eqn:ER; [|discriminate].
      injection E as <- <- <- <-. destruct (IH _ _ _ _ _ _ _ ER t x' HX') as (x1 & HX1 & HC).
      rewrite (shape_sizes _ _ (advance_shape _ _ _ _ _ _ _ _ _ EA)) in HC.
      destruct (Nat.eq_dec u t) as [->|NE].
      * rewrite (put_same _ _ _ _ EU) in HX1. injection HX1 as <-. exists y. split; [exact EU|].
        destruct (advance_cost _ _ _ _ _ _ _ _ _ EA) as [C0 C1]. destruct (Nat.eq_dec (cost (sizes ws) y) 0) as [Z|NZ].
        -- rewrite (C0 Z) in HC. lia.
        -- specialize (C1 NZ). lia.
      * rewrite put_other in HX1 by exact NE. exists x1. split; [exact HX1|exact HC].
    + destruct (IH _ _ _ _ _ _ _ E t x' HX') as (x & HX & HC). exists x. split; [exact HX|].
      destruct (Nat.eq_dec u t) as [->|]; [congruence|exact HC].
Qed.

Lemma threads_end ws programs : exists n, forall w sched w' ws' ts' tr,
  run w ws (map fresh programs) sched = Some (w', ws', ts', tr) ->
  (forall t, (t < length programs)%nat -> (n <= count_occ Nat.eq_dec (map fst sched) t)%nat) -> all_done ts'.
Proof.
  exists (list_max (map (fun calls => cost (sizes ws) (fresh calls)) programs)). intros w sched w' ws' ts' tr E H.
  apply Forall_forall. intros x' HX. apply In_nth_error in HX as [t HX]. apply cost_zero with (l := sizes ws).
  destruct (run_cost _ _ _ _ _ _ _ _ E t x' HX) as (x & HX0 & HC).
  assert (LT : (t < length programs)%nat) by (rewrite <- (map_length fresh); apply nth_error_Some; congruence).
  specialize (H t LT). assert (CX : (cost (sizes ws) x <= list_max (map (fun calls => cost (sizes ws) (fresh calls)) programs))%nat).
  { apply nth_error_In in HX0. apply in_map_iff in HX0 as (calls & <- & HI).
    pose proof (proj1 (list_max_le (map (fun calls => cost (sizes ws) (fresh calls)) programs) _) (Nat.le_refl _)) as F.
    rewrite Forall_forall in F. apply F. apply in_map_iff. exists calls. split; [reflexivity|exact HI]. }
  lia.
Qed.

(** ---- who is first ---- *)

Lemma run_split s1 s2 w ws ts w' ws' ts' tr : run w ws ts (s1 ++ s2) = Some (w', ws', ts', tr) ->
  exists w1 ws1 ts1 tr1 tr2, run w ws ts s1 = Some (w1, ws1, ts1, tr1) /\ run w1 ws1 ts1 s2 = Some (w', ws', ts', tr2) /\ tr = tr1 ++ tr2.
Proof.
  rewrite run_app. intros E. destruct (run w ws ts s1) as [[[[w1 ws1] ts1] tr1]|]; [|discriminate].
  destruct (run w1 ws1 ts1 s2) as [[[[w2 ws2] ts2] tr2]|] eqn:E2; [|discriminate]. injection E as <- <- <- <-.
  exists w1, ws1, ts1, tr1, tr2. auto.
Qed.

Lemma run_inv hs : forall sched w ws ts w' ws' ts' tr, shape ws = config_shape hs ->
  (forall u x, nth_error ts u = Some x -> sane hs (t_stage x)) -> run w ws ts sched = Some (w', ws', ts', tr) ->
  shape ws' = config_shape hs /\ (forall u x, nth_error ts' u = Some x -> sane hs (t_stage x)).
Proof.
  induction sched as [|[u now] sched IH]; intros w ws ts w' ws' ts' tr SH SA E; cbn [ThreadsModel.run] in E.
  - injection E as <- <- <- <-. auto.
  - destruct (nth_error ts u) as [y|] eqn:EU; [|exact (IH _ _ _ _ _ _ _ SH SA E)].
    destruct (advance w ws u now y) as [[[[w1 ws1] y1] tr1]|] eqn:EA; [|discriminate].
    destruct (run w1 ws1 (put ts u y1) sched) as [[[[w2 ws2] ts2] tr2]|] eqn:ER; [|discriminate].
    injection E as <- <- <- <-. apply (IH _ _ _ _ _ _ _) with (3 := ER).
    + rewrite (advance_shape _ _ _ _ _ _ _ _ _ EA). exact SH.
    + intros v z HZ. destruct (Nat.eq_dec u v) as [->|NE].
      * rewrite (put_same _ _ _ _ EU) in HZ. injection HZ as <-. exact (proj1 (advance_finishes hs _ _ _ _ _ _ _ _ _ SH (SA _ _ EU) EA)).
      * rewrite put_other in HZ by exact NE. exact (SA _ _ HZ).
Qed.

Lemma made_at_app : forall a n1 c1, made_at a n1 c1 -> forall b n2 c2, made_at b n2 c2 -> made_at (a ++ b) (n1 ++ n2) (c1 ++ c2).
Proof. induction 1; intros; cbn; [assumption|]. constructor. auto. Qed.

(** A thread that is between two calls at some point: what it has done is before, what it will do is behind. *)
Lemma threads_between hs ws w programs s1 s2 w' ws' ts' tr : start_handlers hs = Some ws ->
  run w ws (map fresh programs) (s1 ++ s2) = Some (w', ws', ts', tr) -> all_done ts' ->
  exists w1 ws1 ts1 tr1 tr2, run w ws (map fresh programs) s1 = Some (w1, ws1, ts1, tr1) /\ tr = tr1 ++ tr2 /\
  forall t calls rest, nth_error programs t = Some calls -> nth_error ts1 t = Some (Thread rest Idle) ->
    exists done cs1 cs2 b1 b2, calls = done ++ rest /\ made_at done (times t tr1) cs1 /\ made_at rest (times t tr2) cs2 /\
      Forall2 (called hs) cs1 b1 /\ Forall2 (called hs) cs2 b2 /\ by_thread t tr1 = concat b1 /\ by_thread t tr2 = concat b2.
Proof.
  intros S E D. destruct (run_split _ _ _ _ _ _ _ _ _ E) as (w1 & ws1 & ts1 & tr1 & tr2 & E1 & E2 & ->).
  exists w1, ws1, ts1, tr1, tr2. split; [exact E1|]. split; [reflexivity|]. intros t calls rest HP HT.
  destruct (threads_routes _ _ _ _ _ _ _ _ _ S E1 t calls rest HP HT) as (done & cs1 & b1 & EC & HA & HB & HE).
  destruct (run_inv hs _ _ _ _ _ _ _ _ (start_shape _ _ S) (fresh_sane hs programs) E1) as [SH1 SA1].
  destruct (run_tags _ _ _ _ _ _ _ _ E2) as [L2 _].
  assert (LT : (t < length ts')%nat) by (rewrite L2; apply nth_error_Some; congruence).
  destruct (run_thread hs _ _ _ _ _ _ _ _ SH1 SA1 E2 t _ [] HT (done_idle _ _ D LT)) as (done2 & cur & cs2 & b2 & EC2 & HF & HA2 & HB2 & HE2).
  cbn in EC2, HF. rewrite app_nil_r in EC2. subst done2 cur. exists done, cs1, cs2, b1, b2. auto 9.
Qed.

Lemma threads_first hs ws w programs s1 s2 w' ws' ts' tr p c i j f : start_handlers hs = Some ws ->
  run w ws (map fresh programs) (s1 ++ s2) = Some (w', ws', ts', tr) -> all_done ts' ->
  sink_at hs i j (SFile p c) -> only_file hs p i j -> FileSinkSpec.fs_ok (w_files w p) -> formatter_at hs i f ->
  (forall calls cl, In calls programs -> In cl calls -> exists dev ino spill, q_file (c_circumstances cl i j) = FileSinkSpec.calm dev ino spill) ->
  (forall calls cl now, In calls programs -> In cl calls -> exists text, makes f (stamp cl now) text) ->
  (forall j' sev t q b, (j' < j)%nat -> In (Emitted i j' sev t q b) (all_events tr) -> b = false) ->
  exists w1 ws1 ts1 tr1 l1 l2, run w ws (map fresh programs) s1 = Some (w1, ws1, ts1, tr1) /\
    content (w_files (close_all w' ws') p) =
      content (w_files w p) ++ concat (map (fun x => snd x ++ [chr 10]) l1) ++ concat (map (fun x => snd x ++ [chr 10]) l2) /\
    forall t calls rest, nth_error programs t = Some calls -> nth_error ts1 t = Some (Thread rest Idle) ->
      exists done nows1 nows2 cs1 cs2, calls = done ++ rest /\ made_at done nows1 cs1 /\ made_at rest nows2 cs2 /\
        Forall2 (makes f) cs1 (texts_of t l1) /\ Forall2 (makes f) cs2 (texts_of t l2).
Proof.
  intros S E D Hs HO OK Hf HC HM HF. destruct (threads_between _ _ _ _ _ _ _ _ _ _ S E D) as (w1 & ws1 & ts1 & tr1 & tr2 & E1 & -> & HB).
  exists w1, ws1, ts1, tr1, (tagged i j tr1), (tagged i j tr2). split; [exact E1|]. split.
  - rewrite (threads_content _ _ _ _ _ _ _ _ _ p c i j S E D Hs HO OK HC). unfold tagged. rewrite flat_map_app, map_app, concat_app. reflexivity.
  - intros t calls rest HP HT. destruct (HB t calls rest HP HT) as (done & cs1 & cs2 & b1 & b2 & EC & A1 & A2 & F1 & F2 & T1 & T2).
    exists done, (times t tr1), (times t tr2), cs1, cs2. split; [exact EC|]. split; [exact A1|]. split; [exact A2|].
    rewrite !tagged_thread, T1, T2.
    assert (HI : forall (tr0 : list happening) b, (tr0 = tr1 \/ tr0 = tr2) -> by_thread t tr0 = concat b ->
      forall j' sev x q bb, (j' < j)%nat -> In (Emitted i j' sev x q bb) (concat b) -> bb = false).
    { intros tr0 b OR EB j' sev x q bb Hj HI. rewrite <- EB in HI. apply (HF j' sev x q bb Hj). rewrite all_events_app. apply in_or_app.
      assert (HI' : In (Emitted i j' sev x q bb) (all_events tr0)).
      { apply in_flat_map in HI as (h & Hh & He). apply in_flat_map. exists h. split; [exact Hh|].
        destruct h as [u now|u e|u p0]; cbn in He |- *; try contradiction. destruct (Nat.eqb u t); [exact He|destruct He]. }
      destruct OR as [->| ->]; [left|right]; exact HI'. }
    split.
    + apply (complete_blocks _ _ _ _ _ _ _ _ _ _ _ _ F1 Hs Hf); [|exact (HI tr1 b1 (or_introl eq_refl) T1)].
      apply Forall_forall. intros x Hx. destruct (made_at_in _ _ _ A1 x Hx) as (c0 & now & H0 & ->).
      apply (HM calls); [exact (nth_error_In _ _ HP)|]. rewrite EC. apply in_or_app. left; exact H0.
    + apply (complete_blocks _ _ _ _ _ _ _ _ _ _ _ _ F2 Hs Hf); [|exact (HI tr2 b2 (or_intror eq_refl) T2)].
      apply Forall_forall. intros x Hx. destruct (made_at_in _ _ _ A2 x Hx) as (c0 & now & H0 & ->).
      apply (HM calls); [exact (nth_error_In _ _ HP)|]. rewrite EC. apply in_or_app. right; exact H0.
Qed.

End Runs.
