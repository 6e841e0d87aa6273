(** More lemmas about loggers with asynchronous sinks: what leaves the process. *)
From Verif Require Import Base Values RootModel FactoriesModel SystemModel SystemSpec SystemProofs ThreadsModel ThreadsSpec ThreadsProofs.
From Verif Require Import QueuedModel QueuedSpec QueuedProofs QueuedSubProofs QueuedMoreProofs QueuedEndProofs.
From Verif Require FmtModel AsyncModel AsyncSpec FileSinkModel FileSinkSpec TcpModel TcpSpec RootSpec.
From Coq Require Import Permutation.

Lemma arrivals_app a b : arrivals (a ++ b) = arrivals a ++ arrivals b. Proof. apply flat_map_app. Qed.
Lemma seen_app hs a b : flat_map (QueuedSpec.seen hs) (a ++ b) = flat_map (QueuedSpec.seen hs) a ++ flat_map (QueuedSpec.seen hs) b. Proof. apply flat_map_app. Qed.
Lemma alike_trans a b c : alike a b -> alike b c -> alike a c.
Proof. intros (A1 & A2 & A3 & A4) (B1 & B2 & B3 & B4). repeat split; congruence. Qed.

(** A part of a step: what it does to the world and the sinks. *)
Definition moves (hs : list FactoriesModel.handler) (s s' : state) (tr : list happening) : Prop :=
  (forall v, alike (g_world s) v -> exists v', esteps (v, g_sinks s) (arrivals tr) (v', g_sinks s') /\ alike (g_world s') v') /\
  ((forall i j, kinds (g_sinks s) i j = sink_of (map strip hs) i j) ->
   w_stdout (g_world s') = w_stdout (g_world s) ++ flat_map (QueuedSpec.seen hs) tr /\
   (forall i j, kinds (g_sinks s') i j = sink_of (map strip hs) i j)).

Lemma moves_nothing hs s s' tr : g_world s' = g_world s -> g_sinks s' = g_sinks s -> arrivals tr = [] -> flat_map (QueuedSpec.seen hs) tr = [] -> moves hs s s' tr.
Proof.
  intros E1 E2 E3 E4. split.
  - intros v AL. exists v. rewrite E1, E2, E3. split; [constructor|exact AL].
  - intros K. rewrite E1, E2, E4, app_nil_r. auto.
Qed.
Lemma moves_app hs s s' s'' a b : moves hs s s' a -> moves hs s' s'' b -> moves hs s s'' (a ++ b).
Proof.
  intros [A1 A2] [B1 B2]. split.
  - intros v AL. destruct (A1 v AL) as (v1 & S1 & AL1). destruct (B1 v1 AL1) as (v2 & S2 & AL2). exists v2. rewrite arrivals_app. split; [eapply esteps_app; eassumption|exact AL2].
  - intros K. destruct (A2 K) as [A3 K1]. destruct (B2 K1) as [B3 K2]. split; [|exact K2]. rewrite B3, A3, seen_app, app_assoc. reflexivity.
Qed.

Lemma pushes_moves hs s i j k who d p s' r tr : pushes s i j k who d p s' r tr -> moves hs s s' tr.
Proof.
  intros P. destruct P as [p HN HL|p x w x' e HN HL HE|p x w x' HN HL HE|l HN HC|l HN HC|l HN|l HN HP|l HN HP]; try (apply moves_nothing; reflexivity).
  - split.
    + intros v AL. destruct (emit_alike _ _ _ _ _ _ _ _ _ _ AL HE) as (v1 & EV & AL1). exists v1. split; [|exact AL1]. cbn [arrivals flat_map app set_base g_sinks].
      eapply esteps_cons; [|constructor]. exact (step_emit v _ i j _ _ _ _ x v1 x' (Some e) _ HL EV (put_sink_lookup _ _ _ _ x' HL)).
    + intros K. pose proof (step_emit _ _ i j _ _ _ _ x w x' (Some e) _ HL HE (put_sink_lookup _ _ _ _ x' HL)) as ST.
      cbn [set_base g_world g_sinks]. split; [|intros a b; rewrite (estep_kinds _ _ _ _ _ ST); apply K].
      rewrite (estep_stdout _ _ _ _ _ _ ST K). cbn [flat_map QueuedSpec.seen]. rewrite app_nil_r. reflexivity.
  - split.
    + intros v AL. destruct (emit_alike _ _ _ _ _ _ _ _ _ _ AL HE) as (v1 & EV & AL1). exists v1. split; [|exact AL1]. cbn [arrivals flat_map app set_base g_sinks].
      eapply esteps_cons; [|constructor]. exact (step_emit v _ i j _ _ _ _ x v1 x' None _ HL EV (put_sink_lookup _ _ _ _ x' HL)).
    + intros K. pose proof (step_emit _ _ i j _ _ _ _ x w x' None _ HL HE (put_sink_lookup _ _ _ _ x' HL)) as ST.
      cbn [set_base g_world g_sinks]. split; [|intros a b; rewrite (estep_kinds _ _ _ _ _ ST); apply K].
      rewrite (estep_stdout _ _ _ _ _ _ ST K). cbn [flat_map QueuedSpec.seen]. rewrite app_nil_r. reflexivity.
Qed.

Lemma work_moves hs s i j k s' tr : work s i j k = Some (s', tr) -> moves hs s s' tr.
Proof.
  unfold work. intros E. destruct (nth_error (g_queues s i j) k) as [l|]; [|injection E as <- <-; apply moves_nothing; reflexivity].
  destruct (l_worker l) as [|[d|]|d p|]; try (injection E as <- <-; apply moves_nothing; reflexivity).
  - destruct (l_queue l) as [|[who d|d] q]; injection E as <- <-; apply moves_nothing; reflexivity.
  - destruct (push s i j (S k) 0 d p) as [[[s1 [p'| |e]] tr1]|] eqn:EP; try discriminate; apply push_pushes in EP; apply (pushes_moves hs) in EP; injection E as <- <-.
    + rewrite <- (app_nil_r tr1). eapply moves_app; [exact EP|]. apply moves_nothing; reflexivity.
    + rewrite <- (app_nil_r tr1). eapply moves_app; [exact EP|]. apply moves_nothing; reflexivity.
    + eapply moves_app; [exact EP|]. apply moves_nothing; reflexivity.
Qed.

Lemma pieces_complaint i e : concat (pieces e) = complaint (Complained i e).
Proof. destruct e; reflexivity. Qed.
Definition qowed (st : qstage) : bytes := match st with QPrinting _ _ _ ps => concat ps | _ => [] end.
Lemma printed_app t a b : printed t (a ++ b) = printed t a ++ printed t b. Proof. apply flat_map_app. Qed.

Section Runs.
Variable dbl : FmtModel.spec -> N -> bytes.
Variable dbl_json : N -> bytes.
Variable double_of : bytes -> N.
Variable what : FmtModel.error -> bytes.
Variable json_fmt : bytes -> value -> option bytes.
Notation advance := (advance dbl dbl_json double_of what json_fmt).
Notation advances := (advances dbl dbl_json double_of what json_fmt).
Notation step := (step dbl dbl_json double_of what json_fmt).
Notation run := (run dbl dbl_json double_of what json_fmt).
Notation render := (render dbl dbl_json double_of what json_fmt).
Notation called := (called dbl dbl_json double_of what json_fmt).
Notation makes := (makes dbl dbl_json double_of what json_fmt).
Variable hs : list FactoriesModel.handler.

Lemma advances_moves s t now x s' tr : advances s t now x s' tr -> moves hs s s' tr.
Proof.
  intros AD. destruct AD as [H1 H2|c rest e H1 H2 H3|c rest m H1 H2 H3|c r i H1 H2|c r i f l e H1 H2 H3|c r i f l text H1 H2 H3|c r i text j p H1 H2
    |c r i text j p s1 p' tr H1 H2 P|c r i text j p s1 tr H1 H2 P|c r i text j p s1 e tr H1 H2 P|c r i H1|c r i p rest H1];
    try (apply moves_nothing; reflexivity).
  - rewrite <- (app_nil_r tr). eapply moves_app; [exact (pushes_moves _ _ _ _ _ _ _ _ _ _ _ P)|]. apply moves_nothing; reflexivity.
  - eapply moves_app; [exact (pushes_moves _ _ _ _ _ _ _ _ _ _ _ P)|]. apply moves_nothing; reflexivity.
  - eapply moves_app; [exact (pushes_moves _ _ _ _ _ _ _ _ _ _ _ P)|]. apply moves_nothing; reflexivity.
  - split.
    + intros v AL. exists v. split; [constructor|]. exact AL.
    + intros K. cbn [set_thread set_base g_world w_stdout g_sinks flat_map QueuedSpec.seen]. rewrite app_nil_r. auto.
Qed.

Lemma step_moves s a s' tr : step s a = Some (s', tr) -> moves hs s s' tr.
Proof.
  unfold QueuedModel.step. intros E. destruct (g_dead s); [injection E as <- <-; apply moves_nothing; reflexivity|]. destruct a as [t now|i j k|].
  - destruct (nth_error (g_threads s) t) as [x|]; [|injection E as <- <-; apply moves_nothing; reflexivity]. exact (advances_moves _ _ _ _ _ _ (advance_advances _ _ _ _ _ _ _ _ _ _ _ E)).
  - exact (work_moves hs _ _ _ _ _ _ E).
  - destruct (destroy s) as [s1 tr1] eqn:ED. injection E as <- <-. destruct (destroy_local _ _ _ ED) as (_ & S & W & _). pose proof (destroy_backstage hs _ _ _ ED) as BS.
    unfold destroy in ED. apply moves_nothing; try assumption; clear S W BS; destruct (forallb idle (g_threads s)); try (injection ED as <- <-; reflexivity);
    (destruct (g_todo s) as [|[i j k|i j k] rest]; [injection ED as <- <-; reflexivity| |]);
    (destruct (nth_error (g_queues s i j) k) as [l|]; [|injection ED as <- <-; reflexivity]); try destruct (l_worker l); injection ED as <- <-; reflexivity.
Qed.

Lemma run_moves sched s s' tr : run s sched = Some (s', tr) -> moves hs s s' tr.
Proof.
  intros E. refine (run_keeps _ _ _ _ _ (fun s1 tr => moves hs s s1 tr) _ sched s [] s' tr _ E).
  - intros s1 tr1 a s2 tr2 M ES. eapply moves_app; [exact M|exact (step_moves _ _ _ _ ES)].
  - apply moves_nothing; reflexivity.
Qed.

(** The parts of the complaints of a thread, as far as printed, are its complaints. *)
Lemma advances_printed s t now x s' tr x' : advances s t now x s' tr -> nth_error (g_threads s) t = Some x -> nth_error (g_threads s') t = Some x' ->
  printed t tr ++ qowed (q_stage x') = qowed (q_stage x) ++ flat_map complaint (by_thread t (own tr)).
Proof.
  intros AD HX HX'.
  assert (TH : forall s0 y, g_threads s0 = g_threads s -> nth_error (g_threads (set_thread s0 t y)) t = Some x' -> x' = y).
  { intros s0 y E H. cbn [set_thread g_threads] in H. rewrite E, (put_same _ _ _ _ HX) in H. congruence. }
  assert (PP : forall i j k who d p s1 r tr, pushes s i j k who d p s1 r tr -> printed t tr = []) by (intros i j k who d p s1 r tr0 P; destruct P; reflexivity).
  destruct AD as [H1 H2|c rest e H1 H2 H3|c rest m H1 H2 H3|c r i H1 H2|c r i f l e H1 H2 H3|c r i f l text H1 H2 H3|c r i text j p H1 H2
    |c r i text j p s1 p' tr H1 H2 P|c r i text j p s1 tr H1 H2 P|c r i text j p s1 e tr H1 H2 P|c r i H1|c r i p rest H1];
    try (rewrite (TH s _ eq_refl HX'), H1; reflexivity).
  - rewrite HX in HX'. injection HX' as <-. rewrite H1. reflexivity.
  - rewrite (TH s _ eq_refl HX'), H1. cbn [q_stage qowed own by_thread flat_map of_thread app printed]. rewrite Nat.eqb_refl. cbn [flat_map app]. rewrite (pieces_complaint i e), app_nil_r. reflexivity.
  - destruct (pushes_rest _ _ _ _ _ _ _ _ _ _ P) as (R1 & _). rewrite (TH s1 _ R1 HX'), H1, (PP _ _ _ _ _ _ _ _ _ P), (pushes_own _ _ _ _ _ _ _ _ _ _ P). reflexivity.
  - destruct (pushes_rest _ _ _ _ _ _ _ _ _ _ P) as (R1 & _). rewrite (TH s1 _ R1 HX'), H1, printed_app, (PP _ _ _ _ _ _ _ _ _ P), own_app, (pushes_own _ _ _ _ _ _ _ _ _ _ P).
    cbn. rewrite Nat.eqb_refl. reflexivity.
  - destruct (pushes_rest _ _ _ _ _ _ _ _ _ _ P) as (R1 & _). rewrite (TH s1 _ R1 HX'), H1, printed_app, (PP _ _ _ _ _ _ _ _ _ P), own_app, (pushes_own _ _ _ _ _ _ _ _ _ _ P).
    cbn [q_stage qowed own by_thread flat_map of_thread app printed]. rewrite Nat.eqb_refl. cbn [flat_map app complaint]. rewrite (pieces_complaint i e), app_nil_r. reflexivity.
  - rewrite (TH (set_base s _ _) _ eq_refl HX'), H1. cbn [q_stage qowed own by_thread flat_map of_thread app printed concat]. rewrite Nat.eqb_refl. rewrite !app_nil_r. reflexivity.
Qed.

Definition prints (s : state) (tr : list happening) : Prop :=
  forall t x, nth_error (g_threads s) t = Some x -> printed t tr ++ qowed (q_stage x) = flat_map complaint (by_thread t (own tr)).

Lemma tagged_printed t u tr : t <> u -> Forall (tagged_as u) tr -> printed t tr = [].
Proof.
  intros NE F. apply flat_map_single_other. intros h Hh. rewrite Forall_forall in F. specialize (F h Hh). destruct h as [[| |v p]| | | | |]; try reflexivity.
  cbn in F. subst. destruct (Nat.eqb_spec u t); [congruence|reflexivity].
Qed.
Lemma backstage_printed t tr : Forall (backstage hs) tr -> printed t tr = [].
Proof. intros F. apply flat_map_single_other. intros h Hh. rewrite Forall_forall in F. specialize (F h Hh). destruct h; [contradiction|reflexivity..]. Qed.

Lemma prints_step s tr0 a s' tr : placed s -> (forall i j, map l_config (g_queues s i j) = layers_at hs i j) ->
  prints s tr0 -> step s a = Some (s', tr) -> prints s' (tr0 ++ tr).
Proof.
  intros PL CF P E. unfold QueuedModel.step in E. destruct (g_dead s) eqn:D; [injection E as <- <-; rewrite app_nil_r; exact P|].
  assert (BACK : Forall (backstage hs) tr -> g_threads s' = g_threads s -> prints s' (tr0 ++ tr)).
  { intros B T t x HX. rewrite T in HX. rewrite printed_app, own_app, by_thread_app, flat_map_app, (backstage_printed t tr B), (backstage_own _ _ B), !app_nil_r. apply P. exact HX. }
  destruct a as [t now|i j k|].
  - destruct (nth_error (g_threads s) t) as [y|] eqn:HY; [|injection E as <- <-; rewrite app_nil_r; exact P].
    apply advance_advances in E. destruct (advances_local _ _ _ _ _ _ _ _ _ _ _ E PL D) as (_ & _ & _ & T & _). pose proof (advances_tagged _ _ _ _ _ _ _ _ _ _ _ E) as TG.
    assert (T' : exists y', nth_error (g_threads s') t = Some y' /\ (forall u, u <> t -> nth_error (g_threads s') u = nth_error (g_threads s) u)).
    { destruct T as [->|[x' ->]]; [exists y; auto|]. exists x'. split; [exact (put_same _ _ _ _ HY)|]. intros u NE; apply put_other; auto. }
    destruct T' as (y' & HY' & HO). intros u x HX. rewrite printed_app, own_app, by_thread_app, flat_map_app. destruct (Nat.eq_dec u t) as [->|NE].
    + rewrite HY' in HX. injection HX as <-. rewrite <- app_assoc, (advances_printed _ _ _ _ _ _ _ E HY HY'), app_assoc, (P _ _ HY). reflexivity.
    + rewrite (HO u NE) in HX. destruct (tagged_others u t tr NE TG) as [_ ->]. rewrite (tagged_printed _ _ _ NE TG). cbn [flat_map]. rewrite !app_nil_r. apply P. exact HX.
  - destruct (work_local _ _ _ _ _ _ E PL D) as (_ & _ & T & _). exact (BACK (work_backstage hs _ _ _ _ _ _ E CF) T).
  - destruct (destroy s) as [s1 tr1] eqn:ED. injection E as <- <-. destruct (destroy_local _ _ _ ED) as (T & _). exact (BACK (destroy_backstage hs _ _ _ ED) T).
Qed.

Variables (ws : list working) (w : world) (programs : list (list call)) (sched : list action) (s : state) (tr : list happening).
Hypothesis started : start_handlers (map strip hs) = Some ws.
Hypothesis ran : run (initial w hs ws programs) sched = Some (s, tr).
Notation run_ok := (run_ok dbl dbl_json double_of what json_fmt hs ws w programs sched s tr started ran).

Lemma run_prints : prints s tr.
Proof.
  refine (proj2 (run_keeps _ _ _ _ _ (fun s tr => all_ok dbl dbl_json double_of what json_fmt hs programs s tr /\ prints s tr) _ sched _ [] s tr _ ran)).
  - intros s1 tr1 a s2 tr2 [A P] E. split; [exact (all_ok_step _ _ _ _ _ _ _ _ _ _ _ _ A E)|]. destruct A as (PL & CF & _). exact (prints_step _ _ _ _ _ PL CF P E).
  - split.
    + exact (QueuedMoreProofs.run_ok dbl dbl_json double_of what json_fmt hs ws w programs [] _ [] started eq_refl).
    + intros t x HX. cbn [initial g_threads] in HX. rewrite nth_error_map in HX. destruct (nth_error programs t); [|discriminate]. injection HX as <-. reflexivity.
Qed.

Lemma queued_stdout : w_stdout (g_world s) = w_stdout w ++ flat_map (QueuedSpec.seen hs) tr /\
  forall t rest, nth_error (g_threads s) t = Some (QThread rest QIdle) -> printed t tr = flat_map complaint (by_thread t (own tr)).
Proof.
  split.
  - destruct (run_moves _ _ _ _ ran) as [_ M]. exact (proj1 (M (start_kinds _ _ started))).
  - intros t rest HT. rewrite <- (run_prints _ _ HT). cbn. rewrite app_nil_r. reflexivity.
Qed.

Lemma run_esteps : exists v, esteps (w, ws) (arrivals tr) (v, g_sinks s) /\ alike (g_world s) v.
Proof. destruct (run_moves _ _ _ _ ran) as [M _]. exact (M w (alike_refl w)). Qed.

Lemma queued_datagrams : w_datagrams (g_world s) = w_datagrams w ++ flat_map (on_network (map strip hs)) (arrivals tr).
Proof.
  destruct run_esteps as (v & HS & (_ & -> & _ & _)).
  apply (esteps_sum w_datagrams (on_network (map strip hs)) (map strip hs) (fun _ => True)) with (1 := fun w ws e w' ws' A B _ => estep_datagrams _ w ws e w' ws' A B) (2 := HS).
  - exact (start_kinds _ _ started).
  - apply Forall_all. auto.
Qed.
Lemma queued_syslog : Forall text_fits (arrivals tr) -> (forall i j l, sink_at (map strip hs) i j (SSyslog l) -> (Z.of_nat (length l) < 2 ^ 63)%Z) ->
  w_syslog (g_world s) = w_syslog w ++ flat_map (in_syslog (map strip hs)) (arrivals tr).
Proof.
  intros F HL. destruct run_esteps as (v & HS & (_ & _ & _ & ->)).
  apply (esteps_sum w_syslog (in_syslog (map strip hs)) (map strip hs) text_fits) with (1 := fun w ws e w' ws' A B C => estep_syslog _ w ws e w' ws' A B C HL) (2 := HS).
  - exact (start_kinds _ _ started).
  - exact F.
Qed.
Lemma queued_tcp h p i j : sink_at (map strip hs) i j (STcp h p) -> only_tcp (map strip hs) h p i j ->
  exists new, connections h p (w_tcp (g_world s)) = connections h p (w_tcp w) ++ new /\ TcpSpec.delivered new = taken i j (arrivals tr).
Proof. intros Hs HO. destruct run_esteps as (v & HS & (_ & _ & -> & _)). eapply tcp_steps; eassumption. Qed.

(** ---- files ---- *)

Lemma sub_in {A} (a b : list A) x : sub a b -> In x a -> In x b.
Proof. induction 1 as [|y a b S IH|y a b S IH]; intros H; [destruct H| |]; [destruct H as [<-|H]; [left; reflexivity|right; auto]|right; auto]. Qed.
Lemma in_outs i j d b : In (Reached i j d b) tr -> In d (outs (labels i j tr)).
Proof.
  intros H. apply in_flat_map. exists (Out d). split; [|left; reflexivity]. apply in_flat_map. exists (Reached i j d b). split; [exact H|]. cbn. rewrite at_refl. left; reflexivity.
Qed.
Lemma ins_in i j d : In d (ins (labels i j tr)) -> In (Queued i j 0 d) tr.
Proof.
  intros H. apply in_flat_map in H as (x & Hx & Hd). destruct x as [d'| |]; cbn in Hd; try contradiction. destruct Hd as [->|[]].
  apply in_flat_map in Hx as (h & Hh & Hx). destruct h as [h|a b d' x|a b [|k] d'|a b [|k] d'|a b k x n|a b k e]; cbn in Hx; try contradiction;
    destruct (at_ a b i j) eqn:EA; try contradiction; destruct Hx as [Hx|[]]; try discriminate. injection Hx as ->. apply at_true in EA as [-> ->]. exact Hh.
Qed.
Lemma reached_legit i j d b : In (Reached i j d b) tr -> exists calls c, nth_error programs (d_thread d) = Some calls /\ In c calls /\ d_q d = c_circumstances c i j.
Proof.
  intros H. destruct run_ok as (_ & _ & _ & _ & LG & _). rewrite Forall_forall in LG. pose proof (LG _ H) as L. cbn in L. destruct (layers_at hs i j) as [|c0 cs] eqn:EL; [exact (L eq_refl)|].
  destruct (flow_now _ _ _ _ _ _ _ _ _ _ _ _ started ran i j) as (C & _ & FL). rewrite EL in C. destruct FL as [FL|(_ & FS & _)]; [rewrite FL in C; discriminate|].
  apply (LG (Queued i j 0 d)). apply ins_in. apply (sub_in _ _ _ FS). apply in_or_app. left. exact (in_outs _ _ _ _ H).
Qed.

Lemma arrived_reached i j : arrived i j (arrivals tr) = map (fun x => snd (snd x)) (reached i j tr).
Proof.
  clear. induction tr as [|h l IH]; [reflexivity|]. change (h :: l) with ([h] ++ l). rewrite arrivals_app, arrived_app, IH, reached_app, map_app. f_equal. destruct h as [| a b d x| | | |]; try reflexivity. cbn. destruct (Nat.eqb a i && Nat.eqb b j); reflexivity.
Qed.

Lemma queued_content p c i j : sink_at (map strip hs) i j (SFile p c) -> only_file (map strip hs) p i j -> FileSinkSpec.fs_ok (w_files w p) ->
  (forall calls cl, In calls programs -> In cl calls -> exists dev ino spill, q_file (c_circumstances cl i j) = FileSinkSpec.calm dev ino spill) ->
  content (w_files (close_all (g_world s) (g_sinks s)) p) = content (w_files w p) ++ concat (map (fun x => snd (snd x) ++ [chr 10]) (reached i j tr)).
Proof.
  intros Hs HO OK HC. destruct run_esteps as (v & HS & (AF & _ & _ & _)).
  assert (HR : content (w_files (close_all v (g_sinks s)) p) = content (w_files w p) ++ concat (map FileSinkSpec.line (arrived i j (arrivals tr)))).
  { eapply file_steps; try eassumption. intros sev t q b He. apply in_flat_map in He as (h & Hh & He). destruct h as [|a b' d x| | | |]; cbn in He; try contradiction.
    destruct He as [He|[]]. injection He as -> -> <- <- <- <-. destruct (reached_legit _ _ _ _ Hh) as (calls & cl & H1 & H2 & ->). exact (HC _ _ (nth_error_In _ _ H1) H2). }
  assert (EC : w_files (close_all (g_world s) (g_sinks s)) p = w_files (close_all v (g_sinks s)) p).
  { unfold close_all. generalize (flat_map snd (g_sinks s)). intros l. revert AF. generalize (g_world s) v. induction l as [|y l IH]; intros a b0 H; [cbn; rewrite H; reflexivity|].
    cbn [fold_left]. apply IH. destruct y; cbn; rewrite ?H; try exact H; reflexivity. }
  rewrite EC, HR, arrived_reached, map_map. reflexivity.
Qed.

(** ---- whose lines they are ---- *)

Definition lines_of (l : list parcel) : list (nat * bytes) := map (fun x => (fst x, snd (snd x))) l.
Lemma texts_lines t l : texts_of t (lines_of l) = map snd (from t l).
Proof.
  unfold texts_of, lines_of, from. induction l as [|[u [sev x]] l IH]; [reflexivity|]. cbn [map filter fst snd]. destruct (Nat.eqb u t); cbn [map]; rewrite IH; reflexivity.
Qed.
Lemma gave_arrived i j t : map snd (from t (gave i j tr)) = arrived i j (by_thread t (own tr)).
Proof.
  clear. induction tr as [|h l IH]; [reflexivity|]. change (h :: l) with ([h] ++ l). unfold gave. rewrite flat_map_app. fold (gave i j l). rewrite from_app, map_app, IH, own_app, by_thread_app, arrived_app.
  f_equal. destruct h as [[u now|u [a b sev x q th|a e]|u p]| | | | |]; try reflexivity.
  - cbn. destruct (Nat.eqb a i && Nat.eqb b j) eqn:E; unfold from; cbn; destruct (Nat.eqb u t); cbn; rewrite ?E; reflexivity.
  - cbn. destruct (Nat.eqb u t); reflexivity.
Qed.
Lemma reached_threads i j : Forall (fun x => fst x < length programs)%nat (reached i j tr).
Proof.
  apply Forall_forall. intros x Hx. apply in_flat_map in Hx as (h & Hh & Hx). destruct h as [|a b d y| | | |]; try contradiction. destruct (Nat.eqb a i && Nat.eqb b j) eqn:E; [|contradiction].
  apply (at_true a b i j) in E as [-> ->]. destruct Hx as [<-|[]]. destruct (reached_legit _ _ _ _ Hh) as (calls & cl & H1 & _). cbn. apply nth_error_Some. congruence.
Qed.

(** All the calls of a thread that have returned gave their texts. *)
Lemma queued_complete i j x f t calls rest : sink_at hs i j x -> formatter_at hs i f ->
  (forall calls c now, In calls programs -> In c calls -> exists text, makes f (stamp c now) text) ->
  (forall j' sev t q b, (j' < j)%nat -> In (Emitted i j' sev t q b) (all_events (own tr)) -> b = false) ->
  nth_error programs t = Some calls -> nth_error (g_threads s) t = Some (QThread rest QIdle) ->
  exists done cs, calls = done ++ rest /\ made_at done (times t (own tr)) cs /\ Forall2 (makes f) cs (map snd (from t (gave i j tr))).
Proof.
  intros Hs Hf HM HF HP HT.
  destruct (queued_routes _ _ _ _ _ hs ws w programs sched s tr started ran t calls rest HP HT) as (done & cs & blocks & HC & HA & HB & HE).
  exists done, cs. split; [exact HC|]. split; [exact HA|]. rewrite gave_arrived, HE.
  apply (complete_blocks _ _ _ _ _ _ _ _ _ _ _ _ HB Hs Hf).
  - apply Forall_forall. intros c Hc. destruct (made_at_in _ _ _ HA c Hc) as (c0 & now & HI & ->).
    apply (HM calls); [exact (nth_error_In _ _ HP)|]. rewrite HC. apply in_or_app. left; exact HI.
  - intros j' sev y q b Hj HI. rewrite <- HE in HI. apply (HF j' sev y q b Hj).
    apply in_flat_map in HI as (h & Hh & He). apply in_flat_map. exists h. split; [exact Hh|].
    destruct h as [u now|u e|u p]; cbn in He |- *; try contradiction. destruct (Nat.eqb u t); [exact He|destruct He].
Qed.

Lemma done_at t : QueuedSpec.all_done s -> (t < length programs)%nat -> nth_error (g_threads s) t = Some (QThread [] QIdle).
Proof.
  intros D L. destruct run_ok as (_ & _ & _ & LE & _). destruct (nth_error (g_threads s) t) as [[calls st]|] eqn:E; [|apply nth_error_None in E; lia].
  unfold QueuedSpec.all_done in D. rewrite Forall_forall in D. destruct (D _ (nth_error_In _ _ E)) as [A B0]. cbn in A, B0. subst. reflexivity.
Qed.

Lemma destroyed_all i j t : destroyed s -> patient hs i j -> in_time i j tr -> (t < length programs)%nat -> from t (reached i j tr) = from t (gave i j tr).
Proof.
  intros D PA IT L. pose proof (done_at t (proj1 D) L) as HT.
  destruct (account _ _ _ _ _ hs ws w programs sched s tr started ran i j t _ HT eq_refl) as (_ & _ & H). rewrite (H PA). unfold under_way.
  rewrite (nothing_left _ _ _ _ _ hs ws w programs sched s tr started ran i j D IT). cbn. rewrite app_nil_r. reflexivity.
Qed.

Lemma queued_file p c i j x f : destroyed s -> patient hs i j -> in_time i j tr ->
  sink_at hs i j x -> core x = SFile p c -> only_file (map strip hs) p i j -> FileSinkSpec.fs_ok (w_files w p) -> formatter_at hs i f ->
  (forall calls cl, In calls programs -> In cl calls -> exists dev ino spill, q_file (c_circumstances cl i j) = FileSinkSpec.calm dev ino spill) ->
  (forall calls cl now, In calls programs -> In cl calls -> exists text, makes f (stamp cl now) text) ->
  (forall j' sev t q b, (j' < j)%nat -> In (Emitted i j' sev t q b) (all_events (own tr)) -> b = false) ->
  exists lines, content (w_files (close_all (g_world s) (g_sinks s)) p) = content (w_files w p) ++ concat (map (fun x => snd x ++ [chr 10]) lines) /\
    Forall (fun x => fst x < length programs)%nat lines /\
    forall t calls, nth_error programs t = Some calls ->
      exists cs, made_at calls (times t (own tr)) cs /\ Forall2 (makes f) cs (texts_of t lines).
Proof.
  intros D PA IT Hs CO HO OK Hf HC HM HF. exists (lines_of (reached i j tr)).
  assert (Hs' : sink_at (map strip hs) i j (SFile p c)).
  { destruct Hs as (f' & sinks & H1 & H2). exists f', (map core sinks). rewrite nth_error_map, H1. split; [reflexivity|]. rewrite nth_error_map, H2. cbn. congruence. }
  split; [|split].
  - rewrite (queued_content p c i j Hs' HO OK HC). unfold lines_of. rewrite map_map. reflexivity.
  - unfold lines_of. rewrite Forall_map. eapply Forall_impl; [|exact (reached_threads i j)]. auto.
  - intros t calls HP. assert (L : (t < length programs)%nat) by (apply nth_error_Some; congruence).
    destruct (queued_complete i j x f t calls [] Hs Hf HM HF HP (done_at t (proj1 D) L)) as (done & cs & EC & HA & HB). rewrite app_nil_r in EC. subst done.
    exists cs. split; [exact HA|]. rewrite texts_lines, (destroyed_all i j t D PA IT L). exact HB.
Qed.

(** Without any hypothesis about policies and the end: lines are in each thread's order, and none is made up. *)
Lemma queued_file_order p c i j x f t calls rest : sink_at hs i j x -> core x = SFile p c -> only_file (map strip hs) p i j -> FileSinkSpec.fs_ok (w_files w p) -> formatter_at hs i f ->
  (forall calls cl, In calls programs -> In cl calls -> exists dev ino spill, q_file (c_circumstances cl i j) = FileSinkSpec.calm dev ino spill) ->
  (forall calls cl now, In calls programs -> In cl calls -> exists text, makes f (stamp cl now) text) ->
  (forall j' sev t q b, (j' < j)%nat -> In (Emitted i j' sev t q b) (all_events (own tr)) -> b = false) ->
  nth_error programs t = Some calls -> nth_error (g_threads s) t = Some (QThread rest QIdle) ->
  exists lines done cs texts, content (w_files (close_all (g_world s) (g_sinks s)) p) = content (w_files w p) ++ concat (map (fun x => snd x ++ [chr 10]) lines) /\
    calls = done ++ rest /\ made_at done (times t (own tr)) cs /\ Forall2 (makes f) cs texts /\ sub (texts_of t lines) texts.
Proof.
  intros Hs CO HO OK Hf HC HM HF HP HT.
  assert (Hs' : sink_at (map strip hs) i j (SFile p c)).
  { destruct Hs as (f' & sinks & H1 & H2). exists f', (map core sinks). rewrite nth_error_map, H1. split; [reflexivity|]. rewrite nth_error_map, H2. cbn. congruence. }
  destruct (queued_complete i j x f t calls rest Hs Hf HM HF HP HT) as (done & cs & EC & HA & HB).
  exists (lines_of (reached i j tr)), done, cs, (map snd (from t (gave i j tr))).
  split; [rewrite (queued_content p c i j Hs' HO OK HC); unfold lines_of; rewrite map_map; reflexivity|].
  split; [exact EC|]. split; [exact HA|]. split; [exact HB|]. rewrite texts_lines. apply sub_map.
  destruct (account _ _ _ _ _ hs ws w programs sched s tr started ran i j t _ HT eq_refl) as (_ & H & _). rewrite from_app in H. eapply sub_trans; [exact H|]. apply sub_prefix.
Qed.

(** What is under way is not much. *)
Lemma queued_room i j : exists missing : list parcel, (length missing <= room hs i j)%nat /\
  forall t rest, nth_error (g_threads s) t = Some (QThread rest QIdle) ->
    Permutation (from t (gave i j tr)) (from t (reached i j tr ++ dropped i j tr ++ missing)) /\
    sub (from t (reached i j tr ++ missing)) (from t (gave i j tr)) /\
    (patient hs i j -> from t (gave i j tr) = from t (reached i j tr ++ missing)).
Proof.
  exists (under_way s i j). split.
  - assert (F : forall a b, Forall fits (g_queues s a b)).
    { refine (proj2 (run_keeps _ _ _ _ _ (fun s tr => placed s /\ forall a b, Forall fits (g_queues s a b)) _ sched _ [] s tr _ ran)).
      - intros s1 tr1 a s2 tr2 [PL F] E. split; [exact (step_placed _ _ _ _ _ _ _ _ _ E PL)|]. intros a0 b0. destruct (step_local _ _ _ _ _ _ _ _ _ E PL) as [_ LS].
        destruct (LS a0 b0) as (o & b & HL & _). exact (lstep_fits _ _ _ _ _ HL (F a0 b0)).
      - split; [exact (initial_placed _ _ _ _ started)|]. intros a b. cbn [initial g_queues]. apply Forall_map. apply Forall_all. intros c. unfold fits. cbn. lia. }
    unfold under_way, room. rewrite map_length. eapply Nat.le_trans; [exact (fits_flight _ (F i j))|].
    destruct run_ok as (_ & CF & _). rewrite CF. apply Nat.le_refl.
  - intros t rest HT. exact (account _ _ _ _ _ hs ws w programs sched s tr started ran i j t _ HT eq_refl).
Qed.
End Runs.
