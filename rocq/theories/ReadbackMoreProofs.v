From Verif Require Import Base Decimal Values RootModel FactoriesModel SystemModel SystemSpec SystemProofs ThreadsModel ThreadsSpec ThreadsProofs.
From Verif Require Import QueuedModel QueuedSpec QueuedProofs QueuedSubProofs QueuedMoreProofs QueuedEndProofs QueuedWorldProofs ReadbackSpec ReadbackProofs.
From Verif Require FmtModel TskvModel TskvSpec TskvProofs JsonFmtModel JsonFmtSpec JsonFmtProofs JsonTextModel JsonTextSpec JsonTextProofs StrSpec StrSubProofs FileSinkSpec FileSinkModel.
From Verif Require ParserModel ConfigModel ConfigSpec FactoriesSpec FactoriesProofs AsyncModel.
From Coq Require Permutation.

(** ---- what a call is in a TSKV log ---- *)

Lemma value_text_total dbl v : exists t, TskvSpec.value_text dbl v t.
Proof.
  destruct v as [|b|z|n|b|s|t].
  - eexists; constructor.
  - destruct b; eexists; constructor.
  - eexists; constructor.
  - eexists; constructor.
  - eexists; constructor.
  - destruct (in_dec Ascii.ascii_dec NUL s) as [H|H]; [|exists s; constructor; exact H].
    induction s as [|c s IH]; [destruct H|]. destruct (Ascii.ascii_dec c NUL) as [->|N]; [exists []; apply (TskvSpec.text_cut dbl []); intros []|].
    destruct H as [H|H]; [contradiction|]. destruct (IH H) as [t HT]. inversion HT as [| | | | | |s' H0 E|a b H0 E|]; subst; [contradiction|].
    exists (c :: t). apply (TskvSpec.text_cut dbl (c :: t)). intros [X|X]; [exact (N X)|exact (H0 X)].
  - eexists; constructor.
Qed.
Lemma raw_fields_total dbl stamp pid cs ts r : exists all, TskvSpec.raw_fields dbl stamp pid cs ts r all.
Proof.
  assert (K : forall l : list attribute, exists attrs, Forall2 (fun a f => fst a = fst f /\ TskvSpec.value_text dbl (snd a) (snd f)) l attrs).
  { induction l as [|[n v] l [attrs IH]]; [exists []; constructor|]. destruct (value_text_total dbl v) as [t HT]. exists ((n, t) :: attrs). constructor; [split; [reflexivity|exact HT]|exact IH]. }
  destruct (K (concat (r_attributes r))) as [attrs H]. eexists. constructor. exact H.
Qed.
Lemma removed_dec bc n : {TskvSpec.removed bc n} + {~ TskvSpec.removed bc n}.
Proof. unfold TskvSpec.removed. apply in_dec. decide equality; try apply bytes_dec. apply Bool.bool_dec. Qed.
Lemma shown_total bc all : exists fields, TskvSpec.shown bc all fields /\
  Forall (fun f => exists n, In n (map fst all) /\ ~ TskvSpec.removed bc n /\ fst f = TskvSpec.new_name bc n) fields.
Proof.
  induction all as [|[n v] all [fields [IH F]]]; [exists []; split; constructor|].
  assert (F' : Forall (fun f : bytes * bytes => exists n', In n' (map fst ((n, v) :: all)) /\ ~ TskvSpec.removed bc n' /\ fst f = TskvSpec.new_name bc n') fields).
  { eapply Forall_impl; [|exact F]. intros f (m & H1 & H2). exists m. split; [right; exact H1|exact H2]. }
  destruct (removed_dec bc n) as [R|R].
  - exists fields. split; [apply TskvSpec.shown_not; assumption|exact F'].
  - exists ((TskvSpec.new_name bc n, v) :: fields). split; [apply TskvSpec.shown_as; assumption|]. constructor; [|exact F'].
    exists n. split; [left; reflexivity|]. split; [exact R|reflexivity].
Qed.

Section Makes.
Variable dbl : FmtModel.spec -> N -> bytes.
Variable dbl_json : N -> bytes.
Variable double_of : bytes -> N.
Variable what : FmtModel.error -> bytes.
Variable json_fmt : bytes -> value -> option bytes.
Notation makes := (makes dbl dbl_json double_of what json_fmt).
Notation run := (run dbl dbl_json double_of what json_fmt).

Lemma tskv_makes bc cl : tskv_fits bc -> (exists m, c_supplier cl = RootModel.Ret m) ->
  Forall (fun a => name_fits bc (fst a)) (concat (c_pack cl ++ c_scoped cl)) ->
  exists text e, makes (FTskv (TskvModel.build bc)) cl text /\ ~ In NL text /\ TskvSpec.read_line text = Some e /\ tskv_entry dbl bc cl e.
Proof.
  intros (T1 & T2 & BN & CN & SN) [m HS] AN.
  set (r := {| r_message := c_pattern cl; r_formatted := RootSpec.text_of (c_pattern cl) m; r_severity := c_severity cl;
           r_timestamp := c_now cl; r_tid := c_tid cl; r_attributes := c_pack cl ++ c_scoped cl |}).
  assert (HR : record_of cl r) by (exists m; split; [exact HS|reflexivity]).
  set (d := fun bits => dbl FmtModel.empty_spec bits). set (stamp := fun p utc => e_stamp (c_env cl) p utc (r_timestamp r)). set (pid := e_pid (c_env cl)).
  destruct (TskvProofs.builder_lemma bc) as [Lc Lt].
  destruct (raw_fields_total d stamp pid (TskvModel.d_attributes (TskvModel.build bc)) (TskvModel.d_timestamps (TskvModel.build bc)) r) as [all HA].
  destruct (shown_total bc all) as (fields & SH & FF).
  assert (NF : forall n, In n (map fst all) -> n = B "tid" \/ name_fits bc n).
  { intros n Hn. destruct HA as [attrs FA]. rewrite !map_app in Hn. apply in_app_or in Hn as [Hn|Hn].
    { apply in_map_iff in Hn as ([n' v] & <- & Hn). right. apply (CN n' v). apply (proj2 Lc). exact Hn. }
    apply in_app_or in Hn as [Hn|Hn].
    { rewrite map_map in Hn. cbn in Hn. apply in_map_iff in Hn as ([n' v] & <- & Hn). right. apply (SN n' v). apply (proj2 Lt). exact Hn. }
    apply in_app_or in Hn as [Hn|Hn].
    { cbn in Hn. rewrite Forall_forall in BN. destruct Hn as [<-|[<-|[<-|[<-|[]]]]]; [right|right|left|right]; try reflexivity; apply BN; cbn; tauto. }
    right. assert (E : map fst attrs = map fst (concat (r_attributes r))).
    { clear - FA. induction FA as [|a b l l' [E _] F IH]; [reflexivity|]. cbn. rewrite E, IH. reflexivity. }
    rewrite E in Hn. apply in_map_iff in Hn as ([n' v] & <- & Hn). rewrite Forall_forall in AN. exact (AN _ Hn). }
  exists (TskvModel.format d stamp pid (TskvModel.build bc) r), (B "tskv", fields). split; [|split; [|split]].
  - exists r. split; [exact HR|reflexivity].
  - apply TskvProofs.no_nl_lemma.
    + intros n NR HN. assert (NX : ~ name_fits bc n) by (intros [X|[_ X]]; [exact (NR X)|exact (X HN)]).
      split; [|split; [|split]].
      * destruct (TskvSpec.constant bc n) as [v|] eqn:E; [|reflexivity]. exfalso. apply NX. exact (proj1 (CN _ _ E)).
      * destruct (TskvSpec.stamp_of bc n) as [v|] eqn:E; [|reflexivity]. exfalso. apply NX. exact (SN _ _ E).
      * intros X. apply NX. rewrite Forall_forall in BN. apply BN. exact X.
      * intros X. apply NX. apply in_map_iff in X as (a & <- & X). rewrite Forall_forall in AN. exact (AN _ X).
    + intros n v E NR. destruct (proj2 (CN _ _ E)) as [X|[_ X]]; [contradiction|exact X].
  - eapply TskvProofs.parse_back_lemma; try eassumption.
    + eapply Forall_impl; [|exact FF]. intros f (n & Hn & NR & ->). destruct (NF n Hn) as [->|[X|[X _]]]; [|contradiction|exact X].
      rewrite T2. split; [vm_compute; intuition discriminate|]. intros p E. apply (f_equal (@rev ascii)) in E. rewrite rev_app_distr in E. discriminate E.
    + intros n v E NR. destruct (proj2 (CN _ _ E)) as [X|[X _]]; [contradiction|exact X].
  - exists r, (TskvModel.d_attributes (TskvModel.build bc)), (TskvModel.d_timestamps (TskvModel.build bc)), all. do 5 (split; [assumption|]). reflexivity.
Qed.

Lemma json_makes bc cl : (forall b, JsonTextSpec.number_text (dbl_json b)) -> ~ In JsonFmtModel.Newline bc ->
  (Z.of_nat (length (JsonFmtSpec.severities bc)) <= 2 ^ 63)%Z -> json_fits json_fmt bc cl ->
  exists text e, makes (FJson (JsonFmtModel.build bc)) cl text /\ ~ In NL text /\ JsonTextSpec.read_json text = Some e /\ json_entry dbl_json json_fmt bc cl e.
Proof.
  intros HD NN SL (r & builtins & attrs & fb & fa & HR & SV & RE & FB & FA & NC).
  destruct (JsonFmtProofs.document_lemma json_fmt _ bc r builtins attrs fb fa SV SL RE FB FA NC) as (t & DT & HE).
  assert (PN : JsonFmtModel.p_newline (JsonFmtModel.build bc) = false).
  { destruct (JsonFmtProofs.settings_lemma bc) as (_ & PN & _). destruct (JsonFmtModel.p_newline (JsonFmtModel.build bc)); [exfalso; apply NN, PN; reflexivity|reflexivity]. }
  exists (JsonTextModel.write_json dbl_json t), (JsonTextSpec.tree_of dbl_json t). split; [|split; [|split]].
  - exists r. split; [exact HR|]. cbn [SystemModel.render]. unfold json_surroundings in DT. rewrite DT, PN. unfold JsonTextModel.json_line. rewrite app_nil_r. reflexivity.
  - destruct (JsonTextProofs.one_line_lemma dbl_json false t HD) as (line & E & V). unfold JsonTextModel.json_line in E. rewrite !app_nil_r in E. rewrite E.
    intros X. specialize (V _ X). vm_compute in V. apply V. reflexivity.
  - exact (JsonTextProofs.read_json_lemma _ _ HD).
  - exists r, t, builtins, attrs, fb, fa. do 5 (split; [assumption|]). reflexivity.
Qed.

Lemma pattern_makes ld nd items tokens sevmap cl : StrSpec.pattern_ok items ->
  ParserModel.tokenize ld nd (StrSpec.pattern_text items) = Some (ParserModel.Tokens tokens) ->
  (exists r, record_of cl r /\ Forall (StrSpec.item_suits ld (severity_names dbl sevmap) (srecord_of (c_env cl) r)) items) ->
  exists text, makes (FString tokens sevmap) cl text /\ pattern_entry dbl double_of ld items sevmap cl text.
Proof.
  intros OK ET (r & Hr & Hsuit). destruct (StrSubProofs.whole_lemma ld nd dbl double_of (severity_names dbl sevmap) items OK) as (ts & ET' & HW).
  rewrite ET in ET'. injection ET' as <-. destruct (HW _ Hsuit) as (outs & H1 & H2). exists (concat outs). split.
  - exists r. split; [exact Hr|]. cbn [SystemModel.render].
    change (match sevmap with Some names => StrModel.list_map dbl names | None => StrModel.number_map dbl end) with (severity_names dbl sevmap).
    rewrite H2. reflexivity.
  - exists r, outs. auto.
Qed.
End Makes.

(** ---- queues a configuration asks for ---- *)

Lemma config_layers v x c : FactoriesSpec.sink_config v x -> In c (layers x) -> (4 <= AsyncModel.c_capacity c <= N.to_nat (2 ^ 20))%nat.
Proof.
  induction 1 as [| | | | | | |v w wrapped factor name policy H1 H2 H3 IH H4 H5 H6 H7]; cbn [layers]; try (intros []; fail).
  intros [<-|HI]; [|exact (IH HI)]. cbn [AsyncModel.c_capacity].
  assert (2 ^ 2 <= 2 ^ factor)%N by (apply N.pow_le_mono_r; lia). assert (2 ^ factor <= 2 ^ 20)%N by (apply N.pow_le_mono_r; lia).
  change (2 ^ 2)%N with 4%N in *. generalize dependent (2 ^ 20)%N. intros big Hb. lia.
Qed.
Lemma forall2_nth_r {X Y} (R : X -> Y -> Prop) l l' n y : Forall2 R l l' -> nth_error l' n = Some y -> exists x, R x y.
Proof. intros F. revert n. induction F as [|a b l l' H F IH]; intros n E; destruct n; try discriminate E; [injection E as <-; exists a; exact H|exact (IH n E)]. Qed.
Lemma forall2_len {X Y} (R : X -> Y -> Prop) l l' : Forall2 R l l' -> length l = length l'.
Proof. induction 1 as [|a b l l' H F IH]; [reflexivity|]. cbn. rewrite IH. reflexivity. Qed.
Lemma config_capacity ld nd v name hs i j c : FactoriesSpec.logger_config ld nd v name hs -> In c (layers_at hs i j) -> (4 <= AsyncModel.c_capacity c <= N.to_nat (2 ^ 20))%nat.
Proof.
  intros (l & _ & F) HI. unfold layers_at in HI. destruct (nth_error hs i) as [h|] eqn:E1; [|destruct HI]. destruct (forall2_nth_r _ _ _ _ _ F E1) as (u & w0 & f & l' & sinks & _ & _ & _ & _ & F2 & ->).
  destruct (nth_error sinks j) as [x|] eqn:E2; [|destruct HI]. destruct (forall2_nth_r _ _ _ _ _ F2 E2) as (v' & SC). exact (config_layers _ _ _ SC HI).
Qed.

(** ---- what returned first is first ---- *)

Section Runs.
Variable dbl : FmtModel.spec -> N -> bytes.
Variable dbl_json : N -> bytes.
Variable double_of : bytes -> N.
Variable what : FmtModel.error -> bytes.
Variable json_fmt : bytes -> value -> option bytes.
Notation makes := (makes dbl dbl_json double_of what json_fmt).
Notation run := (run dbl dbl_json double_of what json_fmt).
Variable hs : list FactoriesModel.handler.
Variables (ws : list working) (w : world) (programs : list (list call)).
Hypothesis started : start_handlers (map strip hs) = Some ws.

Lemma made_at_split : forall d n1 cs1, made_at d n1 cs1 -> forall rest n2 cs, made_at (d ++ rest) (n1 ++ n2) cs ->
  exists cs2, cs = cs1 ++ cs2 /\ made_at rest n2 cs2.
Proof.
  induction 1 as [|c now calls nows cs1 H IH]; intros rest n2 cs M; [exists cs; split; [reflexivity|exact M]|].
  cbn [app] in M. inversion M as [|c0 n0 calls0 nows0 cs0 H2]; subst. destruct (IH _ _ _ H2) as (cs2 & -> & H3). exists cs2. split; [reflexivity|exact H3].
Qed.
Lemma times_app t a b : times t (a ++ b) = times t a ++ times t b.
Proof. apply flat_map_app. Qed.

(** What has entered the first queue, or has been given to the sink if there is none. *)
Definition put_in (i j : nat) (tr : list happening) : list parcel := match layers_at hs i j with [] => reached i j tr | _ => entered i j tr end.
Lemma put_in_app i j a b : put_in i j (a ++ b) = put_in i j a ++ put_in i j b.
Proof. unfold put_in. destruct (layers_at hs i j); [apply reached_app|apply entered_app]. Qed.
Lemma put_in_gave sched s tr i j t x : run (initial w hs ws programs) sched = Some (s, tr) -> patient hs i j -> nth_error (g_threads s) t = Some x -> q_stage x = QIdle ->
  from t (put_in i j tr) = from t (gave i j tr).
Proof.
  intros ran PA HX HI. destruct (run_ok _ _ _ _ _ hs ws w programs sched s tr started ran) as (PL & CF & _ & LE & LG & TS).
  destruct (nth_error programs t) as [calls|] eqn:HP; [|apply nth_error_None in HP; assert (t < length (g_threads s))%nat by (apply nth_error_Some; congruence); lia].
  destruct (TS _ _ _ HP HX) as (_ & _ & FA & _). destruct (FA i j) as [F1 F2]. unfold put_in. unfold patient in PA. destruct (layers_at hs i j) as [|c cs]; [exact (F1 eq_refl)|].
  destruct (F2 _ _ eq_refl) as (_ & _ & G). inversion PA; subst. destruct (G ltac:(assumption)) as [G1 _]. rewrite HI in G1. cbn [pend] in G1. rewrite app_nil_r in G1. exact G1.
Qed.
Lemma put_in_reached sched s tr i j : run (initial w hs ws programs) sched = Some (s, tr) -> patient hs i j -> destroyed s -> in_time i j tr ->
  reached i j tr = put_in i j tr.
Proof.
  intros ran PA D IT. pose proof (nothing_left _ _ _ _ _ hs ws w programs sched s tr started ran i j D IT) as NL0.
  destruct (flow_now _ _ _ _ _ hs ws w programs sched s tr started ran i j) as (C & _ & FL). unfold put_in. unfold patient in PA.
  destruct (layers_at hs i j) as [|c cs] eqn:EL; [reflexivity|]. destruct FL as [FL|(_ & _ & F3)]; [rewrite FL in C; discriminate C|].
  inversion PA; subst. cbn [tl] in F3. destruct (F3 ltac:(assumption)) as [F4 _]. rewrite entered_ins, reached_outs, F4, NL0, app_nil_r. reflexivity.
Qed.

Lemma queued_first s1 s2 s tr p c i j x f : run (initial w hs ws programs) (s1 ++ s2) = Some (s, tr) ->
  destroyed s -> patient hs i j -> in_time i j tr ->
  sink_at hs i j x -> core x = SFile p c -> only_file (map strip hs) p i j -> FileSinkSpec.fs_ok (w_files w p) -> formatter_at hs i f ->
  (forall calls cl, In calls programs -> In cl calls -> exists dev ino spill, q_file (c_circumstances cl i j) = FileSinkSpec.calm dev ino spill) ->
  (forall calls cl now, In calls programs -> In cl calls -> exists text, makes f (stamp cl now) text) ->
  (forall j' sev t q b, (j' < j)%nat -> In (Emitted i j' sev t q b) (all_events (own tr)) -> b = false) ->
  exists st1 tr1 tr2 l1 l2, run (initial w hs ws programs) s1 = Some (st1, tr1) /\ run st1 s2 = Some (s, tr2) /\ tr = tr1 ++ tr2 /\
    content (w_files (close_all (g_world s) (g_sinks s)) p) =
      content (w_files w p) ++ concat (map (fun x => snd x ++ [chr 10]) l1) ++ concat (map (fun x => snd x ++ [chr 10]) l2) /\
    forall t calls rest, nth_error programs t = Some calls -> nth_error (g_threads st1) t = Some (QThread rest QIdle) ->
      exists done cs1 cs2, calls = done ++ rest /\ made_at done (times t (own tr1)) cs1 /\ made_at rest (times t (own tr2)) cs2 /\
        Forall2 (makes f) cs1 (texts_of t l1) /\ Forall2 (makes f) cs2 (texts_of t l2).
Proof.
  intros E D PA IT Hs CO HO OK Hf HC HM HF. pose proof E as E0. rewrite run_app in E0.
  destruct (run (initial w hs ws programs) s1) as [[st1 tr1]|] eqn:E1; [|discriminate E0]. destruct (run st1 s2) as [[s' tr2]|] eqn:E2; [|discriminate E0]. injection E0 as -> <-.
  exists st1, tr1, tr2, (lines_of (put_in i j tr1)), (lines_of (put_in i j tr2)). split; [reflexivity|]. split; [exact E2|]. split; [reflexivity|].
  assert (Hs' : sink_at (map strip hs) i j (SFile p c)).
  { destruct Hs as (f' & sinks & H1 & H2). exists f', (map core sinks). rewrite nth_error_map, H1. split; [reflexivity|]. rewrite nth_error_map, H2. cbn. congruence. }
  split.
  - rewrite (queued_content _ _ _ _ _ hs ws w programs _ s _ started E p c i j Hs' HO OK HC), (put_in_reached _ _ _ i j E PA D IT), put_in_app, map_app, concat_app.
    unfold lines_of. rewrite !map_map. reflexivity.
  - intros t calls rest HP HT. assert (L : (t < length programs)%nat) by (apply nth_error_Some; congruence).
    pose proof (done_at _ _ _ _ _ hs ws w programs _ s _ started E t (proj1 D) L) as HD.
    assert (HF1 : forall j' sev t q b, (j' < j)%nat -> In (Emitted i j' sev t q b) (all_events (own tr1)) -> b = false).
    { intros j' sev u q b Hj HI. apply (HF j' sev u q b Hj). rewrite own_app, all_events_app. apply in_or_app. left; exact HI. }
    destruct (queued_complete _ _ _ _ _ hs ws w programs _ st1 tr1 started E1 i j x f t calls rest Hs Hf HM HF1 HP HT) as (done & cs1 & EC & A1 & B1).
    destruct (queued_complete _ _ _ _ _ hs ws w programs _ s _ started E i j x f t calls [] Hs Hf HM HF HP HD) as (all & cs & EA & A & B0).
    rewrite app_nil_r in EA. subst all. rewrite EC, own_app, times_app in A. destruct (made_at_split _ _ _ A1 _ _ _ A) as (cs2 & -> & A2).
    exists done, cs1, cs2. split; [exact EC|]. split; [exact A1|]. split; [exact A2|]. rewrite !texts_lines.
    pose proof (put_in_gave _ _ _ i j t _ E1 PA HT eq_refl) as P1. pose proof (put_in_gave _ _ _ i j t _ E PA HD eq_refl) as P2.
    rewrite put_in_app, from_app, gave_app, from_app, P1 in P2. apply app_inv_head in P2.
    rewrite gave_app, from_app, map_app in B0. rewrite P1, P2. split; [exact B1|].
    apply Forall2_app_inv_l in B0 as (l1' & l2' & G1 & G2 & G3).
    assert (EL : length l1' = length (map snd (from t (gave i j tr1)))) by (apply forall2_len in G1; apply forall2_len in B1; congruence).
    assert (E3 : l2' = map snd (from t (gave i j tr2))).
    { clear - EL G3. revert EL G3. generalize (map snd (from t (gave i j tr1))), (map snd (from t (gave i j tr2))). intros a b. revert l1'.
      induction a as [|y a IH]; intros [|z l1'] EL G3; try discriminate EL; [symmetry; exact G3|]. injection EL as EL. injection G3 as _ G3. exact (IH _ EL G3). }
    rewrite <- E3. exact G2.
Qed.
End Runs.
