(** More lemmas about loggers with asynchronous sinks: nothing undefined. *)
From Verif Require Import Base Values RootModel FactoriesModel SystemModel SystemSpec SystemProofs ThreadsModel ThreadsSpec ThreadsProofs.
From Verif Require Import QueuedModel QueuedSpec QueuedProofs QueuedSubProofs QueuedMoreProofs QueuedEndProofs QueuedWorldProofs.
From Verif Require FmtModel AsyncModel AsyncSpec.
From Coq Require Import Permutation.

Definition short (d : delivery) : Prop := (Z.of_nat (length (d_text d)) < 2 ^ 31)%Z.

Lemma push_some s i j k who d p : short d -> exists s' r tr, push s i j k who d p = Some (s', r, tr).
Proof.
  intros SH. unfold push. destruct (nth_error (g_queues s i j) k) as [l|].
  - destruct p; [destruct (_ <? _)%nat| |destruct (AsyncModel.overflow _)]; do 3 eexists; reflexivity.
  - destruct (sink_now (g_sinks s) i j) as [x|]; [|do 3 eexists; reflexivity].
    destruct (emit_some (g_world s) (d_tty d) (d_severity d) (d_text d) x (d_q d) SH) as [[[w x'] [e|]] ->]; do 3 eexists; reflexivity.
Qed.
Lemma pushes_ins s i j k who d p s' r tr a b : pushes s i j k who d p s' r tr -> forall x, In x (ins (labels a b tr)) -> x = d.
Proof.
  intros P. destruct P as [p HN HL|p x w x' e HN HL HE|p x w x' HN HL HE|l HN HC|l HN HC|l HN|l HN HP|l HN HP]; intros y Hy; cbn in Hy; try contradiction.
  - destruct (at_ i j a b); destruct Hy.
  - destruct (at_ i j a b); destruct Hy.
  - destruct k; [destruct (at_ i j a b)|]; cbn in Hy; try contradiction. destruct Hy as [->|[]]. reflexivity.
  - destruct k; [|destruct (at_ i j a b)]; destruct Hy.
Qed.

Section Runs.
Variable dbl : FmtModel.spec -> N -> bytes.
Variable dbl_json : N -> bytes.
Variable double_of : bytes -> N.
Variable what : FmtModel.error -> bytes.
Variable json_fmt : bytes -> value -> option bytes.
Notation advance := (advance dbl dbl_json double_of what json_fmt).
Notation advances := (advances dbl dbl_json double_of what json_fmt).
Notation step := (step dbl dbl_json double_of what json_fmt).
Notation run := (run dbl dbl_json double_of what json_fmt).
Notation render := (render dbl dbl_json double_of what json_fmt).
Variable hs : list FactoriesModel.handler.
Notation good := (good dbl dbl_json double_of what json_fmt hs).
Notation good_stage := (good_stage dbl dbl_json double_of what json_fmt hs).

Definition good_q (x : qthread) : Prop := Forall good (q_calls x) /\ good_stage (flat (q_stage x)).

Lemma advance_defined s t now x : shape (g_sinks s) = config_shape hs -> good_q x -> exists s' tr, advance s t now x = Some (s', tr).
Proof.
  intros SH [GC GS]. unfold QueuedModel.advance. destruct (q_stage x) as [|c r i|c r i text j p|c r i [|p ps]]; cbn [flat ThreadsProofs.good_stage] in GS.
  - destruct (q_calls x) as [|c rest]; [do 2 eexists; reflexivity|]. cbv zeta. destruct (c_supplier (stamp c now)); do 2 eexists; reflexivity.
  - destruct GS as (c0 & n & -> & HR & HG). pose proof (shape_nth _ _ SH i) as HN. destruct (nth_error (g_sinks s) i) as [[f l]|]; [|do 2 eexists; reflexivity].
    destruct HN as (sinks & HN & _). pose proof (HG n r f i HR (ex_intro _ sinks HN)) as HG'. cbn [c_env stamp].
    destruct (render f (c_env c0) r); [| |contradiction]; do 2 eexists; reflexivity.
  - destruct GS as [_ L]. destruct (sink_now (g_sinks s) i j); [|do 2 eexists; reflexivity]. cbv zeta.
    destruct (push_some s i j 0 t (Delivery t (e_tty (c_env c)) (r_severity r) text (c_circumstances c i j)) p L) as (s' & [p'| |e] & tr & ->); do 2 eexists; reflexivity.
  - do 2 eexists; reflexivity.
  - do 2 eexists; reflexivity.
Qed.

Lemma advances_good s t now x s' tr x' : advances s t now x s' tr -> shape (g_sinks s) = config_shape hs -> good_q x ->
  nth_error (g_threads s) t = Some x -> nth_error (g_threads s') t = Some x' -> good_q x' /\ forall a b, Forall short (ins (labels a b tr)).
Proof.
  intros AD SH [GC GS] HX HX'.
  assert (TH : forall s0 y, g_threads s0 = g_threads s -> nth_error (g_threads (set_thread s0 t y)) t = Some x' -> x' = y).
  { intros s0 y E H. cbn [set_thread g_threads] in H. rewrite E, (put_same _ _ _ _ HX) in H. congruence. }
  assert (SHORT : forall c r i j text p s1 res tr, q_stage x = QSinking c r i text j p ->
      pushes s i j 0 t (Delivery t (e_tty (c_env c)) (r_severity r) text (c_circumstances c i j)) p s1 res tr -> forall a b, Forall short (ins (labels a b tr))).
  { intros c r i j text p s1 res tr0 HS P a b. apply Forall_forall. intros d Hd. rewrite (pushes_ins _ _ _ _ _ _ _ _ _ _ _ _ P _ Hd). rewrite HS in GS. exact (proj2 GS). }
  destruct AD as [H1 H2|c rest e H1 H2 H3|c rest m H1 H2 H3|c r i H1 H2|c r i f l e H1 H2 H3|c r i f l text H1 H2 H3|c r i text j p H1 H2
    |c r i text j p s1 p' tr H1 H2 P|c r i text j p s1 tr H1 H2 P|c r i text j p s1 e tr H1 H2 P|c r i H1|c r i p rest H1].
  - rewrite HX in HX'. injection HX' as <-. split; [split; assumption|constructor].
  - rewrite (TH s _ eq_refl HX'). rewrite H2 in GC. inversion GC; subst. split; [split; [assumption|exact I]|constructor].
  - rewrite (TH s _ eq_refl HX'). rewrite H2 in GC. inversion GC as [|? ? G1 G2]; subst. split; [|constructor]. split; [exact G2|]. exists c, now.
    split; [reflexivity|]. split; [exact (activate_record c now m H3)|exact G1].
  - rewrite (TH s _ eq_refl HX'). split; [split; [exact GC|exact I]|constructor].
  - rewrite (TH s _ eq_refl HX'). rewrite H1 in GS. split; [split; [exact GC|exact GS]|constructor].
  - rewrite (TH s _ eq_refl HX'). rewrite H1 in GS. split; [split; [exact GC|]|constructor]. split; [exact GS|]. destruct GS as (c0 & n & -> & HR & HG).
    pose proof (shape_nth _ _ SH i) as HN. rewrite H2 in HN. destruct HN as (sinks & HN & _). pose proof (HG n r f i HR (ex_intro _ sinks HN)) as HG'. cbn [c_env stamp] in H3. rewrite H3 in HG'. exact HG'.
  - rewrite (TH s _ eq_refl HX'). rewrite H1 in GS. split; [split; [exact GC|exact (proj1 GS)]|constructor].
  - pose proof (SHORT _ _ _ _ _ _ _ _ _ H1 P) as F. destruct (pushes_rest _ _ _ _ _ _ _ _ _ _ P) as (R1 & _). rewrite (TH s1 _ R1 HX'). rewrite H1 in GS.
    split; [split; [exact GC|exact GS]|exact F].
  - pose proof (SHORT _ _ _ _ _ _ _ _ _ H1 P) as F. destruct (pushes_rest _ _ _ _ _ _ _ _ _ _ P) as (R1 & _). rewrite (TH s1 _ R1 HX'). rewrite H1 in GS.
    split; [split; [exact GC|exact GS]|]. intros a b. rewrite labels_app, ins_app. apply Forall_app. split; [apply F|constructor].
  - pose proof (SHORT _ _ _ _ _ _ _ _ _ H1 P) as F. destruct (pushes_rest _ _ _ _ _ _ _ _ _ _ P) as (R1 & _). rewrite (TH s1 _ R1 HX'). rewrite H1 in GS.
    split; [split; [exact GC|exact (proj1 GS)]|]. intros a b. rewrite labels_app, ins_app. apply Forall_app. split; [apply F|constructor].
  - rewrite (TH s _ eq_refl HX'). rewrite H1 in GS. split; [split; [exact GC|exact GS]|constructor].
  - rewrite (TH (set_base s _ _) _ eq_refl HX'). rewrite H1 in GS. split; [split; [exact GC|exact GS]|constructor].
Qed.

(** All that is in the queues is short, and so are all stages. *)
Definition fine (s : state) (tr : list happening) : Prop :=
  placed s /\ shape (g_sinks s) = config_shape hs /\ (forall t x, nth_error (g_threads s) t = Some x -> good_q x) /\
  forall i j, last_ok (g_queues s i j) /\ Forall short (flight (g_queues s i j)).

Lemma flight_here A l B : In l (A ++ l :: B) -> forall d, In d (own_of l) -> In d (flight (A ++ l :: B)).
Proof. intros _ d Hd. rewrite flight_app. cbn [flight]. apply in_or_app. left. apply in_or_app. right. exact Hd. Qed.

Lemma work_some s i j k : (forall i j, last_ok (g_queues s i j) /\ Forall short (flight (g_queues s i j))) -> exists s' tr, work s i j k = Some (s', tr).
Proof.
  intros F. unfold work. destruct (nth_error (g_queues s i j) k) as [l|] eqn:EL; [|do 2 eexists; reflexivity].
  destruct (l_worker l) as [|[d|]|d p|] eqn:EW; try (do 2 eexists; reflexivity).
  - destruct (l_queue l) as [|[who d|d] q]; do 2 eexists; reflexivity.
  - destruct (F i j) as [LO FS]. destruct (nth_error_split _ _ EL) as (A & B & EQ & LA). rewrite EQ in LO, FS.
    assert (PS : exists s' r tr, push s i j (S k) 0 d p = Some (s', r, tr)).
    { destruct B as [|m B].
      - rewrite last_ok_app in LO. cbn in LO. rewrite EW in LO. subst p. apply push_some. rewrite Forall_forall in FS. apply FS. rewrite flight_app. cbn [flight]. apply in_or_app. left.
        unfold own_of. rewrite EW. left; reflexivity.
      - unfold push. rewrite EQ. replace (nth_error (A ++ l :: m :: B) (S k)) with (Some m).
        + destruct p; [destruct (_ <? _)%nat| |destruct (AsyncModel.overflow _)]; do 3 eexists; reflexivity.
        + rewrite <- LA. symmetry. rewrite nth_next. reflexivity. }
    destruct PS as (s' & [p'| |e] & tr & ->); do 2 eexists; reflexivity.
Qed.

Lemma lstep_short o L b lab L' : lstep o L b lab L' -> last_ok L -> Forall short (ins lab) -> Forall short (flight L) -> last_ok L' /\ Forall short (flight L').
Proof.
  intros S LO FI FF. destruct L as [|l L].
  { apply lstep_nil in S as ->. split; [exact I|constructor]. }
  destruct (lstep_flow _ _ _ _ _ S LO) as (LO' & _ & H); [discriminate|]. split; [exact LO'|]. destruct H as [[E _]|(a & d & c & _ & E1 & E2 & _)].
  - assert (F : Forall short (outs lab ++ flight L')) by (rewrite <- E; apply Forall_app; auto). apply Forall_app in F. tauto.
  - rewrite E1 in FF. rewrite E2. apply Forall_app in FF as [F1 F2]. inversion F2; subst. apply Forall_app. auto.
Qed.

Lemma fine_step s tr0 a s' tr : fine s tr0 -> step s a = Some (s', tr) -> fine s' (tr0 ++ tr).
Proof.
  intros (PL & SH & GT & FL) E. pose proof (step_placed _ _ _ _ _ _ _ _ _ E PL) as PL'. destruct (step_local _ _ _ _ _ _ _ _ _ E PL) as [SH' LS].
  assert (REST : (forall t x, nth_error (g_threads s') t = Some x -> good_q x) -> (forall i j, Forall short (ins (labels i j tr))) -> fine s' (tr0 ++ tr)).
  { intros G F. split; [exact PL'|]. split; [congruence|]. split; [exact G|]. intros i j. destruct (LS i j) as (o & b & HL & _). destruct (FL i j) as [LO FS].
    exact (lstep_short _ _ _ _ _ HL LO (F i j) FS). }
  unfold QueuedModel.step in E. destruct (g_dead s) eqn:D; [injection E as <- <-; apply REST; [exact GT|constructor]|]. destruct a as [t now|i j k|].
  - destruct (nth_error (g_threads s) t) as [y|] eqn:HY; [|injection E as <- <-; apply REST; [exact GT|constructor]].
    apply advance_advances in E. destruct (advances_local _ _ _ _ _ _ _ _ _ _ _ E PL D) as (_ & _ & _ & T & _).
    assert (T' : exists y', nth_error (g_threads s') t = Some y' /\ (forall u, u <> t -> nth_error (g_threads s') u = nth_error (g_threads s) u)).
    { destruct T as [->|[x' ->]]; [exists y; auto|]. exists x'. split; [exact (put_same _ _ _ _ HY)|]. intros u NE; apply put_other; auto. }
    destruct T' as (y' & HY' & HO). destruct (advances_good _ _ _ _ _ _ _ E SH (GT _ _ HY) HY HY') as [G F]. apply REST; [|exact F].
    intros u x HX. destruct (Nat.eq_dec u t) as [->|NE]; [rewrite HY' in HX; injection HX as <-; exact G|]. rewrite (HO u NE) in HX. exact (GT _ _ HX).
  - destruct (work_local _ _ _ _ _ _ E PL D) as (_ & _ & T & _ & _ & _). apply REST; [rewrite T; exact GT|]. intros a b.
    unfold work in E. destruct (nth_error (g_queues s i j) k) as [l|]; [|injection E as <- <-; constructor].
    destruct (l_worker l) as [|[d|]|d p|]; try (injection E as <- <-; constructor).
    + destruct (l_queue l) as [|[who d|d] q]; injection E as <- <-; constructor.
    + assert (NO : forall s1 r tr1, push s i j (S k) 0 d p = Some (s1, r, tr1) -> ins (labels a b tr1) = []).
      { intros s1 r tr1 EP. apply push_pushes in EP. destruct EP; try reflexivity; cbn; destruct (at_ i j a b); reflexivity. }
      destruct (push s i j (S k) 0 d p) as [[[s1 [p'| |e]] tr1]|] eqn:EP; try discriminate; injection E as <- <-; rewrite ?labels_app, ?ins_app, (NO _ _ _ eq_refl); constructor.
  - destruct (destroy s) as [s1 tr1] eqn:ED. injection E as <- <-. destruct (destroy_local _ _ _ ED) as (T & _ & _ & _ & H). apply REST; [rewrite T; exact GT|].
    intros i j. rewrite (proj1 (H i j)). constructor.
Qed.

Lemma step_defined s tr a : fine s tr -> exists s' tr', step s a = Some (s', tr').
Proof.
  intros (PL & SH & GT & FL). unfold QueuedModel.step. destruct (g_dead s); [do 2 eexists; reflexivity|]. destruct a as [t now|i j k|].
  - destruct (nth_error (g_threads s) t) as [y|] eqn:HY; [|do 2 eexists; reflexivity]. exact (advance_defined _ _ _ _ SH (GT _ _ HY)).
  - exact (work_some _ _ _ _ FL).
  - destruct (destroy s). do 2 eexists; reflexivity.
Qed.

Lemma run_defined : forall sched s tr, fine s tr -> exists s' tr', run s sched = Some (s', tr').
Proof.
  induction sched as [|a sched IH]; intros s tr F; cbn [QueuedModel.run]; [do 2 eexists; reflexivity|].
  destruct (step_defined s tr a F) as (s1 & tr1 & E). rewrite E. destruct (IH s1 _ (fine_step _ _ _ _ _ F E)) as (s2 & tr2 & ->). do 2 eexists; reflexivity.
Qed.

Lemma fine_initial ws w programs : start_handlers (map strip hs) = Some ws ->
  (forall calls c now r f i, In calls programs -> In c calls -> record_of (stamp c now) r -> formatter_at hs i f ->
     match render f (c_env c) r with Text t => (Z.of_nat (length t) < 2 ^ 31)%Z | Raises _ => True | SystemModel.Undefined => False end) ->
  fine (initial w hs ws programs) [].
Proof.
  intros ST H. split; [exact (initial_placed _ _ _ _ ST)|]. split; [cbn [initial g_sinks]; rewrite (start_shape _ _ ST); apply strip_shape|]. split.
  - intros t x HX. cbn [initial g_threads] in HX. apply nth_error_In in HX. apply in_map_iff in HX as (calls & <- & HI). split; [|exact I].
    apply Forall_forall. intros c Hc now r f i HR HF. exact (H calls c now r f i HI Hc HR HF).
  - intros i j. cbn [initial g_queues]. split.
    + induction (layers_at hs i j) as [|c [|c' l] IH]; [exact I|exact I|exact IH].
    + replace (flight (map (fun c => Layer c [] false Taking) (layers_at hs i j))) with (@nil delivery); [constructor|].
      symmetry. induction (layers_at hs i j) as [|c l IH]; [reflexivity|]. cbn. rewrite IH. reflexivity.
Qed.

Lemma queued_defined ws w programs sched : start_handlers (map strip hs) = Some ws ->
  (forall calls c now r f i, In calls programs -> In c calls -> record_of (stamp c now) r -> formatter_at hs i f ->
     match render f (c_env c) r with Text t => (Z.of_nat (length t) < 2 ^ 31)%Z | Raises _ => True | SystemModel.Undefined => False end) ->
  exists s tr, run (initial w hs ws programs) sched = Some (s, tr).
Proof. intros ST H. exact (run_defined _ _ _ (fine_initial _ _ _ ST H)). Qed.
End Runs.

(** The queues of a sink are those of its configuration. *)
Lemma behind_layers x cs y : behind x cs y -> layers x = cs /\ core x = y.
Proof.
  induction 1 as [y N|x c cs y B [E1 E2]]; [|split; [cbn [layers]; rewrite E1; reflexivity|exact E2]].
  destruct y; try (split; reflexivity). exfalso. exact (N _ _ eq_refl).
Qed.
Lemma behind_exists x : exists cs y, behind x cs y.
Proof. induction x; try (eexists; eexists; apply behind_none; intros; discriminate). destruct IHx as (cs & y & B). eexists; eexists; apply behind_queue; exact B. Qed.
Lemma queues_kept dbl dbl_json double_of what json_fmt hs ws w programs sched s tr : start_handlers (map strip hs) = Some ws ->
  run dbl dbl_json double_of what json_fmt (initial w hs ws programs) sched = Some (s, tr) ->
  forall i j x, sink_at hs i j x -> exists cs y, behind x cs y /\ map l_config (g_queues s i j) = cs /\ sink_at (map strip hs) i j y.
Proof.
  intros ST RU i j x (f & sinks & E1 & E2). destruct (behind_exists x) as (cs & y & B). exists cs, y. split; [exact B|].
  destruct (behind_layers x cs y B) as [EL EC]. split.
  - rewrite (proj1 (proj2 (run_flow _ _ _ _ _ hs ws w programs sched s tr ST RU) i j)). unfold layers_at. rewrite E1, E2. exact EL.
  - exists f, (map core sinks). split; [rewrite nth_error_map, E1; reflexivity|]. rewrite nth_error_map, E2. cbn. rewrite EC. reflexivity.
Qed.
