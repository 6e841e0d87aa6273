(** More lemmas about loggers with asynchronous sinks: whole runs. *)
From Verif Require Import Base Values RootModel FactoriesModel SystemModel SystemSpec SystemProofs ThreadsModel ThreadsSpec ThreadsProofs.
From Verif Require Import QueuedModel QueuedSpec QueuedProofs QueuedSubProofs.
From Verif Require FmtModel AsyncModel AsyncSpec FileSinkModel FileSinkSpec TcpModel TcpSpec RootSpec.
From Coq Require Import Permutation.

(** The place of a thread in ThreadsModel's words. *)
Definition flat (st : qstage) : stage :=
  match st with
  | QIdle => Idle
  | QHandling c r i => Handling c r i
  | QSinking c r i text j _ => Sinking c r i text j
  | QPrinting c r i ps => Printing c r i ps
  end.

Lemma own_app a b : own (a ++ b) = own a ++ own b. Proof. apply flat_map_app. Qed.
Lemma strip_shape hs : config_shape (map strip hs) = config_shape hs.
Proof. unfold config_shape. rewrite map_map. apply map_ext. intros [f sinks]. cbn. rewrite map_length. reflexivity. Qed.

Section Runs.
Variable dbl : FmtModel.spec -> N -> bytes.
Variable dbl_json : N -> bytes.
Variable double_of : bytes -> N.
Variable what : FmtModel.error -> bytes.
Variable json_fmt : bytes -> value -> option bytes.
Notation advance := (advance dbl dbl_json double_of what json_fmt).
Notation advances := (advances dbl dbl_json double_of what json_fmt).
Notation step := (step dbl dbl_json double_of what json_fmt).
Notation run := (run dbl dbl_json double_of what json_fmt).
Notation render := (render dbl dbl_json double_of what json_fmt).
Notation handled := (handled dbl dbl_json double_of what json_fmt).
Notation called := (called dbl dbl_json double_of what json_fmt).
Notation makes := (makes dbl dbl_json double_of what json_fmt).
Notation finishes := (finishes dbl dbl_json double_of what json_fmt).
Variable hs : list FactoriesModel.handler.

(** ---- what a thread does ---- *)

Lemma pushes_own s i j k who d p s' r tr : pushes s i j k who d p s' r tr -> own tr = [].
Proof. destruct 1; reflexivity. Qed.

Lemma advances_finishes s t now x s' tr x' : advances s t now x s' tr -> shape (g_sinks s) = config_shape hs -> sane hs (flat (q_stage x)) ->
  nth_error (g_threads s) t = Some x -> nth_error (g_threads s') t = Some x' ->
  sane hs (flat (q_stage x')) /\
  ((exists c rest, q_stage x = QIdle /\ q_calls x = c :: rest /\ q_calls x' = rest /\ times t (own tr) = [now] /\ by_thread t (own tr) = [] /\
      forall evs, finishes hs (flat (q_stage x')) evs -> called hs (stamp c now) evs) \/
   (q_calls x' = q_calls x /\ times t (own tr) = [] /\
      forall evs, finishes hs (flat (q_stage x')) evs -> finishes hs (flat (q_stage x)) (by_thread t (own tr) ++ evs))).
Proof.
  intros AD SH SA HX HX'.
  assert (TH : forall s0 y, g_threads s0 = g_threads s -> nth_error (g_threads (set_thread s0 t y)) t = Some x' -> x' = y).
  { intros s0 y E H. cbn [set_thread g_threads] in H. rewrite E, (put_same _ _ _ _ HX) in H. congruence. }
  destruct AD as [H1 H2|c rest e H1 H2 H3|c rest m H1 H2 H3|c r i H1 H2|c r i f l e H1 H2 H3|c r i f l text H1 H2 H3|c r i text j p H1 H2
    |c r i text j p s1 p' tr H1 H2 P|c r i text j p s1 tr H1 H2 P|c r i text j p s1 e tr H1 H2 P|c r i H1|c r i p rest H1].
  - rewrite HX in HX'. injection HX' as <-. split; [exact SA|]. right. auto.
  - rewrite (TH s _ eq_refl HX'). cbn [q_stage flat q_calls]. split; [exact I|]. left. exists c, rest. do 3 (split; [assumption || reflexivity|]).
    split; [cbn; rewrite Nat.eqb_refl; reflexivity|]. split; [reflexivity|]. intros evs F. left. split; [exists e; exact H3|exact F].
  - rewrite (TH s _ eq_refl HX'). cbn [q_stage flat q_calls]. split; [reflexivity|]. left. exists c, rest. do 3 (split; [assumption || reflexivity|]).
    split; [cbn; rewrite Nat.eqb_refl; reflexivity|]. split; [reflexivity|]. intros evs F. right. eexists. split; [exact (activate_record c now m H3)|exact F].
  - rewrite (TH s _ eq_refl HX'). cbn [q_stage flat q_calls]. split; [exact I|]. right. split; [reflexivity|]. split; [reflexivity|]. intros evs ->. rewrite H1.
    cbn [flat ThreadsProofs.finishes own by_thread flat_map app]. pose proof (shape_nth _ _ SH i) as HN. rewrite H2 in HN. rewrite (skipn_none _ _ HN). constructor.
  - rewrite (TH s _ eq_refl HX'). cbn [q_stage flat q_calls]. rewrite H1 in SA |- *. cbn [flat sane] in SA |- *. split; [exact SA|]. right. split; [reflexivity|]. split; [reflexivity|].
    intros evs F. cbn [ThreadsProofs.finishes] in F |- *. pose proof (shape_nth _ _ SH i) as HN. rewrite H2 in HN. destruct HN as (sinks & HN & HL).
    rewrite (skipn_nth _ _ _ HN). cbn [own by_thread flat_map of_thread app]. rewrite Nat.eqb_refl. cbn [app]. apply handled_raise; assumption.
  - rewrite (TH s _ eq_refl HX'). cbn [q_stage flat q_calls]. rewrite H1 in SA |- *. cbn [flat sane] in SA |- *. pose proof (shape_nth _ _ SH i) as HN. rewrite H2 in HN.
    destruct HN as (sinks & HN & HL). split; [split; [exact SA|apply nth_error_Some; congruence]|]. right. split; [reflexivity|]. split; [reflexivity|].
    intros evs F. cbn [ThreadsProofs.finishes] in F |- *. destruct F as (f' & sinks' & a & b & HN' & -> & HG & HH). rewrite HN in HN'. injection HN' as <- <-.
    rewrite (skipn_nth _ _ _ HN). rewrite Nat.sub_0_r in HG. cbn [own by_thread flat_map app]. eapply handled_text; eassumption.
  - rewrite (TH s _ eq_refl HX'). cbn [q_stage flat q_calls]. rewrite H1 in SA |- *. cbn [flat sane] in SA |- *. destruct SA as [R LI]. split; [exact R|]. right.
    split; [reflexivity|]. split; [reflexivity|]. intros evs F. cbn [ThreadsProofs.finishes] in F |- *. pose proof (shape_nth _ _ SH i) as HN.
    unfold lookup in H2. destruct (nth_error (g_sinks s) i) as [[f l]|]; [|apply nth_error_Some in LI; contradiction]. destruct HN as (sinks & HN & HL).
    exists f, sinks, [], evs. split; [exact HN|]. split; [reflexivity|]. split; [|exact F]. apply nth_error_None in H2.
    replace (length sinks - j)%nat with 0%nat by lia. apply given_end.
  - destruct (pushes_rest _ _ _ _ _ _ _ _ _ _ P) as (R1 & _). rewrite (TH s1 _ R1 HX'). cbn [q_stage flat q_calls]. rewrite H1 in SA |- *. split; [exact SA|]. right.
    rewrite (pushes_own _ _ _ _ _ _ _ _ _ _ P). split; [reflexivity|]. split; [reflexivity|]. intros evs F. exact F.
  - destruct (pushes_rest _ _ _ _ _ _ _ _ _ _ P) as (R1 & _). rewrite (TH s1 _ R1 HX'). cbn [q_stage flat q_calls]. rewrite H1 in SA |- *. split; [exact SA|]. right.
    rewrite own_app, (pushes_own _ _ _ _ _ _ _ _ _ _ P). split; [reflexivity|]. split; [reflexivity|]. intros evs F. cbn [flat sane] in SA. destruct SA as [R LI].
    cbn [flat ThreadsProofs.finishes] in F |- *. pose proof (shape_nth _ _ SH i) as HN. unfold lookup in H2. destruct (nth_error (g_sinks s) i) as [[f l]|]; [|contradiction].
    destruct HN as (sinks & HN & HL). apply nth_error_Some in H2. rewrite HL in H2. destruct F as (f' & sinks' & a & b & HN' & -> & HG & HH). rewrite HN in HN'. injection HN' as <- <-.
    exists f, sinks, (Emitted i j (c_severity c) text (c_circumstances c i j) false :: a), b.
    split; [exact HN|]. split; [cbn; rewrite Nat.eqb_refl, R; reflexivity|]. split; [|exact HH].
    replace (length sinks - j)%nat with (S (length sinks - S j)) by lia. apply given_on. exact HG.
  - destruct (pushes_rest _ _ _ _ _ _ _ _ _ _ P) as (R1 & _). rewrite (TH s1 _ R1 HX'). cbn [q_stage flat q_calls]. rewrite H1 in SA |- *. split; [exact (proj1 SA)|]. right.
    rewrite own_app, (pushes_own _ _ _ _ _ _ _ _ _ _ P). split; [reflexivity|]. split; [reflexivity|]. intros evs F. cbn [flat sane] in SA. destruct SA as [R LI].
    cbn [flat ThreadsProofs.finishes] in F |- *. pose proof (shape_nth _ _ SH i) as HN. unfold lookup in H2. destruct (nth_error (g_sinks s) i) as [[f l]|]; [|contradiction].
    destruct HN as (sinks & HN & HL). apply nth_error_Some in H2. rewrite HL in H2.
    exists f, sinks, [Emitted i j (c_severity c) text (c_circumstances c i j) true; Complained i e], evs.
    split; [exact HN|]. split; [cbn; rewrite Nat.eqb_refl, R; reflexivity|]. split; [|exact F].
    replace (length sinks - j)%nat with (S (length sinks - S j)) by lia. apply given_stop.
  - rewrite (TH s _ eq_refl HX'). cbn [q_stage flat q_calls]. rewrite H1 in SA |- *. split; [exact SA|]. right. split; [reflexivity|]. split; [reflexivity|]. intros evs F. exact F.
  - rewrite (TH (set_base s _ _) _ eq_refl HX'). cbn [q_stage flat q_calls]. rewrite H1 in SA |- *. split; [exact SA|]. right. split; [reflexivity|]. split; [reflexivity|]. intros evs F. exact F.
Qed.

(** Where the call a thread is in comes from. *)
Definition of_calls (calls : list call) (st : qstage) : Prop :=
  match st with
  | QIdle => True
  | QHandling c r _ | QSinking c r _ _ _ _ | QPrinting c r _ _ => exists c0 now, In c0 calls /\ c = stamp c0 now /\ record_of c r
  end.
(** The record of a happening in front of the queues comes from a call. *)
Definition legit (programs : list (list call)) (h : happening) : Prop :=
  match h with
  | Queued i j 0 d => exists calls c, nth_error programs (d_thread d) = Some calls /\ In c calls /\ d_q d = c_circumstances c i j
  | Dropped i j _ d => layers_at hs i j <> []
  | Reached i j d _ => layers_at hs i j = [] -> exists calls c, nth_error programs (d_thread d) = Some calls /\ In c calls /\ d_q d = c_circumstances c i j
  | Own (Did t (Emitted i j _ _ _ threw)) => t < length programs /\ (threw = true -> layers_at hs i j = [])
  | Own h => (match h with Began t _ | Did t _ | Wrote t _ => t end < length programs)%nat
  | _ => True
  end.

Lemma advances_calls s t now x s' tr x' programs calls : advances s t now x s' tr -> placed s ->
  (forall i j, map l_config (g_queues s i j) = layers_at hs i j) ->
  nth_error programs t = Some calls -> nth_error (g_threads s) t = Some x -> nth_error (g_threads s') t = Some x' ->
  (exists done, calls = done ++ q_calls x) -> of_calls calls (q_stage x) ->
  (exists done, calls = done ++ q_calls x') /\ of_calls calls (q_stage x') /\ Forall (legit programs) tr.
Proof.
  intros AD PL CF HP HX HX' [done HD] OC. assert (LT : (t < length programs)%nat) by (apply nth_error_Some; congruence).
  assert (TH : forall s0 y, g_threads s0 = g_threads s -> nth_error (g_threads (set_thread s0 t y)) t = Some x' -> x' = y).
  { intros s0 y E H. cbn [set_thread g_threads] in H. rewrite E, (put_same _ _ _ _ HX) in H. congruence. }
  assert (PU : forall c r i j text p s1 res tr, q_stage x = QSinking c r i text j p ->
      pushes s i j 0 t (Delivery t (e_tty (c_env c)) (r_severity r) text (c_circumstances c i j)) p s1 res tr -> Forall (legit programs) tr).
  { intros c r i j text p s1 res tr0 HS P. rewrite HS in OC. cbn [of_calls] in OC. destruct OC as (c0 & n & HI & -> & _).
    assert (EX : exists calls c, nth_error programs t = Some calls /\ In c calls /\ c_circumstances (stamp c0 n) i j = c_circumstances c i j) by (exists calls, c0; auto).
    destruct P as [p HN HL|p y w y' e HN HL HE|p y w y' HN HL HE|l HN HC|l HN HC|l HN|l HN HP'|l HN HP']; repeat constructor; cbn; auto.
    intros Z. rewrite <- CF in Z. apply map_eq_nil in Z. rewrite Z in HN. discriminate. }
  destruct AD as [H1 H2|c rest e H1 H2 H3|c rest m H1 H2 H3|c r i H1 H2|c r i f l e H1 H2 H3|c r i f l text H1 H2 H3|c r i text j p H1 H2
    |c r i text j p s1 p' tr H1 H2 P|c r i text j p s1 tr H1 H2 P|c r i text j p s1 e tr H1 H2 P|c r i H1|c r i p rest H1].
  - rewrite HX in HX'. injection HX' as <-. split; [exists done; exact HD|]. split; [exact OC|constructor].
  - rewrite (TH s _ eq_refl HX'). cbn [q_stage q_calls]. split; [exists (done ++ [c]); rewrite HD, H2, <- app_assoc; reflexivity|]. split; [exact I|repeat constructor; exact LT].
  - rewrite (TH s _ eq_refl HX'). cbn [q_stage q_calls]. split; [exists (done ++ [c]); rewrite HD, H2, <- app_assoc; reflexivity|]. split; [|repeat constructor; exact LT].
    exists c, now. split; [rewrite HD, H2; apply in_or_app; right; left; reflexivity|]. split; [reflexivity|]. exact (activate_record c now m H3).
  - rewrite (TH s _ eq_refl HX'). cbn [q_stage q_calls]. split; [exists done; exact HD|]. split; [exact I|constructor].
  - rewrite (TH s _ eq_refl HX'). rewrite H1 in OC. split; [exists done; exact HD|]. split; [exact OC|repeat constructor; exact LT].
  - rewrite (TH s _ eq_refl HX'). rewrite H1 in OC. split; [exists done; exact HD|]. split; [exact OC|constructor].
  - rewrite (TH s _ eq_refl HX'). rewrite H1 in OC. split; [exists done; exact HD|]. split; [exact OC|constructor].
  - pose proof (PU _ _ _ _ _ _ _ _ _ H1 P) as F. destruct (pushes_rest _ _ _ _ _ _ _ _ _ _ P) as (R1 & _). rewrite (TH s1 _ R1 HX'). rewrite H1 in OC.
    split; [exists done; exact HD|]. split; [exact OC|exact F].
  - pose proof (PU _ _ _ _ _ _ _ _ _ H1 P) as F. destruct (pushes_rest _ _ _ _ _ _ _ _ _ _ P) as (R1 & _). rewrite (TH s1 _ R1 HX'). rewrite H1 in OC.
    split; [exists done; exact HD|]. split; [exact OC|]. apply Forall_app. split; [exact F|]. repeat constructor; [exact LT|discriminate].
  - pose proof (PU _ _ _ _ _ _ _ _ _ H1 P) as F. destruct (pushes_rest _ _ _ _ _ _ _ _ _ _ P) as (R1 & _). rewrite (TH s1 _ R1 HX'). rewrite H1 in OC.
    split; [exists done; exact HD|]. split; [exact OC|]. apply Forall_app. split; [exact F|]. constructor; [|repeat constructor; exact LT]. split; [exact LT|]. intros _.
    inversion P as [|? y w y' e' HN HL HE|? | | | | |]; subst. rewrite <- CF. destruct (g_queues s i j); [reflexivity|discriminate].
  - rewrite (TH s _ eq_refl HX'). rewrite H1 in OC. split; [exists done; exact HD|]. split; [exact OC|constructor].
  - rewrite (TH (set_base s _ _) _ eq_refl HX'). rewrite H1 in OC. split; [exists done; exact HD|]. split; [exact OC|repeat constructor; exact LT].
Qed.

(** ---- workers and the destructor ---- *)

(** What they put into the trace. *)
Definition backstage (h : happening) : Prop :=
  match h with
  | Own _ | Queued _ _ 0 _ | Dropped _ _ 0 _ => False
  | Reached i j _ _ | Dropped i j (S _) _ => layers_at hs i j <> []
  | _ => True
  end.

Lemma work_backstage s i j k s' tr : work s i j k = Some (s', tr) -> (forall i j, map l_config (g_queues s i j) = layers_at hs i j) -> Forall backstage tr.
Proof.
  unfold work. intros E CF. destruct (nth_error (g_queues s i j) k) as [l|] eqn:EL; [|injection E as <- <-; constructor].
  assert (NE : layers_at hs i j <> []) by (rewrite <- CF; destruct (g_queues s i j); [destruct k; discriminate|discriminate]).
  destruct (l_worker l) as [|[d|]|d p|].
  - destruct (l_queue l) as [|[who d|d] q]; injection E as <- <-; constructor.
  - injection E as <- <-; constructor.
  - injection E as <- <-; constructor.
  - destruct (push s i j (S k) 0 d p) as [[[s1 r] tr1]|] eqn:EP; [|discriminate]. apply push_pushes in EP.
    assert (F : Forall backstage tr1) by (destruct EP; repeat constructor; exact NE).
    destruct r; injection E as <- <-; try exact F. apply Forall_app. split; [exact F|repeat constructor].
  - injection E as <- <-; constructor.
Qed.
Lemma destroy_backstage s s' tr : destroy s = (s', tr) -> Forall backstage tr.
Proof.
  unfold destroy. intros E. destruct (forallb idle (g_threads s)); [|injection E as <- <-; constructor].
  destruct (g_todo s) as [|[i j k|i j k] rest]; [injection E as <- <-; constructor| |].
  - destruct (nth_error (g_queues s i j) k); injection E as <- <-; repeat constructor.
  - destruct (nth_error (g_queues s i j) k) as [l|]; [destruct (l_worker l)|]; injection E as <- <-; constructor.
Qed.

Lemma backstage_own tr : Forall backstage tr -> own tr = [].
Proof. intros F. apply flat_map_single_other. intros h Hh. rewrite Forall_forall in F. specialize (F h Hh). destruct h; [contradiction|reflexivity..]. Qed.
Lemma backstage_legit programs tr : Forall backstage tr -> Forall (legit programs) tr.
Proof. apply Forall_impl. intros [h|i j d b|i j [|k] d|i j [|k] d|i j k l n|i j k e]; cbn; tauto. Qed.
Lemma backstage_fair t st i j tr0 tr : fair hs t st i j tr0 -> Forall backstage tr -> fair hs t st i j (tr0 ++ tr).
Proof.
  intros F B. rewrite Forall_forall in B. apply fair_quiet with (st := st); [exact F| |].
  - intros E. replace (reached i j tr) with (@nil parcel); [replace (gave i j tr) with (@nil parcel); [reflexivity|]|]; symmetry; apply flat_map_single_other; intros h Hh; specialize (B h Hh).
    + destruct h; [contradiction|reflexivity..].
    + destruct h as [|a b d x| | | |]; try reflexivity. cbn in B. destruct (Nat.eqb a i && Nat.eqb b j) eqn:EA; [|reflexivity].
      apply (at_true a b i j) in EA as [-> ->]. contradiction.
  - intros _. replace (gave i j tr) with (@nil parcel); [replace (entered i j tr) with (@nil parcel); [replace (refused i j tr) with (@nil parcel); [auto|]|]|];
      symmetry; apply flat_map_single_other; intros h Hh; specialize (B h Hh); destruct h as [|a b d x|a b [|k] d|a b [|k] d| |]; try contradiction; reflexivity.
Qed.

(** ---- whole runs ---- *)

Definition thread_ok (t : nat) (calls : list call) (x : qthread) (tr : list happening) : Prop :=
  sane hs (flat (q_stage x)) /\ of_calls calls (q_stage x) /\ (forall i j, fair hs t (q_stage x) i j tr) /\
  exists done cs, calls = done ++ q_calls x /\ made_at done (times t (own tr)) cs /\
    forall evs, finishes hs (flat (q_stage x)) evs -> exists blocks, Forall2 (called hs) cs blocks /\ by_thread t (own tr) ++ evs = concat blocks.

Definition all_ok (programs : list (list call)) (s : state) (tr : list happening) : Prop :=
  placed s /\ (forall i j, map l_config (g_queues s i j) = layers_at hs i j) /\ shape (g_sinks s) = config_shape hs /\
  length (g_threads s) = length programs /\ Forall (legit programs) tr /\
  forall t calls x, nth_error programs t = Some calls -> nth_error (g_threads s) t = Some x -> thread_ok t calls x tr.

Lemma tagged_others t u tr : t <> u -> Forall (tagged_as u) tr -> times t (own tr) = [] /\ by_thread t (own tr) = [].
Proof.
  intros NE F. assert (M : Forall (mine u) (own tr)).
  { apply Forall_forall. intros h Hh. apply in_flat_map in Hh as (g & Hg & Hh). rewrite Forall_forall in F. specialize (F g Hg). destruct g; try destruct Hh as [<-|[]]; try destruct Hh.
    destruct h0; exact F. }
  destruct (mine_other u t (not_eq_sym NE) _ M) as [A B]. auto.
Qed.

Lemma lstep_configs o L b lab L' : lstep o L b lab L' -> map l_config L' = map l_config L.
Proof. destruct 1; rewrite ?map_app; reflexivity. Qed.

Lemma made_at_snoc calls nows cs c now : made_at calls nows cs -> made_at (calls ++ [c]) (nows ++ [now]) (cs ++ [stamp c now]).
Proof. intros M. apply made_at_app; [exact M|]. constructor. constructor. Qed.

Lemma thread_ok_step s t now x s' tr0 tr x' programs calls : advances s t now x s' tr -> placed s ->
  (forall i j, map l_config (g_queues s i j) = layers_at hs i j) -> shape (g_sinks s) = config_shape hs ->
  nth_error programs t = Some calls -> nth_error (g_threads s) t = Some x -> nth_error (g_threads s') t = Some x' ->
  thread_ok t calls x tr0 -> thread_ok t calls x' (tr0 ++ tr) /\ Forall (legit programs) tr.
Proof.
  intros AD PL CF SH HP HX HX' (SA & OC & FA & done & cs & HD & HM & HF).
  destruct (advances_finishes _ _ _ _ _ _ _ AD SH SA HX HX') as [SA' AF].
  destruct (advances_calls _ _ _ _ _ _ _ _ _ AD PL CF HP HX HX' (ex_intro _ done HD) OC) as (_ & OC' & LG). split; [|exact LG].
  split; [exact SA'|]. split; [exact OC'|]. split; [exact (fair_user _ _ _ _ _ _ _ _ _ _ _ _ _ _ AD PL CF HX HX' FA)|].
  rewrite own_app, times_app, by_thread_app. destruct AF as [(c & rest & E1 & E2 & E3 & E4 & E5 & E6)|(E1 & E2 & E3)].
  - exists (done ++ [c]), (cs ++ [stamp c now]). split; [rewrite HD, E2, E3, <- app_assoc; reflexivity|]. rewrite E4, E5, app_nil_r. split; [apply made_at_snoc; exact HM|].
    intros evs F. rewrite E1 in HF. destruct (HF [] eq_refl) as (blocks & B1 & B2). rewrite app_nil_r in B2. exists (blocks ++ [evs]).
    split; [apply Forall2_app; [exact B1|]; constructor; [exact (E6 evs F)|constructor]|]. rewrite concat_app, <- B2. cbn. rewrite app_nil_r. reflexivity.
  - exists done, cs. rewrite E1, E2, app_nil_r. split; [exact HD|]. split; [exact HM|]. intros evs F. destruct (HF _ (E3 evs F)) as (blocks & B1 & B2).
    exists blocks. split; [exact B1|]. rewrite <- app_assoc. exact B2.
Qed.
Lemma thread_ok_quiet t calls x tr0 tr : thread_ok t calls x tr0 -> (forall i j, fair hs t (q_stage x) i j (tr0 ++ tr)) ->
  times t (own tr) = [] -> by_thread t (own tr) = [] -> thread_ok t calls x (tr0 ++ tr).
Proof.
  intros (SA & OC & FA & done & cs & HD & HM & HF) FA' E1 E2. split; [exact SA|]. split; [exact OC|]. split; [exact FA'|]. exists done, cs.
  rewrite own_app, times_app, by_thread_app, E1, E2, !app_nil_r. auto.
Qed.

Lemma all_ok_step programs s tr0 a s' tr : all_ok programs s tr0 -> step s a = Some (s', tr) -> all_ok programs s' (tr0 ++ tr).
Proof.
  intros (PL & CF & SH & LE & LG & TS) E. pose proof (step_placed _ _ _ _ _ _ _ _ _ E PL) as PL'.
  destruct (step_local _ _ _ _ _ _ _ _ _ E PL) as [SH' LS].
  assert (CF' : forall i j, map l_config (g_queues s' i j) = layers_at hs i j).
  { intros i j. destruct (LS i j) as (o & b & HL & _). rewrite (lstep_configs _ _ _ _ _ HL). apply CF. }
  rewrite SH in SH'. unfold QueuedModel.step in E.
  assert (BACK : Forall backstage tr -> g_threads s' = g_threads s -> all_ok programs s' (tr0 ++ tr)).
  { intros B T. do 3 (split; [assumption|]). rewrite T. split; [exact LE|]. split; [apply Forall_app; split; [exact LG|apply backstage_legit; exact B]|].
    intros t calls x HP HX. apply thread_ok_quiet; [exact (TS _ _ _ HP HX)| |rewrite (backstage_own _ B); reflexivity|rewrite (backstage_own _ B); reflexivity].
    destruct (TS _ _ _ HP HX) as (_ & _ & FA & _). intros i j. apply backstage_fair; [apply FA|exact B]. }
  destruct (g_dead s) eqn:D; [injection E as <- <-; apply BACK; [constructor|reflexivity]|].
  destruct a as [t now|i j k|].
  - destruct (nth_error (g_threads s) t) as [x|] eqn:HX; [|injection E as <- <-; apply BACK; [constructor|reflexivity]].
    apply advance_advances in E. destruct (advances_local _ _ _ _ _ _ _ _ _ _ _ E PL D) as (_ & _ & _ & T & _).
    assert (HP : exists calls, nth_error programs t = Some calls).
    { destruct (nth_error programs t) eqn:HP; [eexists; reflexivity|]. apply nth_error_None in HP. assert (t < length (g_threads s))%nat by (apply nth_error_Some; congruence). lia. }
    destruct HP as [calls HP].
    assert (T' : exists x', nth_error (g_threads s') t = Some x' /\ (forall u, u <> t -> nth_error (g_threads s') u = nth_error (g_threads s) u) /\ length (g_threads s') = length (g_threads s)).
    { destruct T as [->|[x' ->]]; [exists x; auto|]. exists x'. split; [exact (put_same _ _ _ _ HX)|]. split; [intros u NE; apply put_other; auto|apply put_length]. }
    destruct T' as (x' & HX' & HO & LE'). destruct (thread_ok_step _ _ _ _ _ _ _ _ _ _ E PL CF SH HP HX HX' (TS _ _ _ HP HX)) as [OK LG'].
    do 3 (split; [assumption|]). split; [lia|]. split; [apply Forall_app; auto|]. intros u calls' y HP' HY. destruct (Nat.eq_dec u t) as [->|NE].
    + rewrite HP in HP'. injection HP' as <-. rewrite HX' in HY. injection HY as <-. exact OK.
    + rewrite (HO u NE) in HY. pose proof (advances_tagged _ _ _ _ _ _ _ _ _ _ _ E) as TG. destruct (tagged_others u t tr NE TG) as [E1 E2].
      apply thread_ok_quiet; [exact (TS _ _ _ HP' HY)| |exact E1|exact E2]. destruct (TS _ _ _ HP' HY) as (_ & _ & FA & _). intros i j.
      apply fair_nothing with (1 := FA i j); [exact (nothing_other u t i j tr NE TG)|reflexivity].
  - destruct (work_local _ _ _ _ _ _ E PL D) as (_ & _ & T & _). apply BACK; [exact (work_backstage _ _ _ _ _ _ E CF)|exact T].
  - destruct (destroy s) as [s1 tr1] eqn:ED. injection E as <- <-. destruct (destroy_local _ _ _ ED) as (T & _). apply BACK; [exact (destroy_backstage _ _ _ ED)|exact T].
Qed.

Variables (ws : list working) (w : world) (programs : list (list call)) (sched : list action) (s : state) (tr : list happening).
Hypothesis started : start_handlers (map strip hs) = Some ws.
Hypothesis ran : run (initial w hs ws programs) sched = Some (s, tr).

Lemma run_ok : all_ok programs s tr.
Proof.
  refine (run_keeps _ _ _ _ _ (all_ok programs) (fun s tr a s' tr' A E => all_ok_step programs s tr a s' tr' A E) sched _ [] s tr _ ran).
  split; [exact (initial_placed _ _ _ _ started)|]. split; [intros i j; cbn; rewrite map_map; apply map_id|].
  split; [cbn [initial g_sinks]; rewrite (start_shape _ _ started); apply strip_shape|]. split; [cbn; apply map_length|]. split; [constructor|].
  intros t calls x HP HX. cbn [initial g_threads] in HX. rewrite (map_nth_error _ _ _ HP) in HX. injection HX as <-. cbn [q_stage q_calls].
  split; [exact I|]. split; [exact I|]. split.
  - intros i j. split; [reflexivity|]. intros c cs _. cbn. split; [constructor|]. split; [constructor|auto].
  - exists [], []. split; [reflexivity|]. split; [constructor|]. intros evs ->. exists []. split; [constructor|reflexivity].
Qed.

Lemma queued_routes t calls rest : nth_error programs t = Some calls -> nth_error (g_threads s) t = Some (QThread rest QIdle) ->
  exists done cs blocks, calls = done ++ rest /\ made_at done (times t (own tr)) cs /\ Forall2 (called hs) cs blocks /\ by_thread t (own tr) = concat blocks.
Proof.
  intros HP HT. destruct run_ok as (_ & _ & _ & _ & _ & TS). destruct (TS _ _ _ HP HT) as (_ & _ & _ & done & cs & HD & HM & HF).
  destruct (HF [] eq_refl) as (blocks & B1 & B2). rewrite app_nil_r in B2. exists done, cs, blocks. auto.
Qed.
Lemma queued_never_throws t i j sev text q : In (Own (Did t (Emitted i j sev text q true))) tr -> layers_at hs i j = [].
Proof. intros HI. destruct run_ok as (_ & _ & _ & _ & LG & _). rewrite Forall_forall in LG. destruct (LG _ HI) as [_ H]. auto. Qed.

(** ---- what comes of what is given ---- *)

Lemma from_perm t a b : Permutation a b -> Permutation (from t a) (from t b).
Proof.
  intros P. unfold from. apply Permutation_map. induction P as [|x a b P IH|x y a|a b c P1 IH1 P2 IH2]; cbn; [constructor| | |].
  - destruct (Nat.eqb (fst x) t); [constructor; exact IH|exact IH].
  - destruct (Nat.eqb (fst y) t), (Nat.eqb (fst x) t); try constructor; apply Permutation_refl.
  - eapply Permutation_trans; eassumption.
Qed.
Lemma from_sub t a b : sub a b -> sub (from t a) (from t b).
Proof. intros S. unfold from. apply sub_map, sub_filter. exact S. Qed.

Definition under_way (i j : nat) : list parcel := map parcel_of (flight (g_queues s i j)).

Lemma flow_now i j : flow (layers_at hs i j) (g_queues s i j) (labels i j tr).
Proof. exact (proj2 (run_flow _ _ _ _ _ hs ws w programs sched s tr started ran) i j). Qed.

Lemma account i j t x : nth_error (g_threads s) t = Some x -> q_stage x = QIdle ->
  Permutation (from t (gave i j tr)) (from t (reached i j tr ++ dropped i j tr ++ under_way i j)) /\
  sub (from t (reached i j tr ++ under_way i j)) (from t (gave i j tr)) /\
  (patient hs i j -> from t (gave i j tr) = from t (reached i j tr ++ under_way i j)).
Proof.
  intros HX HI. destruct run_ok as (PL & CF & _ & LE & LG & TS).
  destruct (nth_error programs t) as [calls|] eqn:HP; [|apply nth_error_None in HP; assert (t < length (g_threads s))%nat by (apply nth_error_Some; congruence); lia].
  destruct (TS _ _ _ HP HX) as (_ & _ & FA & _). destruct (FA i j) as [F1 F2]. rewrite HI in F2. cbn [pend] in F2.
  destruct (flow_now i j) as (C & LO & FL). destruct (layers_at hs i j) as [|c cs] eqn:EL.
  - assert (Q : g_queues s i j = []) by (apply map_eq_nil in C; exact C).
    assert (U : under_way i j = []) by (unfold under_way; rewrite Q; reflexivity).
    assert (DR : dropped i j tr = []).
    { apply flat_map_single_other. intros h Hh. rewrite Forall_forall in LG. specialize (LG h Hh). destruct h as [| | |a b k d| |]; try reflexivity.
      destruct (Nat.eqb a i && Nat.eqb b j) eqn:EA; [|reflexivity]. apply (at_true a b i j) in EA as [-> ->]. cbn in LG. congruence. }
    rewrite U, DR, !app_nil_r. rewrite (F1 eq_refl). split; [apply Permutation_refl|]. split; [apply sub_refl|reflexivity].
  - destruct FL as [FL|(L1 & L2 & L3)]; [rewrite FL in C; discriminate|]. destruct (F2 _ _ eq_refl) as (G1 & G2 & G3). rewrite app_nil_r in G1, G2, G3.
    rewrite entered_ins in G1, G2, G3. unfold under_way. rewrite reached_outs. split; [|split].
    + rewrite G1. rewrite !from_app. rewrite (from_perm t _ _ (Permutation_map parcel_of L1)). rewrite !map_app, !from_app.
      rewrite (from_perm t _ _ (dropped_losts i j tr)), from_app. rewrite <- !app_assoc. apply Permutation_app_head. apply Permutation_app_head. apply Permutation_app_comm.
    + eapply sub_trans; [exact G2|]. rewrite <- map_app. apply from_sub, sub_map. exact L2.
    + intros W. unfold patient in W. rewrite EL in W. inversion W as [|? ? W1 W2]; subst. destruct (G3 W1) as [G4 _]. rewrite <- G4. cbn [tl] in L3.
      destruct (L3 W2) as [-> _]. rewrite map_app. reflexivity.
Qed.
End Runs.
