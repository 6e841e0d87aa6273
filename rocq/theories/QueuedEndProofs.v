(** More lemmas about loggers with asynchronous sinks: room, the world, and the end. *)
From Verif Require Import Base Values RootModel FactoriesModel SystemModel SystemSpec SystemProofs ThreadsModel ThreadsSpec ThreadsProofs.
From Verif Require Import QueuedModel QueuedSpec QueuedProofs QueuedSubProofs QueuedMoreProofs.
From Verif Require FmtModel AsyncModel AsyncSpec FileSinkModel FileSinkSpec TcpModel TcpSpec RootSpec.
From Coq Require Import Permutation.

(** ---- room ---- *)

Definition fits (l : layer) : Prop := (length (l_queue l) <= AsyncModel.c_capacity (l_config l))%nat.
Lemma publish_length q who : length (publish q who) = length q.
Proof. induction q as [|[w d|d] q IH]; cbn; [reflexivity| |]; [destruct (Nat.eqb w who)|]; cbn; rewrite ?IH; reflexivity. Qed.
Lemma lstep_fits o L b lab L' : lstep o L b lab L' -> Forall fits L -> Forall fits L'.
Proof.
  assert (MID : forall A l B (P : Prop), (Forall fits A -> fits l -> Forall fits B -> P) -> Forall fits (A ++ l :: B) -> P).
  { intros A l B P H F. apply Forall_app in F as [F1 F2]. inversion F2; subst. auto. }
  destruct 1 as [o L|who d|who d l B HC|who l B|A l B d q HW HQ|A l B HW HQ|A l B d HW|A l B HW|A l d p HW|A l d p HW|A l m B d HW HC|A l m B d HW|A l m B d HW|A l m B d HW|A l m B d HW HP|A l B];
    intros F; try exact F.
  - inversion F; subst. constructor; [|assumption]. unfold fits. cbn. rewrite app_length. cbn. lia.
  - inversion F; subst. constructor; [|assumption]. unfold fits. cbn. rewrite publish_length. assumption.
  - revert F. apply MID. intros F1 F2 F3. apply Forall_app. split; [exact F1|]. constructor; [|exact F3]. unfold fits in *. rewrite HQ in F2. cbn in *. lia.
  - revert F. apply MID. intros F1 F2 F3. apply Forall_app. split; [exact F1|]. constructor; [exact F2|exact F3].
  - revert F. apply MID. intros F1 F2 F3. apply Forall_app. split; [exact F1|]. constructor; [exact F2|exact F3].
  - revert F. apply MID. intros F1 F2 F3. apply Forall_app. split; [exact F1|]. constructor; [exact F2|exact F3].
  - revert F. apply MID. intros F1 F2 F3. apply Forall_app. split; [exact F1|]. constructor; [exact F2|exact F3].
  - revert F. apply MID. intros F1 F2 F3. apply Forall_app. split; [exact F1|]. constructor; [exact F2|exact F3].
  - revert F. apply MID. intros F1 F2 F3. inversion F3; subst. apply Forall_app. split; [exact F1|]. constructor; [exact F2|]. constructor; [|assumption].
    unfold fits. cbn. rewrite app_length. cbn. lia.
  - revert F. apply MID. intros F1 F2 F3. apply Forall_app. split; [exact F1|]. constructor; [exact F2|exact F3].
  - revert F. apply MID. intros F1 F2 F3. inversion F3; subst. apply Forall_app. split; [exact F1|]. constructor; [exact F2|]. constructor; [|assumption].
    unfold fits. cbn. rewrite publish_length. assumption.
  - revert F. apply MID. intros F1 F2 F3. apply Forall_app. split; [exact F1|]. constructor; [exact F2|exact F3].
  - revert F. apply MID. intros F1 F2 F3. apply Forall_app. split; [exact F1|]. constructor; [exact F2|exact F3].
  - revert F. apply MID. intros F1 F2 F3. apply Forall_app. split; [exact F1|]. constructor; [exact F2|exact F3].
Qed.
Lemma fits_flight L : Forall fits L -> (length (flight L) <= list_sum (map (fun c => AsyncModel.c_capacity c + 1) (map l_config L)))%nat.
Proof.
  induction 1 as [|l L H F IH]; [cbn; lia|]. cbn [flight map list_sum fold_right]. fold (list_sum (map (fun c => AsyncModel.c_capacity c + 1)%nat (map l_config L))).
  unfold own_of. rewrite !app_length, map_length. unfold fits in H. assert (HH : (length (held (l_worker l)) <= 1)%nat) by (destruct (l_worker l) as [|[d|]|d []|]; cbn; lia). lia.
Qed.

(** ---- order in front of the end: who may still put something into a queue ---- *)

Definition reserved_by (who : nat) (c : cell) : bool := match c with Reserved who' _ => Nat.eqb who' who | Ready _ => false end.
Definition rcount (who : nat) (q : list cell) : nat := length (filter (reserved_by who) q).
Definition filling (w : worker) : nat := match w with Emitting _ Fill => 1 | _ => 0 end%nat.
Definition ending (w : worker) : Prop := w = Checking None \/ w = Exited.

(** [up]: nobody will put anything into the first queue; [ext]: how many cells of it each one in front has reserved. [ok]: the hypothesis about the
    moments at which the flags are set. *)
Fixpoint tidy (ok up : Prop) (ext : nat -> nat) (L : list layer) : Prop :=
  match L with
  | [] => True
  | l :: L' =>
      (forall who, rcount who (l_queue l) = ext who) /\
      (l_worker l = Exited -> l_stopped l = true) /\
      (l_stopped l = true -> up) /\
      (ok -> l_stopped l = true -> ending (l_worker l) -> l_queue l = []) /\
      tidy ok (l_worker l = Exited) (fun who => if Nat.eqb who 0 then filling (l_worker l) else 0%nat) L'
  end.

Lemma tidy_mono (ok ok' up up' : Prop) (ext ext' : nat -> nat) L : (ok' -> ok) -> (up -> up') -> (forall who, ext who = ext' who) -> tidy ok up ext L -> tidy ok' up' ext' L.
Proof.
  revert up up' ext ext'. induction L as [|l L IH]; intros up up' ext ext' HO HU HE; cbn [tidy]; [auto|].
  intros (T1 & T2 & T3 & T4 & T5). split; [intros who; rewrite <- HE; apply T1|]. split; [exact T2|]. split; [auto|]. split; [auto|].
  refine (IH _ _ _ _ HO _ _ T5); auto.
Qed.

Lemma tidy_at (ok : Prop) l l' B B' : (forall (up : Prop) ext, (up -> forall who, ext who = 0%nat) -> tidy ok up ext (l :: B) -> tidy ok up ext (l' :: B')) ->
  forall A (up : Prop) ext, (up -> forall who, ext who = 0%nat) -> tidy ok up ext (A ++ l :: B) -> tidy ok up ext (A ++ l' :: B').
Proof.
  intros H. induction A as [|a A IH]; intros up ext HU; [apply H; exact HU|]. cbn [app]. cbn [tidy]. intros (T1 & T2 & T3 & T4 & T5).
  do 4 (split; [assumption|]). apply IH; [|exact T5]. intros -> who. destruct (Nat.eqb who 0); reflexivity.
Qed.

Lemma rcount_app who a b : rcount who (a ++ b) = (rcount who a + rcount who b)%nat.
Proof. unfold rcount. rewrite filter_app, app_length. reflexivity. Qed.
Lemma rcount_publish who q w : rcount who (publish q w) = if Nat.eqb w who then (rcount who q - 1)%nat else rcount who q.
Proof.
  induction q as [|[v d|d] q IH]; cbn [publish].
  - destruct (Nat.eqb w who); reflexivity.
  - destruct (Nat.eqb_spec v w) as [->|NE].
    + unfold rcount. cbn. destruct (Nat.eqb w who); cbn; lia.
    + unfold rcount in *. cbn [filter reserved_by]. destruct (Nat.eqb_spec v who) as [->|NV].
      * cbn [length]. rewrite IH. destruct (Nat.eqb_spec w who); [congruence|reflexivity].
      * exact IH.
  - exact IH.
Qed.
Lemma rcount_none q : (forall who, rcount who q = 0%nat) -> (forall d q', q <> Ready d :: q') -> q = [].
Proof.
  destruct q as [|[v d|d] q]; intros R H; [reflexivity| |].
  - specialize (R v). unfold rcount in R. cbn in R. rewrite Nat.eqb_refl in R. discriminate.
  - exfalso. exact (H d q eq_refl).
Qed.

(** A worker's step. *)
Lemma tidy_work (ok up : Prop) ext L lab L' : lstep ByWorker L false lab L' -> (up -> forall who, ext who = 0%nat) -> tidy ok up ext L -> tidy ok up ext L'.
Proof.
  intros S HU. inversion S as [o L0|who d|who d l B HC|who l B|A l B d q HW HQ|A l B HW HQ|A l B d HW|A l B HW|A l d p HW|A l d p HW|A l m B d HW HC|A l m B d HW|A l m B d HW|A l m B d HW|A l m B d HW HP|A l B]; subst;
    try (intros T; exact T); revert up ext HU; apply tidy_at; intros up ext HU; cbn [tidy l_queue l_worker l_stopped set_worker set_queue];
    intros (T1 & T2 & T3 & T4 & T5); rewrite HW in *.
  - split; [|split; [discriminate|split; [exact T3|split]]].
    + intros who. rewrite <- T1, HQ. reflexivity.
    + intros OK ST [E|E]; discriminate.
    + revert T5. apply tidy_mono; [auto|discriminate|reflexivity].
  - split; [exact T1|split; [discriminate|split; [exact T3|split]]].
    + intros OK ST _. apply rcount_none; [|exact HQ]. intros who. rewrite T1. apply HU. apply T3. exact ST.
    + revert T5. apply tidy_mono; [auto|discriminate|reflexivity].
  - split; [exact T1|split; [discriminate|split; [exact T3|split]]].
    + intros OK ST [E|E]; discriminate.
    + revert T5. apply tidy_mono; [auto|discriminate|reflexivity].
  - split; [exact T1|split; [|split; [exact T3|split]]].
    + destruct (l_stopped l); [reflexivity|discriminate].
    + intros OK ST _. apply T4; [exact OK|exact ST|left; reflexivity].
    + revert T5. apply tidy_mono; [auto|discriminate|]. destruct (l_stopped l); reflexivity.
  - split; [exact T1|split; [discriminate|split; [exact T3|split; [|exact I]]]]. intros OK ST [E|E]; discriminate.
  - destruct T5 as (U1 & U2 & U3 & U4 & U5). split; [exact T1|split; [discriminate|split; [exact T3|split; [intros OK ST [E|E]; discriminate|]]]].
    split; [|split; [exact U2|split; [intros ST; specialize (U3 ST); discriminate|split; [|exact U5]]]].
    + intros who. rewrite rcount_app, U1. unfold rcount. cbn. destruct who; reflexivity.
    + intros OK ST. specialize (U3 ST). discriminate.
  - destruct T5 as (U1 & U2 & U3 & U4 & U5). split; [exact T1|split; [discriminate|split; [exact T3|split; [intros OK ST [E|E]; discriminate|]]]].
    split; [intros who; rewrite U1; reflexivity|split; [exact U2|split; [intros ST; specialize (U3 ST); discriminate|split; [|exact U5]]]].
    intros OK ST. specialize (U3 ST). discriminate.
  - destruct T5 as (U1 & U2 & U3 & U4 & U5). split; [exact T1|split; [discriminate|split; [exact T3|split; [intros OK ST [E|E]; discriminate|]]]].
    split; [|split; [exact U2|split; [intros ST; specialize (U3 ST); discriminate|split; [|exact U5]]]].
    + intros who. rewrite rcount_publish, U1. destruct who; reflexivity.
    + intros OK ST. specialize (U3 ST). discriminate.
  - destruct T5 as (U1 & U2 & U3 & U4 & U5). split; [exact T1|split; [discriminate|split; [exact T3|split; [intros OK ST [E|E]; discriminate|]]]].
    split; [intros who; rewrite U1; reflexivity|split; [exact U2|split; [intros ST; specialize (U3 ST); discriminate|split; [|exact U5]]]].
    intros OK ST. specialize (U3 ST). discriminate.
  - destruct T5 as (U1 & U2 & U3 & U4 & U5). split; [exact T1|split; [discriminate|split; [exact T3|split; [intros OK ST [E|E]; discriminate|]]]].
    split; [intros who; rewrite U1; reflexivity|split; [exact U2|split; [intros ST; specialize (U3 ST); discriminate|split; [|exact U5]]]].
    intros OK ST. specialize (U3 ST). discriminate.
Qed.

(** The flag of a queue is set. *)
Fixpoint feeder (up : Prop) (A : list layer) : Prop := match A with [] => up | a :: A' => feeder (l_worker a = Exited) A' end.
Lemma feeder_nth : forall A (up : Prop), (A = [] -> up) -> (forall k a, S k = length A -> nth_error A k = Some a -> l_worker a = Exited) -> feeder up A.
Proof.
  induction A as [|a A IH]; intros up H0 H; cbn [feeder]; [apply H0; reflexivity|]. apply IH.
  - intros ->. exact (H 0%nat a eq_refl eq_refl).
  - intros k b E HN. apply (H (S k) b); [cbn; lia|exact HN].
Qed.
Lemma tidy_stop (ok ok' : Prop) l B : (ok' -> ok) -> (ok' -> l_worker l = Checking None -> l_queue l = []) ->
  forall A (up : Prop) ext, feeder up A -> tidy ok up ext (A ++ l :: B) -> tidy ok' up ext (A ++ set_stopped l :: B).
Proof.
  intros HO HL. induction A as [|a A IH]; intros up ext HF; cbn [app tidy feeder] in *; intros (T1 & T2 & T3 & T4 & T5).
  - cbn [set_stopped l_queue l_worker l_stopped]. split; [exact T1|]. split; [auto|]. split; [auto|]. split.
    + intros OK _ [E|E]; [exact (HL OK E)|]. apply T4; [auto|exact (T2 E)|right; exact E].
    + revert T5. apply tidy_mono; auto.
  - split; [exact T1|]. split; [exact T2|]. split; [exact T3|]. split; [auto|]. apply IH; assumption.
Qed.

(** What is set stays set; who has exited stays so. *)
Definition keeps (l l' : layer) : Prop := (l_stopped l = true -> l_stopped l' = true) /\ (l_worker l = Exited -> l_worker l' = Exited).
Lemma keeps_refl L : Forall2 keeps L L.
Proof. induction L; constructor; [split; auto|assumption]. Qed.
Lemma lstep_keeps o L b lab L' : lstep o L b lab L' -> Forall2 keeps L L'.
Proof.
  assert (MID : forall A l l' B, keeps l l' -> Forall2 keeps (A ++ l :: B) (A ++ l' :: B)).
  { intros A l l' B K. apply Forall2_app; [apply keeps_refl|]. constructor; [exact K|apply keeps_refl]. }
  assert (TWO : forall A l l' m m' B, keeps l l' -> keeps m m' -> Forall2 keeps (A ++ l :: m :: B) (A ++ l' :: m' :: B)).
  { intros A l l' m m' B K1 K2. apply Forall2_app; [apply keeps_refl|]. constructor; [exact K1|]. constructor; [exact K2|apply keeps_refl]. }
  destruct 1 as [o L|who d|who d l B HC|who l B|A l B d q HW HQ|A l B HW HQ|A l B d HW|A l B HW|A l d p HW|A l d p HW|A l m B d HW HC|A l m B d HW|A l m B d HW|A l m B d HW|A l m B d HW HP|A l B];
    try apply keeps_refl; try apply MID; try apply TWO; try (split; cbn; [auto|congruence]); try (split; auto).
  - constructor; [split; auto|apply keeps_refl].
  - constructor; [split; auto|apply keeps_refl].
Qed.
Lemma keeps_nth L L' m l : Forall2 keeps L L' -> nth_error L m = Some l -> exists l', nth_error L' m = Some l' /\ keeps l l'.
Proof.
  intros F. revert m. induction F as [|a b L L' K F IH]; intros [|m] E; try discriminate E; cbn in *.
  - injection E as <-. exists b. auto.
  - apply IH. exact E.
Qed.

(** ---- what the destructors have to do ---- *)

Definition task_at (i j : nat) (x : task) : bool := match x with Stop a b _ | Join a b _ => at_ a b i j end.
Definition tasks (i j k n : nat) : list task := flat_map (fun k => [Stop i j k; Join i j k]) (seq k n).

Lemma filter_none {A} (f : A -> bool) l : (forall x, In x l -> f x = false) -> filter f l = [].
Proof. induction l as [|x l IH]; intros H; [reflexivity|]. cbn. rewrite (H x (or_introl eq_refl)). apply IH. intros y Hy. apply H. right; exact Hy. Qed.
Lemma filter_all {A} (f : A -> bool) l : (forall x, In x l -> f x = true) -> filter f l = l.
Proof. induction l as [|x l IH]; intros H; [reflexivity|]. cbn. rewrite (H x (or_introl eq_refl)). f_equal. apply IH. intros y Hy. apply H. right; exact Hy. Qed.
Lemma filter_flat {A B} (f : A -> list B) p l : filter p (flat_map f l) = flat_map (fun x => filter p (f x)) l.
Proof. induction l as [|x l IH]; [reflexivity|]. cbn. rewrite filter_app, IH. reflexivity. Qed.
Lemma in_tasks i j k n x : In x (tasks i j k n) -> exists m, (x = Stop i j m \/ x = Join i j m) /\ (k <= m < k + n)%nat.
Proof. intros H. apply in_flat_map in H as (m & Hm & Hx). apply in_seq in Hm. exists m. split; [destruct Hx as [<-|[<-|[]]]; auto|lia]. Qed.

(** Of a numbered list one element matters. *)
Lemma numbered_pick {A B} (f : nat * A -> list B) (n : nat) : forall l k, (forall m x, m <> n -> f (m, x) = []) ->
  flat_map f (combine (seq k (length l)) l) = if (k <=? n)%nat then match nth_error l (n - k) with Some x => f (n, x) | None => [] end else [].
Proof.
  induction l as [|x l IH]; intros k H; cbn [length seq combine flat_map].
  - destruct (k <=? n)%nat; [destruct (n - k)%nat; reflexivity|reflexivity].
  - rewrite IH by exact H. destruct (Nat.leb_spec k n) as [LE|GT].
    + destruct (Nat.eq_dec k n) as [->|NE].
      * rewrite Nat.sub_diag. cbn [nth_error]. destruct (Nat.leb_spec (S n) n); [lia|]. apply app_nil_r.
      * rewrite (H k x NE). replace (n - k)%nat with (S (n - S k)) by lia. destruct (Nat.leb_spec (S k) n); [reflexivity|lia].
    + rewrite (H k x) by lia. destruct (Nat.leb_spec (S k) n); [lia|reflexivity].
Qed.
Lemma teardown_at hs i j : filter (task_at i j) (teardown hs) = tasks i j 0 (length (layers_at hs i j)).
Proof.
  assert (IN : forall a b n, filter (task_at i j) (tasks a b 0 n) = if at_ a b i j then tasks a b 0 n else []).
  { intros a b n. destruct (at_ a b i j) eqn:E; [apply filter_all|apply filter_none]; intros x Hx; apply in_tasks in Hx as (m & [->| ->] & _); exact E. }
  unfold teardown, numbered. rewrite filter_flat.
  rewrite (numbered_pick _ i hs 0).
  - cbn [Nat.leb]. rewrite Nat.sub_0_r. unfold layers_at. destruct (nth_error hs i) as [[f sinks]|]; [|reflexivity]. cbn [fst snd]. rewrite filter_flat.
    rewrite (numbered_pick _ j sinks 0).
    + cbn [Nat.leb]. rewrite Nat.sub_0_r. destruct (nth_error sinks j) as [x|]; [|reflexivity]. cbn [fst snd]. fold (tasks i j 0 (length (layers x))).
      rewrite IN, at_refl. reflexivity.
    + intros m x NE. cbn [fst snd]. fold (tasks i m 0 (length (layers x))). rewrite IN. unfold at_. destruct (Nat.eqb_spec m j); [contradiction|]. rewrite andb_false_r. reflexivity.
  - intros m [f sinks] NE. cbn [fst snd]. rewrite filter_flat. apply flat_map_single_other. intros [b x] _. cbn [fst snd]. fold (tasks m b 0 (length (layers x))).
    rewrite IN. unfold at_. destruct (Nat.eqb_spec m i); [contradiction|]. reflexivity.
Qed.

(** In front of the flag of a queue comes the end of the worker before. *)
Lemma tasks_order i j m : forall n k done rest, done ++ Stop i j (S m) :: rest = tasks i j k n -> (k <= m)%nat -> In (Join i j m) done.
Proof.
  induction n as [|n IH]; intros k done rest E L; cbn [tasks seq flat_map] in E; [destruct done; discriminate|].
  destruct done as [|a [|b done]]; cbn in E.
  - injection E as E1 E2. lia.
  - injection E as -> E2 E3. discriminate.
  - injection E as -> -> E. destruct (Nat.eq_dec k m) as [->|NE]; [right; left; reflexivity|]. right; right. apply (IH (S k) done rest E). lia.
Qed.
Lemma tasks_all i j n : forall k m, (k <= m < k + n)%nat -> In (Stop i j m) (tasks i j k n) /\ In (Join i j m) (tasks i j k n).
Proof. intros k m H. unfold tasks. split; apply in_flat_map; exists m; (split; [apply in_seq; lia|cbn; auto]). Qed.

(** ---- the threads in front of the first queue ---- *)

Definition fillc (st : qstage) (i j : nat) : nat :=
  match st with QSinking _ _ i' _ j' Fill => if at_ i' j' i j then 1 else 0 | _ => 0 end%nat.
Definition ext (s : state) (i j who : nat) : nat := match nth_error (g_threads s) who with Some x => fillc (q_stage x) i j | None => 0%nat end.
Definition all_idle_b (s : state) : Prop := forallb idle (g_threads s) = true.

Lemma idle_stage x : idle x = true -> q_calls x = [] /\ q_stage x = QIdle.
Proof. unfold idle. destruct (q_calls x), (q_stage x); try discriminate; auto. Qed.
Lemma idle_ext s i j : all_idle_b s -> forall who, ext s i j who = 0%nat.
Proof.
  intros H who. unfold ext. destruct (nth_error (g_threads s) who) as [x|] eqn:E; [|reflexivity]. unfold all_idle_b in H. rewrite forallb_forall in H.
  destruct (idle_stage x (H x (nth_error_In _ _ E))) as [_ ->]. reflexivity.
Qed.

Lemma tidy_in (ok : Prop) e e' who d l B : tidy ok False e (l :: B) -> (forall v, e' v = if Nat.eqb v who then S (e v) else e v) ->
  tidy ok False e' (set_queue l (l_queue l ++ [Reserved who d]) :: B).
Proof.
  cbn [tidy set_queue l_queue l_worker l_stopped]. intros (T1 & T2 & T3 & T4 & T5) HE. split; [|split; [exact T2|split; [exact T3|split; [|exact T5]]]].
  - intros v. rewrite rcount_app, T1, HE. unfold rcount. cbn. rewrite (Nat.eqb_sym who v). destruct (Nat.eqb v who); cbn; lia.
  - intros _ ST. destruct (T3 ST).
Qed.
Lemma tidy_publish (ok : Prop) e e' who l B : tidy ok False e (l :: B) -> (forall v, e' v = if Nat.eqb v who then (e v - 1)%nat else e v) ->
  tidy ok False e' (set_queue l (publish (l_queue l) who) :: B).
Proof.
  cbn [tidy set_queue l_queue l_worker l_stopped]. intros (T1 & T2 & T3 & T4 & T5) HE. split; [|split; [exact T2|split; [exact T3|split; [|exact T5]]]].
  - intros v. rewrite rcount_publish, T1, HE, (Nat.eqb_sym who v). reflexivity.
  - intros _ ST. destruct (T3 ST).
Qed.

Section Runs.
Variable dbl : FmtModel.spec -> N -> bytes.
Variable dbl_json : N -> bytes.
Variable double_of : bytes -> N.
Variable what : FmtModel.error -> bytes.
Variable json_fmt : bytes -> value -> option bytes.
Notation advance := (advance dbl dbl_json double_of what json_fmt).
Notation advances := (advances dbl dbl_json double_of what json_fmt).
Notation step := (step dbl dbl_json double_of what json_fmt).
Notation run := (run dbl dbl_json double_of what json_fmt).
Variable hs : list FactoriesModel.handler.

Lemma tidy_user s t now x s' tr x' (ok : Prop) a b e e' : advances s t now x s' tr -> placed s ->
  nth_error (g_threads s) t = Some x -> nth_error (g_threads s') t = Some x' ->
  e t = fillc (q_stage x) a b -> (forall v, e' v = if Nat.eqb v t then fillc (q_stage x') a b else e v) ->
  tidy ok False e (g_queues s a b) -> tidy ok False e' (g_queues s' a b).
Proof.
  intros AD PL HX HX' HE HE' T.
  assert (TH : forall s0 y, g_threads s0 = g_threads s -> nth_error (g_threads (set_thread s0 t y)) t = Some x' -> x' = y).
  { intros s0 y E H. cbn [set_thread g_threads] in H. rewrite E, (put_same _ _ _ _ HX) in H. congruence. }
  assert (SAME : fillc (q_stage x') a b = fillc (q_stage x) a b -> g_queues s' a b = g_queues s a b -> tidy ok False e' (g_queues s' a b)).
  { intros E ->. revert T. apply tidy_mono; auto. intros v. rewrite HE'. destruct (Nat.eqb_spec v t) as [->|]; [congruence|reflexivity]. }
  destruct AD as [H1 H2|c rest e0 H1 H2 H3|c rest m H1 H2 H3|c r i H1 H2|c r i f l e0 H1 H2 H3|c r i f l text H1 H2 H3|c r i text j p H1 H2
    |c r i text j p s1 p' tr H1 H2 P|c r i text j p s1 tr H1 H2 P|c r i text j p s1 e0 tr H1 H2 P|c r i H1|c r i p rest H1].
  - rewrite HX in HX'. injection HX' as <-. apply SAME; reflexivity.
  - apply SAME; [|reflexivity]. rewrite (TH s _ eq_refl HX'), H1. reflexivity.
  - apply SAME; [|reflexivity]. rewrite (TH s _ eq_refl HX'), H1. reflexivity.
  - apply SAME; [|reflexivity]. rewrite (TH s _ eq_refl HX'), H1. reflexivity.
  - apply SAME; [|reflexivity]. rewrite (TH s _ eq_refl HX'), H1. reflexivity.
  - apply SAME; [|reflexivity]. rewrite (TH s _ eq_refl HX'), H1. reflexivity.
  - destruct (at_ i j a b) eqn:E.
    + apply at_true in E as [-> ->]. cbn [set_thread g_queues]. rewrite (PL a b H2). exact I.
    + apply SAME; [|reflexivity]. rewrite (TH s _ eq_refl HX'), H1. cbn [q_stage fillc]. rewrite E. destruct p; reflexivity.
  - destruct (pushes_rest _ _ _ _ _ _ _ _ _ _ P) as (R1 & _). pose proof (TH s1 _ R1 HX') as ->. destruct (at_ i j a b) eqn:E.
    + apply at_true in E as [-> ->]. inversion P as [|?|?|l HN HC|l HN HC| |l HN HP|]; subst; rewrite H1 in HE; cbn [q_stage fillc] in HE, HE', SAME; rewrite ?at_refl in *.
      * cbn [set_thread g_queues]. rewrite queues_set, at_refl. destruct (g_queues s a b) as [|l0 B]; [discriminate|]. cbn in HN. injection HN as ->. cbn [put].
        apply tidy_in with (1 := T). intros v. rewrite HE'. destruct (Nat.eqb_spec v t) as [->|]; [rewrite HE; reflexivity|reflexivity].
      * apply SAME; [|reflexivity]. rewrite H1. reflexivity.
      * apply SAME; [|reflexivity]. rewrite H1. reflexivity.
    + apply SAME.
      * rewrite H1. cbn [q_stage fillc]. rewrite E. destruct p, p'; reflexivity.
      * cbn [set_thread g_queues]. apply (pushes_queues _ _ _ _ _ _ _ _ _ _ P). apply at_false. exact E.
  - destruct (pushes_rest _ _ _ _ _ _ _ _ _ _ P) as (R1 & _). pose proof (TH s1 _ R1 HX') as ->. destruct (at_ i j a b) eqn:E.
    + apply at_true in E as [-> ->]. inversion P as [|?|? y w y' HN HL HE0| | |l HN| |l HN HP]; subst; rewrite H1 in HE; cbn [q_stage fillc] in HE, HE', SAME; rewrite ?at_refl in *.
      * contradiction.
      * cbn [set_thread set_base g_queues]. destruct (g_queues s a b); [exact I|discriminate].
      * cbn [set_thread g_queues]. rewrite queues_set, at_refl. destruct (g_queues s a b) as [|l0 B]; [discriminate|]. cbn in HN. injection HN as ->. cbn [put].
        apply tidy_publish with (1 := T). intros v. rewrite HE'. destruct (Nat.eqb_spec v t) as [->|]; [rewrite HE; reflexivity|reflexivity].
      * apply SAME; [|reflexivity]. rewrite H1. reflexivity.
    + apply SAME.
      * rewrite H1. cbn [q_stage fillc]. rewrite E. destruct p; reflexivity.
      * cbn [set_thread g_queues]. apply (pushes_queues _ _ _ _ _ _ _ _ _ _ P). apply at_false. exact E.
  - destruct (pushes_rest _ _ _ _ _ _ _ _ _ _ P) as (R1 & _). pose proof (TH s1 _ R1 HX') as ->. destruct (at_ i j a b) eqn:E.
    + apply at_true in E as [-> ->]. inversion P as [|? y w y' e1 HN HL HE0|? | | | | |]; subst. cbn [set_thread set_base g_queues]. destruct (g_queues s a b); [exact I|discriminate].
    + apply SAME.
      * rewrite H1. cbn [q_stage fillc]. rewrite E. destruct p; reflexivity.
      * cbn [set_thread g_queues]. apply (pushes_queues _ _ _ _ _ _ _ _ _ _ P). apply at_false. exact E.
  - apply SAME; [|reflexivity]. rewrite (TH s _ eq_refl HX'), H1. reflexivity.
  - apply SAME; [|reflexivity]. rewrite (TH (set_base s _ _) _ eq_refl HX'), H1. reflexivity.
Qed.

(** ---- until the end ---- *)

Definition todo_ok (s : state) : Prop := forall i j, exists done, done ++ filter (task_at i j) (g_todo s) = tasks i j 0 (length (layers_at hs i j)) /\
  (forall m, In (Stop i j m) done -> exists l, nth_error (g_queues s i j) m = Some l /\ l_stopped l = true) /\
  (forall m, In (Join i j m) done -> exists l, nth_error (g_queues s i j) m = Some l /\ l_worker l = Exited).
Definition orderly (s : state) (tr : list happening) : Prop :=
  placed s /\ (forall i j, length (g_queues s i j) = length (layers_at hs i j)) /\
  (g_dead s = false -> todo_ok s /\ forall i j, tidy (in_time i j tr) (all_idle_b s) (ext s i j) (g_queues s i j)).

Lemma in_time_app i j a b : in_time i j (a ++ b) -> in_time i j a.
Proof. intros H k n HI. apply (H k n). apply in_or_app. left; exact HI. Qed.

Lemma todo_keeps s s' : g_todo s' = g_todo s -> (forall i j, Forall2 keeps (g_queues s i j) (g_queues s' i j)) -> todo_ok s -> todo_ok s'.
Proof.
  intros ET K T i j. destruct (T i j) as (done & E & H1 & H2). exists done. rewrite ET. split; [exact E|]. split; intros m Hm.
  - destruct (H1 m Hm) as (l & HN & HS). destruct (keeps_nth _ _ _ _ (K i j) HN) as (l' & HN' & [K1 _]). exists l'. auto.
  - destruct (H2 m Hm) as (l & HN & HS). destruct (keeps_nth _ _ _ _ (K i j) HN) as (l' & HN' & [_ K2]). exists l'. auto.
Qed.
Lemma todo_rest s x rest : g_todo s = x :: rest ->
  (match x with
   | Stop i j m => exists l, nth_error (g_queues s i j) m = Some l /\ l_stopped l = true
   | Join i j m => exists l, nth_error (g_queues s i j) m = Some l /\ l_worker l = Exited
   end) -> todo_ok s -> todo_ok (set_todo s rest).
Proof.
  intros EX HX T i j. destruct (T i j) as (done & E & H1 & H2). rewrite EX in E. cbn [filter] in E. destruct (task_at i j x) eqn:TA.
  - exists (done ++ [x]). split; [rewrite <- app_assoc; exact E|]. destruct x as [a b k|a b k]; cbn in TA; apply at_true in TA as [-> ->]; split; intros m Hm;
      apply in_app_or in Hm as [Hm|[Hm|[]]]; try (apply H1; exact Hm); try (apply H2; exact Hm); try discriminate Hm; injection Hm as <-; exact HX.
  - exists done. split; [exact E|]. auto.
Qed.

Lemma orderly_step s tr0 a s' tr : orderly s tr0 -> step s a = Some (s', tr) -> orderly s' (tr0 ++ tr).
Proof.
  intros (PL & LN & H) E. pose proof (step_placed _ _ _ _ _ _ _ _ _ E PL) as PL'. destruct (step_local _ _ _ _ _ _ _ _ _ E PL) as [SH' LS].
  split; [exact PL'|]. split.
  { intros i j. destruct (LS i j) as (o & b & HL & _). rewrite <- LN. rewrite <- !(map_length l_config). rewrite (lstep_configs _ _ _ _ _ HL). reflexivity. }
  assert (KE : forall i j, Forall2 keeps (g_queues s i j) (g_queues s' i j)) by (intros i j; destruct (LS i j) as (o & b & HL & _); exact (lstep_keeps _ _ _ _ _ HL)).
  unfold QueuedModel.step in E. intros D'.
  destruct (g_dead s) eqn:D; [injection E as <- <-; congruence|]. destruct (H eq_refl) as [TO TI]. clear H.
  assert (STAY : s' = s -> todo_ok s' /\ forall i j, tidy (in_time i j (tr0 ++ tr)) (all_idle_b s') (ext s' i j) (g_queues s' i j)).
  { intros ->. split; [exact TO|]. intros i j. specialize (TI i j). revert TI. apply tidy_mono; auto. apply in_time_app. }
  destruct a as [t now|i j k|].
  - destruct (nth_error (g_threads s) t) as [x|] eqn:HX; [|injection E as <- <-; apply STAY; reflexivity].
    apply advance_advances in E. destruct (advances_local _ _ _ _ _ _ _ _ _ _ _ E PL D) as (ET & _ & _ & T & _).
    destruct (forallb idle (g_threads s)) eqn:AI.
    + assert (s' = s).
      { assert (ID : idle x = true) by (rewrite forallb_forall in AI; apply AI; exact (nth_error_In _ _ HX)). destruct (idle_stage x ID) as [C ST].
        destruct E as [H1 H2|c rest e0 H1 H2 H3|c rest m H1 H2 H3|c r i H1 H2|c r i f l e0 H1 H2 H3|c r i f l text H1 H2 H3|c r i text j p H1 H2
          |c r i text j p s1 p' tr H1 H2 P|c r i text j p s1 tr H1 H2 P|c r i text j p s1 e0 tr H1 H2 P|c r i H1|c r i p rest H1]; congruence || reflexivity. }
      apply STAY. assumption.
    + assert (T' : exists x', nth_error (g_threads s') t = Some x' /\ (forall u, u <> t -> nth_error (g_threads s') u = nth_error (g_threads s) u)).
      { destruct T as [->|[x' ->]]; [exists x; auto|]. exists x'. split; [exact (put_same _ _ _ _ HX)|]. intros u NE; apply put_other; auto. }
      destruct T' as (x' & HX' & HO). split; [exact (todo_keeps _ _ ET KE TO)|]. intros i j.
      assert (T0 : tidy (in_time i j tr0) False (ext s i j) (g_queues s i j)).
      { specialize (TI i j). revert TI. apply tidy_mono; auto. unfold all_idle_b. rewrite AI. discriminate. }
      assert (T1 : tidy (in_time i j tr0) False (ext s' i j) (g_queues s' i j)).
      { refine (tidy_user _ _ _ _ _ _ _ _ _ _ _ _ E PL HX HX' _ _ T0).
        - unfold ext. rewrite HX. reflexivity.
        - intros v. unfold ext. destruct (Nat.eqb_spec v t) as [->|NE]; [rewrite HX'; reflexivity|]. rewrite (HO v NE). reflexivity. }
      revert T1. apply tidy_mono; [apply in_time_app|contradiction|reflexivity].
  - destruct (work_local _ _ _ _ _ _ E PL D) as (_ & Q & T & ET & _ & HL). rewrite D' in HL. split; [exact (todo_keeps _ _ ET KE TO)|]. intros a b.
    assert (T1 : tidy (in_time a b tr0) (all_idle_b s) (ext s a b) (g_queues s' a b)).
    { destruct (at_ a b i j) eqn:EA; [|rewrite (Q a b EA); apply TI]. apply at_true in EA as [-> ->]. apply tidy_work with (1 := HL); [apply idle_ext|apply TI]. }
    revert T1. apply tidy_mono; [apply in_time_app|unfold all_idle_b; rewrite T; auto|]. intros who. unfold ext. rewrite T. reflexivity.
  - destruct (destroy s) as [s1 tr1] eqn:ED. injection E as <- <-. unfold destroy in ED.
    destruct (forallb idle (g_threads s)) eqn:AI; [|injection ED as <- <-; apply STAY; reflexivity].
    destruct (g_todo s) as [|x rest] eqn:EX; [injection ED as <- <-; apply STAY; reflexivity|].
    assert (PASS : forall y, s1 = set_todo s rest -> x = y -> (match y with
        | Stop i j m => exists l, nth_error (g_queues s i j) m = Some l /\ l_stopped l = true
        | Join i j m => exists l, nth_error (g_queues s i j) m = Some l /\ l_worker l = Exited end) ->
        todo_ok s1 /\ forall i j, tidy (in_time i j (tr0 ++ tr1)) (all_idle_b s1) (ext s1 i j) (g_queues s1 i j)).
    { intros y -> -> HY. split; [exact (todo_rest _ _ _ EX HY TO)|]. intros i j. specialize (TI i j). revert TI. apply tidy_mono; auto. apply in_time_app. }
    assert (THERE : forall i j k, (x = Stop i j k \/ x = Join i j k) -> nth_error (g_queues s i j) k <> None).
    { intros i j k HX. destruct (TO i j) as (done & ETD & _). rewrite EX in ETD. cbn [filter] in ETD.
      assert (TA : task_at i j x = true) by (destruct HX as [->| ->]; cbn; apply at_refl). rewrite TA in ETD.
      assert (HI : In x (tasks i j 0 (length (layers_at hs i j)))) by (rewrite <- ETD; apply in_or_app; right; left; reflexivity).
      apply in_tasks in HI as (m & HM & LM). assert (m = k) by (destruct HX as [->| ->], HM as [HM|HM]; congruence). subst m. apply nth_error_Some. rewrite LN. lia. }
    destruct x as [i j k|i j k].
    + destruct (nth_error (g_queues s i j) k) as [l|] eqn:EL; [|exfalso; exact (THERE i j k (or_introl eq_refl) EL)].
      injection ED as <- <-. set (s2 := set_layer s i j k (Layer (l_config l) (l_queue l) true (l_worker l))).
      assert (EL2 : nth_error (g_queues s2 i j) k = Some (set_stopped l)) by (unfold s2; rewrite queues_set, at_refl; exact (put_same _ _ _ _ EL)).
      split.
      * apply todo_rest with (x := Stop i j k); [exact EX|exists (set_stopped l); auto|]. apply todo_keeps with (s := s); [reflexivity|exact KE|exact TO].
      * intros a b. cbn [set_todo g_queues]. change (all_idle_b (set_todo s2 rest)) with (all_idle_b s).
        assert (EE : forall who, ext (set_todo s2 rest) a b who = ext s a b who) by reflexivity.
        unfold s2. rewrite queues_set. destruct (at_ a b i j) eqn:EA.
        2:{ specialize (TI a b). revert TI. apply tidy_mono; auto. apply in_time_app. }
        apply at_true in EA as [-> ->]. destruct (put_split l (set_stopped l) _ _ EL) as (A & B & EQ & LA & EP). unfold set_stopped in EP at 1. rewrite EP.
        specialize (TI i j). rewrite EQ in TI. apply tidy_mono with (ok := in_time i j (tr0 ++ [Stopping i j k (match l_worker l with Checking None => true | _ => false end) (length (l_queue l))])) (up := all_idle_b s) (ext := ext s i j); auto.
        refine (tidy_stop _ _ l B (in_time_app _ _ _ _) _ A _ _ _ TI).
        -- intros OK EW. rewrite EW in OK. assert (Z : length (l_queue l) = 0%nat) by (apply (OK k); apply in_or_app; right; left; reflexivity). destruct (l_queue l); [reflexivity|discriminate].
        -- apply feeder_nth; [intros _; exact AI|]. intros m a LM HA. destruct (TO i j) as (done & ETD & _ & HJ). rewrite EX in ETD. cbn [filter task_at] in ETD. rewrite at_refl in ETD.
           rewrite <- LA, <- LM in ETD. destruct (HJ m (tasks_order i j m _ _ _ _ ETD (Nat.le_0_l _))) as (l' & HN & HW).
           rewrite EQ, (nth_error_app1 A) in HN by (rewrite <- LM; auto with arith). rewrite HA in HN. injection HN as <-. exact HW.
    + destruct (nth_error (g_queues s i j) k) as [l|] eqn:EL; [|exfalso; exact (THERE i j k (or_intror eq_refl) EL)].
      destruct (l_worker l) eqn:EW; injection ED as <- <-; try (apply STAY; reflexivity).
      apply (PASS (Join i j k)); [reflexivity|reflexivity|]. exists l. auto.
Qed.

Variables (ws : list working) (w : world) (programs : list (list call)) (sched : list action) (s : state) (tr : list happening).
Hypothesis started : start_handlers (map strip hs) = Some ws.
Hypothesis ran : run (initial w hs ws programs) sched = Some (s, tr).

Lemma run_orderly : orderly s tr.
Proof.
  refine (run_keeps _ _ _ _ _ orderly (fun s tr a s' tr' A E => orderly_step s tr a s' tr' A E) sched _ [] s tr _ ran).
  split; [exact (initial_placed _ _ _ _ started)|]. split; [intros i j; cbn; apply map_length|]. intros _. split.
  - intros i j. exists []. split; [exact (teardown_at hs i j)|]. split; intros m [].
  - intros i j. assert (Z : forall who, ext (initial w hs ws programs) i j who = 0%nat).
    { intros who. unfold ext. cbn [initial g_threads]. rewrite nth_error_map. destruct (nth_error programs who); reflexivity. }
    cbn [initial g_queues]. set (up := all_idle_b _). clearbody up. revert up Z. generalize (ext (initial w hs ws programs) i j).
    induction (layers_at hs i j) as [|c l IH]; intros e up Z; [exact I|]. cbn [map tidy l_queue l_worker l_stopped].
    split; [intros who; rewrite Z; reflexivity|]. split; [discriminate|]. split; [discriminate|]. split; [discriminate|]. apply IH. intros who. destruct (Nat.eqb who 0); reflexivity.
Qed.

(** At the end nothing is under way. *)
Lemma nothing_left i j : destroyed s -> in_time i j tr -> flight (g_queues s i j) = [].
Proof.
  intros (_ & ET & D) IT. destruct run_orderly as (_ & LN & H). destruct (H D) as [TO TI]. destruct (TO i j) as (done & E & HS & HJ). rewrite ET in E. cbn in E. rewrite app_nil_r in E. subst done.
  assert (ALL : forall m l, nth_error (g_queues s i j) m = Some l -> l_stopped l = true /\ l_worker l = Exited).
  { intros m l HN. assert (LM : (m < length (layers_at hs i j))%nat) by (rewrite <- LN; apply nth_error_Some; congruence).
    destruct (tasks_all i j (length (layers_at hs i j)) 0 m) as [T1 T2]; [lia|]. destruct (HS m T1) as (l1 & N1 & S1). destruct (HJ m T2) as (l2 & N2 & S2).
    rewrite HN in N1, N2. injection N1 as <-. injection N2 as <-. auto. }
  clear HS HJ. specialize (TI i j). revert ALL TI. generalize (ext s i j) (all_idle_b s). induction (g_queues s i j) as [|l L IH]; intros e up ALL TI; [reflexivity|].
  cbn [tidy] in TI. destruct TI as (_ & _ & _ & T4 & T5). destruct (ALL 0%nat l eq_refl) as [S0 W0]. cbn [flight]. unfold own_of. rewrite W0, (T4 IT S0 (or_intror W0)).
  cbn. rewrite app_nil_r. refine (IH _ _ _ T5). intros m l0 HN. exact (ALL (Datatypes.S m) l0 HN).
Qed.
End Runs.
