(** Lemmas about loggers with asynchronous sinks. *)
From Verif Require Import Base Values RootModel FactoriesModel SystemModel SystemSpec SystemProofs ThreadsModel ThreadsSpec ThreadsProofs.
From Verif Require Import QueuedModel QueuedSpec.
From Verif Require FmtModel AsyncModel AsyncSpec FileSinkModel FileSinkSpec TcpModel TcpSpec.
From Coq Require Import Permutation.

Notation sub := AsyncSpec.sub.
Notation is_prefix := AsyncSpec.is_prefix.

(** ---- lists ---- *)

Lemma put_split {A} (x y : A) : forall l k, nth_error l k = Some x -> exists a b, l = a ++ x :: b /\ length a = k /\ put l k y = a ++ y :: b.
Proof.
  induction l as [|z l IH]; intros [|k] E; try discriminate E.
  - cbn in E. injection E as ->. exists [], l. auto.
  - cbn in E. destruct (IH _ E) as (a & b & -> & L & P). exists (z :: a), b. cbn. rewrite L, P. auto.
Qed.
Lemma put_mid {A} (x y : A) a b : put (a ++ x :: b) (length a) y = a ++ y :: b.
Proof. induction a as [|z a IH]; cbn; [reflexivity|]. rewrite IH. reflexivity. Qed.
Lemma nth_mid {A} (x : A) a b : nth_error (a ++ x :: b) (length a) = Some x.
Proof. induction a as [|z a IH]; cbn; [reflexivity|exact IH]. Qed.
Lemma put_next {A} (x y z : A) a b : put (a ++ x :: y :: b) (S (length a)) z = a ++ x :: z :: b.
Proof. induction a as [|v a IH]; cbn; [reflexivity|]. f_equal. exact IH. Qed.
Lemma nth_next {A} (x : A) a b : nth_error (a ++ x :: b) (S (length a)) = nth_error b 0.
Proof. induction a as [|v a IH]; cbn; [destruct b; reflexivity|exact IH]. Qed.

Lemma sub_refl {A} (l : list A) : sub l l.
Proof. induction l; constructor; assumption. Qed.
Lemma sub_app {A} (a b c d : list A) : sub a b -> sub c d -> sub (a ++ c) (b ++ d).
Proof. induction 1; intros; cbn; try constructor; auto. Qed.
Lemma sub_trans {A} (b c : list A) : sub b c -> forall a, sub a b -> sub a c.
Proof.
  induction 1 as [|x b c H IH|x b c H IH]; intros a HA.
  - exact HA.
  - inversion HA; subst; constructor; auto.
  - constructor. auto.
Qed.
Lemma sub_drop {A} (a b c : list A) : sub (a ++ c) (a ++ b ++ c).
Proof. apply sub_app; [apply sub_refl|]. induction b; cbn; [apply sub_refl|constructor; assumption]. Qed.
Lemma sub_map {A B} (f : A -> B) a b : sub a b -> sub (map f a) (map f b).
Proof. induction 1; cbn; constructor; assumption. Qed.
Lemma sub_filter {A} (f : A -> bool) a b : sub a b -> sub (filter f a) (filter f b).
Proof. induction 1 as [|x a b H IH|x a b H IH]; cbn; [constructor| |]; destruct (f x); try constructor; assumption. Qed.
Lemma sub_prefix {A} (a b : list A) : sub a (a ++ b).
Proof. rewrite <- (app_nil_r a) at 1. apply sub_app; [apply sub_refl|]. induction b; constructor; assumption. Qed.

(** ---- a step of an emit ---- *)

Inductive pushes (s : state) (i j k who : nat) (d : delivery) : pushing -> state -> pushed -> list happening -> Prop :=
| pushes_none p : nth_error (g_queues s i j) k = None -> lookup (g_sinks s) i j = None -> pushes s i j k who d p s Returned []
| pushes_raise p x w x' e : nth_error (g_queues s i j) k = None -> lookup (g_sinks s) i j = Some x ->
    emit (g_world s) (d_tty d) (d_severity d) (d_text d) x (d_q d) = Some (w, x', Some e) ->
    pushes s i j k who d p (set_base s w (put_sink (g_sinks s) i j x')) (Raised e) [Reached i j d true]
| pushes_emit p x w x' : nth_error (g_queues s i j) k = None -> lookup (g_sinks s) i j = Some x ->
    emit (g_world s) (d_tty d) (d_severity d) (d_text d) x (d_q d) = Some (w, x', None) ->
    pushes s i j k who d p (set_base s w (put_sink (g_sinks s) i j x')) Returned [Reached i j d false]
| pushes_room l : nth_error (g_queues s i j) k = Some l -> (length (l_queue l) < AsyncModel.c_capacity (l_config l))%nat ->
    pushes s i j k who d Try (set_layer s i j k (set_queue l (l_queue l ++ [Reserved who d]))) (Going Fill) [Queued i j k d]
| pushes_full l : nth_error (g_queues s i j) k = Some l -> (AsyncModel.c_capacity (l_config l) <= length (l_queue l))%nat ->
    pushes s i j k who d Try s (Going Full) []
| pushes_fill l : nth_error (g_queues s i j) k = Some l ->
    pushes s i j k who d Fill (set_layer s i j k (set_queue l (publish (l_queue l) who))) Returned []
| pushes_retry l : nth_error (g_queues s i j) k = Some l -> AsyncModel.c_policy (l_config l) = AsyncModel.Wait ->
    pushes s i j k who d Full s (Going Try) []
| pushes_drop l : nth_error (g_queues s i j) k = Some l -> AsyncModel.c_policy (l_config l) = AsyncModel.Drop ->
    pushes s i j k who d Full s Returned [Dropped i j k d].

Lemma push_pushes s i j k who d p s' r tr : push s i j k who d p = Some (s', r, tr) -> pushes s i j k who d p s' r tr.
Proof.
  unfold push. rewrite sink_now_lookup. intros E. destruct (nth_error (g_queues s i j) k) as [l|] eqn:EL.
  - destruct p.
    + destruct (Nat.ltb_spec (length (l_queue l)) (AsyncModel.c_capacity (l_config l))); injection E as <- <- <-; econstructor; eassumption.
    + injection E as <- <- <-. econstructor; eassumption.
    + destruct (AsyncModel.c_policy (l_config l)) eqn:EP; cbn in E; injection E as <- <- <-; econstructor; eassumption.
  - destruct (lookup (g_sinks s) i j) as [x|] eqn:ES.
    + destruct (emit _ _ _ _ _ _) as [[[w x'] [e|]]|] eqn:EE; try discriminate; injection E as <- <- <-; econstructor; eassumption.
    + injection E as <- <- <-. constructor; assumption.
Qed.

Lemma queues_set s i j k l a b : g_queues (set_layer s i j k l) a b = if at_ a b i j then put (g_queues s i j) k l else g_queues s a b.
Proof. reflexivity. Qed.
Lemma at_refl i j : at_ i j i j = true.
Proof. unfold at_. rewrite !Nat.eqb_refl. reflexivity. Qed.
Lemma at_true a b i j : at_ a b i j = true -> a = i /\ b = j.
Proof. unfold at_. intros E. apply andb_prop in E as [E1 E2]. apply Nat.eqb_eq in E1, E2. auto. Qed.
Lemma at_false a b i j : at_ a b i j = false -> at_ i j a b = false.
Proof. unfold at_. rewrite (Nat.eqb_sym i a), (Nat.eqb_sym j b). auto. Qed.

Section Runs.
Variable dbl : FmtModel.spec -> N -> bytes.
Variable dbl_json : N -> bytes.
Variable double_of : bytes -> N.
Variable what : FmtModel.error -> bytes.
Variable json_fmt : bytes -> value -> option bytes.
Notation advance := (advance dbl dbl_json double_of what json_fmt).
Notation step := (step dbl dbl_json double_of what json_fmt).
Notation run := (run dbl dbl_json double_of what json_fmt).
Notation render := (render dbl dbl_json double_of what json_fmt).
Notation handled := (handled dbl dbl_json double_of what json_fmt).
Notation called := (called dbl dbl_json double_of what json_fmt).
Notation makes := (makes dbl dbl_json double_of what json_fmt).

(** What is true at the beginning and kept by steps is true at the end. *)
Lemma run_keeps (P : state -> list happening -> Prop) :
  (forall s tr a s' tr', P s tr -> step s a = Some (s', tr') -> P s' (tr ++ tr')) ->
  forall sched s tr s' tr', P s tr -> run s sched = Some (s', tr') -> P s' (tr ++ tr').
Proof.
  intros H. induction sched as [|a sched IH]; intros s tr s' tr' HP E; cbn [QueuedModel.run] in E.
  - injection E as <- <-. rewrite app_nil_r. exact HP.
  - destruct (step s a) as [[s1 tr1]|] eqn:ES; [|discriminate]. destruct (run s1 sched) as [[s2 tr2]|] eqn:ER; [|discriminate].
    injection E as <- <-. rewrite app_assoc. exact (IH _ _ _ _ (H _ _ _ _ _ HP ES) ER).
Qed.

Lemma run_app : forall s1 s2 s, run s (s1 ++ s2) =
  match run s s1 with None => None | Some (a, tr1) => match run a s2 with None => None | Some (b, tr2) => Some (b, tr1 ++ tr2) end end.
Proof.
  induction s1 as [|a s1 IH]; intros s2 s; cbn [app QueuedModel.run].
  - destruct (run s s2) as [[b tr2]|]; reflexivity.
  - destruct (step s a) as [[b tr1]|]; [|reflexivity]. rewrite IH. destruct (run b s1) as [[c tr2]|]; [|reflexivity].
    destruct (run c s2) as [[e tr3]|]; [|reflexivity]. rewrite app_assoc. reflexivity.
Qed.

(** ---- the queues of one sink ---- *)

Inductive label := In_ (d : delivery) | Out (d : delivery) | Lost (d : delivery).

Definition set_stopped (l : layer) : layer := Layer (l_config l) (l_queue l) true (l_worker l).
Inductive actor := ByUser (who : nat) | ByWorker | ByDestroyer.
(** What a step does to the queues of a sink; [dead]: it is the last one. *)
Inductive lstep : actor -> list layer -> bool -> list label -> list layer -> Prop :=
| l_refl o L : lstep o L false [] L
| l_direct who d : lstep (ByUser who) [] false [Out d] []
| l_in who d l B : (length (l_queue l) < AsyncModel.c_capacity (l_config l))%nat ->
    lstep (ByUser who) (l :: B) false [In_ d] (set_queue l (l_queue l ++ [Reserved who d]) :: B)
| l_publish who l B : lstep (ByUser who) (l :: B) false [] (set_queue l (publish (l_queue l) who) :: B)
| l_take A l B d q : l_worker l = Taking -> l_queue l = Ready d :: q ->
    lstep ByWorker (A ++ l :: B) false [] (A ++ set_worker (set_queue l q) (Checking (Some d)) :: B)
| l_miss A l B : l_worker l = Taking -> (forall d q, l_queue l <> Ready d :: q) ->
    lstep ByWorker (A ++ l :: B) false [] (A ++ set_worker l (Checking None) :: B)
| l_hold A l B d : l_worker l = Checking (Some d) -> lstep ByWorker (A ++ l :: B) false [] (A ++ set_worker l (Emitting d Try) :: B)
| l_check A l B : l_worker l = Checking None ->
    lstep ByWorker (A ++ l :: B) false [] (A ++ set_worker l (if l_stopped l then Exited else Taking) :: B)
| l_out A l d p : l_worker l = Emitting d p -> lstep ByWorker (A ++ [l]) false [Out d] (A ++ [set_worker l Taking])
| l_die A l d p : l_worker l = Emitting d p -> lstep ByWorker (A ++ [l]) true [Out d] (A ++ [set_worker l Exited])
| l_move A l m B d : l_worker l = Emitting d Try -> (length (l_queue m) < AsyncModel.c_capacity (l_config m))%nat ->
    lstep ByWorker (A ++ l :: m :: B) false [] (A ++ set_worker l (Emitting d Fill) :: set_queue m (l_queue m ++ [Reserved 0 d]) :: B)
| l_full A l m B d : l_worker l = Emitting d Try -> lstep ByWorker (A ++ l :: m :: B) false [] (A ++ set_worker l (Emitting d Full) :: m :: B)
| l_fill A l m B d : l_worker l = Emitting d Fill ->
    lstep ByWorker (A ++ l :: m :: B) false [] (A ++ set_worker l Taking :: set_queue m (publish (l_queue m) 0) :: B)
| l_retry A l m B d : l_worker l = Emitting d Full -> lstep ByWorker (A ++ l :: m :: B) false [] (A ++ set_worker l (Emitting d Try) :: m :: B)
| l_drop A l m B d : l_worker l = Emitting d Full -> AsyncModel.c_policy (l_config m) = AsyncModel.Drop ->
    lstep ByWorker (A ++ l :: m :: B) false [Lost d] (A ++ set_worker l Taking :: m :: B)
| l_stop A l B : lstep ByDestroyer (A ++ l :: B) false [] (A ++ set_stopped l :: B).

(** The labels of a trace. *)
Definition label_of (i j : nat) (h : happening) : list label :=
  match h with
  | Reached i' j' d _ => if at_ i' j' i j then [Out d] else []
  | Queued i' j' 0 d => if at_ i' j' i j then [In_ d] else []
  | Dropped i' j' (S _) d => if at_ i' j' i j then [Lost d] else []
  | _ => []
  end.
Definition labels (i j : nat) (tr : list happening) : list label := flat_map (label_of i j) tr.
Lemma labels_app i j a b : labels i j (a ++ b) = labels i j a ++ labels i j b.
Proof. apply flat_map_app. Qed.

(** Sinks that are not there have no queues. *)
Definition placed (s : state) : Prop := forall i j, lookup (g_sinks s) i j = None -> g_queues s i j = [].

(** Happenings elsewhere. *)
Definition at_place (i j : nat) (h : happening) : Prop :=
  match h with
  | Own _ => True
  | Reached a b _ _ | Queued a b _ _ | Dropped a b _ _ | Stopping a b _ _ _ | Terminated a b _ _ => a = i /\ b = j
  end.
Lemma labels_other i j a b tr : at_ a b i j = false -> Forall (at_place a b) tr -> labels i j tr = [].
Proof.
  intros E F. apply flat_map_single_other. intros h Hh. rewrite Forall_forall in F. specialize (F h Hh).
  destruct h as [h|a' b' d x|a' b' k d|a' b' k d|a' b' k x n|a' b' k e]; cbn in F |- *; try reflexivity; destruct F as [-> ->]; rewrite ?E; destruct k || idtac; reflexivity.
Qed.

Lemma pushes_place s i j k who d p s' r tr : pushes s i j k who d p s' r tr -> Forall (at_place i j) tr.
Proof. destruct 1; repeat constructor. Qed.

Lemma pushes_queues s i j k who d p s' r tr : pushes s i j k who d p s' r tr -> forall a b, at_ a b i j = false -> g_queues s' a b = g_queues s a b.
Proof. destruct 1; intros a b NE; try reflexivity; rewrite queues_set, NE; reflexivity. Qed.
Lemma pushes_rest s i j k who d p s' r tr : pushes s i j k who d p s' r tr ->
  g_threads s' = g_threads s /\ g_todo s' = g_todo s /\ g_dead s' = g_dead s /\ shape (g_sinks s') = shape (g_sinks s).
Proof. destruct 1; repeat split; apply put_sink_shape. Qed.

Lemma pushes_user s i j who d p s' r tr : pushes s i j 0 who d p s' r tr -> placed s ->
  lstep (ByUser who) (g_queues s i j) false (labels i j tr) (g_queues s' i j) /\
  (g_queues s i j = [] -> lookup (g_sinks s) i j <> None -> labels i j tr = [Out d]).
Proof.
  intros P PL. destruct P as [p HN HL|p x w x' e HN HL HE|p x w x' HN HL HE|l HN HC|l HN HC|l HN|l HN HP|l HN HP]; cbn [labels flat_map label_of app];
    rewrite ?at_refl; cbn [app].
  - split; [constructor|contradiction].
  - split; [|reflexivity]. cbn. destruct (g_queues s i j); [constructor|discriminate].
  - split; [|reflexivity]. cbn. destruct (g_queues s i j); [constructor|discriminate].
  - split; [|intros E; rewrite E in HN; discriminate]. rewrite queues_set, at_refl. destruct (g_queues s i j) as [|m B]; [discriminate|].
    injection HN as ->. constructor. exact HC.
  - split; [constructor|]. intros E; rewrite E in HN; discriminate.
  - split; [|intros E; rewrite E in HN; discriminate]. rewrite queues_set, at_refl. destruct (g_queues s i j) as [|m B]; [discriminate|].
    injection HN as ->. constructor.
  - split; [constructor|]. intros E; rewrite E in HN; discriminate.
  - split; [constructor|]. intros E; rewrite E in HN; discriminate.
Qed.

Lemma work_local s i j k s' tr : work s i j k = Some (s', tr) -> placed s -> g_dead s = false ->
  Forall (at_place i j) tr /\ (forall a b, at_ a b i j = false -> g_queues s' a b = g_queues s a b) /\
  g_threads s' = g_threads s /\ g_todo s' = g_todo s /\ shape (g_sinks s') = shape (g_sinks s) /\
  lstep ByWorker (g_queues s i j) (g_dead s') (labels i j tr) (g_queues s' i j).
Proof.
  unfold work. intros E PL D. destruct (nth_error (g_queues s i j) k) as [l|] eqn:EL.
  2:{ injection E as <- <-. rewrite D. repeat split; constructor. }
  assert (SET : forall l', Some (set_layer s i j k l', []) = Some (s', tr) -> (forall A B, g_queues s i j = A ++ l :: B -> lstep ByWorker (A ++ l :: B) false [] (A ++ l' :: B)) ->
    Forall (at_place i j) tr /\ (forall a b, at_ a b i j = false -> g_queues s' a b = g_queues s a b) /\
    g_threads s' = g_threads s /\ g_todo s' = g_todo s /\ shape (g_sinks s') = shape (g_sinks s) /\
    lstep ByWorker (g_queues s i j) (g_dead s') (labels i j tr) (g_queues s' i j)).
  { intros l' E' H. injection E' as <- <-. split; [constructor|]. split; [intros a b NE; rewrite queues_set, NE; reflexivity|].
    repeat (split; [reflexivity|]). cbn [g_dead set_layer]. rewrite D. rewrite queues_set, at_refl.
    destruct (put_split l l' _ _ EL) as (A & B & EQ & _ & ->). rewrite EQ. apply H. exact EQ. }
  destruct (l_worker l) as [|[d|]|d p|] eqn:EW.
  - destruct (l_queue l) as [|[who d|d] q] eqn:EQ; (eapply SET; [exact E|]); intros A B _; try (apply l_miss; [exact EW|rewrite EQ; discriminate]).
    apply l_take; assumption.
  - eapply SET; [exact E|]. intros A B _. apply l_hold; exact EW.
  - eapply SET; [exact E|]. intros A B _. apply l_check; exact EW.
  - destruct (push s i j (S k) 0 d p) as [[[s1 r] tr1]|] eqn:EP; [|discriminate]. pose proof (push_pushes _ _ _ _ _ _ _ _ _ _ EP) as P. clear EP.
    pose proof (pushes_queues _ _ _ _ _ _ _ _ _ _ P) as PQ. pose proof (pushes_rest _ _ _ _ _ _ _ _ _ _ P) as (R1 & R2 & R3 & R4).
    pose proof (pushes_place _ _ _ _ _ _ _ _ _ _ P) as PP. rewrite D in R3.
    assert (GEN : exists l' dead, g_dead s' = dead /\ g_queues s' i j = put (g_queues s1 i j) k l' /\ (forall a b, at_ a b i j = false -> g_queues s' a b = g_queues s1 a b) /\
        g_threads s' = g_threads s1 /\ g_todo s' = g_todo s1 /\ g_sinks s' = g_sinks s1 /\
        Forall (at_place i j) tr /\ labels i j tr = labels i j tr1 /\ l' = set_worker l (match r with Going p' => Emitting d p' | Returned => Taking | Raised _ => Exited end) /\
        dead = match r with Raised _ => true | _ => false end).
    { destruct r as [p'| |e]; injection E as <- <-; eexists _, _; (split; [reflexivity|]).
      1,2: split; [rewrite queues_set, at_refl; reflexivity|]; split; [intros a b NE; rewrite queues_set, NE; reflexivity|]; cbn [g_dead set_layer]; rewrite R3; auto 8.
      split; [cbn [die g_queues]; rewrite queues_set, at_refl; reflexivity|]. split; [intros a b NE; cbn [die g_queues]; rewrite queues_set, NE; reflexivity|].
      do 3 (split; [reflexivity|]). split; [apply Forall_app; split; [exact PP|repeat constructor]|]. split; [|auto].
      rewrite labels_app. cbn. apply app_nil_r. }
    destruct GEN as (l' & dead & G1 & G2 & G3 & G4 & G5 & G6 & G7 & G8 & G9 & G10).
    split; [exact G7|]. split; [intros a b NE; rewrite (G3 a b NE); apply PQ; exact NE|]. rewrite G4, G5, G6.
    do 3 (split; [assumption|]). rewrite G1, G2, G8. clear E G1 G2 G3 G4 G5 G6 G7 G8.
    destruct (put_split l l' _ _ EL) as (A & B & EQ & LA & EPUT).
    destruct P as [p HN HL|p x w x' e HN HL HE|p x w x' HN HL HE|m HN HC|m HN HC|m HN|m HN HP|m HN HP]; cbn [labels flat_map label_of app];
      rewrite ?at_refl; cbn [app]; cbv iota in G9, G10; subst l' dead.
    + rewrite (PL i j HL) in EL. destruct k; discriminate.
    + cbn [set_base g_queues]. rewrite EPUT, EQ. rewrite EQ, <- LA, nth_next in HN. destruct B as [|m B]; [|discriminate]. eapply l_die; exact EW.
    + cbn [set_base g_queues]. rewrite EPUT, EQ. rewrite EQ, <- LA, nth_next in HN. destruct B as [|m B]; [|discriminate]. eapply l_out; exact EW.
    + rewrite queues_set, at_refl, EQ, <- LA. rewrite EQ, <- LA, nth_next in HN. destruct B as [|m' B]; [discriminate|]. cbn in HN. injection HN as ->.
      rewrite put_next, put_mid. apply l_move; assumption.
    + rewrite EPUT, EQ. rewrite EQ, <- LA, nth_next in HN. destruct B as [|m' B]; [discriminate|]. cbn in HN. injection HN as ->. apply l_full; assumption.
    + rewrite queues_set, at_refl, EQ, <- LA. rewrite EQ, <- LA, nth_next in HN. destruct B as [|m' B]; [discriminate|]. cbn in HN. injection HN as ->.
      rewrite put_next, put_mid. eapply l_fill; exact EW.
    + rewrite EPUT, EQ. rewrite EQ, <- LA, nth_next in HN. destruct B as [|m' B]; [discriminate|]. cbn in HN. injection HN as ->. apply l_retry; assumption.
    + rewrite EPUT, EQ. rewrite EQ, <- LA, nth_next in HN. destruct B as [|m' B]; [discriminate|]. cbn in HN. injection HN as ->. apply l_drop; assumption.
  - injection E as <- <-. rewrite D. repeat split; constructor.
Qed.

(** A step of a thread is one in an emit, or does nothing to the sinks. *)
Inductive advances (s : state) (t : nat) (now : Z) (x : qthread) : state -> list happening -> Prop :=
| adv_end : q_stage x = QIdle -> q_calls x = [] -> advances s t now x s []
| adv_throw c rest e : q_stage x = QIdle -> q_calls x = c :: rest -> c_supplier c = Throw e ->
    advances s t now x (set_thread s t (QThread rest QIdle)) [Own (Began t now)]
| adv_call c rest m : q_stage x = QIdle -> q_calls x = c :: rest -> c_supplier c = Ret m ->
    advances s t now x (set_thread s t (QThread rest (QHandling (stamp c now)
      (activate (record_new (c_severity c) (c_pattern c) (c_tid c) (c_pack c ++ c_scoped c)) m now) 0))) [Own (Began t now)]
| adv_done c r i : q_stage x = QHandling c r i -> nth_error (g_sinks s) i = None -> advances s t now x (set_thread s t (QThread (q_calls x) QIdle)) []
| adv_raise c r i f l e : q_stage x = QHandling c r i -> nth_error (g_sinks s) i = Some (f, l) -> render f (c_env c) r = Raises e ->
    advances s t now x (set_thread s t (QThread (q_calls x) (QPrinting c r i (pieces e)))) [Own (Did t (Complained i e))]
| adv_text c r i f l text : q_stage x = QHandling c r i -> nth_error (g_sinks s) i = Some (f, l) -> render f (c_env c) r = Text text ->
    advances s t now x (set_thread s t (QThread (q_calls x) (QSinking c r i text 0 Try))) []
| adv_over c r i text j p : q_stage x = QSinking c r i text j p -> lookup (g_sinks s) i j = None ->
    advances s t now x (set_thread s t (QThread (q_calls x) (QHandling c r (S i)))) []
| adv_going c r i text j p s' p' tr : q_stage x = QSinking c r i text j p -> lookup (g_sinks s) i j <> None ->
    pushes s i j 0 t (Delivery t (e_tty (c_env c)) (r_severity r) text (c_circumstances c i j)) p s' (Going p') tr ->
    advances s t now x (set_thread s' t (QThread (q_calls x) (QSinking c r i text j p'))) tr
| adv_returned c r i text j p s' tr : q_stage x = QSinking c r i text j p -> lookup (g_sinks s) i j <> None ->
    pushes s i j 0 t (Delivery t (e_tty (c_env c)) (r_severity r) text (c_circumstances c i j)) p s' Returned tr ->
    advances s t now x (set_thread s' t (QThread (q_calls x) (QSinking c r i text (S j) Try)))
      (tr ++ [Own (Did t (Emitted i j (r_severity r) text (c_circumstances c i j) false))])
| adv_raised c r i text j p s' e tr : q_stage x = QSinking c r i text j p -> lookup (g_sinks s) i j <> None ->
    pushes s i j 0 t (Delivery t (e_tty (c_env c)) (r_severity r) text (c_circumstances c i j)) p s' (Raised e) tr ->
    advances s t now x (set_thread s' t (QThread (q_calls x) (QPrinting c r i (pieces e))))
      (tr ++ [Own (Did t (Emitted i j (r_severity r) text (c_circumstances c i j) true)); Own (Did t (Complained i e))])
| adv_printed c r i : q_stage x = QPrinting c r i [] -> advances s t now x (set_thread s t (QThread (q_calls x) (QHandling c r (S i)))) []
| adv_print c r i p rest : q_stage x = QPrinting c r i (p :: rest) ->
    advances s t now x (set_thread (set_base s (World (w_files (g_world s)) (w_stdout (g_world s) ++ p) (w_datagrams (g_world s)) (w_tcp (g_world s)) (w_syslog (g_world s)))
      (g_sinks s)) t (QThread (q_calls x) (QPrinting c r i rest))) [Own (Wrote t p)].

Lemma advance_advances s t now x s' tr : advance s t now x = Some (s', tr) -> advances s t now x s' tr.
Proof.
  unfold QueuedModel.advance. rewrite ?sink_now_lookup. intros E. destruct (q_stage x) as [|c r i|c r i text j p|c r i [|p ps]] eqn:ST.
  - destruct (q_calls x) as [|c rest] eqn:EC; [injection E as <- <-; apply adv_end; assumption|]. cbv zeta in E.
    destruct (c_supplier (stamp c now)) as [m|e] eqn:ES; injection E as <- <-; [eapply adv_call|eapply adv_throw]; eassumption.
  - destruct (nth_error (g_sinks s) i) as [[f l]|] eqn:EN; [|injection E as <- <-; eapply adv_done; eassumption].
    destruct (render f (c_env c) r) as [text|e|] eqn:ER; try discriminate; injection E as <- <-; [eapply adv_text|eapply adv_raise]; eassumption.
  - rewrite sink_now_lookup in E. destruct (lookup (g_sinks s) i j) as [y|] eqn:EN; [|injection E as <- <-; eapply adv_over; eassumption]. cbv zeta in E.
    assert (NN : lookup (g_sinks s) i j <> None) by congruence.
    destruct (push _ _ _ _ _ _ _) as [[[s1 [p'| |e]] tr1]|] eqn:EP; try discriminate; apply push_pushes in EP; injection E as <- <-.
    + eapply adv_going; eassumption.
    + eapply adv_returned; eassumption.
    + eapply adv_raised; eassumption.
  - injection E as <- <-. eapply adv_printed; eassumption.
  - injection E as <- <-. eapply adv_print; eassumption.
Qed.

(** The place a thread is busy at. *)
Lemma advances_local s t now x s' tr : advances s t now x s' tr -> placed s -> g_dead s = false ->
  g_todo s' = g_todo s /\ g_dead s' = false /\ shape (g_sinks s') = shape (g_sinks s) /\
  (s' = s \/ exists x', g_threads s' = put (g_threads s) t x') /\
  forall i j, lstep (ByUser t) (g_queues s i j) false (labels i j tr) (g_queues s' i j).
Proof.
  intros AD PL D.
  destruct AD as [H1 H2|c rest e H1 H2 H3|c rest m H1 H2 H3|c r i H1 H2|c r i f l e H1 H2 H3|c r i f l text H1 H2 H3|c r i text j p H1 H2
    |c r i text j p s1 p' tr H1 H2 P|c r i text j p s1 tr H1 H2 P|c r i text j p s1 e tr H1 H2 P|c r i H1|c r i p rest H1];
    try (split; [reflexivity|]; split; [exact D|]; split; [reflexivity|]; split; [right; eexists; reflexivity|]; intros; constructor).
  - split; [reflexivity|]. split; [exact D|]. split; [reflexivity|]. split; [left; reflexivity|]. intros; constructor.
  - destruct (pushes_rest _ _ _ _ _ _ _ _ _ _ P) as (R1 & R2 & R3 & R4). split; [exact R2|]. split; [cbn; congruence|]. split; [exact R4|].
    split; [right; eexists; cbn [set_thread g_threads]; rewrite R1; reflexivity|]. intros a b. cbn [set_thread g_queues].
    destruct (at_ a b i j) eqn:E.
    + apply at_true in E as [-> ->]. exact (proj1 (pushes_user _ _ _ _ _ _ _ _ _ P PL)).
    + rewrite (labels_other a b i j _ (at_false _ _ _ _ E) (pushes_place _ _ _ _ _ _ _ _ _ _ P)). rewrite (pushes_queues _ _ _ _ _ _ _ _ _ _ P a b E). constructor.
  - destruct (pushes_rest _ _ _ _ _ _ _ _ _ _ P) as (R1 & R2 & R3 & R4). split; [exact R2|]. split; [cbn; congruence|]. split; [exact R4|].
    split; [right; eexists; cbn [set_thread g_threads]; rewrite R1; reflexivity|]. intros a b. cbn [set_thread g_queues].
    rewrite labels_app. cbn [labels flat_map label_of app]. rewrite app_nil_r. destruct (at_ a b i j) eqn:E.
    + apply at_true in E as [-> ->]. exact (proj1 (pushes_user _ _ _ _ _ _ _ _ _ P PL)).
    + rewrite (labels_other a b i j _ (at_false _ _ _ _ E) (pushes_place _ _ _ _ _ _ _ _ _ _ P)). rewrite (pushes_queues _ _ _ _ _ _ _ _ _ _ P a b E). constructor.
  - destruct (pushes_rest _ _ _ _ _ _ _ _ _ _ P) as (R1 & R2 & R3 & R4). split; [exact R2|]. split; [cbn; congruence|]. split; [exact R4|].
    split; [right; eexists; cbn [set_thread g_threads]; rewrite R1; reflexivity|]. intros a b. cbn [set_thread g_queues].
    rewrite labels_app. cbn [labels flat_map label_of app]. rewrite app_nil_r. destruct (at_ a b i j) eqn:E.
    + apply at_true in E as [-> ->]. exact (proj1 (pushes_user _ _ _ _ _ _ _ _ _ P PL)).
    + rewrite (labels_other a b i j _ (at_false _ _ _ _ E) (pushes_place _ _ _ _ _ _ _ _ _ _ P)). rewrite (pushes_queues _ _ _ _ _ _ _ _ _ _ P a b E). constructor.
Qed.

Lemma destroy_local s s' tr : destroy s = (s', tr) ->
  g_threads s' = g_threads s /\ g_sinks s' = g_sinks s /\ g_world s' = g_world s /\ g_dead s' = g_dead s /\
  forall i j, labels i j tr = [] /\ lstep ByDestroyer (g_queues s i j) false [] (g_queues s' i j).
Proof.
  unfold destroy. intros E. destruct (forallb idle (g_threads s)); [|injection E as <- <-; repeat split; constructor].
  destruct (g_todo s) as [|[i j k|i j k] rest]; [injection E as <- <-; repeat split; constructor| |].
  - destruct (nth_error (g_queues s i j) k) as [l|] eqn:EL; [|injection E as <- <-; repeat split; constructor].
    injection E as <- <-. do 4 (split; [reflexivity|]). intros a b. split; [reflexivity|]. cbn [set_todo g_queues]. rewrite queues_set.
    destruct (at_ a b i j) eqn:E; [|constructor]. apply at_true in E as [-> ->].
    destruct (put_split l (Layer (l_config l) (l_queue l) true (l_worker l)) _ _ EL) as (A & B & EQ & _ & ->). rewrite EQ. apply l_stop.
  - destruct (nth_error (g_queues s i j) k) as [l|]; [destruct (l_worker l)|]; injection E as <- <-; repeat split; constructor.
Qed.

Lemma lookup_none_shape a b i j : shape a = shape b -> lookup a i j = None -> lookup b i j = None.
Proof.
  intros S. unfold lookup. assert (N : nth_error (shape a) i = nth_error (shape b) i) by congruence. unfold shape in N. rewrite !nth_error_map in N.
  destruct (nth_error a i) as [[f l]|], (nth_error b i) as [[g m]|]; cbn in N; try discriminate; auto.
  injection N as _ N. rewrite !nth_error_None. lia.
Qed.

(** Any step, seen from one sink. *)
Lemma step_local s a s' tr : step s a = Some (s', tr) -> placed s ->
  shape (g_sinks s') = shape (g_sinks s) /\
  forall i j, exists o b, lstep o (g_queues s i j) b (labels i j tr) (g_queues s' i j) /\ (b = true -> g_dead s' = true).
Proof.
  unfold QueuedModel.step. intros E PL. destruct (g_dead s) eqn:D.
  { injection E as <- <-. split; [reflexivity|]. intros i j. exists ByWorker, false. split; [constructor|discriminate]. }
  destruct a as [t now|i j k|].
  - destruct (nth_error (g_threads s) t) as [x|].
    + destruct (advances_local _ _ _ _ _ _ (advance_advances _ _ _ _ _ _ E) PL D) as (_ & _ & S & _ & H). split; [exact S|].
      intros i j. exists (ByUser t), false. split; [apply H|discriminate].
    + injection E as <- <-. split; [reflexivity|]. intros i j. exists ByWorker, false. split; [constructor|discriminate].
  - destruct (work_local _ _ _ _ _ _ E PL D) as (F & Q & _ & _ & S & H). split; [exact S|]. intros a b. destruct (at_ a b i j) eqn:EA.
    + apply at_true in EA as [-> ->]. exists ByWorker, (g_dead s'). split; [exact H|auto].
    + exists ByWorker, false. rewrite (Q a b EA), (labels_other a b i j _ (at_false _ _ _ _ EA) F). split; [constructor|discriminate].
  - destruct (destroy s) as [s1 tr1] eqn:ED. injection E as <- <-. destruct (destroy_local _ _ _ ED) as (_ & S & _ & _ & H). split; [rewrite S; reflexivity|].
    intros i j. destruct (H i j) as [-> HL]. exists ByDestroyer, false. split; [exact HL|discriminate].
Qed.

Lemma lstep_nil o b lab L : lstep o [] b lab L -> L = [].
Proof. intros H. inversion H; subst; try reflexivity; try (match goal with H : ?A ++ _ = [] |- _ => destruct A; discriminate end). Qed.
Lemma step_placed s a s' tr : step s a = Some (s', tr) -> placed s -> placed s'.
Proof.
  intros E PL i j HN. destruct (step_local _ _ _ _ E PL) as [S H]. destruct (H i j) as (o & b & HL & _).
  rewrite (PL i j (lookup_none_shape _ _ _ _ S HN)) in HL. exact (lstep_nil _ _ _ _ HL).
Qed.

(** ---- nothing is lost or invented on the way ---- *)

Definition cell_of (c : cell) : delivery := match c with Reserved _ d | Ready d => d end.
Definition held (w : worker) : list delivery :=
  match w with Checking (Some d) => [d] | Emitting d Fill => [] | Emitting d _ => [d] | _ => [] end.
Definition own_of (l : layer) : list delivery := held (l_worker l) ++ map cell_of (l_queue l).
Fixpoint flight (L : list layer) : list delivery := match L with [] => [] | l :: L' => flight L' ++ own_of l end.
Lemma flight_app A : forall B, flight (A ++ B) = flight B ++ flight A.
Proof. induction A as [|l A IH]; intros B; cbn [app flight]; [rewrite app_nil_r; reflexivity|]. rewrite IH, app_assoc. reflexivity. Qed.

(** The last worker is never inside of a queue. *)
Fixpoint last_ok (L : list layer) : Prop :=
  match L with
  | [] => True
  | [l] => match l_worker l with Emitting _ p => p = Try | _ => True end
  | _ :: L' => last_ok L'
  end.
Lemma last_ok_app A l B : last_ok (A ++ l :: B) <-> last_ok (l :: B).
Proof.
  induction A as [|m A IH]; [reflexivity|]. cbn [app]. rewrite <- IH. destruct (A ++ l :: B) eqn:E; [destruct A; discriminate|]. reflexivity.
Qed.

Definition ins (lab : list label) : list delivery := flat_map (fun x => match x with In_ d => [d] | _ => [] end) lab.
Definition outs (lab : list label) : list delivery := flat_map (fun x => match x with Out d => [d] | _ => [] end) lab.
Definition losts (lab : list label) : list delivery := flat_map (fun x => match x with Lost d => [d] | _ => [] end) lab.
Definition inner_wait (L : list layer) : Prop := Forall (fun l => AsyncModel.c_policy (l_config l) = AsyncModel.Wait) (tl L).

Lemma publish_items q who : map cell_of (publish q who) = map cell_of q.
Proof. induction q as [|[w d|d] q IH]; cbn; [reflexivity| |]; [destruct (Nat.eqb w who)|]; cbn; rewrite ?IH; reflexivity. Qed.

(** What goes in is what comes out, is lost, or is on the way. *)
Lemma lstep_flow o L b lab L' : lstep o L b lab L' -> last_ok L -> L <> [] ->
  last_ok L' /\ map l_config L' = map l_config L /\
  ((flight L ++ ins lab = outs lab ++ flight L' /\ losts lab = []) \/
   (exists a d c, lab = [Lost d] /\ flight L = a ++ d :: c /\ flight L' = a ++ c /\ ~ inner_wait L)).
Proof.
  intros S LO NE.
  assert (AT : forall A l l' B, l_config l' = l_config l -> own_of l' = own_of l -> last_ok (A ++ l :: B) ->
      (B = [] -> match l_worker l' with Emitting _ p => p = Try | _ => True end) ->
      last_ok (A ++ l' :: B) /\ map l_config (A ++ l' :: B) = map l_config (A ++ l :: B) /\ flight (A ++ l' :: B) = flight (A ++ l :: B)).
  { intros A l l' B C O LO' LB. rewrite last_ok_app in *. split.
    - destruct B; [cbn; apply LB; reflexivity|exact LO'].
    - rewrite !map_app, !flight_app. cbn [map flight]. rewrite C, O. auto. }
  destruct S as [o L|who d|who d l B HC|who l B|A l B d q HW HQ|A l B HW HQ|A l B d HW|A l B HW|A l d p HW|A l d p HW|A l m B d HW HC|A l m B d HW|A l m B d HW|A l m B d HW|A l m B d HW HP|A l B].
  - split; [exact LO|]. split; [reflexivity|]. left. cbn. rewrite app_nil_r. auto.
  - contradiction.
  - split; [|split; [reflexivity|]].
    + destruct B; exact LO.
    + left. split; [|reflexivity]. cbn [flight ins outs flat_map app]. unfold own_of. cbn [set_queue l_worker l_queue]. rewrite map_app. cbn. rewrite !app_assoc. reflexivity.
  - split; [destruct B; exact LO|]. split; [reflexivity|]. left. split; [|reflexivity]. cbn [flight ins outs flat_map app]. unfold own_of. cbn [set_queue l_worker l_queue].
    rewrite publish_items, app_nil_r. reflexivity.
  - destruct (AT A l (set_worker (set_queue l q) (Checking (Some d))) B) as (P1 & P2 & P3); auto.
    + unfold own_of. cbn. rewrite HW, HQ. reflexivity.
    + cbn. auto.
    + split; [exact P1|]. split; [exact P2|]. left. cbn. rewrite P3, app_nil_r. auto.
  - destruct (AT A l (set_worker l (Checking None)) B) as (P1 & P2 & P3); auto.
    + unfold own_of. cbn. rewrite HW. reflexivity.
    + cbn. auto.
    + split; [exact P1|]. split; [exact P2|]. left. cbn. rewrite P3, app_nil_r. auto.
  - destruct (AT A l (set_worker l (Emitting d Try)) B) as (P1 & P2 & P3); auto.
    + unfold own_of. cbn. rewrite HW. reflexivity.
    + cbn. auto.
    + split; [exact P1|]. split; [exact P2|]. left. cbn. rewrite P3, app_nil_r. auto.
  - destruct (AT A l (set_worker l (if l_stopped l then Exited else Taking)) B) as (P1 & P2 & P3); auto.
    + unfold own_of. cbn. rewrite HW. destruct (l_stopped l); reflexivity.
    + cbn. destruct (l_stopped l); auto.
    + split; [exact P1|]. split; [exact P2|]. left. cbn. rewrite P3, app_nil_r. auto.
  - rewrite last_ok_app in *. cbn in LO. rewrite HW in LO. subst p. split; [exact I|]. split; [rewrite !map_app; reflexivity|]. left.
    split; [|reflexivity]. rewrite !flight_app. cbn [flight ins outs flat_map app]. unfold own_of. cbn. rewrite HW, app_nil_r. reflexivity.
  - rewrite last_ok_app in *. cbn in LO. rewrite HW in LO. subst p. split; [exact I|]. split; [rewrite !map_app; reflexivity|]. left.
    split; [|reflexivity]. rewrite !flight_app. cbn [flight ins outs flat_map app]. unfold own_of. cbn. rewrite HW, app_nil_r. reflexivity.
  - rewrite last_ok_app in *. split; [destruct B; exact LO|]. split; [rewrite !map_app; reflexivity|]. left. split; [|reflexivity].
    rewrite !flight_app. cbn [flight ins outs flat_map app]. unfold own_of. cbn. rewrite HW, map_app. cbn. rewrite <- !app_assoc, app_nil_r. reflexivity.
  - rewrite last_ok_app in *. split; [destruct B; exact LO|]. split; [rewrite !map_app; reflexivity|]. left. split; [|reflexivity].
    rewrite !flight_app. cbn [flight ins outs flat_map app]. unfold own_of. cbn. rewrite HW, app_nil_r. reflexivity.
  - rewrite last_ok_app in *. split; [destruct B; exact LO|]. split; [rewrite !map_app; reflexivity|]. left. split; [|reflexivity].
    rewrite !flight_app. cbn [flight ins outs flat_map app]. unfold own_of. cbn. rewrite HW, publish_items, app_nil_r. reflexivity.
  - rewrite last_ok_app in *. split; [destruct B; exact LO|]. split; [rewrite !map_app; reflexivity|]. left. split; [|reflexivity].
    rewrite !flight_app. cbn [flight ins outs flat_map app]. unfold own_of. cbn. rewrite HW, app_nil_r. reflexivity.
  - rewrite last_ok_app in *. split; [destruct B; exact LO|]. split; [rewrite !map_app; reflexivity|]. right.
    exists (flight (m :: B)), d, (map cell_of (l_queue l) ++ flight A). split; [reflexivity|]. rewrite !flight_app. cbn [flight]. unfold own_of. cbn. rewrite HW.
    split; [rewrite <- !app_assoc; reflexivity|]. split; [rewrite <- !app_assoc; reflexivity|].
    intros W. unfold inner_wait in W. assert (HI : In m (tl (A ++ l :: m :: B))) by (destruct A; cbn; [left; reflexivity|apply in_or_app; right; right; left; reflexivity]).
    rewrite Forall_forall in W. specialize (W m HI). congruence.
  - destruct (AT A l (set_stopped l) B) as (P1 & P2 & P3); auto.
    + intros ->. rewrite last_ok_app in LO. exact LO.
    + split; [exact P1|]. split; [exact P2|]. left. cbn. rewrite P3, app_nil_r. auto.
Qed.

Definition conf_wait (l : list AsyncModel.config) : Prop := Forall (fun c => AsyncModel.c_policy c = AsyncModel.Wait) l.
Lemma inner_wait_conf L l : map l_config L = l -> conf_wait (tl l) -> inner_wait L.
Proof.
  intros <- H. unfold inner_wait, conf_wait in *. destruct L as [|x L]; cbn in *; [constructor|].
  rewrite Forall_map in H. exact H.
Qed.

(** What is true of the queues of a sink after a run. *)
Definition flow (confs : list AsyncModel.config) (L : list layer) (lab : list label) : Prop :=
  map l_config L = confs /\ last_ok L /\
  (L = [] \/
   (Permutation (ins lab) (outs lab ++ losts lab ++ flight L) /\ sub (outs lab ++ flight L) (ins lab) /\
    (conf_wait (tl confs) -> ins lab = outs lab ++ flight L /\ losts lab = []))).

Lemma ins_app a b : ins (a ++ b) = ins a ++ ins b. Proof. apply flat_map_app. Qed.
Lemma outs_app a b : outs (a ++ b) = outs a ++ outs b. Proof. apply flat_map_app. Qed.
Lemma losts_app a b : losts (a ++ b) = losts a ++ losts b. Proof. apply flat_map_app. Qed.

Lemma flow_step confs L lab o b lab' L' : flow confs L lab -> lstep o L b lab' L' -> flow confs L' (lab ++ lab').
Proof.
  intros (C & LO & F) S. destruct L as [|l L].
  { apply lstep_nil in S as ->. split; [exact C|]. split; [exact I|]. left; reflexivity. }
  destruct F as [F|(F1 & F2 & F3)]; [discriminate|]. destruct (lstep_flow _ _ _ _ _ S LO) as (LO' & C' & H); [discriminate|].
  split; [congruence|]. split; [exact LO'|]. right. rewrite ins_app, outs_app, losts_app.
  destruct H as [[E1 E2]|(a & d & c & -> & E1 & E2 & NW)].
  - rewrite E2, app_nil_r. split; [|split].
    + transitivity ((outs lab ++ losts lab ++ flight (l :: L)) ++ ins lab'); [apply Permutation_app_tail; exact F1|].
      rewrite <- !app_assoc, E1. apply Permutation_app_head. rewrite !app_assoc. apply Permutation_app_tail. apply Permutation_app_comm.
    + rewrite <- app_assoc, <- E1, app_assoc. apply sub_app; [exact F2|apply sub_refl].
    + intros W. destruct (F3 W) as [F4 F5]. split; [|exact F5]. rewrite F4, <- !app_assoc, E1. reflexivity.
  - cbn [ins outs losts flat_map app]. rewrite !app_nil_r, E2. rewrite E1 in F1, F2. split; [|split].
    + rewrite F1. apply Permutation_app_head. rewrite <- app_assoc. apply Permutation_app_head. cbn [app]. symmetry. apply Permutation_middle.
    + eapply sub_trans; [exact F2|]. rewrite !app_assoc. change (d :: c) with ([d] ++ c). apply sub_drop.
    + intros W. exfalso. apply NW. exact (inner_wait_conf _ _ C W).
Qed.

Lemma lookup_queue hs ws : start_handlers (map strip hs) = Some ws -> forall i j, lookup ws i j = None -> layers_at hs i j = [].
Proof.
  intros S i j HN. pose proof (start_kinds _ _ S i j) as K. unfold kinds in K. rewrite HN in K. cbn in K. unfold sink_of in K. rewrite nth_error_map in K. unfold layers_at.
  destruct (nth_error hs i) as [[f sinks]|]; [|reflexivity]. cbn in K. rewrite nth_error_map in K. destruct (nth_error sinks j); [discriminate|reflexivity].
Qed.
Lemma initial_placed hs ws w programs : start_handlers (map strip hs) = Some ws -> placed (initial w hs ws programs).
Proof. intros S i j HN. cbn in *. rewrite (lookup_queue _ _ S _ _ HN). reflexivity. Qed.

Lemma run_flow hs ws w programs sched s tr : start_handlers (map strip hs) = Some ws -> run (initial w hs ws programs) sched = Some (s, tr) ->
  placed s /\ forall i j, flow (layers_at hs i j) (g_queues s i j) (labels i j tr).
Proof.
  intros S E. refine (run_keeps (fun s tr => placed s /\ forall i j, flow (layers_at hs i j) (g_queues s i j) (labels i j tr)) _ sched _ [] s tr _ E).
  - intros s0 tr0 a s1 tr1 [PL F] ES. split; [exact (step_placed _ _ _ _ ES PL)|]. intros i j. rewrite labels_app.
    destruct (step_local _ _ _ _ ES PL) as [_ H]. destruct (H i j) as (o & b & HL & _). exact (flow_step _ _ _ _ _ _ _ (F i j) HL).
  - split; [exact (initial_placed _ _ _ _ S)|]. intros i j. cbn [initial g_queues]. split; [rewrite map_map; apply map_id|]. split.
    + induction (layers_at hs i j) as [|c [|c' l] IH]; [exact I|exact I|exact IH].
    + right. assert (Z : flight (map (fun c => Layer c [] false Taking) (layers_at hs i j)) = []).
      { induction (layers_at hs i j) as [|c l IH]; [reflexivity|]. cbn. rewrite IH. reflexivity. }
      rewrite Z. cbn. split; [constructor|]. split; [constructor|auto].
Qed.
End Runs.
