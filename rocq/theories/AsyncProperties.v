(** C08-C12, C52: the asynchronous sink. *)
From Verif Require Import Base AsyncModel AsyncSpec AsyncProofs.

(** C08. For every schedule: what reached the wrapped sink is an initial part of what was accepted, in
    order (nothing twice, nothing invented). *)
Theorem C08_delivery_order : forall c acts s evs,
  run c init acts = Some (s, evs) -> is_prefix (delivered evs) (accepted evs).
Proof. exact delivery_order_lemma. Qed.
Print Assumptions C08_delivery_order.

(** C08. Each thread's records arrive in the order it emitted them; with the wait policy without gaps. *)
Theorem C08_producer_order : forall c acts s evs p,
  run c init acts = Some (s, evs) ->
  sub (by_producer p (delivered evs)) (calls p evs) /\
  (c_policy c = Wait -> is_prefix (by_producer p (delivered evs)) (calls p evs)).
Proof. exact producer_order_lemma. Qed.
Print Assumptions C08_producer_order.

(** C08. At every moment at most [capacity] accepted records have not been taken. *)
Theorem C08_capacity : forall c acts s evs,
  run c init acts = Some (s, evs) -> length (accepted evs) <= length (taken evs) + c_capacity c.
Proof. exact capacity_lemma. Qed.
Print Assumptions C08_capacity.

(** Two producers, capacity 2, the second producer overtakes while the first is still filling its cell. *)
Definition case_acts : list action :=
  [Call 1 10; Go 1; Call 2 20; Go 2; Go 2; Work false; Work false; Call 2 21; Go 2; Go 2; Go 1;
   Work false; Work false; Work false; Go 2; Go 2; Work false; Work false].
Example C08_case :
  exists s evs, run (Config 2 Wait) init case_acts = Some (s, evs) /\
    accepted evs = [(1, 10); (2, 20); (2, 21)] /\ delivered evs = [(1, 10)] /\ calls 2 evs = [20; 21] /\ In (EFull 2 21 2) evs.
Proof. eexists _, _. split; [vm_compute; reflexivity|]. cbn. repeat split. auto 20. Qed.

(** C09 (the full statement: with the wait policy, every record whose emit returned before the destructor
    started is delivered before the destructor returns) is false: the worker finds the queue empty, the
    record is accepted and its emit returns, the destructor sets the flag, the worker reads it and exits. *)
Theorem C09_lost_record_refuted : exists c acts s t1 t2 t3 p m,
  c_policy c = Wait /\ run c init acts = Some (s, t1 ++ EReturn p m :: t2 ++ EStop :: t3) /\
  In EDestroyed t3 /\ (forall q, s_prod s q = PIdle) /\
  ~ In (EDeliver p m) (t1 ++ EReturn p m :: t2 ++ EStop :: t3).
Proof.
  exists (Config 4 Wait), [Work false; Call 1 10; Go 1; Go 1; Stop; Work false; Join].
  eexists _, [EMiss; ECall 1 10; EAccept 1 10; EFilled 1 10], [], [EExit; EDestroyed], 1, 10.
  split; [reflexivity|]. split; [vm_compute; reflexivity|]. split; [right; left; reflexivity|]. split.
  - intros [|[|q]]; reflexivity.
  - cbn. intuition discriminate.
Qed.
Print Assumptions C09_lost_record_refuted.

(** C09, the part that holds. When the worker has exited, everything accepted before its last attempt to
    take a record was delivered, provided no emit was in the middle of filling its cell at that attempt.
    Missing: records accepted between the last attempt and the start of the destructor. *)
Theorem C09_delivered_before_last_attempt_partial : forall c acts s t1 t2,
  run c init acts = Some (s, t1 ++ EMiss :: t2) ->
  taken t2 = [] -> s_work s = WExit -> length (accepted t1) = length (filled t1) ->
  delivered (t1 ++ EMiss :: t2) = accepted t1.
Proof. exact delivered_before_last_lemma. Qed.
Print Assumptions C09_delivered_before_last_attempt_partial.

Example C09_case :
  exists s t1 t2, run (Config 4 Wait) init
      [Work false; Work false; Call 1 10; Go 1; Call 2 20; Go 2; Go 1; Go 2; Stop; Work false; Work false; Work false; Work false; Work false; Work false; Work false; Work false; Join]
    = Some (s, t1 ++ EMiss :: t2) /\ taken t2 = [] /\ s_work s = WExit /\ length (accepted t1) = length (filled t1)
    /\ accepted t1 = [(1, 10); (2, 20)].
Proof.
  eexists _, [EMiss; ECall 1 10; EAccept 1 10; ECall 2 20; EAccept 2 20; EFilled 1 10; EReturn 1 10; EFilled 2 20; EReturn 2 20; EStop;
              ETake 1 10; EDeliver 1 10; ETake 2 20; EDeliver 2 20], _.
  split; [vm_compute; reflexivity|]. repeat split.
Qed.

(** C10. The events of each producer thread are a sequence of whole emits (the last one possibly still
    going on): waiting emits retry only with exactly [capacity] cells in use and always end accepted;
    dropping emits make one attempt and discard only with exactly [capacity] cells in use. *)
Theorem C10_emit_shape : forall c acts s evs p,
  run c init acts = Some (s, evs) -> exists rest, emits c p (filter (own_event p) evs ++ rest).
Proof. exact emits_lemma. Qed.
Print Assumptions C10_emit_shape.

(** C10. With the drop policy an emit returns after two steps of its own, whatever others do in between. *)
Theorem C10_drop_never_blocks : forall c s p m,
  c_policy c = Drop -> s_prod s p = PTry m ->
  exists s1 e1, step c s (Go p) = Some (s1, e1) /\
    forall s2, s_prod s2 p = s_prod s1 p ->
      exists s3 e3, step c s2 (Go p) = Some (s3, e3) /\ s_prod s3 p = PIdle /\ In (EReturn p m) e3.
Proof. exact drop_finishes_lemma. Qed.
Print Assumptions C10_drop_never_blocks.

(** C10. With the wait policy a waiting emit gets its place within three steps of the worker and two of
    its own (no wake-up can be lost), as long as nobody is in the middle of filling a cell. *)
Theorem C10_wait_progress : forall c acts s evs p m,
  run c init acts = Some (s, evs) ->
  c_policy c = Wait -> 0 < c_capacity c -> s_dtor s = DNone -> s_work s <> WDead -> s_work s <> WExit ->
  s_prod s p = PTry m \/ s_prod s p = PFull m -> (forall q n, s_prod s q <> PFill n) ->
  exists acts' s' evs', length acts' <= 5 /\ Forall (fun a => a = Work false \/ a = Go p) acts' /\
    run c s acts' = Some (s', evs') /\ In (EAccept p m) evs'.
Proof. exact wait_progress_lemma. Qed.
Print Assumptions C10_wait_progress.

Example C10_case :
  (exists s evs, run (Config 1 Drop) init [Call 1 10; Go 1; Go 1; Call 1 11; Go 1; Go 1; Work false; Call 1 12; Go 1; Go 1] = Some (s, evs)
     /\ accepted evs = [(1, 10); (1, 12)] /\ In (EDrop 1 11) evs) /\
  (exists s evs, run (Config 1 Wait) init [Call 1 10; Go 1; Go 1; Call 1 11; Go 1] = Some (s, evs)
     /\ s_prod s 1 = PFull 11 /\ s_dtor s = DNone /\ s_work s = WTake /\ (forall q n, s_prod s q <> PFill n)) /\
  (exists s evs, run (Config 1 Drop) init [Call 1 10] = Some (s, evs) /\ s_prod s 1 = PTry 10).
Proof.
  split; [|split].
  - eexists _, _. split; [vm_compute; reflexivity|]. split; [reflexivity|]. cbn. auto 10.
  - eexists _, _. split; [vm_compute; reflexivity|]. cbn. repeat split. intros [|[|q]] n; discriminate.
  - eexists _, _. split; [vm_compute; reflexivity|]. reflexivity.
Qed.

(** C11. From every reachable state in which the destructor has started and no emit is in progress, the
    worker exits after at most 3·(queued)+4 of its own steps (the wrapped sink not throwing) and the
    destructor returns. Unless the worker was between a failed attempt and reading the flag, everything
    accepted is delivered. *)
Theorem C11_shutdown_terminates : forall c acts s evs,
  run c init acts = Some (s, evs) -> s_dtor s = DStopping ->
  (forall p, s_prod s p = PIdle) -> s_work s <> WDead ->
  exists k evs', k <= 3 * length (s_queue s) + 4 /\
    run c s (repeat (Work false) k ++ [Join])
      = Some (State (if match s_work s with WCheck None | WExit => true | _ => false end then s_queue s else [])
                (s_prod s) WExit DDone, evs' ++ [EDestroyed]) /\
    (s_work s <> WCheck None -> s_work s <> WExit -> delivered (evs ++ evs') = accepted evs).
Proof. exact shutdown_lemma. Qed.
Print Assumptions C11_shutdown_terminates.

Example C11_case : exists s evs, run (Config 4 Wait) init [Call 1 10; Go 1; Go 1; Call 2 20; Go 2; Go 2; Work false; Stop] = Some (s, evs)
  /\ s_dtor s = DStopping /\ (forall p, s_prod s p = PIdle) /\ s_work s = WCheck (Some (1, 10)) /\ length (s_queue s) = 1.
Proof.
  eexists _, _. split; [vm_compute; reflexivity|]. cbn. repeat split.
  intros [|[|[|p]]]; reflexivity.
Qed.

(** C12. The factor asked for last is used, up to 20; larger ones are rejected. *)
Theorem C12_builder_factor : forall cs,
  let f := asked_factor cs 10 in
  ((2 <= f <= 20)%N -> exists c, builder_build (fold_left builder_call cs builder_new) = Built c /\ N.of_nat (c_capacity c) = (2 ^ f)%N) /\
  ((20 < f)%N -> builder_build (fold_left builder_call cs builder_new) = InvalidArgument).
Proof. exact builder_factor_lemma. Qed.
Print Assumptions C12_builder_factor.

(** C12. Built from a configuration: factor and policy are the configured ones and nothing else is accepted. *)
Theorem C12_config_options : forall f name c,
  factory_from (Some f) (Some name) = Built c <->
  (2 <= f <= 20)%N /\ N.of_nat (c_capacity c) = (2 ^ f)%N /\
  ((name = B "drop" /\ c_policy c = Drop) \/ (name = B "wait" /\ c_policy c = Wait)).
Proof. exact factory_lemma. Qed.
Print Assumptions C12_config_options.

(** C12 fails for the builder: asking for the drop policy, either way, yields the wait policy. *)
Theorem C12_builder_drop_refuted : exists cs cs' c c',
  asked_policy cs Wait = Drop /\ asked_policy cs' Wait = Drop /\ cs <> cs' /\
  builder_build (fold_left builder_call cs builder_new) = Built c /\ c_policy c = Wait /\
  builder_build (fold_left builder_call cs' builder_new) = Built c' /\ c_policy c' = Wait.
Proof.
  exists [DropLvalue], [SetFactor 12; DropRvalue], (Config (N.to_nat (2 ^ 10)) Wait), (Config (N.to_nat (2 ^ 12)) Wait).
  split; [reflexivity|]. split; [reflexivity|]. split; [discriminate|]. repeat split.
Qed.
Print Assumptions C12_builder_drop_refuted.

(** C12 fails for the documented factors 0 and 1: they are rejected. *)
Theorem C12_small_factor_refuted : exists f, (f <= 20)%N /\
  builder_build (fold_left builder_call [SetFactor f] builder_new) = InvalidArgument /\
  factory_from (Some f) (Some (B "wait")) = InvalidArgument.
Proof. exists 1%N. split; [discriminate|]. split; reflexivity. Qed.
Print Assumptions C12_small_factor_refuted.

(** C12: an absent [factor] or [overflow] in the configuration is not reported: an empty optional is
    dereferenced. *)
Theorem C12_missing_option_refuted : exists name, factory_from None (Some name) = UndefinedBehaviour /\
  factory_from (Some 10%N) None = UndefinedBehaviour.
Proof. exists (B "wait"). split; reflexivity. Qed.
Print Assumptions C12_missing_option_refuted.

Example C12_case : asked_factor [SetFactor 3; DropLvalue; SetFactor 5] 10 = 5%N /\
  builder_build (fold_left builder_call [SetFactor 3; DropLvalue; SetFactor 5] builder_new) = Built (Config 32 Wait) /\
  factory_from (Some 5%N) (Some (B "drop")) = Built (Config 32 Drop).
Proof. repeat split. Qed.

(** C52 (documented: exceptions while writing to the wrapped sink are hidden from the application) is
    false: such an exception leaves the worker's thread function and terminates the process; records
    already accepted are never delivered. *)
Theorem C52_exception_hidden_refuted : exists c acts s evs,
  run c init acts = Some (s, evs) /\ In ETerminate evs /\
  (exists p m, In (EReturn p m) evs /\ ~ In (EDeliver p m) evs) /\
  forall a, run c s [a] = None.
Proof.
  exists (Config 4 Wait), [Call 1 10; Go 1; Go 1; Call 1 11; Go 1; Go 1; Work false; Work false; Work true].
  eexists _, _. split; [vm_compute; reflexivity|]. split; [cbn; auto 20|]. split; [|reflexivity].
  exists 1, 11. split; [cbn; auto 20|]. cbn. intuition discriminate.
Qed.
Print Assumptions C52_exception_hidden_refuted.
