(** Properties of an asynchronous sink whose wrapped sink logs to it. *)
From Verif Require Import Base AsyncModel EchoModel EchoSpec EchoProofs.

(** ** C145: a sink behind a queue may log to that queue. *)
Theorem C145_order : forall c acts s evs, erun c einit acts = Some (s, evs) -> exists rest, taken_in evs = passed_on evs ++ rest /\ (length rest <= e_capacity c)%nat.
Proof. exact echo_order. Qed.
Print Assumptions C145_order.

Theorem C145_ends : forall c acts s evs, erun c einit acts = Some (s, evs) -> e_stopped s = true -> dwindles (e_says c) ->
  ((e_policy c = Drop /\ at_work s) \/ ((forall m, (length (e_says c m) <= 1)%nat) /\ e_worker s = EDequeue)) ->
  exists k s' evs', erun c s (repeat EWork k) = Some (s', evs') /\ e_worker s' = EExit /\ passed_on (evs ++ evs') = taken_in (evs ++ evs').
Proof. exact echo_ends. Qed.
Print Assumptions C145_ends.

(** About record n the sink logs n - 1 twice, down to 0; the queue has room for two. *)
Definition twice (m : msg) : list msg := match m with O => [] | S m' => [m'; m'] end.
Example C145_case : exists s evs, erun (EConfig 2 Drop twice) einit [EPut 2; EPut 1; EWork; EStop] = Some (s, evs) /\ e_stopped s = true /\ at_work s /\ dwindles twice /\
  exists k s' evs', erun (EConfig 2 Drop twice) s (repeat EWork k) = Some (s', evs') /\ e_worker s' = EExit /\
  passed_on (evs ++ evs') = [2; 1; 1; 0; 0]%nat /\ In (EDrop 0) evs' /\ In (EDrop 1) evs'.
Proof.
  eexists _, _. split; [reflexivity|]. split; [reflexivity|]. split; [exact Logic.I|]. split.
  - exists (fun m => m). intros m m'. destruct m; cbn; [intros []|]. intros [<-|[<-|[]]]; lia.
  - exists 20%nat. eexists _, _. split; [vm_compute; reflexivity|]. split; [reflexivity|]. split; [reflexivity|]. cbn. tauto.
Qed.
(** With the policy that waits: n - 1 once. *)
Definition once (m : msg) : list msg := match m with O => [] | S m' => [m'] end.
Example C145_case_wait : exists s evs, erun (EConfig 2 Wait once) einit [EPut 2; EPut 1; EStop] = Some (s, evs) /\ e_stopped s = true /\ e_worker s = EDequeue /\
  (forall m, (length (once m) <= 1)%nat) /\ exists k s' evs', erun (EConfig 2 Wait once) s (repeat EWork k) = Some (s', evs') /\ e_worker s' = EExit /\
  passed_on (evs ++ evs') = [2; 1; 1; 0; 0]%nat.
Proof.
  eexists _, _. split; [reflexivity|]. split; [reflexivity|]. split; [reflexivity|]. split; [intros [|m]; cbn; lia|].
  exists 15%nat. eexists _, _. split; [vm_compute; reflexivity|]. split; reflexivity.
Qed.

(** Finding: with the policy that waits for room, a wrapped sink that logs to its own asynchronous sink while the queue is full waits for itself: only the worker takes
    records out, and it is within emit. One record about one record is enough, if other threads fill the queue meanwhile. From then on nothing at all happens: no record
    is delivered or accepted, no emit of another thread returns, the destructor does not return. *)
Theorem C145_wait_refuted : exists c acts s evs, e_policy c = Wait /\ dwindles (e_says c) /\ (forall m, (length (e_says c m) <= 1)%nat) /\ erun c einit acts = Some (s, evs) /\
  e_queue s <> [] /\ forall acts' s' evs', erun c s acts' = Some (s', evs') -> evs' = [].
Proof. exact echo_waits. Qed.
Print Assumptions C145_wait_refuted.

(** Finding: a wrapped sink that logs a record about each record keeps the queue from ever being empty; the worker ends only if it finds it so, and the destructor
    never returns, with either policy. *)
Theorem C145_again_refuted : forall p, exists c acts s evs, e_policy c = p /\ erun c einit acts = Some (s, evs) /\ e_stopped s = true /\
  forall n, exists s' evs', erun c s (repeat EWork n) = Some (s', evs') /\ e_worker s' <> EExit /\ ~ In EExited evs'.
Proof. exact echo_again. Qed.
Print Assumptions C145_again_refuted.
