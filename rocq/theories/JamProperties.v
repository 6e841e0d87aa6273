(** Properties of the asynchronous sink whose copies may throw. *)
From Verif Require Import Base AsyncModel JamModel JamSpec JamProofs.

(** ** C143: a record that cannot be copied into the queue loses only itself. *)
Theorem C143_order : forall c acts s evs, jrun c jinit acts = Some (s, evs) ->
  (exists rest, accepted evs = delivered evs ++ rest) /\ map (fun x => fst (fst x)) (accepted evs) = seq 0 (length (accepted evs)).
Proof. exact order_lemma. Qed.
Print Assumptions C143_order.

Theorem C143_jam : forall c acts s evs pos p m, jrun c jinit acts = Some (s, evs) -> In (JThrew pos p m) evs ->
  In (pos, p, m) (accepted evs) /\ (length (delivered evs) <= pos)%nat /\ (length (accepted evs) <= pos + j_capacity c)%nat.
Proof. exact jam_lemma. Qed.
Print Assumptions C143_jam.

(** One record is delivered, the copy of the next throws, the one after that is copied. *)
Definition jam_acts : list jaction :=
  [DoCall 1 10; DoGo 1 false; DoGo 1 false; DoWork; DoWork; DoCall 1 11; DoGo 1 true; DoGo 1 true; DoCall 2 20; DoGo 2 false; DoGo 2 false].
Example C143_case : forall spins, exists s evs, jrun (JConfig 4 Wait spins) jinit (jam_acts ++ repeat DoWork 20) = Some (s, evs) /\
  accepted evs = [(0, 1, 10); (1, 1, 11); (2, 2, 20)]%nat /\ delivered evs = [(0, 1, 10)]%nat /\ In (JThrew 1 1 11) evs /\ In (JReturn 2 20) evs.
Proof. intros [|]; (eexists _, _; split; [vm_compute; reflexivity|]; split; [reflexivity|]; split; [reflexivity|]; split; cbn; tauto). Qed.

(** Finding: a record whose copy into the queue throws (std::bad_alloc) leaves its cell reserved for ever; the queue does not get past it. Records that are emitted later
    - and whose emit returns - are never delivered, whatever happens from then on. The root logger catches the exception (src/root.cpp:191-199), so the application
    goes on with a sink that is dead. *)
Theorem C143_lost_refuted : forall spins, exists acts s evs, jrun (JConfig 4 Wait spins) jinit acts = Some (s, evs) /\ In (JReturn 2 20) evs /\ ~ In (JFull 2 20) evs /\
  forall acts' s' evs' pos, jrun (JConfig 4 Wait spins) s acts' = Some (s', evs') -> ~ In (JDeliver pos 2 20) (evs ++ evs').
Proof. exact lost_lemma. Qed.
Print Assumptions C143_lost_refuted.

(** Finding: with the policy that waits for room, once the copy of a record threw and the queue has filled up behind it, emit never returns: the threads of the
    application hang in their log calls one by one. *)
Theorem C143_wait_refuted : forall spins, exists acts s evs p m, jrun (JConfig 4 Wait spins) jinit acts = Some (s, evs) /\ In (JThrew 0 1 10) evs /\ In (JCall p m) evs /\
  forall acts' s' evs', jrun (JConfig 4 Wait spins) s acts' = Some (s', evs') -> ~ In (JReturn p m) (evs ++ evs').
Proof. exact wait_lemma. Qed.
Print Assumptions C143_wait_refuted.

(** ** C144: the sink can be destroyed. *)
Theorem C144_ends : forall c acts s evs, jrun c jinit acts = Some (s, evs) -> j_dtor s = DStopping -> (j_spins c = false \/ (no_throw evs /\ forall p, j_prod s p = PIdle)) ->
  exists k s' evs', (k <= 2 * length (j_cells s) + 3)%nat /\ jrun c s (repeat DoWork k ++ [DoJoin]) = Some (s', evs') /\ j_dtor s' = DDone.
Proof. exact ends_lemma. Qed.
Print Assumptions C144_ends.

Example C144_case : exists s evs, jrun (JConfig 4 Wait false) jinit (jam_acts ++ [DoStop]) = Some (s, evs) /\ j_dtor s = DStopping /\ length (j_cells s) = 2%nat /\ j_work s = JTake /\
  exists s' evs', jrun (JConfig 4 Wait false) s [DoWork; DoWork; DoJoin] = Some (s', evs') /\ evs' = [JExited; JDestroyed].
Proof. eexists _, _. split; [vm_compute; reflexivity|]. split; [reflexivity|]. split; [reflexivity|]. split; [reflexivity|]. eexists _, _. split; [vm_compute; reflexivity|reflexivity]. Qed.
Example C144_case_spins : exists s evs, jrun (JConfig 4 Wait true) jinit [DoCall 1 10; DoGo 1 false; DoGo 1 false; DoStop] = Some (s, evs) /\ j_dtor s = DStopping /\
  no_throw evs /\ (forall p, j_prod s p = PIdle) /\ exists s' evs', jrun (JConfig 4 Wait true) s [DoWork; DoWork; DoWork; DoWork; DoJoin] = Some (s', evs') /\
  evs' = [JDeliver 0 1 10; JExited; JDestroyed]%nat.
Proof.
  eexists _, _. split; [vm_compute; reflexivity|]. split; [reflexivity|]. split; [intros pos p m; cbn; intros [X|[X|[X|[]]]]; discriminate X|].
  split; [|eexists _, _; split; [vm_compute; reflexivity|reflexivity]]. intros p. cbn. match goal with |- context [if ?b then _ else _] => destruct b end; reflexivity.
Qed.

Theorem C144_drains : forall c acts s evs, jrun c jinit acts = Some (s, evs) -> j_dtor s = DStopping -> (forall p, j_prod s p = PIdle) -> working s ->
  (j_spins c = false \/ no_throw evs) ->
  exists k s' evs', jrun c s (repeat DoWork k ++ [DoJoin]) = Some (s', evs') /\ j_dtor s' = DDone /\
    forall pos p m, In (pos, p, m) (accepted evs) -> (forall pos' p' m', In (JThrew pos' p' m') evs -> (pos < pos')%nat) -> In (pos, p, m) (delivered (evs ++ evs')).
Proof. exact drains_lemma. Qed.
Print Assumptions C144_drains.

(** Two records, one whose copy throws, and one that is lost behind it. *)
Example C144_drains_case : exists s evs, jrun (JConfig 4 Wait false) jinit [DoCall 1 10; DoGo 1 false; DoGo 1 false; DoCall 1 11; DoGo 1 false; DoGo 1 false; DoCall 2 20; DoGo 2 true; DoGo 2 true;
    DoCall 1 12; DoGo 1 false; DoGo 1 false; DoStop] = Some (s, evs) /\ j_dtor s = DStopping /\ (forall p, j_prod s p = PIdle) /\ working s /\ In (JThrew 2 2 20) evs /\
  exists s' evs', jrun (JConfig 4 Wait false) s (repeat DoWork 6 ++ [DoJoin]) = Some (s', evs') /\ delivered (evs ++ evs') = [(0, 1, 10); (1, 1, 11)]%nat.
Proof.
  eexists _, _. split; [vm_compute; reflexivity|]. split; [reflexivity|]. split; [|split; [exact Logic.I|split; [cbn; tauto|eexists _, _; split; [vm_compute; reflexivity|reflexivity]]]].
  intros p. cbn. repeat match goal with |- context [if ?b then _ else _] => destruct b end; reflexivity.
Qed.

(** Finding: if the queue's dequeue tries again at a reserved cell (libcds 2), the destructor of a sink in which the copy of a record threw never returns: the worker
    does not leave dequeue, and the destructor waits for it. *)
Theorem C144_spins_refuted : exists acts s evs, jrun (JConfig 4 Wait true) jinit acts = Some (s, evs) /\ j_dtor s = DStopping /\ (forall p, j_prod s p = PIdle) /\
  forall acts' s' evs', jrun (JConfig 4 Wait true) s acts' = Some (s', evs') -> ~ In JDestroyed (evs ++ evs').
Proof. exact spins_lemma. Qed.
Print Assumptions C144_spins_refuted.
