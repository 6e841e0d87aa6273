(** C04, C05: scoped attributes and moves of the root logger. *)
From Verif Require Import Base Values ScopeModel ScopeSpec ScopeProofs.

(** C04, C05. Every permitted history, over any number of threads, loggers and moves, runs without
    undefined behaviour and each log call collects exactly the lists of the scopes its thread has open
    on its logger, newest first. *)
Theorem C04_scopes_follow_stacks : forall ops ss outs,
  srun sinit ops ss outs -> exists s, run init ops = Some (s, outs).
Proof. exact scopes_lemma. Qed.
Print Assumptions C04_scopes_follow_stacks.

(** C04. Closing a scope that is not the newest of its thread is undefined (an assertion fails). *)
Theorem C04_close_not_newest_undefined : forall ops ss outs s l t g0 a0 st g,
  srun sinit ops ss outs -> run init ops = Some (s, outs) ->
  s_stack ss l t = Some ((g0, a0) :: st) -> In g (map fst st) -> step s (Close t g) = Undefined.
Proof. exact close_not_newest_lemma. Qed.
Print Assumptions C04_close_not_newest_undefined.

(** C04. So is closing it on another thread. *)
Theorem C04_close_on_other_thread_undefined : forall ops ss outs s l t st u st' g,
  srun sinit ops ss outs -> run init ops = Some (s, outs) ->
  s_stack ss l t = Some st -> In g (map fst st) -> u <> t -> s_stack ss l u = Some st' -> step s (Close u g) = Undefined.
Proof. exact close_other_thread_lemma. Qed.
Print Assumptions C04_close_on_other_thread_undefined.

(** Two threads, nested scopes, address 10 reused. *)
Example C04_case :
  let a n := [(B "k", VInt (Z.of_nat n))] in
  let ops := [NewLogger 0; Open 1 0 10 (a 1); Open 2 0 20 (a 2); Open 1 0 11 (a 3); Log 1 0; Log 2 0; Log 3 0;
              Close 1 11; Log 1 0; Close 1 10; Open 2 0 10 (a 4); Log 2 0; Log 1 0] in
  (exists ss, srun sinit ops ss [[a 3; a 1]; [a 2]; []; [a 1]; [a 4; a 2]; []]) /\
  option_map snd (run init ops) = Some [[a 3; a 1]; [a 2]; []; [a 1]; [a 4; a 2]; []].
Proof.
  split; [|reflexivity]. eexists.
  assert (G : forall s t l st p, s_alive s l = true -> s_stack s l t = Some st -> map snd st = p -> sstep s (Log t l) s (Some p))
    by (intros; subst; apply S_log; assumption).
  assert (K : forall s g, (forall l t st, s_stack s l t = Some st -> ~ In g (map fst st)) -> ~ is_open s g)
    by (intros s g H (l & t & st & H1 & H2); exact (H _ _ _ H1 H2)).
  eapply R_silent; [apply S_new; reflexivity|].
  eapply R_silent; [eapply S_open; [reflexivity|reflexivity|]|].
  { apply K. intros l t st. cbn. destruct (Nat.eqb l 0); intros X; inversion X; subst; cbn; auto. }
  eapply R_silent; [eapply S_open; [reflexivity|reflexivity|]|].
  { apply K. intros l t st. cbn. unfold set_stack. cbn.
    repeat match goal with |- context [Nat.eqb ?a ?b] => destruct (Nat.eqb a b) end; cbn; intros X; inversion X; subst; cbn; intuition lia. }
  eapply R_silent; [eapply S_open; [reflexivity|reflexivity|]|].
  { apply K. intros l t st. cbn. unfold set_stack. cbn.
    repeat match goal with |- context [Nat.eqb ?a ?b] => destruct (Nat.eqb a b) end; cbn; intros X; inversion X; subst; cbn; intuition lia. }
  eapply R_out; [eapply G; reflexivity|]. eapply R_out; [eapply G; reflexivity|]. eapply R_out; [eapply G; reflexivity|].
  eapply R_silent; [eapply (S_close _ 1 0 11); reflexivity|].
  eapply R_out; [eapply G; reflexivity|].
  eapply R_silent; [eapply (S_close _ 1 0 10); reflexivity|].
  eapply R_silent; [eapply S_open; [reflexivity|reflexivity|]|].
  { apply K. intros l t st. cbn. unfold set_stack. cbn.
    repeat match goal with |- context [Nat.eqb ?a ?b] => destruct (Nat.eqb a b) end; cbn; intros X; inversion X; subst; cbn; intuition lia. }
  eapply R_out; [eapply G; reflexivity|]. eapply R_out; [eapply G; reflexivity|]. apply R_nil.
Qed.

(** C05. Move construction after any permitted history: the moving thread's scopes are on the new
    logger, and closing them leaves it without scopes. *)
Theorem C05_move_construct_keeps_scopes : forall ops ss outs t src dst st,
  srun sinit ops ss outs -> s_alive ss src = true -> s_alive ss dst = false -> s_stack ss src t = Some st ->
  exists s, run init (ops ++ MoveConstruct t src dst :: Log t dst :: map (Close t) (map fst st) ++ [Log t dst])
    = Some (s, outs ++ [map snd st; []]).
Proof. exact move_construct_lemma. Qed.
Print Assumptions C05_move_construct_keeps_scopes.

(** C05. The same for assignment, if the moving thread has no scope open on the destination. *)
Theorem C05_move_assign_keeps_scopes : forall ops ss outs t src dst st,
  srun sinit ops ss outs -> s_alive ss src = true -> s_alive ss dst = true -> src <> dst -> s_stack ss src t = Some st ->
  s_stack ss dst t = Some [] ->
  exists s, run init (ops ++ MoveAssign t src dst :: Log t dst :: map (Close t) (map fst st) ++ [Log t dst])
    = Some (s, outs ++ [map snd st; []]).
Proof. exact move_assign_lemma. Qed.
Print Assumptions C05_move_assign_keeps_scopes.

(** C05. Assigning to a logger with an open scope loses that scope, and closing it is undefined. *)
Theorem C05_assign_over_open_scope_refuted : exists a,
  option_map snd (run init [NewLogger 0; NewLogger 1; Open 1 1 10 a; Log 1 1; MoveAssign 1 0 1; Log 1 1]) = Some [[a]; []] /\
  run init [NewLogger 0; NewLogger 1; Open 1 1 10 a; MoveAssign 1 0 1; Close 1 10] = None.
Proof. exists [(B "k", VInt 1)]. split; reflexivity. Qed.
Print Assumptions C05_assign_over_open_scope_refuted.

(** C05. The moved-from logger keeps a pointer to the scopes: once they are closed, logging through it
    reads a destroyed guard. *)
Theorem C05_moved_from_logger_dangles_refuted : exists a,
  run init [NewLogger 0; Open 1 0 10 a; MoveConstruct 1 0 1; Close 1 10; Log 1 0] = None /\
  option_map snd (run init [NewLogger 0; Open 1 0 10 a; MoveConstruct 1 0 1; Close 1 10; Log 1 1]) = Some [[]].
Proof. exists [(B "k", VInt 1)]. split; reflexivity. Qed.
Print Assumptions C05_moved_from_logger_dangles_refuted.

(** C05. Scopes opened by another thread stay with the source: they are missing on the destination and
    destroying the source before closing them is undefined. *)
Theorem C05_other_threads_scopes_stay_refuted : exists a,
  option_map snd (run init [NewLogger 0; Open 2 0 10 a; MoveConstruct 1 0 1; Log 2 1; Log 2 0]) = Some [[]; [a]] /\
  run init [NewLogger 0; Open 2 0 10 a; MoveConstruct 1 0 1; DestroyLogger 0; Close 2 10] = None.
Proof. exists [(B "k", VInt 1)]. split; reflexivity. Qed.
Print Assumptions C05_other_threads_scopes_stay_refuted.

Example C05_case : let a n := [(B "k", VInt (Z.of_nat n))] in
  option_map snd (run init [NewLogger 0; Open 1 0 10 (a 1); Open 1 0 11 (a 2); MoveConstruct 1 0 1; Log 1 1;
     Open 1 1 12 (a 3); Log 1 1; NewLogger 2; MoveAssign 1 1 2; Log 1 2; Close 1 12; Close 1 11; Log 1 2; Close 1 10; Log 1 2])
  = Some [[a 2; a 1]; [a 3; a 2; a 1]; [a 3; a 2; a 1]; [a 1]; []].
Proof. reflexivity. Qed.
