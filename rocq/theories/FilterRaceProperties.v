(** C06: replacing the filter while the logger is reassigned. *)
From Verif Require Import Base FilterRaceModel FilterRaceSpec FilterRaceProofs.

(** C06. Two calls on logger 0, one [filter] and one assignment; both return, yet the assignment is
    lost: the logger still has its old handlers. *)
Theorem C06_assignment_lost_refuted : exists ls s,
  steps (init (fun l => l) (fun _ => 0)) ls s /\ quiet s /\ cells s 0 = 0 /\ assigned 0 0 ls = 1.
Proof. exists race. exact race_lemma. Qed.
Print Assumptions C06_assignment_lost_refuted.

(** C06, the part that holds. In every execution where nobody calls [filter] on the logger, its
    handlers are those of the last completed assignment. *)
Theorem C06_assignments_kept_partial : forall c f l ls s,
  steps (init c f) ls s -> no_filter_calls l ls -> cells s l = assigned l (c l) ls.
Proof. intros c f l ls s H Hn. exact (proj1 (no_filter_inv c f l ls s H Hn)). Qed.
Print Assumptions C06_assignments_kept_partial.

(** C06. In every execution where the logger is not assigned to, it keeps its handlers and its filter
    is the last one applied to them, by any number of threads. *)
Theorem C06_filter_replacement_partial : forall c f l ls s,
  steps (init c f) ls s -> no_assignments l ls ->
  cells s l = c l /\ filters s (cells s l) = installed (c l) (f (c l)) ls.
Proof.
  intros c f l ls s H Hn. destruct (no_assign_inv c f l ls s H Hn) as (E & _). split; [exact E|].
  rewrite E. exact (installed_inv c f ls s H (c l)).
Qed.
Print Assumptions C06_filter_replacement_partial.

(** C06, both together. If no assignment to the logger is completed while [filter] is called on it, its handlers are those of the last completed assignment
    and every filter goes to the handlers the logger has at that moment, whatever the threads do otherwise: several assignments at once, several calls of
    [filter] at once, other loggers that share the handlers. *)
Theorem C06_apart : forall c f l ls s, steps (init c f) ls s -> apart l ls ->
  cells s l = assigned l (c l) ls /\
  forall ls1 t f' ls2 o ls3, ls = ls1 ++ FilterStart t l f' :: ls2 ++ FilterApply t o f' :: ls3 -> ~ In (FilterDone t l f') ls2 ->
    o = assigned l (c l) (ls1 ++ FilterStart t l f' :: ls2).
Proof. intros c f l ls s H A. split; [exact (proj1 (apart_inv c f l ls s H A))|exact (apart_applied c f l ls s H A)]. Qed.
Print Assumptions C06_apart.

(** Two calls of [filter] at once after one of two assignments that are under way at once; the other one is completed behind them. *)
Definition case_apart : list label :=
  [AssignStart 1 1 0; AssignStart 2 2 0; AssignDone 1 0 1; FilterStart 1 0 7; FilterStart 3 0 8; FilterApply 3 1 8; FilterApply 1 1 7; FilterDone 1 0 7; FilterDone 3 0 8; AssignDone 2 0 2].
Example C06_apart_case : apart 0 case_apart /\ assigned 0 0 case_apart = 2 /\
  exists s, steps (init (fun l => l) (fun _ => 0)) case_apart s /\ cells s 0 = 2 /\ filters s 1 = 7.
Proof.
  split; [|split; [reflexivity|]].
  - intros ls1 t f ls2 t' o ls3 E. unfold case_apart in E.
    repeat (destruct ls1 as [|? ls1]; cbn [app] in E; [first [discriminate E|injection E; clear E; intros E <- <-]|injection E; clear E; intros E _; try (destruct ls1; discriminate E)]).
    all: repeat (destruct ls2 as [|? ls2]; cbn [app] in E; [first [discriminate E|exfalso; congruence]|injection E; clear E; intros E <-; try (cbn; tauto)]).
  - eexists. split.
    + unfold case_apart.
      change [AssignStart 1 1 0; AssignStart 2 2 0; AssignDone 1 0 1; FilterStart 1 0 7; FilterStart 3 0 8; FilterApply 3 1 8; FilterApply 1 1 7; FilterDone 1 0 7; FilterDone 3 0 8; AssignDone 2 0 2]
        with (((((((((([] ++ [AssignStart 1 1 0]) ++ [AssignStart 2 2 0]) ++ [AssignDone 1 0 1]) ++ [FilterStart 1 0 7]) ++ [FilterStart 3 0 8]) ++ [FilterApply 3 1 8]) ++ [FilterApply 1 1 7]) ++ [FilterDone 1 0 7]) ++ [FilterDone 3 0 8]) ++ [AssignDone 2 0 2]).
      eapply steps_snoc; [eapply steps_snoc; [eapply steps_snoc; [eapply steps_snoc; [eapply steps_snoc; [eapply steps_snoc; [eapply steps_snoc; [eapply steps_snoc; [eapply steps_snoc; [eapply steps_snoc; [apply steps_nil|]|]|]|]|]|]|]|]|]|].
      * apply T_assign_load; [reflexivity|discriminate].
      * apply T_assign_load; [reflexivity|discriminate].
      * apply T_assign_store. reflexivity.
      * apply T_filter_load. reflexivity.
      * apply T_filter_load. reflexivity.
      * eapply T_filter_apply. reflexivity.
      * eapply T_filter_apply. reflexivity.
      * eapply T_filter_store. reflexivity.
      * eapply T_filter_store. reflexivity.
      * apply T_assign_store. reflexivity.
    + split; reflexivity.
Qed.

(** C06. In every execution, a log call delivers to the handlers that were current when it began and
    is filtered by a filter those handlers had at some moment of the call. *)
Theorem C06_log_uses_consistent_pair : forall c f ls s t l o fl,
  steps (init c f) ls s -> In (LogDone t l o fl) ls ->
  exists ls1 s1 ls2 ls3, ls = ls1 ++ LogStart t l o :: ls2 ++ LogCopy t l o fl :: ls3 /\
    steps (init c f) ls1 s1 /\ cells s1 l = o /\ installed o (f o) (ls1 ++ LogStart t l o :: ls2) = fl.
Proof. exact log_consistent_lemma. Qed.
Print Assumptions C06_log_uses_consistent_pair.

(** An execution with a log call during a filter replacement. *)
Example C06_case : exists s, steps (init (fun l => l) (fun _ => 0))
  [LogStart 3 0 0; FilterStart 1 0 7; FilterApply 1 0 7; LogCopy 3 0 0 7; FilterDone 1 0 7; LogDone 3 0 0 7] s
  /\ no_assignments 0 [LogStart 3 0 0; FilterStart 1 0 7; FilterApply 1 0 7; LogCopy 3 0 0 7; FilterDone 1 0 7; LogDone 3 0 0 7].
Proof.
  eexists. split.
  - change [LogStart 3 0 0; FilterStart 1 0 7; FilterApply 1 0 7; LogCopy 3 0 0 7; FilterDone 1 0 7; LogDone 3 0 0 7]
      with (((((([] ++ [LogStart 3 0 0]) ++ [FilterStart 1 0 7]) ++ [FilterApply 1 0 7]) ++ [LogCopy 3 0 0 7]) ++ [FilterDone 1 0 7]) ++ [LogDone 3 0 0 7]).
    eapply steps_snoc; [eapply steps_snoc; [eapply steps_snoc; [eapply steps_snoc; [eapply steps_snoc; [eapply steps_snoc; [apply steps_nil|]|]|]|]|]|].
    + exact (T_log_load (init (fun l => l) (fun _ => 0)) 3 0 eq_refl).
    + apply T_filter_load. reflexivity.
    + eapply T_filter_apply. reflexivity.
    + match goal with |- step ?s _ _ => exact (T_log_copy s 3 0 0 eq_refl) end.
    + eapply T_filter_store. reflexivity.
    + eapply T_log_done. reflexivity.
  - intros t src H. cbn in H. intuition discriminate.
Qed.
