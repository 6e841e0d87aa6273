(** Proofs about concurrent reassignment, filter replacement and logging. *)
From Verif Require Import Base FilterRaceModel FilterRaceSpec.

Lemma assigned_snoc l ls : forall start x, assigned l start (ls ++ [x]) =
  match x with AssignDone _ l' o => if Nat.eqb l' l then o else assigned l start ls | _ => assigned l start ls end.
Proof.
  induction ls as [|y ls IH]; intros start x; cbn [assigned app].
  - destruct x; reflexivity.
  - destruct y; apply IH.
Qed.

Lemma installed_snoc o ls : forall start x, installed o start (ls ++ [x]) =
  match x with FilterApply _ o' f => if Nat.eqb o' o then f else installed o start ls | _ => installed o start ls end.
Proof.
  induction ls as [|y ls IH]; intros start x; cbn [installed app].
  - destruct x; reflexivity.
  - destruct y; apply IH.
Qed.

Lemma upd_spec {A} (f : nat -> A) k v x : upd f k v x = if Nat.eqb x k then v else f x.
Proof. reflexivity. Qed.

(** Without filter calls the pointer is the last assignment. *)
Lemma no_filter_inv c f l ls s : steps (init c f) ls s -> no_filter_calls l ls ->
  cells s l = assigned l (c l) ls /\ forall t f' o, pcs s t <> FilterLoaded l f' o /\ pcs s t <> FilterApplied l f' o.
Proof.
  remember (init c f) as s0. intros H. revert Heqs0. induction H as [s|s ls s' x s'' H IH Hx]; intros ->.
  - intros _. split; [reflexivity|]. intros. split; discriminate.
  - intros Hn. assert (Hn' : no_filter_calls l ls) by (intros t f' Hin; apply (Hn t f'), in_or_app; left; exact Hin).
    destruct (IH eq_refl Hn') as [Hc Hp]. rewrite assigned_snoc.
    destruct Hx; cbn [cells pcs]; (split; [|intros t' f' o'; rewrite !upd_spec]).
    all: try (destruct (Nat.eqb t' t); [split; discriminate|apply Hp]).
    all: try exact Hc.
    + destruct (Nat.eqb t' t); [|apply Hp]. split; [|discriminate]. intros E. inversion E; subst.
      apply (Hn t f'). apply in_or_app. right. left. reflexivity.
    + destruct (Nat.eqb t' t); [|apply Hp]. split; [discriminate|]. intros E. inversion E; subst.
      exact (proj1 (Hp t f' o') H0).
    + rewrite upd_spec. destruct (Nat.eqb l l0) eqn:E; [|exact Hc]. apply Nat.eqb_eq in E. subst.
      exfalso. exact (proj2 (Hp t f0 o) H0).
    + rewrite upd_spec, Nat.eqb_sym. destruct (Nat.eqb dst l); [reflexivity|exact Hc].
Qed.

(** Without assignments the pointer never changes. *)
Lemma no_assign_inv c f l ls s : steps (init c f) ls s -> no_assignments l ls ->
  cells s l = c l /\ (forall t f' o, pcs s t = FilterLoaded l f' o \/ pcs s t = FilterApplied l f' o -> o = c l) /\
  (forall t o, pcs s t <> AssignLoaded l o).
Proof.
  remember (init c f) as s0. intros H. revert Heqs0. induction H as [s|s ls s' x s'' H IH Hx]; intros ->.
  - intros _. split; [reflexivity|]. split; [intros t f' o [E|E]; discriminate|intros; discriminate].
  - intros Hn. assert (Hn' : no_assignments l ls) by (intros t f' Hin; apply (Hn t f'), in_or_app; left; exact Hin).
    destruct (IH eq_refl Hn') as (Hc & Hp & Ha).
    destruct Hx; cbn [cells pcs]; (split; [|split; [intros t' f' o'; rewrite !upd_spec|intros t' o'; rewrite upd_spec]]).
    all: try (destruct (Nat.eqb t' t); [intros [E|E]; discriminate|apply Hp]).
    all: try (destruct (Nat.eqb t' t); [discriminate|apply Ha]).
    all: try exact Hc.
    + destruct (Nat.eqb t' t); [|apply Hp]. intros [E|E]; inversion E; subst. exact Hc.
    + destruct (Nat.eqb t' t); [|apply Hp]. intros [E|E]; inversion E; subst. apply (Hp t f'). left. exact H0.
    + rewrite upd_spec. destruct (Nat.eqb l l0) eqn:E; [|exact Hc]. apply Nat.eqb_eq in E. subst.
      apply (Hp t f0). right. exact H0.
    + destruct (Nat.eqb t' t); [|apply Ha]. intros E. inversion E; subst.
      apply (Hn t src). apply in_or_app. right. left. reflexivity.
    + rewrite upd_spec. destruct (Nat.eqb l dst) eqn:E; [|exact Hc]. apply Nat.eqb_eq in E. subst.
      exfalso. exact (Ha t o H0).
Qed.

Lemma installed_inv c f ls s : steps (init c f) ls s -> forall o, filters s o = installed o (f o) ls.
Proof.
  remember (init c f) as s0. intros H. revert Heqs0. induction H as [s|s ls s' x s'' H IH Hx]; intros ->; intros o; [reflexivity|].
  rewrite installed_snoc. destruct Hx; cbn [filters]; try apply (IH eq_refl).
  rewrite upd_spec, Nat.eqb_sym. destruct (Nat.eqb o0 o); [reflexivity|apply (IH eq_refl)].
Qed.

(** A finished log call used the object that was current when it started and the filter that was in
    that object at some moment of the call. *)
Lemma log_inv c f ls s : steps (init c f) ls s ->
  (forall t l o, pcs s t = LogLoaded l o -> exists ls1 s1 ls2, ls = ls1 ++ LogStart t l o :: ls2 /\ steps (init c f) ls1 s1 /\ cells s1 l = o) /\
  (forall t l o fl, pcs s t = LogCopied l o fl -> exists ls1 s1 ls2 ls3,
      ls = ls1 ++ LogStart t l o :: ls2 ++ LogCopy t l o fl :: ls3 /\
      steps (init c f) ls1 s1 /\ cells s1 l = o /\ installed o (f o) (ls1 ++ LogStart t l o :: ls2) = fl) /\
  (forall t l o fl, In (LogDone t l o fl) ls -> exists ls1 s1 ls2 ls3,
      ls = ls1 ++ LogStart t l o :: ls2 ++ LogCopy t l o fl :: ls3 /\
      steps (init c f) ls1 s1 /\ cells s1 l = o /\ installed o (f o) (ls1 ++ LogStart t l o :: ls2) = fl).
Proof.
  remember (init c f) as s0. intros H. revert Heqs0. induction H as [s|s ls s' x s'' H IH Hx]; intros ->.
  { split; [intros; discriminate|]. split; [intros; discriminate|intros ? ? ? ? []]. }
  specialize (IH eq_refl). destruct IH as (I1 & I2 & I3).
  assert (X1 : forall t l o, (exists ls1 s1 ls2, ls = ls1 ++ LogStart t l o :: ls2 /\ steps (init c f) ls1 s1 /\ cells s1 l = o) ->
     exists ls1 s1 ls2, ls ++ [x] = ls1 ++ LogStart t l o :: ls2 /\ steps (init c f) ls1 s1 /\ cells s1 l = o).
  { intros t l o (a & b & d & E & F & G). exists a, b, (d ++ [x]). split; [|auto]. rewrite E, <- app_assoc. reflexivity. }
  assert (X2 : forall t l o fl, (exists ls1 s1 ls2 ls3, ls = ls1 ++ LogStart t l o :: ls2 ++ LogCopy t l o fl :: ls3 /\
       steps (init c f) ls1 s1 /\ cells s1 l = o /\ installed o (f o) (ls1 ++ LogStart t l o :: ls2) = fl) ->
     exists ls1 s1 ls2 ls3, ls ++ [x] = ls1 ++ LogStart t l o :: ls2 ++ LogCopy t l o fl :: ls3 /\
       steps (init c f) ls1 s1 /\ cells s1 l = o /\ installed o (f o) (ls1 ++ LogStart t l o :: ls2) = fl).
  { intros t l o fl (a & b & d & e & E & F & G & K). exists a, b, d, (e ++ [x]). split; [|auto].
    rewrite E. rewrite <- app_assoc. cbn. rewrite <- app_assoc. reflexivity. }
  assert (Xin : forall t l o fl, In (LogDone t l o fl) (ls ++ [x]) -> x <> LogDone t l o fl ->
     exists ls1 s1 ls2 ls3, ls ++ [x] = ls1 ++ LogStart t l o :: ls2 ++ LogCopy t l o fl :: ls3 /\
       steps (init c f) ls1 s1 /\ cells s1 l = o /\ installed o (f o) (ls1 ++ LogStart t l o :: ls2) = fl).
  { intros t l o fl Hin Hne. apply in_app_or in Hin as [Hin|[Hin|[]]]; [apply X2, I3, Hin|congruence]. }
  destruct Hx; cbn [pcs].
  all: split; [|split].
  all: try (intros t' l' o'; rewrite upd_spec; destruct (Nat.eqb t' t) eqn:Et;
            [intros E; first [discriminate E | idtac] | intros E; apply X1, I1, E]).
  all: try (intros t' l' o' fl'; rewrite upd_spec; destruct (Nat.eqb t' t) eqn:Et;
            [intros E; first [discriminate E | idtac] | intros E; apply X2, I2, E]).
  all: try (intros t' l' o' fl' Hin; apply Xin; [exact Hin|discriminate]).
  - inversion E; subst. apply Nat.eqb_eq in Et. subst. exists ls, s, []. auto.
  - inversion E; subst. apply Nat.eqb_eq in Et. subst.
    destruct (I1 _ _ _ H0) as (a & b & d & E1 & F & G). exists a, b, d, []. split; [|split; [exact F|split; [exact G|]]].
    + rewrite E1, <- app_assoc. reflexivity.
    + rewrite <- E1. symmetry. exact (installed_inv c f ls s H o').
  - intros t' l' o' fl' Hin. apply in_app_or in Hin as [Hin|[Hin|[]]]; [apply X2, I3, Hin|]. inversion Hin; subst.
    apply X2, I2, H0.
Qed.

Lemma log_consistent_lemma c f ls s t l o fl : steps (init c f) ls s -> In (LogDone t l o fl) ls ->
  exists ls1 s1 ls2 ls3, ls = ls1 ++ LogStart t l o :: ls2 ++ LogCopy t l o fl :: ls3 /\
    steps (init c f) ls1 s1 /\ cells s1 l = o /\ installed o (f o) (ls1 ++ LogStart t l o :: ls2) = fl.
Proof. intros H. apply (proj2 (proj2 (log_inv c f ls s H))). Qed.

(** The schedule that loses an assignment. *)
Definition race : list label :=
  [FilterStart 1 0 7; FilterApply 1 0 7; AssignStart 2 1 0; AssignDone 2 0 1; FilterDone 1 0 7].

Lemma race_lemma : exists s, steps (init (fun l => l) (fun _ => 0)) race s /\ quiet s /\ cells s 0 = 0 /\
  assigned 0 0 race = 1.
Proof.
  set (s0 := init (fun l => l) (fun _ => 0)).
  eexists. split; [|split; [|split]].
  - change race with ((((([] ++ [FilterStart 1 0 7]) ++ [FilterApply 1 0 7]) ++ [AssignStart 2 1 0]) ++ [AssignDone 2 0 1]) ++ [FilterDone 1 0 7]).
    eapply steps_snoc; [eapply steps_snoc; [eapply steps_snoc; [eapply steps_snoc; [eapply steps_snoc; [apply steps_nil|]|]|]|]|].
    + apply T_filter_load. reflexivity.
    + eapply T_filter_apply. reflexivity.
    + apply T_assign_load; [reflexivity|discriminate].
    + apply T_assign_store. reflexivity.
    + eapply T_filter_store. reflexivity.
  - intros t. cbn [pcs]. rewrite !upd_spec. destruct (Nat.eqb t 1); [reflexivity|]. destruct (Nat.eqb t 2); reflexivity.
  - reflexivity.
  - reflexivity.
Qed.

Lemma apart_snoc l ls x : apart l (ls ++ [x]) -> apart l ls.
Proof.
  intros A ls1 t f ls2 t' o ls3 E. apply (A ls1 t f ls2 t' o (ls3 ++ [x])). rewrite E, <- app_assoc. cbn. rewrite <- app_assoc. reflexivity.
Qed.

(** Filter calls that are under way hold the logger's object. *)
Lemma apart_inv c f l ls s : steps (init c f) ls s -> apart l ls ->
  cells s l = assigned l (c l) ls /\
  forall t f' o, pcs s t = FilterLoaded l f' o \/ pcs s t = FilterApplied l f' o ->
    o = cells s l /\ exists ls1 ls2, ls = ls1 ++ FilterStart t l f' :: ls2 /\ ~ In (FilterDone t l f') ls2.
Proof.
  remember (init c f) as s0. intros H. revert Heqs0. induction H as [s|s ls s' x s'' H IH Hx]; intros ->.
  - intros _. split; [reflexivity|]. intros t f' o [E|E]; discriminate E.
  - intros A. destruct (IH eq_refl (apart_snoc _ _ _ A)) as [Hc Hp]. clear IH. rewrite assigned_snoc.
    assert (K : forall t f', (exists ls1 ls2, ls = ls1 ++ FilterStart t l f' :: ls2 /\ ~ In (FilterDone t l f') ls2) -> x <> FilterDone t l f' ->
      exists ls1 ls2, ls ++ [x] = ls1 ++ FilterStart t l f' :: ls2 /\ ~ In (FilterDone t l f') ls2).
    { intros t f' (a & b & E & N) D. exists a, (b ++ [x]). split; [rewrite E, <- app_assoc; reflexivity|].
      intros I. apply in_app_or in I as [I|[I|[]]]; [exact (N I)|exact (D I)]. }
    destruct Hx; cbn [cells pcs].
    all: try (split; [exact Hc|]; intros t' f' o' E; rewrite upd_spec in E; destruct (Nat.eqb t' t);
              [destruct E as [E|E]; discriminate E|destruct (Hp t' f' o' E) as [P1 P2]; split; [exact P1|apply K; [exact P2|discriminate]]]).
    + split; [exact Hc|]. intros t' f' o' E. rewrite upd_spec in E. destruct (Nat.eqb t' t) eqn:T.
      * apply Nat.eqb_eq in T. destruct E as [E|E]; inversion E; subst. split; [reflexivity|]. exists ls, []. split; [reflexivity|intros []].
      * destruct (Hp t' f' o' E) as [P1 P2]. split; [exact P1|]. apply K; [exact P2|discriminate].
    + split; [exact Hc|]. intros t' f' o' E. rewrite upd_spec in E. destruct (Nat.eqb t' t) eqn:T.
      * apply Nat.eqb_eq in T. destruct E as [E|E]; inversion E; subst. destruct (Hp t f' o' (or_introl H0)) as [P1 P2]. split; [exact P1|]. apply K; [exact P2|discriminate].
      * destruct (Hp t' f' o' E) as [P1 P2]. split; [exact P1|]. apply K; [exact P2|discriminate].
    + assert (EC : upd (cells s) l0 o l = cells s l).
      { rewrite upd_spec. destruct (Nat.eqb l l0) eqn:L; [|reflexivity]. apply Nat.eqb_eq in L. subst l0. exact (proj1 (Hp t f0 o (or_intror H0))). }
      rewrite EC. split; [exact Hc|]. intros t' f' o' E. rewrite upd_spec in E. destruct (Nat.eqb t' t) eqn:T; [destruct E as [E|E]; discriminate E|].
      destruct (Hp t' f' o' E) as [P1 P2]. split; [exact P1|]. apply K; [exact P2|]. intros X. inversion X; subst. rewrite Nat.eqb_refl in T. discriminate T.
    + rewrite upd_spec, Nat.eqb_sym. destruct (Nat.eqb dst l) eqn:L.
      * split; [reflexivity|]. apply Nat.eqb_eq in L. subst dst. intros t' f' o' E. exfalso. rewrite upd_spec in E.
        destruct (Nat.eqb t' t); [destruct E as [E|E]; discriminate E|]. destruct (Hp t' f' o' E) as [_ (a & b & E1 & N)].
        apply N. apply (A a t' f' b t o []). rewrite E1, <- app_assoc. reflexivity.
      * split; [exact Hc|]. intros t' f' o' E. rewrite upd_spec in E. destruct (Nat.eqb t' t); [destruct E as [E|E]; discriminate E|].
        destruct (Hp t' f' o' E) as [P1 P2]. split; [exact P1|apply K; [exact P2|discriminate]].
Qed.

Lemma steps_last s ls x s' : steps s (ls ++ [x]) s' -> exists s1, steps s ls s1 /\ step s1 x s'.
Proof.
  remember (ls ++ [x]) as all eqn:E. intros H. destruct H as [s|s ls' s1 y s2 H1 H2]; [destruct (app_cons_not_nil _ _ _ E)|].
  apply app_inj_tail in E as [-> ->]. eauto.
Qed.
Lemma steps_app_inv s ls1 : forall ls2 s', steps s (ls1 ++ ls2) s' -> exists s1, steps s ls1 s1.
Proof.
  intros ls2. induction ls2 as [|x ls2 IH] using rev_ind; intros s' H.
  - exists s'. rewrite app_nil_r in H. exact H.
  - rewrite app_assoc in H. apply steps_last in H as (s1 & H & _). exact (IH _ H).
Qed.

(** After its start a call of [filter] is under way until it is done. *)
Lemma under_way c f t l f' ls1 ls2 : forall s, steps (init c f) (ls1 ++ FilterStart t l f' :: ls2) s -> ~ In (FilterDone t l f') ls2 ->
  exists o, pcs s t = FilterLoaded l f' o \/ pcs s t = FilterApplied l f' o.
Proof.
  induction ls2 as [|x ls2 IH] using rev_ind; intros s H N.
  - apply steps_last in H as (s1 & _ & H). inversion H; subst. cbn [pcs]. exists (cells s1 l). left. rewrite upd_spec, Nat.eqb_refl. reflexivity.
  - rewrite app_comm_cons, app_assoc in H. apply steps_last in H as (s1 & H1 & H2).
    destruct (IH s1 H1 (fun X => N (in_or_app _ _ _ (or_introl X)))) as (o & P).
    assert (D : x <> FilterDone t l f') by (intros ->; apply N, in_or_app; right; left; reflexivity).
    destruct H2; cbn [pcs]; rewrite upd_spec; (destruct (Nat.eqb t t0) eqn:T; [apply Nat.eqb_eq in T; subst t0|exists o; exact P]);
      try (destruct P as [P|P]; rewrite P in H; discriminate H).
    + destruct P as [P|P]; rewrite P in H; [|discriminate H]. inversion H; subst. eexists. right. reflexivity.
    + exfalso. destruct P as [P|P]; rewrite P in H; [discriminate H|]. inversion H; subst. apply D. reflexivity.
Qed.

Lemma apart_applied c f l ls s : steps (init c f) ls s -> apart l ls ->
  forall ls1 t f' ls2 o ls3, ls = ls1 ++ FilterStart t l f' :: ls2 ++ FilterApply t o f' :: ls3 -> ~ In (FilterDone t l f') ls2 ->
    o = assigned l (c l) (ls1 ++ FilterStart t l f' :: ls2).
Proof.
  intros H A ls1 t f' ls2 o ls3 -> N.
  rewrite app_comm_cons, app_assoc in H. change (FilterApply t o f' :: ls3) with ([FilterApply t o f'] ++ ls3) in H. rewrite app_assoc in H.
  apply steps_app_inv in H as (s1 & H). apply steps_last in H as (s2 & H1 & H2).
  assert (A2 : apart l (ls1 ++ FilterStart t l f' :: ls2)).
  { intros a t1 f1 b t2 o2 d E. apply (A a t1 f1 b t2 o2 (d ++ FilterApply t o f' :: ls3)).
    change (ls1 ++ FilterStart t l f' :: ls2 ++ FilterApply t o f' :: ls3) with (ls1 ++ (FilterStart t l f' :: ls2) ++ FilterApply t o f' :: ls3).
    rewrite app_assoc, E, <- app_assoc. cbn. rewrite <- app_assoc. reflexivity. }
  destruct (apart_inv c f l _ s2 H1 A2) as [EC P]. rewrite <- EC.
  destruct (under_way c f t l f' ls1 ls2 s2 H1 N) as (o' & U). destruct (P t f' o' U) as [-> _].
  inversion H2; subst. match goal with X : pcs s2 t = FilterLoaded _ _ _ |- _ => destruct U as [U|U]; rewrite U in X; [|discriminate X]; inversion X; subst; reflexivity end.
Qed.
