(** What wrappers show. *)
From Verif Require Import Base Values WrapperModel WrapperSpec WrapperProofs WrapperMoreProofs.

Lemma dead_spec lib m s w : own lib m s -> dead s w = match m w with None => true | Some _ => false end.
Proof.
  intros O. unfold dead. destruct (m w) as [[i l]|] eqn:E.
  - destruct (o_alive _ _ _ O _ _ _ E) as [x [es W]]. destruct W as [[A _] _ _ _ _]. rewrite A. reflexivity.
  - rewrite (o_dead _ _ _ O _ E). reflexivity.
Qed.

(** The texts that each wrapper shows are those of its lender. *)
Definition borrow (lender : lenders) (m : ideal) (s : state) : Prop :=
  forall w x inner l, s_wrappers s w = Some x -> m w = Some (inner, l) ->
  exists y i es, has s (lender w) y es /\ m (lender w) = Some (i, l) /\ w_views x = view_elements (w_home y) 0 es.

Lemma own_step lib m s o m1 out : own lib m s -> expected m o m1 out -> no_log o ->
  exists s1, step lib s o = Some (s1, []) /\ out = [] /\ own lib m1 s1.
Proof.
  intros O E N. destruct E as [w inner l M I|src dst [inner l] M D|src dst inner l M D|w M|w p S]; cbn in N; [| | | |contradiction].
  - cbn. rewrite (dead_spec _ _ _ _ O), M.
    assert (A : match inner with None => true | Some v => negb (dead s v) end = true).
    { destruct inner as [v|]; [|reflexivity]. rewrite (dead_spec _ _ _ _ O). specialize (I v eq_refl). destruct (m v); [reflexivity|contradiction]. }
    rewrite A. cbn. destruct (make_added lib s w inner l) as [es [texts [next [E1 E2]]]].
    rewrite E2. eexists. split; [reflexivity|]. split; [reflexivity|]. apply own_added; assumption.
  - cbn. rewrite (dead_spec _ _ _ _ O), D. destruct (o_alive _ _ _ O _ _ _ M) as [x [es0 W]].
    destruct (copy_added lib m s src dst inner l x es0 O M (ow_has _ _ _ _ _ _ _ W)) as [es [texts [next [E1 E2]]]].
    rewrite E2. cbn. eexists. split; [reflexivity|]. split; [reflexivity|]. apply own_added; assumption.
  - cbn. rewrite (dead_spec _ _ _ _ O), D. destruct (o_alive _ _ _ O _ _ _ M) as [x [es W]].
    rewrite (move_moved s src dst x es (ow_has _ _ _ _ _ _ _ W)). cbn. eexists. split; [reflexivity|]. split; [reflexivity|].
    apply own_moved; auto. apply (ow_has _ _ _ _ _ _ _ W).
  - destruct (m w) as [[inner l]|] eqn:M'; [|contradiction].
    destruct (destroy_lemma lib m s w inner l O M') as [x [es [texts [W [F E]]]]]. cbn. rewrite E. cbn.
    eexists. split; [reflexivity|]. split; [reflexivity|]. eapply own_destroyed; [exact O|apply (ow_has _ _ _ _ _ _ _ W)|exact F].
Qed.

(** Any step that is taken keeps the ownership. *)
Lemma own_taken lib m s o s1 out : own lib m s -> step lib s o = Some (s1, out) -> exists m1, own lib m1 s1.
Proof.
  intros O H. destruct o as [w inner l|src dst|src dst|w|w]; cbn in H.
  - rewrite (dead_spec _ _ _ _ O) in H. destruct (m w) eqn:M; [discriminate|]. cbn in H.
    destruct (match inner with None => true | Some v => negb (dead s v) end); [|discriminate]. inversion H; subst.
    destruct (make_added lib s w inner l) as [es [texts [next [E1 E2]]]]. rewrite E2. eexists. apply own_added; eassumption.
  - rewrite (dead_spec _ _ _ _ O) in H. destruct (m dst) eqn:M; [discriminate|].
    destruct (m src) as [[inner l]|] eqn:MS.
    + destruct (o_alive _ _ _ O _ _ _ MS) as [x [es0 W]].
      destruct (copy_added lib m s src dst inner l x es0 O MS (ow_has _ _ _ _ _ _ _ W)) as [es [texts [next [E1 E2]]]].
      rewrite E2 in H. cbn in H. inversion H; subst. eexists. apply own_added; eassumption.
    + unfold copy in H. rewrite (o_dead _ _ _ O _ MS) in H. discriminate.
  - rewrite (dead_spec _ _ _ _ O) in H. destruct (m dst) eqn:M; [discriminate|].
    destruct (m src) as [[inner l]|] eqn:MS.
    + destruct (o_alive _ _ _ O _ _ _ MS) as [x [es W]]. pose proof (ow_has _ _ _ _ _ _ _ W) as HA.
      rewrite (move_moved s src dst x es HA) in H. cbn in H. inversion H; subst. eexists. eapply own_moved; eassumption.
    + unfold move in H. rewrite (o_dead _ _ _ O _ MS) in H. discriminate.
  - destruct (m w) as [[inner l]|] eqn:M.
    + destruct (destroy_lemma lib m s w inner l O M) as [x [es [texts [W [F E]]]]]. rewrite E in H. cbn in H. inversion H; subst.
      eexists. eapply own_destroyed; [exact O|apply (ow_has _ _ _ _ _ _ _ W)|exact F].
    + unfold destroy in H. rewrite (o_dead _ _ _ O _ M) in H. discriminate.
  - destruct (log (s_count s) s w); [|discriminate]. cbn in H. inversion H; subst. eauto.
Qed.
Lemma own_run lib ops : forall m s s1 outs, own lib m s -> run lib s ops = Some (s1, outs) -> exists m1, own lib m1 s1.
Proof.
  induction ops as [|o ops IH]; intros m s s1 outs O H; cbn in H; [inversion H; subst; eauto|].
  destruct (step lib s o) as [[s' out]|] eqn:E; [|discriminate].
  destruct (own_taken lib m s o s' out O E) as [m' O'].
  destruct (run lib s' ops) as [[s2 outs2]|] eqn:R; [|discriminate]. inversion H; subst. eapply IH; eassumption.
Qed.

Lemma borrow_step lib m s o m1 out s1 lender : own lib m s -> borrow lender m s -> expected m o m1 out -> no_log o ->
  orderly lib m lender o -> step lib s o = Some (s1, []) -> borrow (lend lender o) m1 s1.
Proof.
  intros O BR E N OR H. destruct E as [w inner l M I|src dst [inner l] M D|src dst inner l M D|w M|w p S]; cbn in N; [| | | |contradiction].
  - cbn in H. destruct (dead s w && _); [|discriminate]. inversion H; subst s1.
    destruct (make_added lib s w inner l) as [es [texts [next [E1 E2]]]]. rewrite E2.
    pose proof (added_has lib m s w inner l (view_elements (place lib w (length es) next) 0 es) es texts next O M E1) as AH.
    intros v x i l0 A B. cbn in *. destruct (Nat.eq_dec v w) as [->|Dv].
    + rewrite upd_same in A. rewrite set_same in B. inversion A; inversion B; subst. rewrite set_same.
      eexists. exists i, es. split; [apply AH; left; auto|]. rewrite set_same. auto.
    + rewrite upd_other in A by exact Dv. rewrite set_other in B by exact Dv. rewrite set_other by exact Dv.
      destruct (BR _ _ _ _ A B) as [y [j [fs [P [Q R]]]]].
      assert (lender v <> w) by (intros Z; rewrite Z in Q; congruence).
      exists y, j, fs. split; [apply AH; right; auto|]. rewrite set_other by assumption. auto.
  - cbn in H. destruct (dead s dst); [|discriminate]. destruct (o_alive _ _ _ O _ _ _ M) as [x0 [es0 W]].
    destruct (copy_added lib m s src dst inner l x0 es0 O M (ow_has _ _ _ _ _ _ _ W)) as [es [texts [next [E1 E2]]]].
    rewrite E2 in H. cbn in H. inversion H; subst s1.
    pose proof (added_has lib m s dst inner l (w_views x0) es texts next O D E1) as AH.
    assert (Any : forall v x i l0, s_wrappers s v = Some x -> m v = Some (i, l0) ->
      exists y j fs, has (added s dst inner (place lib dst (length es) next) es (w_views x0) texts next) (lender v) y fs /\
        set m dst (Some (inner, l)) (lender v) = Some (j, l0) /\ w_views x = view_elements (w_home y) 0 fs).
    { intros v x i l0 A B. destruct (BR _ _ _ _ A B) as [y [j [fs [P [Q R]]]]].
      assert (lender v <> dst) by (intros Z; rewrite Z in Q; congruence).
      exists y, j, fs. split; [apply AH; right; auto|]. rewrite set_other by assumption. auto. }
    intros v x i l0 A B. cbn in A. cbn [lend]. destruct (Nat.eq_dec v dst) as [->|Dv].
    + rewrite upd_same in A. rewrite set_same in B. inversion A; inversion B; subst. rewrite set_same. cbn [w_views].
      eapply Any; [apply (proj1 (ow_has _ _ _ _ _ _ _ W))|exact M].
    + rewrite upd_other in A by exact Dv. rewrite set_other in B by exact Dv. rewrite (set_other lender) by exact Dv. eapply Any; eassumption.
  - cbn in H. destruct (dead s dst); [|discriminate]. destruct (o_alive _ _ _ O _ _ _ M) as [x0 [es W]].
    pose proof (ow_has _ _ _ _ _ _ _ W) as HA. rewrite (move_moved s src dst x0 es HA) in H. cbn in H. inversion H; subst s1.
    pose proof (moved_has lib m s src dst x0 es O D HA) as MH.
    assert (SD : src <> dst) by congruence.
    pose proof (ow_home _ _ _ _ _ _ _ W) as Q0. pose proof (ow_shaped _ _ _ _ _ _ _ W) as S0.
    assert (Any : forall v x i l0, s_wrappers s v = Some x -> m v = Some (i, l0) ->
      exists y j fs, has (moved s src dst x0 es) (if Nat.eqb (lender v) src then dst else lender v) y fs /\
        set (set m src (Some (inner, []))) dst (Some (inner, l)) (if Nat.eqb (lender v) src then dst else lender v) = Some (j, l0) /\
        w_views x = view_elements (w_home y) 0 fs).
    { intros v x i l0 A B. destruct (BR _ _ _ _ A B) as [y [j [fs [P [Q R]]]]].
      destruct (Nat.eqb_spec (lender v) src) as [Z|Z].
      - rewrite Z in P, Q. rewrite M in Q. inversion Q; subst j l0.
        destruct P as [P1 P2]. destruct HA as [HA1 HA2]. rewrite HA1 in P1. inversion P1; subst y. rewrite HA2 in P2. inversion P2; subst fs.
        destruct (OR inner l M) as [PO|PO]; [|exfalso; apply (PO v); [congruence|exact Z]].
        eexists. exists inner, es. split; [apply MH; left; auto|]. split; [rewrite set_same; reflexivity|].
        cbn [w_home]. rewrite R. destruct (w_home x0) as [u|b]; cbn [moved_home]; [|reflexivity].
        destruct PO as [PO|PO]; [rewrite <- (shaped_length _ _ _ _ S0) in PO; lia|]. eapply portable_views; eassumption.
      - assert (lender v <> dst) by (intros Y; rewrite Y in Q; congruence).
        exists y, j, fs. split; [apply MH; right; right; auto|]. rewrite set_other by assumption. rewrite set_other by exact Z. auto. }
    intros v x i l0 A B. cbn [lend]. cbn in A. destruct (Nat.eq_dec v dst) as [->|Dv].
    + rewrite upd_same in A. rewrite set_same in B. inversion A; inversion B; subst. rewrite (set_same _ dst). cbn [w_views].
      eapply Any; [apply HA|exact M].
    + rewrite upd_other in A by exact Dv. rewrite set_other in B by exact Dv. rewrite (set_other _ dst) by exact Dv.
      destruct (Nat.eq_dec v src) as [->|Ds].
      * rewrite upd_same in A. rewrite set_same in B. inversion A; inversion B; subst. rewrite (set_same _ src).
        exists (Wrapper (w_inner x0) (Within src) []), i, []. split; [apply MH; auto|].
        rewrite set_other by exact SD. rewrite set_same. auto.
      * rewrite upd_other in A by exact Ds. rewrite set_other in B by exact Ds. rewrite (set_other _ src) by exact Ds. eapply Any; eassumption.
  - destruct (m w) as [[inner l]|] eqn:M'; [|contradiction].
    destruct (destroy_lemma lib m s w inner l O M') as [x0 [es [texts [W [F E]]]]]. cbn in H. rewrite E in H. cbn in H. inversion H; subst s1.
    pose proof (destroyed_has lib m s w x0 es texts O (ow_has _ _ _ _ _ _ _ W)) as DH.
    intros v x i l0 A B. cbn [lend]. cbn in A. destruct (Nat.eq_dec v w) as [->|Dv]; [rewrite upd_same in A; discriminate|].
    rewrite upd_other in A by exact Dv. rewrite set_other in B by exact Dv.
    destruct (BR _ _ _ _ A B) as [y [j [fs [P [Q R]]]]].
    assert (lender v <> w) by (intros Z; apply Dv; apply OR; [congruence|exact Z]).
    exists y, j, fs. split; [apply DH; auto|]. rewrite set_other by assumption. auto.
Qed.

(** Log calls. *)
Lemma read_all_lemma lib s h es l : s_elements s h = Some es -> shaped lib (s_texts s) es l -> read_views s (view_elements h 0 es) = Some l.
Proof. intros A S. exact (read_views_lemma lib s h [] es l A S). Qed.
Lemma shows_det m w p : shows m w p -> forall q, shows m w q -> p = q.
Proof.
  intros S. induction S as [w l A|w v l r A S IH]; intros q T; inversion T; subst; try congruence.
  rewrite A in H. inversion H; subst. f_equal. apply IH. assumption.
Qed.
Lemma shows_path m w p : shows m w p -> exists path, length path = length p /\ NoDup path /\
  (forall u, In u path -> m u <> None /\ exists q, shows m u q /\ length q <= length p).
Proof.
  intros S. induction S as [w l A|w v l r A S [path [L [N P]]]].
  - exists [w]. split; [reflexivity|]. split; [repeat constructor; cbn; auto|]. intros u [<-|[]].
    split; [congruence|]. exists [l]. split; [constructor; assumption|lia].
  - assert (SW : shows m w (l :: r)) by (econstructor; eassumption).
    exists (w :: path). split; [cbn; congruence|]. split.
    + constructor; [|exact N]. intros I. destruct (P _ I) as [_ [q [Q LQ]]].
      pose proof (shows_det _ _ _ SW _ Q) as Z. subst q. cbn in LQ. lia.
    + intros u [<-|I].
      * split; [congruence|]. exists (l :: r). split; [exact SW|lia].
      * destruct (P _ I) as [P1 [q [Q LQ]]]. split; [exact P1|]. exists q. split; [exact Q|cbn; lia].
Qed.
Lemma shows_bound lib m s w p : own lib m s -> shows m w p -> length p <= s_count s.
Proof.
  intros O S. destruct (shows_path _ _ _ S) as [path [L [N P]]]. destruct (o_count _ _ _ O) as [names [N1 [N2 N3]]].
  rewrite <- L. transitivity (length names); [|exact N2]. apply NoDup_incl_length; [exact N|].
  intros u I. apply N3. destruct (P _ I) as [A _]. intros Z. apply A. apply (own_dead lib m s u O). exact Z.
Qed.
Lemma log_lemma lib lender m s w p : own lib m s -> borrow lender m s -> shows m w p ->
  forall fuel, length p <= fuel -> log fuel s w = Some p.
Proof.
  intros O BR S. induction S as [w l A|w v l r A S IH]; intros fuel F; destruct fuel as [|fuel]; cbn in F; try lia; cbn.
  - destruct (o_alive _ _ _ O _ _ _ A) as [x [es W]]. pose proof (ow_has _ _ _ _ _ _ _ W) as [H1 _]. rewrite H1.
    destruct (BR _ _ _ _ H1 A) as [y [j [fs [[P1 P2] [Q R]]]]]. rewrite R.
    destruct (own_owner _ _ _ _ _ _ O (conj P1 P2)) as [i' [l' [Q' V]]]. rewrite Q in Q'. inversion Q'; subst i' l'.
    rewrite (read_all_lemma lib s (w_home y) fs l P2 (ow_shaped _ _ _ _ _ _ _ V)).
    rewrite (ow_inner _ _ _ _ _ _ _ W). reflexivity.
  - destruct (o_alive _ _ _ O _ _ _ A) as [x [es W]]. pose proof (ow_has _ _ _ _ _ _ _ W) as [H1 _]. rewrite H1.
    destruct (BR _ _ _ _ H1 A) as [y [j [fs [[P1 P2] [Q R]]]]]. rewrite R.
    destruct (own_owner _ _ _ _ _ _ O (conj P1 P2)) as [i' [l' [Q' V]]]. rewrite Q in Q'. inversion Q'; subst i' l'.
    rewrite (read_all_lemma lib s (w_home y) fs l P2 (ow_shaped _ _ _ _ _ _ _ V)).
    rewrite (ow_inner _ _ _ _ _ _ _ W). rewrite IH by lia. reflexivity.
Qed.

Lemma expected_det m o m1 out1 m2 out2 : expected m o m1 out1 -> expected m o m2 out2 -> m1 = m2 /\ out1 = out2.
Proof.
  intros A B. destruct A; inversion B; subst; auto.
  - split; [congruence|reflexivity].
  - rewrite H in H3. inversion H3; subst. auto.
  - split; [reflexivity|]. f_equal. eapply shows_det; eassumption.
Qed.

Lemma orderly_run lib ops : forall m lender s m2 outs, own lib m s -> borrow lender m s -> orderlies lib m lender ops ->
  expects m ops m2 outs -> exists s2, run lib s ops = Some (s2, outs) /\ own lib m2 s2.
Proof.
  induction ops as [|o ops IH]; intros m lender s m2 outs O BR OR EX.
  - inversion EX; subst. exists s. auto.
  - inversion EX as [|? m1 out ? ? outs' E EX']; subst. inversion OR as [|? ? ? ? m1' out' Q E' OR']; subst.
    destruct (expected_det _ _ _ _ _ _ E E') as [<- <-].
    assert (C : no_log o \/ exists w, o = Log w) by (destruct o; cbn; eauto).
    destruct C as [C|[w ->]].
    + destruct (own_step lib m s o m1 out O E C) as [s1 [S1 [-> O1]]].
      pose proof (borrow_step lib m s o m1 [] s1 lender O BR E C Q S1) as B1.
      destruct (IH m1 (lend lender o) s1 m2 outs' O1 B1 OR' EX') as [s2 [R2 O2]].
      exists s2. cbn [run]. rewrite S1, R2. auto.
    + inversion E; subst. cbn [run step]. pose proof (shows_bound lib m1 s w p O H0) as LB.
      rewrite (log_lemma lib lender m1 s w p O BR H0 _ LB). cbn [option_map].
      destruct (IH m1 lender s m2 outs' O BR OR' EX') as [s2 [R2 O2]]. exists s2. rewrite R2. auto.
Qed.

Lemma orderly_lemma lib ops m outs : orderlies lib nobody (fun w => w) ops -> expects nobody ops m outs ->
  exists s, run lib init ops = Some (s, outs).
Proof.
  intros A B. destruct (orderly_run lib ops nobody (fun w => w) init m outs (own_init lib)) as [s [R _]]; auto; [|eauto].
  intros w x i l H. discriminate.
Qed.

(** Programs that do not copy wrappers and whose attributes stay where they are. *)
Definition stays (lib : library) (o : op) : Prop :=
  match o with Copy _ _ => False | Make _ _ l => portable lib l | _ => True end.
Lemma stays_orderlies lib ops : forall m m2 outs lender, Forall (stays lib) ops -> expects m ops m2 outs ->
  (forall w, m w <> None -> lender w = w) -> (forall w i l, m w = Some (i, l) -> portable lib l) -> orderlies lib m lender ops.
Proof.
  induction ops as [|o ops IH]; intros m m2 outs lender F EX L P; [constructor|].
  inversion F; subst. inversion EX as [|? m1 out ? ? outs' E EX']; subst.
  econstructor; [|exact E|].
  - destruct o as [w i l|src dst|src dst|w|w]; cbn; auto.
    + intros i l M. left. eapply P. exact M.
    + intros x A B. rewrite L in B by exact A. exact B.
  - eapply IH; [assumption|exact EX'| |].
    + destruct E as [w inner l M I|src dst [inner l] M D|src dst inner l M D|w M|w p S]; cbn in *; try contradiction; auto.
      * intros v A. destruct (Nat.eq_dec v w) as [->|N]; [apply set_same|]. rewrite set_other by exact N.
        rewrite set_other in A by exact N. auto.
      * intros v A. destruct (Nat.eq_dec v dst) as [->|N].
        { rewrite set_same. rewrite L by congruence. rewrite Nat.eqb_refl. reflexivity. }
        rewrite set_other by exact N. rewrite set_other in A by exact N.
        destruct (Nat.eq_dec v src) as [->|N']; [apply set_same|]. rewrite set_other by exact N'. rewrite set_other in A by exact N'.
        rewrite L by exact A. destruct (Nat.eqb_spec v src); congruence.
      * intros v A. destruct (Nat.eq_dec v w) as [->|N]; [rewrite set_same in A; congruence|]. rewrite set_other in A by exact N. auto.
    + destruct E as [w inner l M I|src dst [inner l] M D|src dst inner l M D|w M|w p S]; cbn in *; try contradiction; auto.
      * intros v i l0 A. destruct (Nat.eq_dec v w) as [->|N]; [rewrite set_same in A; inversion A; subst; assumption|].
        rewrite set_other in A by exact N. eauto.
      * intros v i l0 A. destruct (Nat.eq_dec v dst) as [->|N]; [rewrite set_same in A; inversion A; subst; eauto|].
        rewrite set_other in A by exact N. destruct (Nat.eq_dec v src) as [->|N'].
        { rewrite set_same in A. inversion A; subst. right. constructor. }
        rewrite set_other in A by exact N'. eauto.
      * intros v i l0 A. destruct (Nat.eq_dec v w) as [->|N]; [rewrite set_same in A; discriminate|]. rewrite set_other in A by exact N. eauto.
Qed.
Lemma stays_lemma lib ops m outs : Forall no_copy ops ->
  Forall (fun o => match o with Make _ _ l => portable lib l | _ => True end) ops ->
  expects nobody ops m outs -> exists s, run lib init ops = Some (s, outs).
Proof.
  intros A B C. apply orderly_lemma with (m := m); [|exact C]. eapply stays_orderlies; [|exact C| |].
  - rewrite Forall_forall in *. intros o I. specialize (A o I). specialize (B o I). destruct o; cbn in *; auto.
  - reflexivity.
  - discriminate.
Qed.
Lemma vector_lemma n ops m outs : Forall no_copy ops -> expects nobody ops m outs -> exists s, run (Library n 0) init ops = Some (s, outs).
Proof.
  intros A C. eapply stays_lemma; [exact A| |exact C]. apply Forall_forall. intros o _. destruct o; auto.
  destruct l as [|a l]; [right; constructor|left; cbn; lia].
Qed.

Lemma keeps_orderlies lib ops : forall m m2 outs lender, Forall keeps ops -> expects m ops m2 outs ->
  (forall w, lender w = w) -> orderlies lib m lender ops.
Proof.
  induction ops as [|o ops IH]; intros m m2 outs lender F EX L; [constructor|].
  inversion F; subst. inversion EX as [|? m1 out ? ? outs' E EX']; subst.
  econstructor; [|exact E|].
  - destruct o; cbn in *; try contradiction; auto. intros x _ B. rewrite L in B. exact B.
  - eapply IH; [assumption|exact EX'|]. destruct o; cbn in *; try contradiction; auto.
    intros v. destruct (Nat.eq_dec v w) as [->|N]; [apply set_same|]. rewrite set_other by exact N. apply L.
Qed.
Lemma keeps_lemma lib ops m outs : Forall keeps ops -> expects nobody ops m outs -> exists s, run lib init ops = Some (s, outs).
Proof. intros A B. apply orderly_lemma with (m := m); [|exact B]. eapply keeps_orderlies; [exact A|exact B|reflexivity]. Qed.

(** Ownership. *)
Lemma leak_lemma lib ops s outs : run lib init ops = Some (s, outs) -> (forall w, s_wrappers s w = None) ->
  (forall b, s_texts s b = None) /\ (forall b, s_elements s (Buffer b) = None).
Proof.
  intros R D. destruct (own_run lib ops _ _ _ _ (own_init lib) R) as [m O]. split; intros b.
  - destruct (s_texts s b) eqn:E; [|reflexivity]. destruct (o_texts _ _ _ O b) as [w [x [es [[A _] _]]]]; [congruence|].
    rewrite D in A. discriminate.
  - destruct (s_elements s (Buffer b)) eqn:E; [|reflexivity]. destruct (o_homes _ _ _ O b) as [w [x [A _]]]; [congruence|].
    rewrite D in A. discriminate.
Qed.
Lemma stored_run lib ops : forall m s m2 outs, own lib m s -> expects m ops m2 outs -> Forall no_log ops ->
  exists s2, run lib s ops = Some (s2, []) /\ own lib m2 s2.
Proof.
  induction ops as [|o ops IH]; intros m s m2 outs O EX F.
  - inversion EX; subst. exists s. auto.
  - inversion EX as [|? m1 out ? ? outs' E EX']; subst. inversion F; subst.
    destruct (own_step lib m s o m1 out O E H1) as [s1 [S1 [-> O1]]].
    destruct (IH m1 s1 m2 outs' O1 EX' H2) as [s2 [R2 O2]]. exists s2. cbn [run]. rewrite S1, R2. auto.
Qed.
Lemma stored_lemma lib ops m outs : expects nobody ops m outs -> Forall no_log ops ->
  exists s, run lib init ops = Some (s, []) /\
    forall w, match m w with
              | None => s_wrappers s w = None
              | Some (inner, l) => exists x es, s_wrappers s w = Some x /\ w_inner x = inner /\
                                     s_elements s (w_home x) = Some es /\ elements_list (s_texts s) es = Some l
              end.
Proof.
  intros E F. destruct (stored_run lib ops nobody init m outs (own_init lib) E F) as [s [R O]]. exists s. split; [exact R|].
  intros w. destruct (m w) as [[inner l]|] eqn:M; [|apply (o_dead _ _ _ O); exact M].
  destruct (o_alive _ _ _ O _ _ _ M) as [x [es [[A B] C D _ _]]]. exists x, es. repeat split; auto.
  eapply shaped_list; exact D.
Qed.

(** Moving a wrapper whose attributes are inside of it. *)
Lemma unreadable s h i0 es : s_elements s h = Some [] -> forall i,
  Exists (fun e => exists c, e_name e = Inside c /\ c <> []) es -> i0 <= i -> read_views s (view_elements h i es) = None.
Proof.
  intros H. revert i0. induction es as [|e es IH]; intros i0 i E L; [inversion E|]. cbn.
  inversion E as [? ? [c [A B]]|? ? E']; subst.
  - rewrite A. cbn. unfold read. cbn. rewrite H. destruct c; [contradiction|]. cbn. destruct i; reflexivity.
  - rewrite (IH i0 (S i) E') by lia. destruct (read s (view_text h i Name (e_name e))); [|reflexivity].
    destruct (read_value s (view_stored h i (e_value e))); reflexivity.
Qed.
Lemma shaped_short lib texts es l : shaped lib texts es l -> Exists (fun a : attribute => 0 < length (fst a) <= l_text lib) l ->
  Exists (fun e => exists c, e_name e = Inside c /\ c <> []) es.
Proof.
  intros S. induction S as [|e a es l [N V] S IH]; intros E; inversion E; subst.
  - constructor. destruct (e_name e) as [c|b n]; cbn in N; [|lia]. destruct N as [-> _]. exists (fst a). split; [reflexivity|].
    intros Z. rewrite Z in H0. cbn in H0. lia.
  - apply Exists_cons_tl. auto.
Qed.
Lemma moved_lemma lib src dst l : src <> dst -> length l <= l_elements lib ->
  Exists (fun a : attribute => 0 < length (fst a) <= l_text lib) l ->
  run lib init [Make src None l; Move src dst; Log dst] = None.
Proof.
  intros D L E.
  assert (X1 : expected nobody (Make src None l) (set nobody src (Some (None, l))) []) by (constructor; [reflexivity|discriminate]).
  destruct (own_step lib nobody init (Make src None l) _ _ (own_init lib) X1 I) as [s1 [S1 [_ O1]]].
  cbn [run]. rewrite S1. cbn in S1. inversion S1 as [S1']. clear S1. rewrite S1'.
  destruct (make_added lib init src None l) as [es [texts [next [E1 E2]]]].
  assert (HS : has s1 src (Wrapper None (place lib src (length es) next) (view_elements (place lib src (length es) next) 0 es)) es).
  { rewrite <- S1', E2. eapply added_has; [apply own_init|reflexivity|exact E1|auto]. }
  destruct (own_owner _ _ _ _ _ _ O1 HS) as [i [l' [M W]]]. rewrite set_same in M. inversion M; subst i l'.
  pose proof (ow_shaped _ _ _ _ _ _ _ W) as SH. pose proof (shaped_length _ _ _ _ SH) as LE.
  assert (P : place lib src (length es) next = Within src).
  { unfold place. destruct (Nat.leb_spec (length es) (l_elements lib)); [reflexivity|lia]. }
  rewrite P in HS.
  assert (DD : dead s1 dst = true).
  { rewrite (dead_spec _ _ _ _ O1). rewrite set_other by congruence. reflexivity. }
  cbn [step]. rewrite DD, (move_moved s1 src dst _ es HS). cbn [option_map].
  match goal with |- context [log ?n ?s ?w] => assert (Z : log n s w = None) end.
  { cbn [moved s_count]. cbn [log moved s_wrappers]. rewrite upd_same. cbn [w_views].
    rewrite (unreadable _ (Within src) 0); [reflexivity| |eapply shaped_short; eassumption|lia].
    cbn [moved s_elements]. apply hset_same. }
  rewrite Z. reflexivity.
Qed.
