(** The linked guards simulate the stacks. *)
From Verif Require Import Base Values ScopeModel ScopeSpec.

Definition top (st : stack) : option gid := match st with [] => None | (g, _) :: _ => Some g end.

(** The guards of a stack are linked as they should be. *)
Fixpoint chain (guards : gid -> option guard) (l : lid) (st : stack) : Prop :=
  match st with
  | [] => True
  | (g, a) :: st' => guards g = Some (Guard l (top st') a) /\ chain guards l st'
  end.

Record Inv (s : state) (ss : sstate) : Prop := {
  inv_alive : forall l, st_alive s l = s_alive ss l;
  inv_dead : forall l t st, s_stack ss l t = Some st -> s_alive ss l = true;
  inv_top : forall l t st, s_stack ss l t = Some st -> st_tls s l t = top st;
  inv_chain : forall l t st, s_stack ss l t = Some st -> chain (st_guards s) l st;
  inv_nodup : forall l t st, s_stack ss l t = Some st -> NoDup (map fst st);
  inv_disjoint : forall l t st l' t' st' g, s_stack ss l t = Some st -> s_stack ss l' t' = Some st' ->
    In g (map fst st) -> In g (map fst st') -> l = l' /\ t = t';
  inv_live : forall g gd, st_guards s g = Some gd -> is_open ss g;
  inv_len : forall l t st, s_stack ss l t = Some st -> length st <= st_count s
}.

Lemma upd_same {A} (f : nat -> A) k v : upd f k v k = v.
Proof. unfold upd. rewrite Nat.eqb_refl. reflexivity. Qed.
Lemma upd_other {A} (f : nat -> A) k v x : x <> k -> upd f k v x = f x.
Proof. intros H. unfold upd. apply Nat.eqb_neq in H. rewrite H. reflexivity. Qed.
Lemma upd2_spec {A} (f : nat -> nat -> A) a b v x y :
  upd2 f a b v x y = if Nat.eqb x a && Nat.eqb y b then v else f x y.
Proof.
  unfold upd2, upd. destruct (Nat.eqb x a) eqn:E; [|reflexivity]. apply Nat.eqb_eq in E. subst.
  destruct (Nat.eqb y b); reflexivity.
Qed.

Lemma chain_ext guards guards' l st :
  (forall g, In g (map fst st) -> guards' g = guards g) -> chain guards l st -> chain guards' l st.
Proof.
  induction st as [|[g a] st IH]; cbn; [trivial|]. intros H [H1 H2]. split.
  - rewrite H by (left; reflexivity). exact H1.
  - apply IH; [|exact H2]. intros x Hx. apply H. right. exact Hx.
Qed.

Lemma chain_in guards l st g : chain guards l st -> In g (map fst st) -> exists p a, guards g = Some (Guard l p a).
Proof.
  induction st as [|[g' a] st IH]; cbn; [intros _ []|]. intros [H1 H2] [->|H]; eauto.
Qed.

Lemma collect_chain guards l st : forall fuel, chain guards l st -> length st <= fuel ->
  collect fuel guards (top st) = Some (map snd st).
Proof.
  induction st as [|[g a] st IH]; intros fuel Hc Hl; cbn [top map].
  - destruct fuel; reflexivity.
  - destruct fuel as [|fuel]; [cbn in Hl; lia|]. cbn [collect chain] in *. destruct Hc as [H1 H2]. rewrite H1.
    cbn [g_prev g_attrs]. rewrite IH by (auto; cbn in Hl; lia). reflexivity.
Qed.

Lemma rebind_chain l l' st : forall fuel guards, chain guards l st -> NoDup (map fst st) -> length st <= fuel ->
  exists guards', rebind fuel guards (top st) l' = Some guards' /\ chain guards' l' st /\
    forall g, ~ In g (map fst st) -> guards' g = guards g.
Proof.
  induction st as [|[g a] st IH]; intros fuel guards Hc Hn Hl; cbn [top].
  - exists guards. destruct fuel; cbn; auto.
  - destruct fuel as [|fuel]; [cbn in Hl; lia|]. cbn [rebind chain map] in *. destruct Hc as [H1 H2]. rewrite H1.
    cbn [g_prev g_attrs]. inversion Hn; subst.
    set (guards1 := upd guards g (Some (Guard l' (top st) a))).
    assert (Hc1 : chain guards1 l st).
    { apply (chain_ext guards); [|exact H2]. intros x Hx. subst guards1. apply upd_other. intros ->. contradiction. }
    destruct (IH fuel guards1 Hc1 H4 ltac:(cbn in Hl; lia)) as (guards' & E & Hc' & Ho).
    exists guards'. split; [exact E|]. split.
    + split; [|exact Hc']. rewrite Ho by assumption. subst guards1. apply upd_same.
    + intros x Hx. cbn in Hx. rewrite Ho by tauto. subst guards1. apply upd_other. intros ->. tauto.
Qed.

Ltac eqb_case := 
  match goal with
  | H : context [Nat.eqb ?a ?b] |- _ => let E := fresh "E" in destruct (Nat.eqb a b) eqn:E;
      [apply Nat.eqb_eq in E; subst|apply Nat.eqb_neq in E]; cbn [andb] in H
  | |- context [Nat.eqb ?a ?b] => let E := fresh "E" in destruct (Nat.eqb a b) eqn:E;
      [apply Nat.eqb_eq in E; subst|apply Nat.eqb_neq in E]; cbn [andb]
  end.

Lemma inv_init : Inv init sinit.
Proof. split; cbn; try discriminate; auto. Qed.

Lemma top_in st g : top st = Some g -> In g (map fst st).
Proof. destruct st as [|[x a] st]; cbn; intros E; inversion E; auto. Qed.

(** Moves: the same argument for construction and assignment. *)
Lemma move_inv s ss t src dst st alive' tls0 salive' sstack' :
  Inv s ss -> src <> dst ->
  s_stack ss src t = Some st ->
  (forall l, alive' l = salive' l) ->
  (forall l t' st', sstack' l t' = Some st' -> salive' l = true) ->
  tls0 src t = st_tls s src t ->
  (forall l t' st', ~ (l = dst /\ t' = t) -> sstack' l t' = Some st' ->
      tls0 l t' = top st' /\ (st' = [] \/ (s_stack ss l t' = Some st' /\ ~ (l = src /\ t' = t)))) ->
  sstack' dst t = Some st ->
  (forall l t' st', s_stack ss l t' = Some st' -> st' <> [] -> ~ (l = src /\ t' = t) -> ~ (l = dst /\ t' = t) -> sstack' l t' = Some st') ->
  (forall st', s_stack ss dst t = Some st' -> st' = []) ->
  exists guards, rebind (st_count s) (st_guards s) (tls0 src t) dst = Some guards /\
    Inv (State guards alive' (upd2 tls0 dst t (tls0 src t)) (st_count s)) (SState salive' sstack').
Proof.
  intros HI Hne Hs Ha Hd Ht Hother Hdst Hkeep Hdst0.
  destruct (rebind_chain src dst st (st_count s) (st_guards s)
              (inv_chain _ _ HI _ _ _ Hs) (inv_nodup _ _ HI _ _ _ Hs) (inv_len _ _ HI _ _ _ Hs))
    as (guards' & E & Hc' & Ho).
  rewrite Ht, (inv_top _ _ HI _ _ _ Hs). exists guards'. split; [exact E|].
  split; cbn [st_alive st_guards st_tls st_count s_alive s_stack].
  - exact Ha.
  - exact Hd.
  - intros l t' st' H'. rewrite upd2_spec. destruct (Nat.eqb l dst && Nat.eqb t' t) eqn:Eb.
    + apply andb_true_iff in Eb as [E1 E2]. apply Nat.eqb_eq in E1, E2. subst. congruence.
    + assert (Hn : ~ (l = dst /\ t' = t)).
      { intros [-> ->]. rewrite !Nat.eqb_refl in Eb. discriminate. }
      apply (Hother l t' st' Hn H').
  - intros l t' st' H'. destruct (Nat.eq_dec l dst) as [->|Nl]; [destruct (Nat.eq_dec t' t) as [->|Nt]|].
    + assert (st' = st) by congruence. subst. exact Hc'.
    + assert (Hn : ~ (dst = dst /\ t' = t)) by tauto.
      destruct (Hother _ _ _ Hn H') as (_ & [->|(Hs' & Hns)]); [exact I|].
      apply (chain_ext (st_guards s)); [|exact (inv_chain _ _ HI _ _ _ Hs')].
      intros g Hg. apply Ho. intros Hg'. destruct (inv_disjoint _ _ HI _ _ _ _ _ _ g Hs' Hs Hg Hg'). tauto.
    + assert (Hn : ~ (l = dst /\ t' = t)) by tauto.
      destruct (Hother _ _ _ Hn H') as (_ & [->|(Hs' & Hns)]); [exact I|].
      apply (chain_ext (st_guards s)); [|exact (inv_chain _ _ HI _ _ _ Hs')].
      intros g Hg. apply Ho. intros Hg'. destruct (inv_disjoint _ _ HI _ _ _ _ _ _ g Hs' Hs Hg Hg'). tauto.
  - intros l t' st' H'. destruct (Nat.eq_dec l dst) as [->|Nl]; [destruct (Nat.eq_dec t' t) as [->|Nt]|].
    + assert (st' = st) by congruence. subst. exact (inv_nodup _ _ HI _ _ _ Hs).
    + destruct (Hother dst t' st' ltac:(tauto) H') as (_ & [->|(Hs' & Hns)]); [constructor|]. exact (inv_nodup _ _ HI _ _ _ Hs').
    + destruct (Hother l t' st' ltac:(tauto) H') as (_ & [->|(Hs' & Hns)]); [constructor|]. exact (inv_nodup _ _ HI _ _ _ Hs').
  - assert (Hback : forall l t' st' g, sstack' l t' = Some st' -> In g (map fst st') ->
      (l = dst /\ t' = t /\ In g (map fst st)) \/ (~ (l = dst /\ t' = t) /\ s_stack ss l t' = Some st' /\ ~ (l = src /\ t' = t))).
    { intros l t' st' g H' Hg. destruct (Nat.eq_dec l dst) as [->|Nl]; [destruct (Nat.eq_dec t' t) as [->|Nt]|].
      - left. assert (st' = st) by congruence. subst. auto.
      - destruct (Hother dst t' st' ltac:(tauto) H') as (_ & [->|(Hs' & Hns)]); [destruct Hg|]. right. tauto.
      - destruct (Hother l t' st' ltac:(tauto) H') as (_ & [->|(Hs' & Hns)]); [destruct Hg|]. right. tauto. }
    intros l t' st' l2 t2 st2 g H1 H2 G1 G2.
    destruct (Hback _ _ _ _ H1 G1) as [(-> & -> & Gs)|(Hn1 & Hs1 & Hns1)];
    destruct (Hback _ _ _ _ H2 G2) as [(-> & -> & Gs2)|(Hn2 & Hs2 & Hns2)].
    + auto.
    + exfalso. destruct (inv_disjoint _ _ HI _ _ _ _ _ _ g Hs2 Hs G2 Gs). tauto.
    + exfalso. destruct (inv_disjoint _ _ HI _ _ _ _ _ _ g Hs1 Hs G1 Gs2). tauto.
    + exact (inv_disjoint _ _ HI _ _ _ _ _ _ g Hs1 Hs2 G1 G2).
  - intros g gd Hg. destruct (in_dec Nat.eq_dec g (map fst st)) as [Hin|Hout].
    + exists dst, t, st. auto.
    + rewrite Ho in Hg by exact Hout. destruct (inv_live _ _ HI _ _ Hg) as (l & t' & st' & Hs' & Hin').
      exists l, t', st'. split; [|exact Hin']. cbn [s_stack]. apply Hkeep; [exact Hs'| | |].
      * intros ->. destruct Hin'.
      * intros [-> ->]. assert (st' = st) by congruence. subst. contradiction.
      * intros [-> ->]. rewrite (Hdst0 _ Hs') in Hin'. destruct Hin'.
  - intros l t' st' H'. destruct (Nat.eq_dec l dst) as [->|Nl]; [destruct (Nat.eq_dec t' t) as [->|Nt]|].
    + assert (st' = st) by congruence. subst. exact (inv_len _ _ HI _ _ _ Hs).
    + destruct (Hother dst t' st' ltac:(tauto) H') as (_ & [->|(Hs' & Hns)]); [cbn; lia|]. exact (inv_len _ _ HI _ _ _ Hs').
    + destruct (Hother l t' st' ltac:(tauto) H') as (_ & [->|(Hs' & Hns)]); [cbn; lia|]. exact (inv_len _ _ HI _ _ _ Hs').
Qed.

Lemma step_sim s ss o ss' out : Inv s ss -> sstep ss o ss' out -> exists s', step s o = Done s' out /\ Inv s' ss'.
Proof.
  intros HI Hs. destruct Hs; cbn [step].
  - (* NewLogger *)
    rewrite (inv_alive _ _ HI), H. eexists. split; [reflexivity|].
    split; cbn [st_alive st_guards st_tls st_count s_alive s_stack].
    + intros x. unfold upd. eqb_case; [reflexivity|apply (inv_alive _ _ HI)].
    + intros x t st E. eqb_case; [reflexivity|]. exact (inv_dead _ _ HI _ _ _ E).
    + intros x t st E. unfold upd. destruct (Nat.eqb x l); [inversion E; reflexivity|]. exact (inv_top _ _ HI _ _ _ E).
    + intros x t st E. destruct (Nat.eqb x l); [inversion E; exact I|]. exact (inv_chain _ _ HI _ _ _ E).
    + intros x t st E. destruct (Nat.eqb x l); [inversion E; constructor|]. exact (inv_nodup _ _ HI _ _ _ E).
    + intros x t st x' t' st' g E E' G G'. destruct (Nat.eqb x l); [inversion E; subst; destruct G|].
      destruct (Nat.eqb x' l); [inversion E'; subst; destruct G'|]. exact (inv_disjoint _ _ HI _ _ _ _ _ _ g E E' G G').
    + intros g gd E. destruct (inv_live _ _ HI _ _ E) as (x & t & st & Es & G). exists x, t, st. split; [|exact G]. cbn.
      eqb_case; [|exact Es]. exfalso. pose proof (inv_dead _ _ HI _ _ _ Es). congruence.
    + intros x t st E. destruct (Nat.eqb x l); [inversion E; cbn; lia|]. exact (inv_len _ _ HI _ _ _ E).
  - (* DestroyLogger *)
    rewrite (inv_alive _ _ HI), H. eexists. split; [reflexivity|].
    split; cbn [st_alive st_guards st_tls st_count s_alive s_stack].
    + intros x. unfold upd. eqb_case; [reflexivity|apply (inv_alive _ _ HI)].
    + intros x t st E. eqb_case; [discriminate|]. exact (inv_dead _ _ HI _ _ _ E).
    + intros x t st E. destruct (Nat.eqb x l); [discriminate|]. exact (inv_top _ _ HI _ _ _ E).
    + intros x t st E. destruct (Nat.eqb x l); [discriminate|]. exact (inv_chain _ _ HI _ _ _ E).
    + intros x t st E. destruct (Nat.eqb x l); [discriminate|]. exact (inv_nodup _ _ HI _ _ _ E).
    + intros x t st x' t' st' g E E' G G'. destruct (Nat.eqb x l); [discriminate|]. destruct (Nat.eqb x' l); [discriminate|].
      exact (inv_disjoint _ _ HI _ _ _ _ _ _ g E E' G G').
    + intros g gd E. destruct (inv_live _ _ HI _ _ E) as (x & t & st & Es & G). exists x, t, st. split; [|exact G]. cbn.
      eqb_case; [|exact Es]. rewrite (H0 _ _ Es) in G. destruct G.
    + intros x t st E. destruct (Nat.eqb x l); [discriminate|]. exact (inv_len _ _ HI _ _ _ E).
  - (* Open *)
    rewrite (inv_alive _ _ HI), H.
    destruct (st_guards s g) as [gd|] eqn:Eg; [exfalso; apply H1; exact (inv_live _ _ HI _ _ Eg)|].
    eexists. split; [reflexivity|].
    assert (Hfresh : forall l' t' st', s_stack s0 l' t' = Some st' -> ~ In g (map fst st')).
    { intros l' t' st' E Hin. apply H1. exists l', t', st'. auto. }
    split; cbn [st_alive st_guards st_tls st_count s_alive s_stack]; unfold set_stack.
    + exact (inv_alive _ _ HI).
    + intros x t' st' E. destruct (Nat.eqb x l && Nat.eqb t' t) eqn:Eb; [|exact (inv_dead _ _ HI _ _ _ E)].
      apply andb_true_iff in Eb as [E1 _]. apply Nat.eqb_eq in E1. subst. exact H.
    + intros x t' st' E. rewrite upd2_spec. destruct (Nat.eqb x l && Nat.eqb t' t); [inversion E; reflexivity|].
      exact (inv_top _ _ HI _ _ _ E).
    + intros x t' st' E. destruct (Nat.eqb x l && Nat.eqb t' t) eqn:Eb.
      * inversion E; subst. apply andb_true_iff in Eb as [E1 _]. apply Nat.eqb_eq in E1. subst. cbn [chain]. split.
        -- rewrite upd_same, (inv_top _ _ HI _ _ _ H0). reflexivity.
        -- apply (chain_ext (st_guards s)); [|exact (inv_chain _ _ HI _ _ _ H0)].
           intros y Hy. apply upd_other. intros ->. exact (Hfresh _ _ _ H0 Hy).
      * apply (chain_ext (st_guards s)); [|exact (inv_chain _ _ HI _ _ _ E)].
        intros y Hy. apply upd_other. intros ->. exact (Hfresh _ _ _ E Hy).
    + intros x t' st' E. destruct (Nat.eqb x l && Nat.eqb t' t); [|exact (inv_nodup _ _ HI _ _ _ E)].
      inversion E; subst. cbn. constructor; [exact (Hfresh _ _ _ H0)|exact (inv_nodup _ _ HI _ _ _ H0)].
    + intros x t1 st1 x' t2 st2 y E1 E2 G1 G2.
      destruct (Nat.eqb x l && Nat.eqb t1 t) eqn:B1; destruct (Nat.eqb x' l && Nat.eqb t2 t) eqn:B2.
      * apply andb_true_iff in B1 as [B1 B1'], B2 as [B2 B2']. apply Nat.eqb_eq in B1, B1', B2, B2'. subst. auto.
      * inversion E1; subst. apply andb_true_iff in B1 as [B1 B1']. apply Nat.eqb_eq in B1, B1'. subst.
        destruct G1 as [<-|G1]; [exfalso; exact (Hfresh _ _ _ E2 G2)|].
        exact (inv_disjoint _ _ HI _ _ _ _ _ _ y H0 E2 G1 G2).
      * inversion E2; subst. apply andb_true_iff in B2 as [B2 B2']. apply Nat.eqb_eq in B2, B2'. subst.
        destruct G2 as [<-|G2]; [exfalso; exact (Hfresh _ _ _ E1 G1)|].
        exact (inv_disjoint _ _ HI _ _ _ _ _ _ y E1 H0 G1 G2).
      * exact (inv_disjoint _ _ HI _ _ _ _ _ _ y E1 E2 G1 G2).
    + intros y gd E. unfold is_open. cbn [s_stack]. destruct (Nat.eq_dec y g) as [->|Hy].
      * exists l, t, ((g, a) :: st). unfold set_stack. rewrite !Nat.eqb_refl. cbn. auto.
      * rewrite upd_other in E by exact Hy. destruct (inv_live _ _ HI _ _ E) as (x & t' & st' & Es & G).
        destruct (Nat.eqb x l && Nat.eqb t' t) eqn:Eb.
        -- apply andb_true_iff in Eb as [E1 E2]. apply Nat.eqb_eq in E1, E2. subst.
           exists l, t, ((g, a) :: st). rewrite !Nat.eqb_refl. cbn. assert (st' = st) by congruence. subst. auto.
        -- exists x, t', st'. rewrite Eb. auto.
    + intros x t' st' E. destruct (Nat.eqb x l && Nat.eqb t' t).
      * inversion E; subst. cbn. pose proof (inv_len _ _ HI _ _ _ H0). lia.
      * pose proof (inv_len _ _ HI _ _ _ E). lia.
  - (* Close *)
    pose proof (inv_chain _ _ HI _ _ _ H) as Hc. cbn [chain] in Hc. destruct Hc as [Hg Hc].
    pose proof (inv_dead _ _ HI _ _ _ H) as Hal. pose proof (inv_top _ _ HI _ _ _ H) as Htop.
    pose proof (inv_nodup _ _ HI _ _ _ H) as Hn. cbn in Hn. inversion Hn as [|? ? Hn1 Hn2]; subst.
    rewrite Hg. cbn [g_manager g_prev]. rewrite (inv_alive _ _ HI), Hal, Htop. cbn [top]. rewrite Nat.eqb_refl.
    eexists. split; [reflexivity|].
    split; cbn [st_alive st_guards st_tls st_count s_alive s_stack]; unfold set_stack.
    + exact (inv_alive _ _ HI).
    + intros x t' st' E. destruct (Nat.eqb x l && Nat.eqb t' t) eqn:Eb; [|exact (inv_dead _ _ HI _ _ _ E)].
      apply andb_true_iff in Eb as [E1 _]. apply Nat.eqb_eq in E1. subst. exact Hal.
    + intros x t' st' E. rewrite upd2_spec. destruct (Nat.eqb x l && Nat.eqb t' t); [inversion E; reflexivity|].
      exact (inv_top _ _ HI _ _ _ E).
    + intros x t' st' E. destruct (Nat.eqb x l && Nat.eqb t' t) eqn:Eb.
      * inversion E; subst. apply andb_true_iff in Eb as [E1 _]. apply Nat.eqb_eq in E1. subst.
        apply (chain_ext (st_guards s)); [|exact Hc]. intros y Hy. apply upd_other. intros ->. contradiction.
      * apply (chain_ext (st_guards s)); [|exact (inv_chain _ _ HI _ _ _ E)].
        intros y Hy. apply upd_other. intros ->.
        destruct (inv_disjoint _ _ HI _ _ _ _ _ _ g E H Hy (or_introl eq_refl)) as [-> ->].
        rewrite !Nat.eqb_refl in Eb. discriminate.
    + intros x t' st' E. destruct (Nat.eqb x l && Nat.eqb t' t); [inversion E; subst; exact Hn2|exact (inv_nodup _ _ HI _ _ _ E)].
    + intros x t1 st1 x' t2 st2 y E1 E2 G1 G2.
      destruct (Nat.eqb x l && Nat.eqb t1 t) eqn:B1; destruct (Nat.eqb x' l && Nat.eqb t2 t) eqn:B2.
      * apply andb_true_iff in B1 as [B1 B1'], B2 as [B2 B2']. apply Nat.eqb_eq in B1, B1', B2, B2'. subst. auto.
      * inversion E1; subst. apply andb_true_iff in B1 as [B1 B1']. apply Nat.eqb_eq in B1, B1'. subst.
        exact (inv_disjoint _ _ HI _ _ _ _ _ _ y H E2 (or_intror G1) G2).
      * inversion E2; subst. apply andb_true_iff in B2 as [B2 B2']. apply Nat.eqb_eq in B2, B2'. subst.
        exact (inv_disjoint _ _ HI _ _ _ _ _ _ y E1 H G1 (or_intror G2)).
      * exact (inv_disjoint _ _ HI _ _ _ _ _ _ y E1 E2 G1 G2).
    + intros y gd E. unfold is_open. cbn [s_stack]. destruct (Nat.eq_dec y g) as [->|Hy]; [rewrite upd_same in E; discriminate|].
      rewrite upd_other in E by exact Hy. destruct (inv_live _ _ HI _ _ E) as (x & t' & st' & Es & G).
      destruct (Nat.eqb x l && Nat.eqb t' t) eqn:Eb.
      * apply andb_true_iff in Eb as [E1 E2]. apply Nat.eqb_eq in E1, E2. subst.
        exists l, t, st. rewrite !Nat.eqb_refl. split; [reflexivity|].
        assert (st' = (g, a) :: st) by congruence. subst. cbn in G; destruct G as [G|G]; [exfalso; apply Hy; symmetry; exact G|exact G].
      * exists x, t', st'. rewrite Eb. auto.
    + intros x t' st' E. destruct (Nat.eqb x l && Nat.eqb t' t); [|exact (inv_len _ _ HI _ _ _ E)].
      inversion E; subst. pose proof (inv_len _ _ HI _ _ _ H) as Hl. cbn in Hl. lia.
  - (* Log *)
    rewrite (inv_alive _ _ HI), H, (inv_top _ _ HI _ _ _ H0).
    rewrite (collect_chain _ l st) by (first [exact (inv_chain _ _ HI _ _ _ H0) | exact (inv_len _ _ HI _ _ _ H0)]).
    eexists. split; [reflexivity|exact HI].
  - (* MoveConstruct *)
    assert (Hne : src <> dst) by congruence.
    rewrite !(inv_alive _ _ HI), H, H0. cbn [andb negb]. unfold take_scopes.
    edestruct (move_inv s s0 t src dst st (upd (st_alive s) dst true) (upd (st_tls s) dst (fun _ => None))
      (fun l' => if Nat.eqb l' dst then true else s_alive s0 l')
      (fun l' t' => if Nat.eqb l' dst then (if Nat.eqb t' t then Some st else Some [])
                    else if Nat.eqb l' src && Nat.eqb t' t then (match st with [] => Some [] | _ => None end)
                    else s_stack s0 l' t')) as (guards & E & HI').
    + exact HI.
    + exact Hne.
    + exact H1.
    + intros x. unfold upd. destruct (Nat.eqb x dst); [reflexivity|apply (inv_alive _ _ HI)].
    + intros x t' st' E. destruct (Nat.eqb x dst); [reflexivity|]. destruct (Nat.eqb x src && Nat.eqb t' t) eqn:Eb.
      * apply andb_true_iff in Eb as [E1 _]. apply Nat.eqb_eq in E1. subst. exact H.
      * exact (inv_dead _ _ HI _ _ _ E).
    + rewrite upd_other by exact Hne. reflexivity.
    + intros x t' st' Hn E. unfold upd. destruct (Nat.eqb x dst) eqn:E1.
      * apply Nat.eqb_eq in E1. subst. destruct (Nat.eqb t' t) eqn:E2; [apply Nat.eqb_eq in E2; subst; tauto|].
        inversion E; subst. split; [reflexivity|left; reflexivity].
      * destruct (Nat.eqb x src && Nat.eqb t' t) eqn:Eb.
        -- apply andb_true_iff in Eb as [E2 E3]. apply Nat.eqb_eq in E2, E3. subst.
           destruct st; [|discriminate]. inversion E; subst. split; [exact (inv_top _ _ HI _ _ _ H1)|left; reflexivity].
        -- split; [exact (inv_top _ _ HI _ _ _ E)|]. right. split; [exact E|]. intros [-> ->]. rewrite !Nat.eqb_refl in Eb. discriminate.
    + rewrite !Nat.eqb_refl. reflexivity.
    + intros x t' st' E Hne' Hn1 Hn2. destruct (Nat.eqb x dst) eqn:E1.
      * apply Nat.eqb_eq in E1. subst. pose proof (inv_dead _ _ HI _ _ _ E). congruence.
      * destruct (Nat.eqb x src && Nat.eqb t' t) eqn:Eb; [|exact E].
        apply andb_true_iff in Eb as [E2 E3]. apply Nat.eqb_eq in E2, E3. tauto.
    + intros st' E. pose proof (inv_dead _ _ HI _ _ _ E). congruence.
    + rewrite E. eexists. split; [reflexivity|exact HI'].
  - (* MoveAssign *)
    rewrite !(inv_alive _ _ HI), H, H0. cbn [andb]. assert (Eb : Nat.eqb src dst = false) by (apply Nat.eqb_neq; exact H1).
    rewrite Eb. unfold take_scopes.
    edestruct (move_inv s s0 t src dst st (st_alive s) (st_tls s) (s_alive s0)
      (fun l' t' => if Nat.eqb l' dst && Nat.eqb t' t then Some st
                    else if Nat.eqb l' src && Nat.eqb t' t then (match st with [] => Some [] | _ => None end)
                    else s_stack s0 l' t')) as (guards & E & HI').
    + exact HI.
    + exact H1.
    + exact H2.
    + exact (inv_alive _ _ HI).
    + intros x t' st' E. destruct (Nat.eqb x dst && Nat.eqb t' t) eqn:E1.
      * apply andb_true_iff in E1 as [E1 _]. apply Nat.eqb_eq in E1. subst. exact H0.
      * destruct (Nat.eqb x src && Nat.eqb t' t) eqn:E2; [|exact (inv_dead _ _ HI _ _ _ E)].
        apply andb_true_iff in E2 as [E2 _]. apply Nat.eqb_eq in E2. subst. exact H.
    + reflexivity.
    + intros x t' st' Hn E. destruct (Nat.eqb x dst && Nat.eqb t' t) eqn:E1.
      * apply andb_true_iff in E1 as [E1 E2]. apply Nat.eqb_eq in E1, E2. tauto.
      * destruct (Nat.eqb x src && Nat.eqb t' t) eqn:E2.
        -- apply andb_true_iff in E2 as [E2 E3]. apply Nat.eqb_eq in E2, E3. subst.
           destruct st; [|discriminate]. inversion E; subst. split; [exact (inv_top _ _ HI _ _ _ H2)|left; reflexivity].
        -- split; [exact (inv_top _ _ HI _ _ _ E)|]. right. split; [exact E|]. intros [-> ->]. rewrite !Nat.eqb_refl in E2. discriminate.
    + rewrite !Nat.eqb_refl. reflexivity.
    + intros x t' st' E Hne' Hn1 Hn2. destruct (Nat.eqb x dst && Nat.eqb t' t) eqn:E1.
      * apply andb_true_iff in E1 as [E1 E2]. apply Nat.eqb_eq in E1, E2. tauto.
      * destruct (Nat.eqb x src && Nat.eqb t' t) eqn:E2; [|exact E].
        apply andb_true_iff in E2 as [E2 E3]. apply Nat.eqb_eq in E2, E3. tauto.
    + intros st' E. destruct H3 as [H3|H3]; congruence.
    + rewrite E. eexists. split; [reflexivity|exact HI'].
  - (* self *)
    rewrite !(inv_alive _ _ HI), H. cbn [andb]. rewrite Nat.eqb_refl. eexists. split; [reflexivity|exact HI].
Qed.

Lemma run_sim ss ops ss' outs : srun ss ops ss' outs -> forall s, Inv s ss ->
  exists s', run s ops = Some (s', outs) /\ Inv s' ss'.
Proof.
  induction 1 as [ss|ss o ss1 out ops ss2 outs Hs _ IH]; intros s HI.
  - exists s. split; [reflexivity|exact HI].
  - destruct (step_sim _ _ _ _ _ HI Hs) as (s1 & E1 & HI1). destruct (IH _ HI1) as (s2 & E2 & HI2).
    exists s2. split; [|exact HI2]. cbn [run]. rewrite E1, E2. reflexivity.
Qed.

Lemma scopes_lemma ops ss outs : srun sinit ops ss outs -> exists s, run init ops = Some (s, outs).
Proof. intros H. destruct (run_sim _ _ _ _ H init inv_init) as (s & E & _). eauto. Qed.

Lemma reachable_inv ops ss outs s outs' : srun sinit ops ss outs -> run init ops = Some (s, outs') -> Inv s ss /\ outs' = outs.
Proof.
  intros H E. destruct (run_sim _ _ _ _ H init inv_init) as (s' & E' & HI). rewrite E in E'. inversion E'; subst. auto.
Qed.

Lemma srun_app ss ops1 ss1 outs1 ops2 ss2 outs2 :
  srun ss ops1 ss1 outs1 -> srun ss1 ops2 ss2 outs2 -> srun ss (ops1 ++ ops2) ss2 (outs1 ++ outs2).
Proof.
  induction 1 as [|ss o ssa out ops ssb outs Hs Hr IH]; intros H2; [exact H2|].
  cbn. replace ((match out with Some p => p :: outs | None => outs end) ++ outs2)
    with (match out with Some p => p :: (outs ++ outs2) | None => outs ++ outs2 end) by (destruct out; reflexivity).
  econstructor; [exact Hs|]. apply IH, H2.
Qed.

Lemma close_not_newest_lemma ops ss outs s l t g0 a0 st g :
  srun sinit ops ss outs -> run init ops = Some (s, outs) ->
  s_stack ss l t = Some ((g0, a0) :: st) -> In g (map fst st) -> step s (Close t g) = Undefined.
Proof.
  intros H E Hs Hg. destruct (reachable_inv _ _ _ _ _ H E) as [HI _].
  pose proof (inv_chain _ _ HI _ _ _ Hs) as Hc. pose proof (inv_nodup _ _ HI _ _ _ Hs) as Hn. cbn in Hn. inversion Hn; subst.
  destruct (chain_in _ _ _ g Hc (or_intror Hg)) as (p & a & Eg). cbn [step]. rewrite Eg. cbn [g_manager].
  rewrite (inv_alive _ _ HI), (inv_dead _ _ HI _ _ _ Hs), (inv_top _ _ HI _ _ _ Hs). cbn [top].
  destruct (Nat.eqb g0 g) eqn:Eb; [|reflexivity]. apply Nat.eqb_eq in Eb. subst. contradiction.
Qed.

Lemma close_other_thread_lemma ops ss outs s l t st u st' g :
  srun sinit ops ss outs -> run init ops = Some (s, outs) ->
  s_stack ss l t = Some st -> In g (map fst st) -> u <> t -> s_stack ss l u = Some st' -> step s (Close u g) = Undefined.
Proof.
  intros H E Hs Hg Hu Hs'. destruct (reachable_inv _ _ _ _ _ H E) as [HI _].
  destruct (chain_in _ _ _ g (inv_chain _ _ HI _ _ _ Hs) Hg) as (p & a & Eg). cbn [step]. rewrite Eg. cbn [g_manager].
  rewrite (inv_alive _ _ HI), (inv_dead _ _ HI _ _ _ Hs), (inv_top _ _ HI _ _ _ Hs').
  destruct (top st') as [x|] eqn:Et; [|reflexivity].
  destruct (Nat.eqb x g) eqn:Eb; [|reflexivity]. apply Nat.eqb_eq in Eb. subst.
  exfalso. destruct (inv_disjoint _ _ HI _ _ _ _ _ _ g Hs Hs' Hg (top_in _ _ Et)) as [_ Ht]. congruence.
Qed.

Lemma R_silent s o s' ops s'' outs : sstep s o s' None -> srun s' ops s'' outs -> srun s (o :: ops) s'' outs.
Proof. intros H H'. exact (R_cons _ _ _ None _ _ _ H H'). Qed.
Lemma R_out s o s' p ops s'' outs : sstep s o s' (Some p) -> srun s' ops s'' outs -> srun s (o :: ops) s'' (p :: outs).
Proof. intros H H'. exact (R_cons _ _ _ (Some p) _ _ _ H H'). Qed.

(** Closing a whole stack, newest first. *)
Lemma close_all l t st : forall ss, s_stack ss l t = Some st -> s_alive ss l = true ->
  exists ss', srun ss (map (Close t) (map fst st)) ss' [] /\ s_stack ss' l t = Some [] /\ s_alive ss' l = true.
Proof.
  induction st as [|[g a] st IH]; intros ss Hs Ha; cbn [map].
  - exists ss. split; [constructor|auto].
  - set (ss1 := SState (s_alive ss) (set_stack ss l t (Some st))).
    assert (Hs1 : s_stack ss1 l t = Some st) by (cbn; unfold set_stack; rewrite !Nat.eqb_refl; reflexivity).
    destruct (IH ss1 Hs1 Ha) as (ss' & Hr & H1 & H2). exists ss'. split; [|auto].
    eapply R_silent; [eapply S_close; exact Hs|exact Hr].
Qed.

Lemma after_move ss t dst st : s_stack ss dst t = Some st -> s_alive ss dst = true ->
  exists ss', srun ss (Log t dst :: map (Close t) (map fst st) ++ [Log t dst]) ss' [map snd st; []].
Proof.
  intros Hs Ha. destruct (close_all _ _ _ _ Hs Ha) as (ss1 & Hr & H1 & H2).
  exists ss1.
  eapply R_out; [apply S_log; eassumption|]. change [@nil attribute_list] with ([] ++ [@nil attribute_list]). eapply srun_app; [exact Hr|].
  eapply R_out; [apply (S_log _ _ _ []); eassumption|constructor].
Qed.

Lemma move_construct_lemma ops ss outs t src dst st :
  srun sinit ops ss outs -> s_alive ss src = true -> s_alive ss dst = false -> s_stack ss src t = Some st ->
  exists s, run init (ops ++ MoveConstruct t src dst :: Log t dst :: map (Close t) (map fst st) ++ [Log t dst])
    = Some (s, outs ++ [map snd st; []]).
Proof.
  intros H Ha Hd Hs.
  destruct (after_move (SState (fun l' => if Nat.eqb l' dst then true else s_alive ss l')
              (fun l' t' => if Nat.eqb l' dst then (if Nat.eqb t' t then Some st else Some [])
                            else if Nat.eqb l' src && Nat.eqb t' t then (match st with [] => Some [] | _ => None end)
                            else s_stack ss l' t')) t dst st) as (ss' & Hr).
  - cbn. rewrite !Nat.eqb_refl. reflexivity.
  - cbn. rewrite Nat.eqb_refl. reflexivity.
  - apply (scopes_lemma _ ss'). eapply srun_app; [exact H|].
    eapply R_silent; [apply S_move_construct; eassumption|exact Hr].
Qed.

Lemma move_assign_lemma ops ss outs t src dst st :
  srun sinit ops ss outs -> s_alive ss src = true -> s_alive ss dst = true -> src <> dst -> s_stack ss src t = Some st ->
  s_stack ss dst t = Some [] ->
  exists s, run init (ops ++ MoveAssign t src dst :: Log t dst :: map (Close t) (map fst st) ++ [Log t dst])
    = Some (s, outs ++ [map snd st; []]).
Proof.
  intros H Ha Hd Hne Hs Hs0.
  destruct (after_move (SState (s_alive ss)
              (fun l' t' => if Nat.eqb l' dst && Nat.eqb t' t then Some st
                            else if Nat.eqb l' src && Nat.eqb t' t then (match st with [] => Some [] | _ => None end)
                            else s_stack ss l' t')) t dst st) as (ss' & Hr).
  - cbn. rewrite !Nat.eqb_refl. reflexivity.
  - exact Hd.
  - apply (scopes_lemma _ ss'). eapply srun_app; [exact H|].
    eapply R_silent; [eapply S_move_assign; try eassumption; left; assumption|exact Hr].
Qed.
