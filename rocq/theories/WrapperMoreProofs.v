(** Every wrapper owns its elements and texts, and nobody else does. *)
From Verif Require Import Base Values WrapperModel WrapperSpec WrapperProofs.

Definition has (s : state) (w : wid) (x : wrapper) (es : list element) : Prop :=
  s_wrappers s w = Some x /\ s_elements s (w_home x) = Some es.

Record owner (lib : library) (s : state) (w : wid) (x : wrapper) (inner : option wid) (l : attribute_list) (es : list element) : Prop := Owner {
  ow_has : has s w x es;
  ow_inner : w_inner x = inner;
  ow_shaped : shaped lib (s_texts s) es l;
  ow_nodup : NoDup (blocks es);
  ow_home : match w_home x with Within v => v = w /\ length es <= l_elements lib | Buffer b => l_elements lib < length es end
}.

Record own (lib : library) (m : ideal) (s : state) : Prop := Own {
  o_fresh : fresh (s_texts s, s_next s);
  o_buffers : forall b, s_next s <= b -> s_elements s (Buffer b) = None;
  o_dead : forall w, m w = None -> s_wrappers s w = None;
  o_alive : forall w inner l, m w = Some (inner, l) -> exists x es, owner lib s w x inner l es;
  o_apart : forall w1 w2 x1 x2 es1 es2, w1 <> w2 -> has s w1 x1 es1 -> has s w2 x2 es2 ->
    w_home x1 <> w_home x2 /\ (forall b, In b (blocks es1) -> In b (blocks es2) -> False);
  o_texts : forall b, s_texts s b <> None -> exists w x es, has s w x es /\ In b (blocks es);
  o_homes : forall b, s_elements s (Buffer b) <> None -> exists w x, s_wrappers s w = Some x /\ w_home x = Buffer b;
  o_count : exists names, NoDup names /\ length names <= s_count s /\ forall w, s_wrappers s w <> None -> In w names
}.

Lemma own_init lib : own lib nobody init.
Proof.
  split; cbn; auto; try discriminate.
  - intros b _. reflexivity.
  - intros w1 w2 x1 x2 es1 es2 _ [A _]. cbn in A. discriminate.
  - intros b H. contradiction.
  - intros b H. contradiction.
  - exists []. repeat split; [constructor|cbn; lia|cbn; intros w H; contradiction].
Qed.

Lemma own_owner lib m s w x es : own lib m s -> has s w x es -> exists inner l, m w = Some (inner, l) /\ owner lib s w x inner l es.
Proof.
  intros O [A B]. destruct (m w) as [[inner l]|] eqn:E.
  - destruct (o_alive _ _ _ O _ _ _ E) as [x' [es' W]]. exists inner, l. split; [reflexivity|].
    destruct W as [[C D] R1 R2 R3 R4]. rewrite A in C. inversion C; subst. rewrite B in D. inversion D; subst.
    split; auto. split; assumption.
  - apply (o_dead _ _ _ O) in E. congruence.
Qed.
Lemma own_some lib m s w x : own lib m s -> s_wrappers s w = Some x -> exists inner l es, m w = Some (inner, l) /\ owner lib s w x inner l es.
Proof.
  intros O A. destruct (m w) as [[inner l]|] eqn:E.
  - destruct (o_alive _ _ _ O _ _ _ E) as [x' [es' W]]. exists inner, l, es'. split; [reflexivity|].
    pose proof (proj1 (ow_has _ _ _ _ _ _ _ W)) as C. rewrite A in C. inversion C; subst. exact W.
  - apply (o_dead _ _ _ O) in E. congruence.
Qed.
Lemma own_dead lib m s w : own lib m s -> (m w = None <-> s_wrappers s w = None).
Proof.
  intros O. split; [apply (o_dead _ _ _ O)|]. intros A. destruct (m w) as [[inner l]|] eqn:E; [|reflexivity].
  destruct (o_alive _ _ _ O _ _ _ E) as [x [es W]]. destruct W as [[C _] _ _ _ _]. congruence.
Qed.

(** A new wrapper, by construction or by copying. *)
Definition added (s : state) (w : wid) (inner : option wid) (h : home) (es : list element) (V : list (tview * vview))
  (texts : nat -> option bytes) (next : nat) : state :=
  State texts (hset (s_elements s) h (Some es)) (upd (s_wrappers s) w (Some (Wrapper inner h V))) (S next) (S (s_count s)).

Lemma added_has lib m s w inner l V es texts next : own lib m s -> m w = None ->
  make_elements lib (s_texts s, s_next s) l = (es, (texts, next)) ->
  forall v y fs, has (added s w inner (place lib w (length es) next) es V texts next) v y fs <->
    (v = w /\ y = Wrapper inner (place lib w (length es) next) V /\ fs = es) \/ (v <> w /\ has s v y fs).
Proof.
  intros O M E v y fs. unfold has, added. cbn.
  pose proof (make_elements_lemma lib l (s_texts s, s_next s) (o_fresh _ _ _ O)) as G. rewrite E in G. destruct G as [G S].
  assert (L : s_next s <= next) by apply (proj1 G).
  destruct (Nat.eq_dec v w) as [->|N].
  - rewrite upd_same. split.
    + intros [A B]. inversion A; subst. cbn in B. rewrite hset_same in B. inversion B; subst. auto.
    + intros [[_ [-> ->]]|[N _]]; [|contradiction]. cbn. rewrite hset_same. auto.
  - rewrite upd_other by exact N.
    assert (K : forall y0 fs0, has s v y0 fs0 -> w_home y0 <> place lib w (length es) next).
    { intros y0 fs0 H. destruct (own_owner _ _ _ _ _ _ O H) as [i [l0 [_ W]]]. pose proof (ow_home _ _ _ _ _ _ _ W) as Q.
      unfold place. destruct (length es <=? l_elements lib).
      - intros Z. rewrite Z in Q. destruct Q. congruence.
      - intros Z. destruct H as [_ H]. rewrite Z in H. rewrite (o_buffers _ _ _ O) in H by exact L. discriminate. }
    split.
    + intros [A B]. right. split; [exact N|]. destruct (own_some _ _ _ _ _ O A) as [i [l0 [es0 [_ W]]]].
      pose proof (ow_has _ _ _ _ _ _ _ W) as H. pose proof (K _ _ H) as Z. rewrite hset_other in B by exact Z. split; assumption.
    + intros [[Z _]|[_ H]]; [contradiction|]. pose proof (K _ _ H) as Z. rewrite hset_other by exact Z. exact H.
Qed.

Lemma added_owner lib m s w inner l V es texts next : own lib m s -> m w = None ->
  make_elements lib (s_texts s, s_next s) l = (es, (texts, next)) ->
  owner lib (added s w inner (place lib w (length es) next) es V texts next) w (Wrapper inner (place lib w (length es) next) V) inner l es /\
  forall v y i l0 fs, v <> w -> owner lib s v y i l0 fs -> owner lib (added s w inner (place lib w (length es) next) es V texts next) v y i l0 fs.
Proof.
  intros O M E.
  pose proof (added_has lib m s w inner l V es texts next O M E) as AH.
  pose proof (make_elements_lemma lib l (s_texts s, s_next s) (o_fresh _ _ _ O)) as G. rewrite E in G. destruct G as [G S].
  destruct G as [L [K [F [N [R C]]]]]. cbn in *.
  split.
  - split; cbn.
    + apply AH. auto.
    + reflexivity.
    + exact S.
    + exact N.
    + unfold place. destruct (Nat.leb_spec (length es) (l_elements lib)); auto.
  - intros v y i l0 fs D W. pose proof W as W0. destruct W as [W1 W2 W3 W4 W5]. split; auto.
    + apply AH. auto.
    + cbn. eapply shaped_agree; [|exact W3]. intros b B. apply K.
      destruct (Nat.lt_ge_cases b (s_next s)) as [X|X]; [exact X|].
      exfalso. eapply shaped_alive; [exact W3|exact B|]. apply (o_fresh _ _ _ O). exact X.
Qed.

Lemma own_added lib m s w inner l V es texts next : own lib m s -> m w = None ->
  make_elements lib (s_texts s, s_next s) l = (es, (texts, next)) ->
  own lib (set m w (Some (inner, l))) (added s w inner (place lib w (length es) next) es V texts next).
Proof.
  intros O M E.
  pose proof (added_has lib m s w inner l V es texts next O M E) as AH.
  destruct (added_owner lib m s w inner l V es texts next O M E) as [AO AP].
  pose proof (make_elements_lemma lib l (s_texts s, s_next s) (o_fresh _ _ _ O)) as G. rewrite E in G. destruct G as [G S].
  destruct G as [L [K [F [N [R C]]]]]. cbn in *.
  assert (Old : forall v y fs b, has s v y fs -> In b (blocks fs) -> b < s_next s).
  { intros v y fs b H B. destruct (own_owner _ _ _ _ _ _ O H) as [i [l0 [_ W]]].
    destruct (Nat.lt_ge_cases b (s_next s)) as [X|X]; [exact X|].
    exfalso. eapply shaped_alive; [apply (ow_shaped _ _ _ _ _ _ _ W)|exact B|]. apply (o_fresh _ _ _ O). exact X. }
  split; cbn.
  - intros b B. apply F. cbn in *. lia.
  - intros b B. unfold place. destruct (length es <=? l_elements lib).
    + rewrite hset_other by discriminate. apply (o_buffers _ _ _ O). lia.
    + rewrite hset_other by (intros Z; inversion Z; lia). apply (o_buffers _ _ _ O). lia.
  - intros v Z. destruct (Nat.eq_dec v w) as [->|D]; [rewrite set_same in Z; discriminate|].
    rewrite set_other in Z by exact D. rewrite upd_other by exact D. apply (o_dead _ _ _ O). exact Z.
  - intros v i l0 Z. destruct (Nat.eq_dec v w) as [->|D].
    + rewrite set_same in Z. inversion Z; subst. eauto.
    + rewrite set_other in Z by exact D. destruct (o_alive _ _ _ O _ _ _ Z) as [y [fs W]]. exists y, fs. apply AP; auto.
  - intros w1 w2 x1 x2 es1 es2 D H1 H2. apply AH in H1. apply AH in H2.
    assert (Sym : forall v y fs, has s v y fs -> v <> w -> w_home y <> place lib w (length es) next /\
              (forall b, In b (blocks fs) -> In b (blocks es) -> False)).
    { intros v y fs H Dv. split.
      - destruct (own_owner _ _ _ _ _ _ O H) as [i [l0 [_ W]]]. pose proof (ow_home _ _ _ _ _ _ _ W) as Q.
        unfold place. destruct (length es <=? l_elements lib).
        + intros Z. rewrite Z in Q. destruct Q. congruence.
        + intros Z. destruct H as [_ H]. rewrite Z in H. rewrite (o_buffers _ _ _ O) in H by lia. discriminate.
      - intros b B1 B2. apply R in B2. pose proof (Old _ _ _ _ H B1). lia. }
    destruct H1 as [[-> [-> ->]]|[D1 H1]]; destruct H2 as [[-> [-> ->]]|[D2 H2]].
    + contradiction.
    + destruct (Sym _ _ _ H2 D2) as [A B]. cbn. split; [congruence|]. intros b X Y. eapply B; eauto.
    + destruct (Sym _ _ _ H1 D1) as [A B]. cbn. split; [congruence|]. intros b X Y. eapply B; eauto.
    + exact (o_apart _ _ _ O _ _ _ _ _ _ D H1 H2).
  - intros b B. destruct (Nat.lt_ge_cases b (s_next s)) as [X|X].
    + rewrite K in B by exact X. destruct (o_texts _ _ _ O _ B) as [v [y [fs [H I]]]].
      exists v, y, fs. split; [|exact I]. apply AH. right. split; [|exact H].
      intros ->. destruct H as [H _]. rewrite (o_dead _ _ _ O _ M) in H. discriminate.
    + exists w, (Wrapper inner (place lib w (length es) next) V), es. split; [apply AH; auto|]. apply C; auto.
  - intros b B. unfold hset in B. destruct (home_eqb_spec (Buffer b) (place lib w (length es) next)) as [Z|Z].
    + exists w, (Wrapper inner (place lib w (length es) next) V). rewrite upd_same. auto.
    + destruct (o_homes _ _ _ O _ B) as [v [y [H I]]]. exists v, y. split; [|exact I].
      rewrite upd_other; [exact H|]. intros ->. rewrite (o_dead _ _ _ O _ M) in H. discriminate.
  - destruct (o_count _ _ _ O) as [names [N1 [N2 N3]]].
    destruct (in_dec Nat.eq_dec w names) as [I|I].
    + exists names. split; [exact N1|]. split; [lia|]. intros v H. destruct (Nat.eq_dec v w) as [->|D]; [exact I|].
      rewrite upd_other in H by exact D. auto.
    + exists (w :: names). split; [constructor; assumption|]. split; [cbn; lia|]. intros v H.
      destruct (Nat.eq_dec v w) as [->|D]; [left; reflexivity|]. rewrite upd_other in H by exact D. right. auto.
Qed.

Lemma make_added lib s w inner l : exists es texts next,
  make_elements lib (s_texts s, s_next s) l = (es, (texts, next)) /\
  make lib s w inner l = added s w inner (place lib w (length es) next) es (view_elements (place lib w (length es) next) 0 es) texts next.
Proof.
  unfold make. destruct (make_elements lib (s_texts s, s_next s) l) as [es [texts next]]. exists es, texts, next. auto.
Qed.
Lemma copy_added lib m s src dst inner l x es0 : own lib m s -> m src = Some (inner, l) -> has s src x es0 -> exists es texts next,
  make_elements lib (s_texts s, s_next s) l = (es, (texts, next)) /\
  copy lib s src dst = Some (added s dst inner (place lib dst (length es) next) es (w_views x) texts next).
Proof.
  intros O M H. destruct (own_owner _ _ _ _ _ _ O H) as [i [l0 [M' W]]]. rewrite M in M'. inversion M'; subst i l0.
  unfold copy. destruct H as [A B]. rewrite A, B, (shaped_list _ _ _ _ (ow_shaped _ _ _ _ _ _ _ W)).
  destruct (make_elements lib (s_texts s, s_next s) l) as [es [texts next]]. exists es, texts, next.
  rewrite (ow_inner _ _ _ _ _ _ _ W). auto.
Qed.

(** Moving. *)
Definition moved_home (h : home) (dst : wid) : home := match h with Buffer b => Buffer b | Within _ => Within dst end.
Definition moved (s : state) (src dst : wid) (x : wrapper) (es : list element) : state :=
  State (s_texts s) (hset (hset (s_elements s) (moved_home (w_home x) dst) (Some es)) (Within src) (Some []))
        (upd (upd (s_wrappers s) src (Some (Wrapper (w_inner x) (Within src) [])))
             dst (Some (Wrapper (w_inner x) (moved_home (w_home x) dst) (w_views x))))
        (s_next s) (S (s_count s)).

Lemma move_moved s src dst x es : has s src x es -> move s src dst = Some (moved s src dst x es).
Proof. intros [A B]. unfold move. rewrite A, B. reflexivity. Qed.

Lemma moved_has lib m s src dst x es : own lib m s -> m dst = None -> has s src x es ->
  forall v y fs, has (moved s src dst x es) v y fs <->
    (v = dst /\ y = Wrapper (w_inner x) (moved_home (w_home x) dst) (w_views x) /\ fs = es) \/
    (v = src /\ y = Wrapper (w_inner x) (Within src) [] /\ fs = []) \/ (v <> src /\ v <> dst /\ has s v y fs).
Proof.
  intros O M H v y fs.
  assert (SD : src <> dst) by (intros ->; destruct H as [H _]; rewrite (o_dead _ _ _ O _ M) in H; discriminate).
  destruct (own_owner _ _ _ _ _ _ O H) as [inner [l [M' W]]]. pose proof (ow_home _ _ _ _ _ _ _ W) as Q.
  assert (HD : moved_home (w_home x) dst <> Within src) by (destruct (w_home x); cbn; congruence).
  unfold has, moved. cbn.
  destruct (Nat.eq_dec v dst) as [->|D].
  { rewrite upd_same. split.
    - intros [A B]. inversion A; subst. cbn in B. rewrite hset_other in B by exact HD. rewrite hset_same in B. inversion B; subst. auto.
    - intros [[_ [-> ->]]|[[Z _]|[_ [Z _]]]]; [|congruence|congruence]. cbn. rewrite hset_other by exact HD. rewrite hset_same. auto. }
  rewrite upd_other by exact D.
  destruct (Nat.eq_dec v src) as [->|D'].
  { rewrite upd_same. split.
    - intros [A B]. inversion A; subst. cbn in B. rewrite hset_same in B. inversion B; subst. auto.
    - intros [[Z _]|[[_ [-> ->]]|[Z _]]]; [congruence| |congruence]. cbn. rewrite hset_same. auto. }
  rewrite upd_other by exact D'.
  assert (K : forall y0 fs0, has s v y0 fs0 -> w_home y0 <> Within src /\ w_home y0 <> moved_home (w_home x) dst).
  { intros y0 fs0 H0. destruct (own_owner _ _ _ _ _ _ O H0) as [i [l0 [_ W0]]]. pose proof (ow_home _ _ _ _ _ _ _ W0) as Q0.
    split.
    - intros Z. rewrite Z in Q0. destruct Q0. congruence.
    - destruct (w_home x) as [u|b] eqn:X; cbn.
      + intros Z. rewrite Z in Q0. destruct Q0. congruence.
      + destruct (o_apart _ _ _ O _ _ _ _ _ _ D' H0 H) as [Z _]. congruence. }
  split.
  - intros [A B]. right. right. split; [exact D'|]. split; [exact D|].
    destruct (own_some _ _ _ _ _ O A) as [i [l0 [es0 [_ W0]]]]. pose proof (ow_has _ _ _ _ _ _ _ W0) as H0.
    destruct (K _ _ H0) as [K1 K2]. rewrite hset_other in B by exact K1. rewrite hset_other in B by exact K2. split; assumption.
  - intros [[Z _]|[[Z _]|[_ [_ H0]]]]; [congruence|congruence|].
    destruct (K _ _ H0) as [K1 K2]. rewrite hset_other by exact K1. rewrite hset_other by exact K2. exact H0.
Qed.

Lemma moved_owner lib m s src dst inner l x es : own lib m s -> m dst = None -> owner lib s src x inner l es ->
  owner lib (moved s src dst x es) dst (Wrapper inner (moved_home (w_home x) dst) (w_views x)) inner l es /\
  owner lib (moved s src dst x es) src (Wrapper inner (Within src) []) inner [] [] /\
  forall v y i l0 fs, v <> src -> v <> dst -> owner lib s v y i l0 fs -> owner lib (moved s src dst x es) v y i l0 fs.
Proof.
  intros O M W. pose proof (ow_has _ _ _ _ _ _ _ W) as H.
  pose proof (moved_has lib m s src dst x es O M H) as MH.
  destruct W as [_ W2 W3 W4 W5]. subst inner.
  split; [|split].
  - split; cbn; auto.
    + apply MH. auto.
    + destruct (w_home x); cbn; [split; [reflexivity|apply W5]|exact W5].
  - split; cbn; auto.
    + apply MH. auto.
    + constructor.
    + constructor.
    + split; [reflexivity|lia].
  - intros v y i l0 fs D1 D2 V. destruct V as [V1 V2 V3 V4 V5]. split; auto. apply MH. auto.
Qed.

Lemma own_moved lib m s src dst inner l x es : own lib m s -> m dst = None -> m src = Some (inner, l) -> has s src x es ->
  own lib (set (set m src (Some (inner, []))) dst (Some (inner, l))) (moved s src dst x es).
Proof.
  intros O M MS H.
  assert (SD : src <> dst) by congruence.
  destruct (own_owner _ _ _ _ _ _ O H) as [i [l' [M' W]]]. rewrite MS in M'. inversion M'; subst i l'.
  pose proof (moved_has lib m s src dst x es O M H) as MH.
  destruct (moved_owner lib m s src dst inner l x es O M W) as [MO1 [MO2 MO3]].
  pose proof (ow_inner _ _ _ _ _ _ _ W) as Ei.
  pose proof (ow_home _ _ _ _ _ _ _ W) as Q.
  split.
  - apply (o_fresh _ _ _ O).
  - intros b B. cbn [moved s_elements s_next s_wrappers] in *. rewrite hset_other by discriminate.
    destruct (w_home x) as [u|c] eqn:X; cbn [moved_home].
    + rewrite hset_other by discriminate. apply (o_buffers _ _ _ O). exact B.
    + destruct (Nat.eq_dec b c) as [->|D].
      * destruct H as [_ H]. rewrite X in H. rewrite (o_buffers _ _ _ O) in H by exact B. discriminate.
      * rewrite hset_other by congruence. apply (o_buffers _ _ _ O). exact B.
  - intros v Z. cbn. destruct (Nat.eq_dec v dst) as [->|D]; [rewrite set_same in Z; discriminate|].
    rewrite set_other in Z by exact D. rewrite upd_other by exact D.
    destruct (Nat.eq_dec v src) as [->|D']; [rewrite set_same in Z; discriminate|].
    rewrite set_other in Z by exact D'. rewrite upd_other by exact D'. apply (o_dead _ _ _ O). exact Z.
  - intros v i l0 Z. destruct (Nat.eq_dec v dst) as [->|D].
    + rewrite set_same in Z. inversion Z; subst. eauto.
    + rewrite set_other in Z by exact D. destruct (Nat.eq_dec v src) as [->|D'].
      * rewrite set_same in Z. inversion Z; subst. eauto.
      * rewrite set_other in Z by exact D'. destruct (o_alive _ _ _ O _ _ _ Z) as [y [fs V]]. exists y, fs. apply MO3; auto.
  - intros w1 w2 x1 x2 es1 es2 D H1 H2. apply MH in H1. apply MH in H2.
    assert (Sym : forall v y fs, has s v y fs -> v <> src -> v <> dst -> w_home y <> moved_home (w_home x) dst /\ w_home y <> Within src /\
              (forall b, In b (blocks fs) -> In b (blocks es) -> False)).
    { intros v y fs H0 D1 D2. destruct (own_owner _ _ _ _ _ _ O H0) as [i0 [l0 [_ W0]]]. pose proof (ow_home _ _ _ _ _ _ _ W0) as Q0.
      destruct (o_apart _ _ _ O _ _ _ _ _ _ D1 H0 H) as [A B].
      split; [|split; [|exact B]].
      - destruct (w_home x) as [u|b] eqn:X; cbn; [|exact A]. intros Z. rewrite Z in Q0. destruct Q0. congruence.
      - intros Z. rewrite Z in Q0. destruct Q0. congruence. }
    assert (HD : moved_home (w_home x) dst <> Within src) by (destruct (w_home x); cbn; congruence).
    destruct H1 as [[-> [-> ->]]|[[-> [-> ->]]|[D1 [D1' H1]]]]; destruct H2 as [[-> [-> ->]]|[[-> [-> ->]]|[D2 [D2' H2]]]]; cbn;
      try contradiction.
    + split; [exact HD|]. intros b _ [].
    + destruct (Sym _ _ _ H2 D2 D2') as [A [B C]]. split; [congruence|]. intros b X Y. eapply C; eauto.
    + split; [congruence|]. intros b [].
    + destruct (Sym _ _ _ H2 D2 D2') as [A [B C]]. split; [congruence|]. intros b [].
    + destruct (Sym _ _ _ H1 D1 D1') as [A [B C]]. split; [congruence|]. intros b X Y. eapply C; eauto.
    + destruct (Sym _ _ _ H1 D1 D1') as [A [B C]]. split; [congruence|]. intros b _ [].
    + exact (o_apart _ _ _ O _ _ _ _ _ _ D H1 H2).
  - intros b B. cbn in B. destruct (o_texts _ _ _ O _ B) as [v [y [fs [H0 I]]]].
    destruct (Nat.eq_dec v src) as [->|D].
    + exists dst, (Wrapper (w_inner x) (moved_home (w_home x) dst) (w_views x)), es. split; [apply MH; auto|].
      destruct H as [H1 H2]. destruct H0 as [H3 H4]. rewrite H1 in H3. inversion H3; subst y. rewrite H2 in H4. inversion H4; subst. exact I.
    + exists v, y, fs. split; [|exact I]. apply MH. right. right. split; [exact D|]. split; [|exact H0].
      intros ->. destruct H0 as [H0 _]. rewrite (o_dead _ _ _ O _ M) in H0. discriminate.
  - intros b B. cbn [moved s_elements s_next s_wrappers] in *. rewrite hset_other in B by discriminate. unfold hset in B.
    destruct (home_eqb_spec (Buffer b) (moved_home (w_home x) dst)) as [Z|Z].
    + exists dst, (Wrapper (w_inner x) (moved_home (w_home x) dst) (w_views x)). rewrite upd_same. auto.
    + destruct (o_homes _ _ _ O _ B) as [v [y [H0 I]]]. exists v, y. split; [|exact I].
      rewrite upd_other by (intros ->; rewrite (o_dead _ _ _ O _ M) in H0; discriminate).
      rewrite upd_other; [exact H0|]. intros ->. destruct H as [H1 _]. rewrite H1 in H0. inversion H0; subst y.
      rewrite I in Z. cbn in Z. congruence.
  - destruct (o_count _ _ _ O) as [names [N1 [N2 N3]]]. cbn.
    assert (In src names) by (apply N3; destruct H as [H _]; congruence).
    destruct (in_dec Nat.eq_dec dst names) as [I|I].
    + exists names. split; [exact N1|]. split; [lia|]. intros v Z. destruct (Nat.eq_dec v dst) as [->|D]; [exact I|].
      rewrite upd_other in Z by exact D. destruct (Nat.eq_dec v src) as [->|D']; [assumption|].
      rewrite upd_other in Z by exact D'. auto.
    + exists (dst :: names). split; [constructor; assumption|]. split; [cbn; lia|]. intros v Z.
      destruct (Nat.eq_dec v dst) as [->|D]; [left; reflexivity|]. rewrite upd_other in Z by exact D. right.
      destruct (Nat.eq_dec v src) as [->|D']; [assumption|]. rewrite upd_other in Z by exact D'. auto.
Qed.

(** Destruction. *)
Lemma destroy_lemma lib m s w inner l : own lib m s -> m w = Some (inner, l) ->
  exists x es texts, owner lib s w x inner l es /\ freed (s_texts s) texts (blocks es) /\
  destroy s w = Some (State texts (hset (s_elements s) (w_home x) None) (upd (s_wrappers s) w None) (s_next s) (s_count s)).
Proof.
  intros O M. destruct (o_alive _ _ _ O _ _ _ M) as [x [es W]]. pose proof (ow_has _ _ _ _ _ _ _ W) as [A B].
  destruct (free_elements_lemma es (s_texts s) (ow_nodup _ _ _ _ _ _ _ W)) as [texts [E F]].
  { intros b I. eapply shaped_alive; [apply (ow_shaped _ _ _ _ _ _ _ W)|exact I]. }
  exists x, es, texts. split; [exact W|]. split; [exact F|]. unfold destroy. rewrite A, B, E. reflexivity.
Qed.

Definition destroyed (s : state) (w : wid) (x : wrapper) (texts : nat -> option bytes) : state :=
  State texts (hset (s_elements s) (w_home x) None) (upd (s_wrappers s) w None) (s_next s) (s_count s).

Lemma destroyed_has lib m s w x es texts : own lib m s -> has s w x es ->
  forall v y fs, has (destroyed s w x texts) v y fs <-> v <> w /\ has s v y fs.
Proof.
  intros O H v y fs. unfold has, destroyed. cbn. destruct (Nat.eq_dec v w) as [->|D].
  - rewrite upd_same. split; [intros [Z _]; discriminate|intros [Z _]; congruence].
  - rewrite upd_other by exact D. split.
    + intros [A B]. split; [exact D|]. destruct (own_some _ _ _ _ _ O A) as [i [l0 [es0 [_ W0]]]].
      pose proof (ow_has _ _ _ _ _ _ _ W0) as H0. destruct (o_apart _ _ _ O _ _ _ _ _ _ D H0 H) as [Z _].
      rewrite hset_other in B by exact Z. auto.
    + intros [_ H0]. destruct (o_apart _ _ _ O _ _ _ _ _ _ D H0 H) as [Z _]. rewrite hset_other by exact Z. exact H0.
Qed.

Lemma destroyed_owner lib m s w x es texts : own lib m s -> has s w x es -> freed (s_texts s) texts (blocks es) ->
  forall v y i l0 fs, v <> w -> owner lib s v y i l0 fs -> owner lib (destroyed s w x texts) v y i l0 fs.
Proof.
  intros O H F v y i l0 fs D V. pose proof (ow_has _ _ _ _ _ _ _ V) as HV. destruct V as [V1 V2 V3 V4 V5]. split; auto.
  - eapply destroyed_has; eauto.
  - cbn. eapply shaped_agree; [|exact V3]. intros b B. destruct (F b) as [_ F2]. apply F2. intros I.
    destruct (o_apart _ _ _ O _ _ _ _ _ _ D HV H) as [_ Z]. eapply Z; eauto.
Qed.

Lemma own_destroyed lib m s w x es texts : own lib m s -> has s w x es -> freed (s_texts s) texts (blocks es) ->
  own lib (set m w None) (destroyed s w x texts).
Proof.
  intros O H F. pose proof (destroyed_has lib m s w x es texts O H) as DH.
  pose proof (destroyed_owner lib m s w x es texts O H F) as DO.
  split.
  - intros b B. cbn in *. destruct (F b) as [F1 F2]. destruct (in_dec Nat.eq_dec b (blocks es)) as [I|I]; [auto|].
    rewrite F2 by exact I. apply (o_fresh _ _ _ O). exact B.
  - intros b B. cbn in *. unfold hset. destruct (home_eqb (Buffer b) (w_home x)); [reflexivity|]. apply (o_buffers _ _ _ O). exact B.
  - intros v Z. cbn. destruct (Nat.eq_dec v w) as [->|D]; [apply upd_same|]. rewrite set_other in Z by exact D.
    rewrite upd_other by exact D. apply (o_dead _ _ _ O). exact Z.
  - intros v i l0 Z. destruct (Nat.eq_dec v w) as [->|D]; [rewrite set_same in Z; discriminate|].
    rewrite set_other in Z by exact D. destruct (o_alive _ _ _ O _ _ _ Z) as [y [fs V]]. eauto.
  - intros w1 w2 x1 x2 es1 es2 D H1 H2. apply DH in H1. apply DH in H2. eapply (o_apart _ _ _ O); [exact D|apply H1|apply H2].
  - intros b B. cbn in B. destruct (F b) as [F1 F2].
    destruct (in_dec Nat.eq_dec b (blocks es)) as [I|I]; [exfalso; auto|]. rewrite F2 in B by exact I.
    destruct (o_texts _ _ _ O _ B) as [v [y [fs [H0 J]]]]. exists v, y, fs. split; [|exact J]. apply DH. split; [|exact H0].
    intros ->. destruct H as [A1 A2]. destruct H0 as [A3 A4]. rewrite A1 in A3. inversion A3; subst y. rewrite A2 in A4.
    inversion A4; subst. contradiction.
  - intros b B. cbn in *. unfold hset in B. destruct (home_eqb_spec (Buffer b) (w_home x)) as [Z|Z]; [congruence|].
    destruct (o_homes _ _ _ O _ B) as [v [y [H0 I]]]. exists v, y. split; [|exact I]. rewrite upd_other; [exact H0|].
    intros ->. destruct H as [A1 _]. rewrite A1 in H0. inversion H0; subst y. congruence.
  - destruct (o_count _ _ _ O) as [names [N1 [N2 N3]]]. exists names. split; [exact N1|]. split; [exact N2|].
    intros v Z. cbn in Z. destruct (Nat.eq_dec v w) as [->|D]; [rewrite upd_same in Z; congruence|].
    rewrite upd_other in Z by exact D. auto.
Qed.
