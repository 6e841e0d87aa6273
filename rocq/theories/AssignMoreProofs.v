(** Proofs about attribute values as objects in memory: assignments, moves and whole programs. *)
From Verif Require Import Base Values AssignModel AssignSpec AssignProofs.

Section Library.
Variable inside : nat.
Notation inv := (inv inside).

(** What one object's new value does to the rest. *)
Definition settled (s : state) (o : oid) (y : option stored) (h : heap) : Prop :=
  inv (State h (upd (s_objects s) o y)) /\ (forall o', o' <> o -> shows (State h (upd (s_objects s) o y)) o' = shows s o').

Lemma free_lemma s o x : inv s -> s_objects s o = Some x ->
  exists h, free (s_heap s) x = Good h /\ settled s o None h.
Proof.
  intros I X. pose proof (i_ok _ _ I _ _ X) as K.
  assert (P : owns_none (Some x) -> settled s o None (s_heap s)).
  { intros N. apply replaced; [exact I|discriminate| |reflexivity|discriminate|apply (i_next _ _ I)].
    intros b _. right. split; [reflexivity|rewrite X; apply N]. }
  destruct x as [v|[t|b]]; cbn; [exists (s_heap s); split; [reflexivity|apply P; intros b; discriminate]..|].
  destruct K as (t & cap & F & _). rewrite F. exists (set_block (s_heap s) b None). split; [reflexivity|].
  apply replaced; [exact I|discriminate| | |discriminate|]; cbn.
  - intros b' G. destruct (Nat.eq_dec b' b) as [->|N]; [rewrite upd_same in G; contradiction|]. rewrite upd_other by exact N.
    right. split; [reflexivity|]. rewrite X. congruence.
  - intros b' G H. apply upd_other. congruence.
  - intros b' G. destruct (Nat.eq_dec b' b) as [->|N]; [apply upd_same|]. rewrite upd_other by exact N. exact (i_next _ _ I _ G).
Qed.

Lemma assign_text_lemma ok s o d t : inv s -> s_objects s o = Some (Owned d) ->
  (exists x h, assign_text inside ok (s_heap s) d t = Good (x, h) /\ settled s o (Some (Owned x)) h /\ show h (Owned x) = Some (VString t)) \/
  (assign_text inside ok (s_heap s) d t = Threw /\ ok = false /\ (inside < length t)%nat).
Proof.
  intros I X. pose proof (i_ok _ _ I _ _ X) as K. unfold assign_text. destruct d as [u|b].
  - assert (N : owns_none (s_objects s o)) by (rewrite X; intros b; discriminate).
    destruct (Nat.leb_spec (length t) inside) as [L|L].
    + left. exists (Inside t), (s_heap s). split; [reflexivity|]. split; [|reflexivity].
      apply put_same_heap; [exact I|exact N|exact L|intros b; discriminate].
    + destruct ok; [left|right; auto].
      pose proof (put_new_block inside s o t (Nat.max (length t) (2 * inside)) I N ltac:(lia) ltac:(lia)) as Z.
      destruct (add_block (s_heap s) t (Nat.max (length t) (2 * inside))) as [x h]. exists x, h. split; [reflexivity|]. unfold settled. tauto.
  - destruct K as (u & cap & F & L1 & L2). rewrite F. destruct (Nat.leb_spec (length t) cap) as [L|L].
    + left. exists (Block b), (set_block (s_heap s) b (Some (t, cap))). split; [reflexivity|].
      split; [|unfold show, text_bytes, set_block; cbn [h_blocks]; rewrite upd_same; reflexivity].
      apply replaced; [exact I| | | | |]; cbn.
      * intros x [= <-]. exists t, cap. cbn. rewrite upd_same. auto.
      * intros b' G. destruct (Nat.eq_dec b' b) as [->|N]; [left; reflexivity|]. rewrite upd_other by exact N. right. split; [reflexivity|].
        rewrite X. congruence.
      * intros b' G H. apply upd_other. congruence.
      * intros b' [= <-]. left. exact X.
      * intros b' G. destruct (Nat.eq_dec b' b) as [->|N]; [rewrite (i_next _ _ I _ G) in F; discriminate F|].
        rewrite upd_other by exact N. exact (i_next _ _ I _ G).
    + destruct ok; [left|right; split; [reflexivity|split; [reflexivity|lia]]].
      exists (Block (h_next (s_heap s))). eexists. split; [reflexivity|].
      split; [|unfold show, text_bytes; cbn [h_blocks set_block h_next]; rewrite upd_same; reflexivity].
      assert (NB : h_next (s_heap s) <> b) by (intros Z; rewrite <- Z in F; rewrite (i_next _ _ I _ (le_n _)) in F; discriminate F).
      apply replaced; [exact I| | | | |]; cbn.
      * intros x [= <-]. exists t, (Nat.max (length t) (2 * cap)). cbn [h_blocks]. rewrite upd_same. split; [reflexivity|lia].
      * intros b' G. destruct (Nat.eq_dec b' (h_next (s_heap s))) as [->|N]; [left; reflexivity|]. rewrite upd_other in * by exact N.
        destruct (Nat.eq_dec b' b) as [->|N']; [rewrite upd_same in G; contradiction|]. rewrite upd_other by exact N'. right.
        split; [reflexivity|]. rewrite X. congruence.
      * intros b' G H. rewrite upd_other by exact (not_last _ _ _ I G). apply upd_other. congruence.
      * intros b' [= <-]. right. apply (i_next _ _ I). lia.
      * intros b' G. rewrite upd_other by lia. destruct (Nat.eq_dec b' b) as [->|N]; [apply upd_same|]. rewrite upd_other by exact N.
        apply (i_next _ _ I). lia.
Qed.

Lemma assign_lemma ok s src dst x d v : inv s -> s_objects s src = Some x -> s_objects s dst = Some d -> dst <> src -> show (s_heap s) x = Some v ->
  (exists y h, assign inside ok (s_heap s) d x = Good (y, h) /\ settled s dst (Some y) h /\ show h y = Some v) \/
  (assign inside ok (s_heap s) d x = Threw /\ ok = false /\ exists t, v = VString t /\ (inside < length t)%nat).
Proof.
  intros I X D N V. pose proof (i_ok _ _ I _ _ X) as K.
  destruct x as [w|t].
  - (* the old value is destroyed *)
    left. exists (Plain w). cbn in V. injection V as <-. destruct (free_lemma s dst d I D) as (h & F & (I1 & O1)). exists h.
    split; [cbn; rewrite F; reflexivity|]. split; [|reflexivity].
    destruct (put_same_heap inside (State h (upd (s_objects s) dst None)) dst (Plain w) I1) as (I2 & O2).
    + cbn. rewrite upd_same. intros b; discriminate.
    + exact K.
    + intros b; discriminate.
    + cbn in I2, O2. assert (Q : forall A (f : nat -> A) a b k, upd (upd f dst a) dst b k = upd f dst b k).
      { intros A f a b k. unfold upd. destruct (k =? dst); reflexivity. }
      split.
      * destruct I2 as [A B C E]. constructor; cbn in *.
        -- intros o y Y. apply (A o y). rewrite Q. exact Y.
        -- intros o1 o2 b Y Z. apply (B o1 o2 b); rewrite Q; assumption.
        -- intros b c Y. destruct (C b c Y) as (o & Z). exists o. rewrite <- Z. symmetry. apply Q.
        -- exact E.
      * intros o' N'. rewrite <- (O1 o' N'). unfold shows. cbn. rewrite !upd_other by exact N'. reflexivity.
  - cbn in V. destruct (text_bytes (s_heap s) t) as [u|] eqn:T; [|discriminate V]. cbn in V. injection V as <-. destruct d as [w|d].
    + cbn. rewrite T. destruct (make_text_lemma inside ok s dst u I) as [(y & h & E & A & B & C)|(E & A & B)].
      * rewrite D. intros b; discriminate.
      * left. rewrite E. exists (Owned y), h. split; [reflexivity|]. split; [split; [exact A|exact B]|exact C].
      * right. rewrite E. split; [reflexivity|]. split; [exact A|]. exists u. auto.
    + cbn. rewrite T. destruct (assign_text_lemma ok s dst d u I D) as [(y & h & E & A & C)|(E & A & B)].
      * left. rewrite E. exists (Owned y), h. split; [reflexivity|]. split; [exact A|exact C].
      * right. rewrite E. split; [reflexivity|]. split; [exact A|]. exists u. auto.
Qed.

(** Two objects get new values. *)
Lemma moved s src dst y z h : inv s -> src <> dst ->
  stored_ok inside h y -> stored_ok inside h z ->
  (forall b, y = Owned (Block b) -> z = Owned (Block b) -> False) ->
  (forall b, (y = Owned (Block b) \/ z = Owned (Block b)) -> s_objects s src = Some (Owned (Block b)) \/ s_objects s dst = Some (Owned (Block b))) ->
  (forall b, s_objects s src = Some (Owned (Block b)) \/ s_objects s dst = Some (Owned (Block b)) ->
     y = Owned (Block b) \/ z = Owned (Block b) \/ h_blocks h b = None) ->
  (forall b, h_blocks h b <> h_blocks (s_heap s) b -> s_objects s src = Some (Owned (Block b)) \/ s_objects s dst = Some (Owned (Block b))) ->
  h_next h = h_next (s_heap s) ->
  let s' := State h (upd (upd (s_objects s) src (Some z)) dst (Some y)) in
  inv s' /\ (forall o', o' <> src -> o' <> dst -> shows s' o' = shows s o').
Proof.
  intros I NE Y Z YZ FROM TO CH NX s'. unfold s'.
  assert (O : forall o', o' <> src -> o' <> dst -> upd (upd (s_objects s) src (Some z)) dst (Some y) o' = s_objects s o').
  { intros o' A B. rewrite !upd_other by assumption. reflexivity. }
  assert (OS : upd (upd (s_objects s) src (Some z)) dst (Some y) src = Some z) by (rewrite upd_other by exact NE; apply upd_same).
  assert (OD : upd (upd (s_objects s) src (Some z)) dst (Some y) dst = Some y) by apply upd_same.
  assert (SAME : forall o' b, o' <> src -> o' <> dst -> s_objects s o' = Some (Owned (Block b)) -> h_blocks h b = h_blocks (s_heap s) b).
  { intros o' b A B X. assert (DE : {h_blocks h b = h_blocks (s_heap s) b} + {h_blocks h b <> h_blocks (s_heap s) b}).
    { repeat decide equality. } destruct DE as [E|E]; [exact E|]. destruct (CH b E) as [W|W]; [destruct (A (i_one _ _ I _ _ _ X W))|destruct (B (i_one _ _ I _ _ _ X W))]. }
  assert (KEEP : forall o' x, o' <> src -> o' <> dst -> s_objects s o' = Some x -> stored_ok inside h x /\ show h x = show (s_heap s) x).
  { intros o' x A B X. pose proof (i_ok _ _ I _ _ X) as K. destruct x as [v|[t|b]]; [split; [exact K|reflexivity]..|].
    pose proof (SAME _ _ A B X) as E. destruct K as (t & cap & F & L). split; [exists t, cap; rewrite E; auto|cbn; rewrite E; reflexivity]. }
  split.
  - constructor; cbn [s_objects s_heap].
    + intros o x X. destruct (Nat.eq_dec o dst) as [->|N1]; [rewrite OD in X; injection X as <-; exact Y|].
      destruct (Nat.eq_dec o src) as [->|N2]; [rewrite OS in X; injection X as <-; exact Z|]. rewrite O in X by assumption. exact (proj1 (KEEP _ _ N2 N1 X)).
    + assert (NO : forall o b, o <> src -> o <> dst -> s_objects s o = Some (Owned (Block b)) -> y = Owned (Block b) \/ z = Owned (Block b) -> False).
      { intros o b A B X W. destruct (FROM _ W) as [V|V]; [exact (A (i_one _ _ I _ _ _ X V))|exact (B (i_one _ _ I _ _ _ X V))]. }
      intros o1 o2 b X1 X2.
      destruct (Nat.eq_dec o1 dst) as [->|A1]; [|destruct (Nat.eq_dec o1 src) as [->|B1]];
      (destruct (Nat.eq_dec o2 dst) as [->|A2]; [|destruct (Nat.eq_dec o2 src) as [->|B2]]);
      repeat rewrite OD in *; repeat rewrite OS in *; repeat rewrite O in * by assumption; try reflexivity.
      * injection X1 as ->. injection X2 as ->. destruct (YZ b eq_refl eq_refl).
      * injection X1 as ->. destruct (NO o2 b B2 A2 X2 (or_introl eq_refl)).
      * injection X1 as ->. injection X2 as ->. destruct (YZ b eq_refl eq_refl).
      * injection X1 as ->. destruct (NO o2 b B2 A2 X2 (or_intror eq_refl)).
      * injection X2 as ->. destruct (NO o1 b B1 A1 X1 (or_introl eq_refl)).
      * injection X2 as ->. destruct (NO o1 b B1 A1 X1 (or_intror eq_refl)).
      * exact (i_one _ _ I _ _ _ X1 X2).
    + intros b c F.
      assert (OLD : exists o, s_objects s o = Some (Owned (Block b))).
      { destruct (h_blocks (s_heap s) b) as [c'|] eqn:E; [exact (i_all _ _ I _ _ E)|]. destruct (CH b) as [W|W]; [congruence|eauto|eauto]. }
      destruct OLD as (o & X).
      destruct (Nat.eq_dec o src) as [->|B1]; [|destruct (Nat.eq_dec o dst) as [->|A1]; [|exists o; rewrite O by assumption; exact X]].
      * destruct (TO b (or_introl X)) as [->|[->|W]]; [exists dst; exact OD|exists src; exact OS|congruence].
      * destruct (TO b (or_intror X)) as [->|[->|W]]; [exists dst; exact OD|exists src; exact OS|congruence].
    + intros b L. rewrite NX in L. pose proof (i_next _ _ I _ L) as E. destruct (h_blocks h b) as [c|] eqn:F; [|reflexivity].
      destruct (CH b) as [W|W]; [congruence|..]; destruct (i_ok _ _ I _ _ W) as (t & cap & G & _); congruence.
  - intros o' A B. unfold shows. cbn [s_objects s_heap]. rewrite O by assumption. destruct (s_objects s o') as [x|] eqn:X; [exact (proj2 (KEEP _ _ A B X))|reflexivity].
Qed.

Lemma left_show h x v : stored_ok inside h x -> show h x = Some v -> show h (snd (move x)) = Some (left v) /\ show h (fst (move x)) = Some v.
Proof.
  destruct x as [w|t]; cbn.
  - intros K [= <-]. split; [|reflexivity]. destruct w; try reflexivity. destruct (K s eq_refl).
  - intros K V. split; [|exact V]. destruct (text_bytes h t); [|discriminate V]. cbn in V. injection V as <-. reflexivity.
Qed.

Lemma move_lemma s src dst x v : inv s -> s_objects s src = Some x -> s_objects s dst = None -> show (s_heap s) x = Some v ->
  let s' := State (s_heap s) (upd (upd (s_objects s) src (Some (snd (move x)))) dst (Some (fst (move x)))) in
  inv s' /\ (forall o', o' <> src -> o' <> dst -> shows s' o' = shows s o').
Proof.
  intros I X D V. pose proof (i_ok _ _ I _ _ X) as K.
  apply moved; [exact I|congruence|destruct x; exact K|destruct x as [w|t]; [exact K|cbn; lia]| | | |congruence|reflexivity].
  - intros b Y Z. destruct x; [discriminate Z|cbn in Z; discriminate Z].
  - intros b [Y|Z]; [left; destruct x; cbn in Y; congruence|destruct x; discriminate Z].
  - intros b [Y|Y]; [|congruence]. left. rewrite X in Y. injection Y as ->. reflexivity.
Qed.

Lemma move_assign_lemma s src dst x d v : inv s -> s_objects s src = Some x -> s_objects s dst = Some d -> src <> dst -> show (s_heap s) x = Some v ->
  exists y z h, move_assign (s_heap s) d x = Good (y, z, h) /\
    let s' := State h (upd (upd (s_objects s) src (Some z)) dst (Some y)) in
    inv s' /\ (forall o', o' <> src -> o' <> dst -> shows s' o' = shows s o') /\ show h y = Some v /\ show h z = Some (left v).
Proof.
  intros I X D N V. pose proof (i_ok _ _ I _ _ X) as KX. pose proof (i_ok _ _ I _ _ D) as KD.
  assert (MIX : match x, d with Owned _, Owned _ => False | _, _ => True end -> exists h, free (s_heap s) d = Good h /\
    let s' := State h (upd (upd (s_objects s) src (Some (snd (move x)))) dst (Some (fst (move x)))) in
    inv s' /\ (forall o', o' <> src -> o' <> dst -> shows s' o' = shows s o') /\ show h (fst (move x)) = Some v /\ show h (snd (move x)) = Some (left v)).
  { intros MX. destruct (left_show _ _ _ KX V) as (L1 & L2).
    assert (Q : forall A B C D : Prop, A /\ B -> C -> D -> A /\ B /\ C /\ D) by tauto.
    destruct d as [w|[t|b]].
    - exists (s_heap s). split; [reflexivity|]. cbv zeta. apply Q; [|exact L2|exact L1].
      apply moved; [exact I|exact N|destruct x; exact KX|destruct x; [exact KX|cbn; lia]| | | |congruence|reflexivity].
      + intros b Y Z. destruct x; [discriminate Z|cbn in Z; discriminate Z].
      + intros b [Y|Z]; [left; destruct x; cbn in Y; congruence|destruct x; discriminate Z].
      + intros b [Y|Y]; [|congruence]. left. rewrite X in Y. injection Y as ->. reflexivity.
    - exists (s_heap s). split; [reflexivity|]. destruct x as [w|u]; [|destruct MX]. cbn in L1, L2. cbv zeta. apply Q; [|exact L2|exact L1].
      apply moved; [exact I|exact N|exact KX|exact KX|discriminate| | |congruence|reflexivity].
      + intros b [Y|Y]; discriminate Y.
      + intros b [Y|Y]; congruence.
    - destruct x as [w|u]; [|destruct MX]. destruct KD as (t & cap & F & L). cbn. rewrite F. exists (set_block (s_heap s) b None). split; [reflexivity|].
      apply Q; [|exact V|cbn in L1; exact L1].
      apply moved; [exact I|exact N|exact KX|exact KX|discriminate| | | |reflexivity].
      + intros b' [Y|Y]; discriminate Y.
      + intros b' [Y|Y]; [congruence|]. right. right. rewrite D in Y. injection Y as <-. cbn. apply upd_same.
      + intros b' E. right. cbn in E. destruct (Nat.eq_dec b' b) as [->|M]; [exact D|]. rewrite upd_other in E by exact M. contradiction. }
  assert (Q : forall A B C D : Prop, A /\ B -> C -> D -> A /\ B /\ C /\ D) by tauto.
  destruct x as [w|t]; [|destruct d as [w|d]].
  - destruct (MIX Logic.I) as (h & F & R). exists (Plain w), (Plain w), h. split; [cbn; rewrite F; reflexivity|exact R].
  - destruct (MIX Logic.I) as (h & F & R). exists (Owned t), (Owned (Inside [])), h. split; [cbn in *; injection F as <-; reflexivity|exact R].
  - clear MIX. cbn in V. destruct (text_bytes (s_heap s) t) as [u|] eqn:T; [|discriminate V]. cbn in V. injection V as <-. cbn.
    destruct t as [t|c]; destruct d as [d|b]; cbn in T.
    + injection T as ->. exists (Owned (Inside u)), (Owned (Inside [])), (s_heap s). split; [reflexivity|].
      apply Q; [|reflexivity|reflexivity]. apply moved; [exact I|exact N|exact KX|cbn; lia|discriminate| | |congruence|reflexivity].
      * intros b [Y|Y]; discriminate Y.
      * intros b [Y|Y]; congruence.
    + injection T as ->. destruct KD as (d & cap & F & L1 & L2). cbn in KX. cbn. rewrite F. destruct (Nat.leb_spec (length u) cap) as [L|L]; [|lia].
      exists (Owned (Block b)), (Owned (Inside [])), (set_block (s_heap s) b (Some (u, cap))). split; [reflexivity|].
      apply Q; [|unfold show, text_bytes, set_block; cbn [h_blocks]; rewrite upd_same; reflexivity|reflexivity].
      apply moved; [exact I|exact N| |cbn; lia|discriminate| | | |reflexivity].
      * exists u, cap. cbn. rewrite upd_same. auto.
      * intros b' [Y|Y]; [right; congruence|discriminate Y].
      * intros b' [Y|Y]; [congruence|]. left. congruence.
      * intros b' E. right. cbn in E. destruct (Nat.eq_dec b' b) as [->|M]; [exact D|]. rewrite upd_other in E by exact M. contradiction.
    + exists (Owned (Block c)), (Owned (Inside [])), (s_heap s). split; [reflexivity|].
      apply Q; [|cbn; rewrite T; reflexivity|reflexivity]. apply moved; [exact I|exact N|exact KX|cbn; lia|discriminate| | |congruence|reflexivity].
      * intros b [Y|Y]; [left; congruence|discriminate Y].
      * intros b [Y|Y]; [left; congruence|congruence].
    + assert (CB : c <> b). { intros ->. apply N. exact (i_one _ _ I _ _ _ X D). }
      destruct KD as (d & cap & F & L1 & L2). cbn. rewrite F.
      exists (Owned (Block c)), (Owned (Block b)), (set_block (s_heap s) b (Some ([], cap))). split; [reflexivity|].
      apply Q.
      * apply moved; [exact I|exact N| | | | | | |reflexivity].
        -- destruct KX as (u' & cap' & F' & L'). exists u', cap'. cbn. rewrite upd_other by exact CB. auto.
        -- exists [], cap. cbn. rewrite upd_same. split; [reflexivity|lia].
        -- congruence.
        -- intros b' [Y|Y]; [left|right]; congruence.
        -- intros b' [Y|Y]; [left|right; left]; congruence.
        -- intros b' E. right. cbn in E. destruct (Nat.eq_dec b' b) as [->|M]; [exact D|]. rewrite upd_other in E by exact M. contradiction.
      * unfold show, text_bytes, set_block. cbn [h_blocks]. rewrite upd_other by exact CB. rewrite T. reflexivity.
      * unfold show, text_bytes, set_block. cbn [h_blocks]. rewrite upd_same. reflexivity.
Qed.

(** One operation. *)
Lemma dead_alive s st o : inv s -> holds s st -> st o = None -> dead s o = true /\ s_objects s o = None.
Proof. intros I H E. apply (alive _ _ _ _ I H) in E. unfold dead. rewrite E. auto. Qed.
Lemma living s st o v : inv s -> holds s st -> st o = Some v -> exists x, s_objects s o = Some x /\ show (s_heap s) x = Some v.
Proof. intros I H E. specialize (H o). unfold shows in H. destruct (s_objects s o) as [x|]; [|congruence]. exists x. split; [reflexivity|congruence]. Qed.

Lemma holds_set2 s st a v b w s' : holds s st -> a <> b -> shows s' a = v -> shows s' b = w ->
  (forall o', o' <> a -> o' <> b -> shows s' o' = shows s o') -> holds s' (set (set st a v) b w).
Proof.
  intros H N A B O o. rewrite !set_upd. destruct (Nat.eq_dec o b) as [->|N1]; [rewrite upd_same; exact B|]. rewrite upd_other by exact N1.
  rewrite set_upd. destruct (Nat.eq_dec o a) as [->|N2]; [rewrite upd_same; exact A|]. rewrite upd_other by exact N2. rewrite O by assumption. apply H.
Qed.

Lemma step_lemma s st p : inv s -> holds s st -> legal st p ->
  exists s' x st', step inside s p = Some (s', x) /\ does inside st p x st' /\ inv s' /\ holds s' st'.
Proof.
  intros I H L. assert (HAVE : forall o, st o <> None -> exists v, st o = Some v) by (intros o N; destruct (st o) as [v|]; [eauto|contradiction]).
  destruct p as [o v ok|src dst ok|src dst|src dst ok|src dst|o|o]; cbn [legal] in L; cbn [step].
  - destruct (dead_alive _ _ _ I H L) as (-> & X). destruct (make_lemma inside ok s o v I) as [(x & h & E & A & B & C)|(E & A & t & -> & B)].
    + rewrite X. intros b; discriminate.
    + rewrite E. cbn [put]. do 3 eexists. split; [reflexivity|]. split; [apply does_new; exact L|]. split; [exact A|].
      apply holds_set with s; [exact H|rewrite shows_new; exact C|exact B].
    + rewrite E. cbn [put]. subst ok. do 3 eexists. split; [reflexivity|]. split; [apply (does_fail inside st _ t); [exact L|reflexivity|exact B]|]. split; [exact I|exact H].
  - destruct L as (L1 & L2). destruct (HAVE _ L1) as (v & V). destruct (living _ _ _ _ I H V) as (x & X & SX). rewrite X.
    destruct (dead_alive _ _ _ I H L2) as (-> & Y). rewrite (copy_is_make inside ok _ _ v (i_ok _ _ I _ _ X) SX).
    destruct (make_lemma inside ok s dst v I) as [(y & h & E & A & B & C)|(E & A & t & -> & B)].
    + rewrite Y. intros b; discriminate.
    + rewrite E. cbn [put]. do 3 eexists. split; [reflexivity|]. split; [apply (does_copy inside st _ _ _ v); assumption|]. split; [exact A|].
      apply holds_set with s; [exact H|rewrite shows_new; exact C|exact B].
    + rewrite E. cbn [put]. subst ok. do 3 eexists. split; [reflexivity|]. split; [apply (does_fail inside st _ t); [split; assumption|exact V|exact B]|]. split; [exact I|exact H].
  - destruct L as (L1 & L2). destruct (HAVE _ L1) as (v & V). destruct (living _ _ _ _ I H V) as (x & X & SX). rewrite X.
    destruct (dead_alive _ _ _ I H L2) as (-> & Y). destruct (left_show _ _ _ (i_ok _ _ I _ _ X) SX) as (S1 & S2).
    destruct (move_lemma s src dst x v I X Y SX) as (A & B). assert (N : src <> dst) by congruence.
    destruct (move x) as [y z]. cbn [fst snd] in *. do 3 eexists. split; [reflexivity|]. split; [apply does_move; eassumption|]. split; [exact A|].
    apply holds_set2 with s; [exact H|exact N| | |exact B]; unfold shows; cbn [s_objects s_heap]; [rewrite upd_other by exact N|]; rewrite upd_same; assumption.
  - destruct L as (L1 & L2). destruct (HAVE _ L1) as (v & V). destruct (HAVE _ L2) as (d & D). destruct (living _ _ _ _ I H V) as (x & X & SX).
    destruct (living _ _ _ _ I H D) as (y & Y & SY). rewrite X, Y. destruct (Nat.eqb_spec dst src) as [->|N].
    + do 3 eexists. split; [reflexivity|]. split; [apply (does_assign inside st _ _ _ v d); assumption|]. split; [exact I|]. intros o. rewrite set_upd.
      destruct (Nat.eq_dec o src) as [->|M]; [rewrite upd_same; rewrite <- V; apply H|rewrite upd_other by exact M; apply H].
    + destruct (assign_lemma ok s src dst x y v I X Y N SX) as [(z & h & E & (A & B) & C)|(E & A & t & -> & B)]; rewrite E; cbn [put].
      * do 3 eexists. split; [reflexivity|]. split; [apply (does_assign inside st _ _ _ v d); assumption|]. split; [exact A|].
        apply holds_set with s; [exact H|rewrite shows_new; exact C|exact B].
      * subst ok. do 3 eexists. split; [reflexivity|]. split; [apply (does_fail inside st _ t); [split; assumption| |exact B]|split; [exact I|exact H]].
        cbn. destruct (Nat.eqb_spec dst src); [contradiction|exact V].
  - destruct L as (L1 & L2). destruct (HAVE _ L1) as (v & V). destruct (HAVE _ L2) as (d & D). destruct (living _ _ _ _ I H V) as (x & X & SX).
    destruct (living _ _ _ _ I H D) as (y & Y & SY). rewrite X, Y. destruct (Nat.eqb_spec dst src) as [->|N].
    + do 3 eexists. split; [reflexivity|]. split; [apply (does_self_move inside st _ v); exact V|]. split; [exact I|exact H].
    + assert (N' : src <> dst) by congruence. destruct (move_assign_lemma s src dst x y v I X Y N' SX) as (a & z & h & E & A & B & C1 & C2). rewrite E.
      do 3 eexists. split; [reflexivity|]. split; [apply (does_assign_move inside st _ _ v d); assumption|]. split; [exact A|].
      apply holds_set2 with s; [exact H|exact N'| | |exact B]; unfold shows; cbn [s_objects s_heap]; [rewrite upd_other by exact N'|]; rewrite upd_same; assumption.
  - destruct (HAVE _ L) as (v & V). destruct (living _ _ _ _ I H V) as (x & X & SX). rewrite X. destruct (free_lemma s o x I X) as (h & E & A & B). rewrite E.
    do 3 eexists. split; [reflexivity|]. split; [apply (does_destroy inside st _ v); exact V|]. split; [exact A|]. apply holds_set with s; [exact H|apply shows_gone|exact B].
  - destruct (HAVE _ L) as (v & V). destruct (living _ _ _ _ I H V) as (x & X & SX). rewrite X, SX.
    do 3 eexists. split; [reflexivity|]. split; [apply does_show; exact V|]. split; [exact I|exact H].
Qed.

(** What is not legal is undefined. *)
Lemma step_legal s st p r : inv s -> holds s st -> step inside s p = Some r -> legal st p.
Proof.
  intros I H E.
  assert (A : forall o, s_objects s o = None -> st o = None) by (intros o; apply (alive _ _ _ _ I H)).
  assert (B : forall o x, s_objects s o = Some x -> st o <> None) by (intros o x X Y; apply (alive _ _ _ _ I H) in Y; congruence).
  assert (C : forall o, dead s o = true -> st o = None) by (intros o D; apply A; unfold dead in D; destruct (s_objects s o); [discriminate D|reflexivity]).
  destruct p as [o v ok|src dst ok|src dst|src dst ok|src dst|o|o]; cbn [legal]; cbn [step] in E.
  - destruct (dead s o) eqn:D; [exact (C _ D)|discriminate E].
  - destruct (s_objects s src) eqn:X; [|discriminate E]. destruct (dead s dst) eqn:D; [|discriminate E]. eauto.
  - destruct (s_objects s src) eqn:X; [|discriminate E]. destruct (dead s dst) eqn:D; [|discriminate E]. eauto.
  - destruct (s_objects s src) eqn:X; [|discriminate E]. destruct (s_objects s dst) eqn:Y; [|discriminate E]. eauto.
  - destruct (s_objects s src) eqn:X; [|discriminate E]. destruct (s_objects s dst) eqn:Y; [|discriminate E]. eauto.
  - destruct (s_objects s o) eqn:X; [|discriminate E]. eauto.
  - destruct (s_objects s o) eqn:X; [|discriminate E]. eauto.
Qed.

Lemma run_lemma ps : forall s st s' xs, inv s -> holds s st -> run inside s ps = Some (s', xs) ->
  exists st', does_all inside st ps xs st' /\ inv s' /\ holds s' st'.
Proof.
  induction ps as [|p ps IH]; cbn; intros s st s' xs I H E.
  - injection E as <- <-. exists st. split; [constructor; reflexivity|]. auto.
  - destruct (step inside s p) as [[s1 x]|] eqn:S1; [|discriminate E]. destruct (run inside s1 ps) as [[s2 ys]|] eqn:R; [|discriminate E].
    injection E as <- <-. destruct (step_lemma s st p I H (step_legal _ _ _ _ I H S1)) as (s3 & x3 & st1 & E1 & D & I1 & H1).
    rewrite S1 in E1. injection E1 as <- <-. destruct (IH _ _ _ _ I1 H1 R) as (st' & D' & I' & H'). exists st'. split; [econstructor; eassumption|]. auto.
Qed.

Lemma init_inv : inv init.
Proof. constructor; cbn; [discriminate|discriminate|discriminate|reflexivity]. Qed.
Lemma init_holds : holds init empty.
Proof. intros o. reflexivity. Qed.

Lemma variables_lemma ps s xs : run inside init ps = Some (s, xs) ->
  exists st, does_all inside empty ps xs st /\ (forall o v, st o = Some v <-> step inside s (Show o) = Some (s, Saw v)) /\
    (forall p, legal st p <-> step inside s p <> None).
Proof.
  intros R. destruct (run_lemma _ _ _ _ _ init_inv init_holds R) as (st & D & I & H). exists st. split; [exact D|]. split.
  - intros o v. rewrite <- (H o). unfold shows. cbn. destruct (s_objects s o) as [x|]; [|split; discriminate].
    destruct (show (s_heap s) x); split; congruence.
  - intros p. split; [intros L; destruct (step_lemma _ _ _ I H L) as (s' & x & st' & E & _); congruence|].
    intros N. destruct (step inside s p) eqn:E; [exact (step_legal _ _ _ _ I H E)|contradiction].
Qed.

Lemma blocks_lemma ps s xs : run inside init ps = Some (s, xs) ->
  forall b, h_blocks (s_heap s) b <> None -> exists o, s_objects s o = Some (Owned (Block b)) /\ forall o', s_objects s o' = Some (Owned (Block b)) -> o' = o.
Proof.
  intros R b N. destruct (run_lemma _ _ _ _ _ init_inv init_holds R) as (st & D & I & H).
  destruct (h_blocks (s_heap s) b) as [c|] eqn:E; [|contradiction]. destruct (i_all _ _ I _ _ E) as (o & X). exists o. split; [exact X|].
  intros o' X'. exact (i_one _ _ I _ _ _ X' X).
Qed.

Lemma all_freed ps s xs : run inside init ps = Some (s, xs) -> (forall o, s_objects s o = None) -> forall b, h_blocks (s_heap s) b = None.
Proof.
  intros R N b. destruct (h_blocks (s_heap s) b) as [c|] eqn:E; [|reflexivity]. destruct (blocks_lemma _ _ _ R b) as (o & X & _); [congruence|].
  rewrite N in X. discriminate X.
Qed.
End Library.
