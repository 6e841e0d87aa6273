(** Proofs about attribute values as objects in memory. *)
From Verif Require Import Base Values AssignModel AssignSpec.

Lemma upd_same {A} (f : nat -> A) k v : upd f k v k = v.
Proof. unfold upd. rewrite Nat.eqb_refl. reflexivity. Qed.
Lemma upd_other {A} (f : nat -> A) k v x : x <> k -> upd f k v x = f x.
Proof. intros N. unfold upd. destruct (Nat.eqb_spec x k); [contradiction|reflexivity]. Qed.

Section Library.
Variable inside : nat.

(** A string and the heap. *)
Definition text_ok (h : heap) (t : text) : Prop :=
  match t with
  | Inside s => (length s <= inside)%nat
  | Block b => exists s cap, h_blocks h b = Some (s, cap) /\ (length s <= cap)%nat /\ (inside <= cap)%nat
  end.
Definition stored_ok (h : heap) (x : stored) : Prop :=
  match x with Plain v => (forall s, v <> VString s) | Owned t => text_ok h t end.
Definition owns (x : stored) (b : nat) : Prop := x = Owned (Block b).

Record inv (s : state) : Prop := Inv {
  i_ok : forall o x, s_objects s o = Some x -> stored_ok (s_heap s) x;
  i_one : forall o1 o2 b, s_objects s o1 = Some (Owned (Block b)) -> s_objects s o2 = Some (Owned (Block b)) -> o1 = o2;
  i_all : forall b c, h_blocks (s_heap s) b = Some c -> exists o, s_objects s o = Some (Owned (Block b));
  i_next : forall b, (h_next (s_heap s) <= b)%nat -> h_blocks (s_heap s) b = None
}.

Definition shows (s : state) (o : oid) : option value := match s_objects s o with Some x => show (s_heap s) x | None => None end.
Definition holds (s : state) (st : store) : Prop := forall o, shows s o = st o.

Lemma show_ok h x : stored_ok h x -> exists v, show h x = Some v.
Proof.
  destruct x as [v|[t|b]]; cbn; intros K; [eexists; reflexivity|eexists; reflexivity|].
  destruct K as (t & cap & E & _). rewrite E. eexists. reflexivity.
Qed.

Lemma alive s st o : inv s -> holds s st -> (st o = None <-> s_objects s o = None).
Proof.
  intros I H. rewrite <- (H o). unfold shows. destruct (s_objects s o) eqn:E; [|tauto].
  destruct (show_ok _ _ (i_ok _ I _ _ E)) as (v & V). rewrite V. split; discriminate.
Qed.

(** One object gets a new value, or none. *)
Lemma replaced s o y h : inv s ->
  (forall x, y = Some x -> stored_ok h x) ->
  (forall b, h_blocks h b <> None -> y = Some (Owned (Block b)) \/ (h_blocks h b = h_blocks (s_heap s) b /\ s_objects s o <> Some (Owned (Block b)))) ->
  (forall b, h_blocks (s_heap s) b <> None -> s_objects s o <> Some (Owned (Block b)) -> h_blocks h b = h_blocks (s_heap s) b) ->
  (forall b, y = Some (Owned (Block b)) -> s_objects s o = Some (Owned (Block b)) \/ h_blocks (s_heap s) b = None) ->
  (forall b, (h_next h <= b)%nat -> h_blocks h b = None) ->
  inv (State h (upd (s_objects s) o y)) /\ (forall o', o' <> o -> shows (State h (upd (s_objects s) o y)) o' = shows s o').
Proof.
  intros I A B C D E.
  assert (K : forall o' x, o' <> o -> s_objects s o' = Some x -> stored_ok h x /\ show h x = show (s_heap s) x).
  { intros o' x N X. pose proof (i_ok _ I _ _ X) as OK. destruct x as [v|[t|b]]; [split; [exact OK|reflexivity]|split; [exact OK|reflexivity]|].
    destruct OK as (t & cap & F & L1 & L2).
    assert (G : h_blocks h b = h_blocks (s_heap s) b).
    { apply C; [rewrite F; discriminate|]. intros Y. apply N. exact (i_one _ I _ _ _ X Y). }
    split; [exists t, cap; rewrite G; auto|cbn; rewrite G; reflexivity]. }
  split.
  - constructor; cbn.
    + intros o' x X. destruct (Nat.eq_dec o' o) as [->|N]; [rewrite upd_same in X; exact (A _ X)|].
      rewrite upd_other in X by exact N. exact (proj1 (K _ _ N X)).
    + assert (NO : forall o' b, o' <> o -> s_objects s o' = Some (Owned (Block b)) -> y = Some (Owned (Block b)) -> False).
      { intros o' b N X Y. destruct (D _ Y) as [Z|Z]; [exact (N (i_one _ I _ _ _ X Z))|].
        destruct (i_ok _ I _ _ X) as (t & cap & F & _). congruence. }
      intros o1 o2 b X Y. destruct (Nat.eq_dec o1 o) as [->|N1]; destruct (Nat.eq_dec o2 o) as [->|N2]; [reflexivity| | |];
        repeat rewrite upd_same in *; repeat rewrite upd_other in * by assumption.
      * destruct (NO _ _ N2 Y X).
      * destruct (NO _ _ N1 X Y).
      * exact (i_one _ I _ _ _ X Y).
    + intros b c F. destruct (B b) as [Y|(Y & Z)]; [congruence|exists o; rewrite upd_same; exact Y|].
      rewrite Y in F. destruct (i_all _ I _ _ F) as (o' & X). exists o'. rewrite upd_other; [exact X|congruence].
    + exact E.
  - intros o' N. unfold shows. cbn. rewrite upd_other by exact N. destruct (s_objects s o') as [x|] eqn:X; [exact (proj2 (K _ _ N X))|reflexivity].
Qed.

Lemma shows_new s o y h : shows (State h (upd (s_objects s) o (Some y))) o = show h y.
Proof. unfold shows. cbn. rewrite upd_same. reflexivity. Qed.
Lemma shows_gone s o h : shows (State h (upd (s_objects s) o None)) o = None.
Proof. unfold shows. cbn. rewrite upd_same. reflexivity. Qed.

(** An unused block. *)
Lemma fresh_block s b : inv s -> b = h_next (s_heap s) -> h_blocks (s_heap s) b = None.
Proof. intros I ->. apply (i_next _ I). lia. Qed.
Lemma not_last s b : inv s -> h_blocks (s_heap s) b <> None -> b <> h_next (s_heap s).
Proof. intros I N ->. apply N. apply (i_next _ I). lia. Qed.

(** A value put where there is none, or in place of one that owns nothing. *)
Definition owns_none (x : option stored) : Prop := forall b, x <> Some (Owned (Block b)).

Lemma put_same_heap s o y : inv s -> owns_none (s_objects s o) -> stored_ok (s_heap s) y -> owns_none (Some y) ->
  inv (State (s_heap s) (upd (s_objects s) o (Some y))) /\ (forall o', o' <> o -> shows (State (s_heap s) (upd (s_objects s) o (Some y))) o' = shows s o').
Proof.
  intros I N K M. apply replaced; [exact I| | | | |].
  - intros x [= <-]. exact K.
  - intros b _. right. split; [reflexivity|apply N].
  - reflexivity.
  - intros b E. destruct (M _ E).
  - apply (i_next _ I).
Qed.
Lemma put_new_block s o t cap : inv s -> owns_none (s_objects s o) -> (length t <= cap)%nat -> (inside <= cap)%nat ->
  let '(x, h) := add_block (s_heap s) t cap in
  inv (State h (upd (s_objects s) o (Some (Owned x)))) /\ (forall o', o' <> o -> shows (State h (upd (s_objects s) o (Some (Owned x)))) o' = shows s o')
  /\ show h (Owned x) = Some (VString t).
Proof.
  intros I N L1 L2. unfold add_block.
  assert (U : upd (h_blocks (s_heap s)) (h_next (s_heap s)) (Some (t, cap)) (h_next (s_heap s)) = Some (t, cap)) by apply upd_same.
  assert (Q : forall A B C : Prop, A /\ B -> C -> A /\ B /\ C) by tauto. apply Q; [|unfold show, text_bytes; cbn [h_blocks]; rewrite upd_same; reflexivity].
  apply replaced; [exact I| | | | |]; cbn.
  - intros x [= <-]. cbn. exists t, cap. rewrite upd_same. auto.
  - intros b F. destruct (Nat.eq_dec b (h_next (s_heap s))) as [->|M]; [left; reflexivity|]. right.
    rewrite upd_other by exact M. split; [reflexivity|apply N].
  - intros b F _. apply upd_other. exact (not_last _ _ I F).
  - intros b [= <-]. right. apply (i_next _ I). lia.
  - intros b F. rewrite upd_other by lia. apply (i_next _ I). lia.
Qed.

Lemma set_upd st o v x : set st o v x = upd st o v x.
Proof. reflexivity. Qed.

(** What the variables hold then. *)
Lemma holds_set s st o v s' : holds s st -> shows s' o = v -> (forall o', o' <> o -> shows s' o' = shows s o') -> holds s' (set st o v).
Proof.
  intros H E K o'. rewrite set_upd. destruct (Nat.eq_dec o' o) as [->|N]; [rewrite upd_same; exact E|].
  rewrite upd_other by exact N. rewrite (K _ N). apply H.
Qed.

(** Copies. *)
Lemma make_text_lemma ok s o t : inv s -> owns_none (s_objects s o) ->
  (exists x h, make_text inside ok (s_heap s) t = Good (x, h) /\ inv (State h (upd (s_objects s) o (Some (Owned x)))) /\
     (forall o', o' <> o -> shows (State h (upd (s_objects s) o (Some (Owned x)))) o' = shows s o') /\ show h (Owned x) = Some (VString t)) \/
  (make_text inside ok (s_heap s) t = Threw /\ ok = false /\ (inside < length t)%nat).
Proof.
  intros I N. unfold make_text. destruct (Nat.leb_spec (length t) inside) as [L|L].
  - left. exists (Inside t), (s_heap s). split; [reflexivity|].
    destruct (put_same_heap s o (Owned (Inside t)) I N) as (A & B); [exact L|intros b; discriminate|]. auto.
  - destruct ok; [left|right; auto]. pose proof (put_new_block s o t (length t) I N (le_n _) ltac:(lia)) as Z.
    destruct (add_block (s_heap s) t (length t)) as [x h]. exists x, h. split; [reflexivity|exact Z].
Qed.

Lemma make_lemma ok s o v : inv s -> owns_none (s_objects s o) ->
  (exists x h, make inside ok (s_heap s) v = Good (x, h) /\ inv (State h (upd (s_objects s) o (Some x))) /\
     (forall o', o' <> o -> shows (State h (upd (s_objects s) o (Some x))) o' = shows s o') /\ show h x = Some v) \/
  (make inside ok (s_heap s) v = Threw /\ ok = false /\ exists t, v = VString t /\ (inside < length t)%nat).
Proof.
  intros I N.
  assert (P : (forall t, v <> VString t) -> exists x h, Good (Plain v, s_heap s) = Good (x, h) /\ inv (State h (upd (s_objects s) o (Some x))) /\
     (forall o', o' <> o -> shows (State h (upd (s_objects s) o (Some x))) o' = shows s o') /\ show h x = Some v).
  { intros V. exists (Plain v), (s_heap s). split; [reflexivity|].
    destruct (put_same_heap s o (Plain v) I N) as (A & B); [exact V|intros b; discriminate|]. auto. }
  destruct v; cbn; try (left; apply P; intros ? ?; discriminate).
  destruct (make_text_lemma ok s o s0 I N) as [(x & h & E & R)|(E & K & L)]; rewrite E.
  - left. exists (Owned x), h. split; [reflexivity|exact R].
  - right. split; [reflexivity|]. split; [exact K|]. exists s0. auto.
Qed.

Lemma copy_is_make ok h x v : stored_ok h x -> show h x = Some v -> copy inside ok h x = make inside ok h v.
Proof.
  destruct x as [w|t]; cbn.
  - intros K [= <-]. destruct w; try reflexivity. destruct (K s eq_refl).
  - intros K E. destruct (text_bytes h t) as [s|]; [|discriminate E]. cbn in E. injection E as <-. reflexivity.
Qed.
End Library.
