(** Lemmas on the strings and elements that wrappers own. *)
From Verif Require Import Base Values WrapperModel WrapperSpec.

Definition text_blocks (t : text) : list nat := match t with Block b _ => [b] | Inside _ => [] end.
Definition stored_blocks (x : stored) : list nat := match x with Owned t => text_blocks t | Plain _ => [] end.
Definition element_blocks (e : element) : list nat := text_blocks (e_name e) ++ stored_blocks (e_value e).
Definition blocks (es : list element) : list nat := concat (map element_blocks es).

Definition text_is (lib : library) (texts : nat -> option bytes) (t : text) (k : bytes) : Prop :=
  match t with
  | Inside s => s = k /\ length k <= l_text lib
  | Block b n => texts b = Some k /\ n = length k /\ l_text lib < length k
  end.
Definition stored_is (lib : library) (texts : nat -> option bytes) (x : stored) (v : value) : Prop :=
  match x with
  | Plain v' => v' = v /\ (forall s, v <> VString s)
  | Owned t => exists s, v = VString s /\ text_is lib texts t s
  end.
Definition element_is (lib : library) (texts : nat -> option bytes) (e : element) (a : attribute) : Prop :=
  text_is lib texts (e_name e) (fst a) /\ stored_is lib texts (e_value e) (snd a).
Definition shaped (lib : library) (texts : nat -> option bytes) (es : list element) (l : attribute_list) : Prop :=
  Forall2 (element_is lib texts) es l.

Definition fresh (m : heap) : Prop := forall b, snd m <= b -> fst m b = None.
Definition grown (m m' : heap) (bl : list nat) : Prop :=
  snd m <= snd m' /\ (forall b, b < snd m -> fst m' b = fst m b) /\ fresh m' /\ NoDup bl /\
  (forall b, In b bl -> snd m <= b < snd m') /\ (forall b, snd m <= b -> fst m' b <> None -> In b bl).

Lemma upd_same {A} (f : nat -> A) k v : upd f k v k = v.
Proof. unfold upd. rewrite Nat.eqb_refl. reflexivity. Qed.
Lemma upd_other {A} (f : nat -> A) k v x : x <> k -> upd f k v x = f x.
Proof. intros H. unfold upd. destruct (Nat.eqb_spec x k); [contradiction|reflexivity]. Qed.
Lemma set_same {A} (f : nat -> A) k v : set f k v k = v.
Proof. unfold set. rewrite Nat.eqb_refl. reflexivity. Qed.
Lemma set_other {A} (f : nat -> A) k v x : x <> k -> set f k v x = f x.
Proof. intros H. unfold set. destruct (Nat.eqb_spec x k); [contradiction|reflexivity]. Qed.
Lemma home_eqb_spec a b : reflect (a = b) (home_eqb a b).
Proof.
  destruct a, b; cbn; try (constructor; congruence).
  - destruct (Nat.eqb_spec w w0); constructor; congruence.
  - destruct (Nat.eqb_spec b0 b); constructor; congruence.
Qed.
Lemma hset_same f h v : hset f h v h = v.
Proof. unfold hset. destruct (home_eqb_spec h h); congruence. Qed.
Lemma hset_other f h v x : x <> h -> hset f h v x = f x.
Proof. intros H. unfold hset. destruct (home_eqb_spec x h); congruence. Qed.

Lemma text_is_agree lib t1 t2 t k : (forall b, In b (text_blocks t) -> t2 b = t1 b) -> text_is lib t1 t k -> text_is lib t2 t k.
Proof. destruct t; cbn; [auto|]. intros H [A R]. rewrite H by auto. auto. Qed.
Lemma stored_is_agree lib t1 t2 x v : (forall b, In b (stored_blocks x) -> t2 b = t1 b) -> stored_is lib t1 x v -> stored_is lib t2 x v.
Proof. destruct x; cbn; [auto|]. intros H [s [E T]]. exists s. split; [exact E|]. eapply text_is_agree; eassumption. Qed.
Lemma shaped_agree lib t1 t2 es l : (forall b, In b (blocks es) -> t2 b = t1 b) -> shaped lib t1 es l -> shaped lib t2 es l.
Proof.
  intros H S. revert H. induction S as [|e a es l [N V] S IH]; intros H; constructor.
  - split; [eapply text_is_agree; [|exact N]|eapply stored_is_agree; [|exact V]]; intros b I; apply H; unfold blocks; cbn;
      apply in_or_app; left; apply in_or_app; auto.
  - apply IH. intros b I. apply H. unfold blocks. cbn. apply in_or_app. right. exact I.
Qed.

Lemma grown_refl m : fresh m -> grown m m [].
Proof.
  intros F. repeat split; auto; try constructor; try contradiction.
  intros b B H. exfalso. apply H. apply F. exact B.
Qed.
Lemma NoDup_append {A} (a b : list A) : NoDup a -> NoDup b -> (forall x, In x a -> In x b -> False) -> NoDup (a ++ b).
Proof.
  induction a as [|x a IH]; cbn; intros Na Nb D; [exact Nb|].
  inversion Na; subst. constructor.
  - rewrite in_app_iff. intros [I|I]; [contradiction|]. eapply D; eauto.
  - apply IH; auto. intros y Ia Ib. eapply D; eauto.
Qed.
Lemma grown_trans m m1 m2 a b : grown m m1 a -> grown m1 m2 b -> grown m m2 (a ++ b).
Proof.
  intros [L1 [K1 [F1 [N1 [I1 C1]]]]] [L2 [K2 [F2 [N2 [I2 C2]]]]].
  split; [lia|]. split. { intros x X. rewrite K2 by lia. apply K1. exact X. }
  split; [exact F2|]. split.
  { apply NoDup_append; auto. intros x X Y. apply I1 in X. apply I2 in Y. lia. }
  split.
  { intros x X. apply in_app_or in X. destruct X as [X|X]; [apply I1 in X|apply I2 in X]; lia. }
  intros x X Y. apply in_or_app. destruct (Nat.lt_ge_cases x (snd m1)) as [H|H].
  - left. apply C1; [exact X|]. rewrite <- K2 by exact H. exact Y.
  - right. apply C2; auto.
Qed.

Lemma make_text_lemma lib m k : fresh m ->
  let '(t, m') := make_text lib m k in grown m m' (text_blocks t) /\ text_is lib (fst m') t k.
Proof.
  intros F. unfold make_text. destruct (Nat.leb_spec (length k) (l_text lib)) as [L|L].
  - split; [apply grown_refl; exact F|]. cbn. auto.
  - split; [|cbn; rewrite upd_same; auto]. cbn. split; [cbn; lia|]. split.
    { cbn. intros b B. apply upd_other. lia. }
    split. { intros b B. cbn in *. rewrite upd_other by lia. apply F. lia. }
    split; [repeat constructor; cbn; auto|]. split; [intros b [<-|[]]; cbn; lia|].
    cbn. intros b B H. left. destruct (Nat.eq_dec b (snd m)) as [->|N]; [reflexivity|].
    rewrite upd_other in H by exact N. exfalso. apply H. apply F. exact B.
Qed.
Lemma make_stored_lemma lib m v : fresh m ->
  let '(x, m') := make_stored lib m v in grown m m' (stored_blocks x) /\ stored_is lib (fst m') x v.
Proof.
  intros F. destruct v; cbn; try (split; [apply grown_refl; exact F|split; [reflexivity|discriminate]]).
  pose proof (make_text_lemma lib m s F) as H. destruct (make_text lib m s) as [t m']. destruct H as [G T].
  split; [exact G|]. exists s. auto.
Qed.
Lemma make_elements_lemma lib l : forall m, fresh m ->
  let '(es, m') := make_elements lib m l in grown m m' (blocks es) /\ shaped lib (fst m') es l.
Proof.
  induction l as [|[k v] l IH]; intros m F; cbn.
  - split; [apply grown_refl; exact F|constructor].
  - pose proof (make_text_lemma lib m k F) as H1. destruct (make_text lib m k) as [n m1]. destruct H1 as [G1 T1].
    assert (F1 : fresh m1) by apply G1.
    pose proof (make_stored_lemma lib m1 v F1) as H2. destruct (make_stored lib m1 v) as [x m2]. destruct H2 as [G2 T2].
    assert (F2 : fresh m2) by apply G2.
    specialize (IH m2 F2). destruct (make_elements lib m2 l) as [es m3]. destruct IH as [G3 S].
    unfold blocks. cbn. unfold element_blocks at 1. cbn.
    split; [eapply grown_trans; [eapply grown_trans; eassumption|exact G3]|].
    constructor; [|exact S].
    assert (K : forall b, b < snd m2 -> fst m3 b = fst m2 b) by apply G3.
    assert (K2 : forall b, b < snd m1 -> fst m2 b = fst m1 b) by apply G2.
    pose proof (proj1 G2) as L.
    split; cbn.
    + eapply text_is_agree; [|exact T1]. intros b B.
      assert (R : snd m <= b < snd m1) by (apply G1; exact B). rewrite K by lia. apply K2. lia.
    + eapply stored_is_agree; [|exact T2]. intros b B.
      assert (R : snd m1 <= b < snd m2) by (apply G2; exact B). apply K. lia.
Qed.

Lemma shaped_list lib texts es l : shaped lib texts es l -> elements_list texts es = Some l.
Proof.
  intros S. induction S as [|e [k v] es l [N V] S IH]; cbn; [reflexivity|].
  rewrite IH. cbn in *.
  assert (A : text_bytes texts (e_name e) = Some k) by (destruct (e_name e); cbn in *; [destruct N; congruence|apply N]).
  rewrite A.
  assert (C : stored_value texts (e_value e) = Some v).
  { destruct (e_value e) as [v'|t]; cbn in *; [destruct V; congruence|]. destruct V as [s [-> T]].
    assert (Z : text_bytes texts t = Some s) by (destruct t; cbn in *; [destruct T; congruence|apply T]).
    rewrite Z. reflexivity. }
  rewrite C. reflexivity.
Qed.
Lemma shaped_length lib texts es l : shaped lib texts es l -> length es = length l.
Proof. intros S. induction S; cbn; congruence. Qed.

Lemma shaped_alive lib texts es l b : shaped lib texts es l -> In b (blocks es) -> texts b <> None.
Proof.
  intros S. induction S as [|e a es l [N V] S IH]; cbn; [contradiction|].
  intros I. unfold blocks in I. cbn in I. apply in_app_or in I. destruct I as [I|I]; [|apply IH; exact I].
  unfold element_blocks in I. apply in_app_or in I. destruct I as [I|I].
  - destruct (e_name e); cbn in *; [contradiction|]. destruct I as [<-|[]]. destruct N as [-> _]. discriminate.
  - destruct (e_value e) as [v|t]; cbn in *; [contradiction|]. destruct V as [s [_ T]].
    destruct t; cbn in *; [contradiction|]. destruct I as [<-|[]]. destruct T as [-> _]. discriminate.
Qed.

Definition freed (texts texts' : nat -> option bytes) (bl : list nat) : Prop :=
  forall b, (In b bl -> texts' b = None) /\ (~ In b bl -> texts' b = texts b).
Lemma free_text_lemma texts t : (forall b, In b (text_blocks t) -> texts b <> None) ->
  exists texts', free_text texts t = Some texts' /\ freed texts texts' (text_blocks t).
Proof.
  destruct t as [s|b n]; cbn; intros H.
  - exists texts. split; [reflexivity|]. intros b. split; [contradiction|reflexivity].
  - destruct (texts b) eqn:E; [|exfalso; apply (H b); auto].
    exists (upd texts b None). split; [reflexivity|]. intros c. split.
    + intros [<-|[]]. apply upd_same.
    + intros N. apply upd_other. intros ->. apply N. left. reflexivity.
Qed.
Lemma freed_trans a b c x y : freed a b x -> freed b c y -> freed a c (x ++ y).
Proof.
  intros F G k. destruct (F k) as [F1 F2]. destruct (G k) as [G1 G2]. rewrite in_app_iff. split.
  - intros [I|I]; [|apply G1; exact I]. destruct (in_dec Nat.eq_dec k y) as [J|J]; [apply G1; exact J|].
    rewrite G2 by exact J. apply F1. exact I.
  - intros N. rewrite G2 by tauto. apply F2. tauto.
Qed.
Lemma free_stored_lemma texts x : (forall b, In b (stored_blocks x) -> texts b <> None) ->
  exists texts', free_stored texts x = Some texts' /\ freed texts texts' (stored_blocks x).
Proof.
  destruct x as [v|t]; cbn; intros H; [|apply free_text_lemma; exact H].
  exists texts. split; [reflexivity|]. intros b. split; [contradiction|reflexivity].
Qed.
Lemma NoDup_append_inv {A} (a b : list A) : NoDup (a ++ b) -> NoDup a /\ NoDup b /\ (forall x, In x a -> In x b -> False).
Proof.
  induction a as [|x a IH]; cbn; intros N; [repeat split; [constructor|exact N|contradiction]|].
  inversion N; subst. destruct (IH H2) as [Na [Nb D]]. rewrite in_app_iff in H1.
  split; [constructor; tauto|]. split; [exact Nb|]. intros y [<-|I] J; [tauto|eauto].
Qed.
Lemma free_elements_lemma es : forall texts, NoDup (blocks es) -> (forall b, In b (blocks es) -> texts b <> None) ->
  exists texts', free_elements texts es = Some texts' /\ freed texts texts' (blocks es).
Proof.
  induction es as [|e es IH]; intros texts N H; cbn.
  - exists texts. split; [reflexivity|]. intros b. split; [contradiction|reflexivity].
  - unfold blocks in *. cbn in *. unfold element_blocks in N at 1, H at 1. unfold element_blocks at 1.
    apply NoDup_append_inv in N. destruct N as [N1 [N2 D]]. apply NoDup_append_inv in N1. destruct N1 as [Na [Nb Dab]].
    destruct (free_text_lemma texts (e_name e)) as [t1 [E1 F1]].
    { intros b B. apply H. apply in_or_app. left. apply in_or_app. auto. }
    rewrite E1. destruct (free_stored_lemma t1 (e_value e)) as [t2 [E2 F2]].
    { intros b B. destruct (F1 b) as [_ K]. rewrite K by (intros I; eapply Dab; eauto).
      apply H. apply in_or_app. left. apply in_or_app. auto. }
    rewrite E2. pose proof (freed_trans _ _ _ _ _ F1 F2) as F12.
    destruct (IH t2 N2) as [t3 [E3 F3]].
    { intros b B. destruct (F12 b) as [_ K]. rewrite K by (intros I; eapply D; eauto).
      apply H. apply in_or_app. right. exact B. }
    exists t3. split; [exact E3|]. eapply freed_trans; eassumption.
Qed.

(** Reading the views of elements that are where they were. *)
Lemma read_text_lemma lib s h es i p e t k :
  s_elements s h = Some es -> nth_error es i = Some e -> part_of p e = Some t -> text_is lib (s_texts s) t k ->
  read s (view_text h i p t) = Some k.
Proof.
  intros H E P T. unfold read. destruct t as [c|b n]; cbn in *.
  - destruct T as [-> _]. rewrite H, E, P. destruct k; cbn; [reflexivity|]. unfold take. cbn.
    rewrite Nat.leb_refl. cbn. rewrite firstn_all. reflexivity.
  - destruct T as [A [-> L]]. rewrite A. destruct k; cbn; [reflexivity|]. unfold take. cbn.
    rewrite Nat.leb_refl. cbn. rewrite firstn_all. reflexivity.
Qed.
Lemma read_views_lemma lib s h pre es l : s_elements s h = Some (pre ++ es) -> shaped lib (s_texts s) es l ->
  read_views s (view_elements h (length pre) es) = Some l.
Proof.
  intros H S. revert pre H. induction S as [|e [k v] es l [N V] S IH]; intros pre H; cbn; [reflexivity|].
  assert (E : nth_error (pre ++ e :: es) (length pre) = Some e) by (rewrite nth_error_app2, Nat.sub_diag by lia; reflexivity).
  rewrite (read_text_lemma lib s h _ _ Name e (e_name e) k H E eq_refl N).
  specialize (IH (pre ++ [e])). rewrite <- app_assoc in IH. specialize (IH H).
  rewrite app_length in IH. cbn in IH. rewrite Nat.add_1_r in IH. rewrite IH.
  assert (R : read_value s (view_stored h (length pre) (e_value e)) = Some v).
  { destruct (e_value e) as [v'|t] eqn:Q; cbn in *; [destruct V; congruence|]. destruct V as [x [-> T]].
    rewrite (read_text_lemma lib s h _ _ Content e t x H E); [reflexivity|cbn; rewrite Q; reflexivity|exact T]. }
  rewrite R. reflexivity.
Qed.

(** Views of elements whose texts are all on the heap do not depend on where the elements are. *)
Lemma portable_views lib texts es l h h' : shaped lib texts es l -> Forall (long_texts lib) l ->
  forall i, view_elements h i es = view_elements h' i es.
Proof.
  intros S. induction S as [|e [k v] es l [N V] S IH]; intros P i; cbn; [reflexivity|].
  inversion P as [|? ? [Q1 Q2] P']; subst. cbn in *. rewrite (IH P').
  assert (A : view_text h i Name (e_name e) = view_text h' i Name (e_name e)).
  { destruct (e_name e); cbn in *; [lia|reflexivity]. }
  rewrite A. destruct (e_value e) as [v'|t]; cbn in *; [reflexivity|]. destruct V as [x [-> T]].
  destruct t; cbn in *; [lia|reflexivity].
Qed.
