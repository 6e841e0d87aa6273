From Verif Require Import Base Decimal ParserModel ParserSpec.

Lemma eqb_same c : Ascii.eqb c c = true. Proof. apply Ascii.eqb_refl. Qed.

Definition name_check (c : ascii) : bool := Bool.eqb (name_char c) (existsb (Ascii.eqb c) name_alphabet).
Lemma name_check_all c : name_check c = true.
Proof. destruct c as [[] [] [] [] [] [] [] []]; vm_compute; reflexivity. Qed.
Lemma name_char_iff c : name_char c = true <-> In c name_alphabet.
Proof.
  pose proof (name_check_all c) as H. unfold name_check in H. apply Bool.eqb_prop in H. rewrite H, existsb_exists. split.
  - intros (x & I & E). apply Ascii.eqb_eq in E. subst. exact I.
  - intros I. exists c. split; [exact I|apply eqb_same].
Qed.
Lemma name_char_brace : name_char LBRACE = false /\ name_char RBRACE = false /\ name_char ":" = false.
Proof. split; [|split]; vm_compute; reflexivity. Qed.
Lemma braces_differ : LBRACE <> RBRACE. Proof. vm_compute. discriminate. Qed.
Lemma open_not_close : Ascii.eqb LBRACE RBRACE = false. Proof. vm_compute. reflexivity. Qed.
Lemma close_not_open : Ascii.eqb RBRACE LBRACE = false. Proof. vm_compute. reflexivity. Qed.

(** ** Literals *)
Definition starts_open (s : bytes) : bool := match s with c :: _ => Ascii.eqb c LBRACE | [] => false end.
Definition starts_close (s : bytes) : bool := match s with c :: _ => Ascii.eqb c RBRACE | [] => false end.
Lemma starts_with_open s : starts_with (B "{") s = starts_open s.
Proof. destruct s as [|c s]; [reflexivity|]. change (Ascii.eqb LBRACE c && true = Ascii.eqb c LBRACE). rewrite andb_true_r. apply Ascii.eqb_sym. Qed.

Definition end_text (e : literal_end) : bytes := match e with LEnd => [] | LOpen r => LBRACE :: r | LClose r => r end.
Definition end_ok (e : literal_end) : Prop :=
  match e with LEnd => True | LOpen r => starts_open r = false | LClose r => exists r', r = RBRACE :: r' /\ starts_close r' = false end.

Lemma parse_literal_app t r : parse_literal (doubled t ++ r) = (t ++ fst (parse_literal r), snd (parse_literal r)).
Proof.
  induction t as [|c t IH]; [cbn; destruct (parse_literal r); reflexivity|].
  cbn [doubled flat_map]. fold (doubled t).
  destruct (Ascii.eqb c LBRACE) eqn:E1.
  - apply Ascii.eqb_eq in E1. subst c. cbn [orb app].
    cbn [parse_literal]. rewrite eqb_same. rewrite IH. reflexivity.
  - destruct (Ascii.eqb c RBRACE) eqn:E2.
    + apply Ascii.eqb_eq in E2. subst c. cbn [orb app]. cbn [parse_literal]. rewrite E1, eqb_same. rewrite IH. reflexivity.
    + cbn [orb app]. cbn [parse_literal]. rewrite E1, E2. rewrite IH. reflexivity.
Qed.

Lemma parse_literal_end e : end_ok e -> parse_literal (end_text e) = ([], e).
Proof.
  destruct e as [|r|r]; cbn [end_ok end_text].
  - reflexivity.
  - intros H. cbn [parse_literal]. rewrite eqb_same. destruct r as [|c r]; [reflexivity|]. cbn in H. rewrite H. reflexivity.
  - intros (r' & -> & H). cbn [parse_literal]. rewrite close_not_open, eqb_same. destruct r' as [|c r']; [reflexivity|].
    cbn in H. rewrite H. reflexivity.
Qed.

Lemma parse_literal_inv : forall n s, (length s <= n)%nat -> forall t e, parse_literal s = (t, e) -> s = doubled t ++ end_text e /\ end_ok e.
Proof.
  induction n as [|n IH]; intros s L t e H.
  { destruct s; [|cbn in L; lia]. cbn in H. injection H as <- <-. split; [reflexivity|exact I]. }
  destruct s as [|c s1]; [cbn in H; injection H as <- <-; split; [reflexivity|exact I]|].
  cbn [parse_literal] in H. cbn [length] in L.
  destruct (Ascii.eqb c LBRACE) eqn:E1.
  - destruct s1 as [|c' s2].
    + injection H as <- <-. apply Ascii.eqb_eq in E1. subst. split; reflexivity.
    + destruct (Ascii.eqb c' LBRACE) eqn:E3.
      * destruct (parse_literal s2) as [t' e'] eqn:P. injection H as <- <-.
        destruct (IH s2 ltac:(cbn in L; lia) _ _ P) as [-> O]. split; [|exact O].
        apply Ascii.eqb_eq in E1, E3. subst. reflexivity.
      * injection H as <- <-. apply Ascii.eqb_eq in E1. subst. split; [reflexivity|]. cbn. exact E3.
  - destruct (Ascii.eqb c RBRACE) eqn:E2.
    + destruct s1 as [|c' s2].
      * injection H as <- <-. apply Ascii.eqb_eq in E2. subst. split; [reflexivity|]. exists []. split; reflexivity.
      * destruct (Ascii.eqb c' RBRACE) eqn:E3.
        -- destruct (parse_literal s2) as [t' e'] eqn:P. injection H as <- <-.
           destruct (IH s2 ltac:(cbn in L; lia) _ _ P) as [-> O]. split; [|exact O].
           apply Ascii.eqb_eq in E2, E3. subst. reflexivity.
        -- injection H as <- <-. apply Ascii.eqb_eq in E2. subst. split; [reflexivity|]. exists (c' :: s2). split; [reflexivity|exact E3].
    + destruct (parse_literal s1) as [t' e'] eqn:P. injection H as <- <-.
      destruct (IH s1 ltac:(lia) _ _ P) as [-> O]. split; [|exact O]. cbn [doubled flat_map]. rewrite E1, E2. reflexivity.
Qed.

Lemma doubled_nonempty t : t <> [] -> doubled t <> [].
Proof. destruct t as [|c t]; [contradiction|]. intros _. cbn. destruct (_ || _); discriminate. Qed.

Lemma doubled_head t r : t <> [] -> exists c s, doubled t ++ r = c :: s /\
  (Ascii.eqb c LBRACE = true -> starts_with (B "{") s = true).
Proof.
  destruct t as [|c t]; [contradiction|]. intros _. cbn [doubled flat_map]. fold (doubled t).
  destruct (Ascii.eqb c LBRACE) eqn:E1; cbn [orb].
  - exists c, (c :: doubled t ++ r). split; [reflexivity|]. intros _. rewrite starts_with_open. exact E1.
  - destruct (Ascii.eqb c RBRACE) eqn:E2.
    + exists c, (c :: doubled t ++ r). split; [reflexivity|]. congruence.
    + exists c, (doubled t ++ r). split; [reflexivity|]. congruence.
Qed.

Lemma length_doubled t : (length t <= length (doubled t))%nat.
Proof. induction t as [|c t IH]; [reflexivity|]. cbn [doubled flat_map]. fold (doubled t). destruct (_ || _); cbn [app length]; lia. Qed.

(** ** Names *)
Lemma parse_name_app n r : is_name n -> (forall c s, r = c :: s -> name_char c = false) -> parse_name (n ++ r) = (n, r).
Proof.
  intros H R. induction n as [|c n IH].
  - destruct r as [|c s]; [reflexivity|]. cbn. rewrite (R c s eq_refl). reflexivity.
  - cbn [app parse_name]. rewrite (proj2 (name_char_iff c)) by (apply H; left; reflexivity).
    rewrite IH; [reflexivity|]. intros x I. apply H. right. exact I.
Qed.
Lemma parse_name_inv s n r : parse_name s = (n, r) -> s = n ++ r /\ is_name n /\ (forall c s', r = c :: s' -> name_char c = false).
Proof.
  revert n r; induction s as [|c s IH]; cbn; intros n r H.
  { injection H as <- <-. split; [reflexivity|]. split; [intros x []|discriminate]. }
  destruct (name_char c) eqn:E.
  - destruct (parse_name s) as [n' r']. injection H as <- <-. destruct (IH _ _ eq_refl) as (-> & A & C).
    split; [reflexivity|]. split; [|exact C]. intros x [<-|I]; [apply name_char_iff; exact E|apply A; exact I].
  - injection H as <- <-. split; [reflexivity|]. split; [intros x []|]. intros x s' Q. injection Q as <- <-. exact E.
Qed.

(** ** Specifications *)
Lemma count_app c a b : count c (a ++ b) = (count c a + count c b)%nat.
Proof. induction a as [|x a IH]; [reflexivity|]. cbn [app count]. rewrite IH. lia. Qed.

Definition stays (k : nat) (s : bytes) : Prop := forall a b, s = a ++ b -> (count RBRACE a <= k + count LBRACE a)%nat.
Lemma stays_tail k c s : stays k (c :: s) ->
  stays (k + (if Ascii.eqb LBRACE c then 1 else 0) - (if Ascii.eqb RBRACE c then 1 else 0)) s.
Proof.
  intros H a b ->. pose proof (H (c :: a) b eq_refl) as A. pose proof (H [c] (a ++ b) eq_refl) as D.
  cbn [count] in A, D. destruct (Ascii.eqb LBRACE c), (Ascii.eqb RBRACE c); lia.
Qed.
Lemma stays_cons k c s : (Ascii.eqb RBRACE c = true -> (1 <= k)%nat) ->
  stays (k + (if Ascii.eqb LBRACE c then 1 else 0) - (if Ascii.eqb RBRACE c then 1 else 0)) s -> stays k (c :: s).
Proof.
  intros P H a b E. destruct a as [|x a]; [cbn; lia|]. injection E as <- ->. pose proof (H a b eq_refl) as A. cbn [count].
  destruct (Ascii.eqb LBRACE c) eqn:E1, (Ascii.eqb RBRACE c) eqn:E2; try (specialize (P eq_refl)); lia.
Qed.

Lemma parse_spec_closed k s r : stays k s -> count RBRACE s = (k + count LBRACE s)%nat ->
  parse_spec (S k) (s ++ RBRACE :: r) = (s ++ [RBRACE], r).
Proof.
  revert k; induction s as [|c s IH]; intros k H E.
  - cbn in E. assert (k = 0%nat) by lia. subst k. cbn [app parse_spec]. rewrite close_not_open, eqb_same. reflexivity.
  - cbn [app parse_spec]. pose proof (stays_tail _ _ _ H) as T. cbn [count] in E.
    pose proof (H [c] s eq_refl) as D. cbn [count] in D.
    rewrite (Ascii.eqb_sym c LBRACE), (Ascii.eqb_sym c RBRACE).
    destruct (Ascii.eqb LBRACE c) eqn:E1.
    + apply Ascii.eqb_eq in E1. subst c. rewrite close_not_open in *.
      rewrite (IH (S k)); [reflexivity| |lia]. replace (S k) with (k + 1 - 0)%nat by lia. exact T.
    + destruct (Ascii.eqb RBRACE c) eqn:E2.
      * destruct k as [|k]; [lia|]. cbn [Nat.pred]. rewrite (IH k); [reflexivity| |lia].
        replace k with (S k + 0 - 1)%nat by lia. exact T.
      * rewrite (IH k); [reflexivity| |lia]. replace k with (k + 0 - 0)%nat by lia. exact T.
Qed.

Lemma parse_spec_open k s : stays k s -> parse_spec (S k) s = (s, []).
Proof.
  revert k; induction s as [|c s IH]; intros k H; [reflexivity|].
  cbn [parse_spec]. pose proof (stays_tail _ _ _ H) as T.
  pose proof (H [c] s eq_refl) as D. cbn [count] in D.
  rewrite (Ascii.eqb_sym c LBRACE), (Ascii.eqb_sym c RBRACE).
  destruct (Ascii.eqb LBRACE c) eqn:E1.
  - apply Ascii.eqb_eq in E1. subst c. rewrite close_not_open in *.
    rewrite (IH (S k)); [reflexivity|]. replace (S k) with (k + 1 - 0)%nat by lia. exact T.
  - destruct (Ascii.eqb RBRACE c) eqn:E2.
    + destruct k as [|k]; [lia|]. cbn [Nat.pred]. rewrite (IH k); [reflexivity|].
      replace k with (S k + 0 - 1)%nat by lia. exact T.
    + rewrite (IH k); [reflexivity|]. replace k with (k + 0 - 0)%nat by lia. exact T.
Qed.

Lemma parse_spec_inv s : forall k x r, parse_spec (S k) s = (x, r) ->
  (exists b, x = b ++ [RBRACE] /\ s = b ++ RBRACE :: r /\ stays k b /\ count RBRACE b = (k + count LBRACE b)%nat) \/
  (r = [] /\ x = s /\ stays k s).
Proof.
  induction s as [|c s IH]; intros k x r H.
  { cbn in H. injection H as <- <-. right. split; [reflexivity|]. split; [reflexivity|]. intros a b E.
    symmetry in E. apply app_eq_nil in E. destruct E as [-> ->]. cbn. lia. }
  cbn [parse_spec] in H.
  destruct (Ascii.eqb c LBRACE) eqn:E1.
  - destruct (parse_spec (S (S k)) s) as [y r'] eqn:P. injection H as <- <-.
    assert (Q1 : Ascii.eqb LBRACE c = true) by (rewrite Ascii.eqb_sym; exact E1).
    assert (Q2 : Ascii.eqb RBRACE c = false) by (apply Ascii.eqb_eq in E1; subst; reflexivity).
    destruct (IH _ _ _ P) as [(b & -> & -> & S1 & C1)|(-> & -> & S1)].
    + left. exists (c :: b). split; [reflexivity|]. split; [reflexivity|]. split.
      * apply stays_cons; rewrite Q2; [discriminate|]. rewrite Q1. replace (k + 1 - 0)%nat with (S k) by lia. exact S1.
      * cbn [count]. rewrite Q1, Q2. lia.
    + right. split; [reflexivity|]. split; [reflexivity|].
      apply stays_cons; rewrite Q2; [discriminate|]. rewrite Q1. replace (k + 1 - 0)%nat with (S k) by lia. exact S1.
  - assert (Q1 : Ascii.eqb LBRACE c = false) by (rewrite Ascii.eqb_sym; exact E1).
    destruct (Ascii.eqb c RBRACE) eqn:E2.
    + assert (Q2 : Ascii.eqb RBRACE c = true) by (rewrite Ascii.eqb_sym; exact E2).
      destruct k as [|k].
      * injection H as <- <-. left. exists []. apply Ascii.eqb_eq in E2. subst.
        split; [reflexivity|]. split; [reflexivity|]. split; [|reflexivity].
        intros a b E. symmetry in E. apply app_eq_nil in E. destruct E as [-> ->]. cbn. lia.
      * cbn [Nat.pred] in H. destruct (parse_spec (S k) s) as [y r'] eqn:P. injection H as <- <-.
        destruct (IH _ _ _ P) as [(b & -> & -> & S1 & C1)|(-> & -> & S1)].
        -- left. exists (c :: b). split; [reflexivity|]. split; [reflexivity|]. split.
           ++ apply stays_cons; rewrite Q2; [lia|]. rewrite Q1. replace (S k + 0 - 1)%nat with k by lia. exact S1.
           ++ cbn [count]. rewrite Q1, Q2. lia.
        -- right. split; [reflexivity|]. split; [reflexivity|].
           apply stays_cons; rewrite Q2; [lia|]. rewrite Q1. replace (S k + 0 - 1)%nat with k by lia. exact S1.
    + assert (Q2 : Ascii.eqb RBRACE c = false) by (rewrite Ascii.eqb_sym; exact E2).
      destruct (parse_spec (S k) s) as [y r'] eqn:P. injection H as <- <-.
      destruct (IH _ _ _ P) as [(b & -> & -> & S1 & C1)|(-> & -> & S1)].
      * left. exists (c :: b). split; [reflexivity|]. split; [reflexivity|]. split.
        -- apply stays_cons; rewrite Q2; [discriminate|]. rewrite Q1. replace (k + 0 - 0)%nat with k by lia. exact S1.
        -- cbn [count]. rewrite Q1, Q2. lia.
      * right. split; [reflexivity|]. split; [reflexivity|].
        apply stays_cons; rewrite Q2; [discriminate|]. rewrite Q1. replace (k + 0 - 0)%nat with k by lia. exact S1.
Qed.

(** ** One call *)
Section One.
Variable ld : bytes -> bool.
Variable nd : bool.
Notation next := (next ld nd).
Notation tokenize_from := (tokenize_from ld nd).

Lemma advance_app k a r : advance k (a ++ r) r = (k + length a)%nat.
Proof. unfold advance. rewrite app_length. lia. Qed.

Lemma next_text t e k : t <> [] -> end_ok e -> next (Parser Unknown (doubled t ++ end_text e) k) =
  match e with
  | LEnd => (OToken (TLiteral t), Parser InLiteral [] (k + length (doubled t)))
  | LOpen r => (OToken (TLiteral t), Parser InPlaceholder r (S (k + length (doubled t))))
  | LClose r => (OError Illformed (k + length (doubled t)), Parser IsBroken r (k + length (doubled t)))
  end.
Proof.
  intros T E. destruct (doubled_head t (end_text e) T) as (c & s & Q & O).
  unfold ParserModel.next. cbn [p_state p_rest]. rewrite Q.
  assert (EN : enter (Parser Unknown (c :: s) k) = Parser InLiteral (c :: s) k).
  { unfold enter. cbn [p_rest p_pos]. destruct (Ascii.eqb c LBRACE) eqn:E1; [|reflexivity]. rewrite (O eq_refl). reflexivity. }
  rewrite EN. unfold next_known. cbn [p_state p_rest].
  rewrite <- Q. unfold next_literal. cbn [p_rest p_pos].
  rewrite parse_literal_app, (parse_literal_end e E). cbn [fst snd]. rewrite app_nil_r.
  destruct e as [|r|r]; cbn [end_text].
  - rewrite app_nil_r. replace (doubled t) with (doubled t ++ []) at 1 by apply app_nil_r. rewrite advance_app. reflexivity.
  - unfold advance. rewrite app_length. cbn [length].
    replace (length (doubled t) + S (length r) - length r)%nat with (S (length (doubled t))) by lia.
    rewrite Nat.add_succ_r. reflexivity.
  - rewrite advance_app. reflexivity.
Qed.

Lemma next_open r k : starts_open r = false -> next (Parser Unknown (LBRACE :: r) k) = next (Parser InPlaceholder r (S k)).
Proof.
  intros H. unfold ParserModel.next. cbn [p_state p_rest]. unfold enter. cbn [p_rest p_pos]. rewrite eqb_same, starts_with_open, H.
  reflexivity.
Qed.

Lemma next_close r k : starts_close r = false ->
  next (Parser Unknown (RBRACE :: r) k) = (OError Illformed k, Parser IsBroken (RBRACE :: r) k).
Proof.
  intros H. unfold ParserModel.next. cbn [p_state p_rest]. unfold enter. cbn [p_rest p_pos]. rewrite close_not_open.
  unfold next_known. cbn [p_state p_rest]. unfold next_literal. cbn [p_rest p_pos].
  assert (P : parse_literal (RBRACE :: r) = ([], LClose (RBRACE :: r))).
  { apply (parse_literal_end (LClose (RBRACE :: r))). exists r. split; [reflexivity|exact H]. }
  rewrite P. unfold advance. rewrite Nat.sub_diag, Nat.add_0_r. reflexivity.
Qed.

Lemma app_cons_next s k c r : s = c :: r -> next (Parser InPlaceholder s k) = parse_placeholder ld nd (Parser InPlaceholder s k).
Proof. intros ->. reflexivity. Qed.
Lemma next_placeholder s k : s <> [] -> next (Parser InPlaceholder s k) = parse_placeholder ld nd (Parser InPlaceholder s k).
Proof. destruct s as [|c s]; [contradiction|]. intros _. reflexivity. Qed.

Lemma next_hole n r k : is_name n ->
  next (Parser InPlaceholder (n ++ RBRACE :: r) k) = (OToken (token_without_spec n), Parser Unknown r (k + length n + 1)).
Proof.
  intros H. rewrite next_placeholder by (destruct n; discriminate). unfold parse_placeholder. cbn [p_rest p_pos].
  rewrite (parse_name_app n (RBRACE :: r) H) by (intros c s E; injection E as <- <-; reflexivity).
  change (is_high RBRACE) with false. change (Ascii.eqb RBRACE ":") with false. rewrite eqb_same.
  unfold advance. rewrite app_length. cbn [length].
  replace (length n + S (length r) - length r)%nat with (length n + 1)%nat by lia. rewrite Nat.add_assoc. reflexivity.
Qed.

Lemma stays_0 b : never_closes b <-> stays 0 b.
Proof. reflexivity. Qed.

Lemma next_hole_spec n b r k : is_name n -> balanced b ->
  next (Parser InPlaceholder (n ++ ":"%char :: b ++ RBRACE :: r) k) =
  (token_with_spec ld nd n (B "{:" ++ b ++ [RBRACE]), Parser Unknown r (k + length n + 1 + length b + 1)).
Proof.
  intros H [N C]. rewrite next_placeholder by (destruct n; discriminate). unfold parse_placeholder. cbn [p_rest p_pos].
  rewrite (parse_name_app n (":"%char :: b ++ RBRACE :: r) H) by (intros c s E; injection E as <- <-; reflexivity).
  change (is_high ":") with false. change (Ascii.eqb ":" ":") with true. cbv iota beta.
  rewrite (parse_spec_closed 0 b r N) by (rewrite C; lia).
  f_equal. f_equal. unfold advance. rewrite !app_length. cbn [length]. rewrite app_length. cbn [length].
  match goal with |- (k + ?x)%nat = _ => replace x with (length n + 1 + length b + 1)%nat; [lia|] end.
  match goal with |- _ = (?x - ?y)%nat => change (y) with (length r) end. lia.
Qed.

Lemma next_open_spec n b k : is_name n -> never_closes b ->
  next (Parser InPlaceholder (n ++ ":"%char :: b) k) =
  (token_with_spec ld nd n (B "{:" ++ b), Parser Unknown [] (k + length n + 1 + length b)).
Proof.
  intros H N. rewrite next_placeholder by (destruct n; discriminate). unfold parse_placeholder. cbn [p_rest p_pos].
  rewrite (parse_name_app n (":"%char :: b) H) by (intros c s E; injection E as <- <-; reflexivity).
  change (is_high ":") with false. change (Ascii.eqb ":" ":") with true. cbv iota beta.
  rewrite (parse_spec_open 0 b N).
  f_equal. f_equal. unfold advance. rewrite !app_length. cbn [length]. lia.
Qed.

Lemma next_open_name n k : is_name n -> n <> [] ->
  exists p, next (Parser InPlaceholder n k) = (OError Illformed (k + length n), p).
Proof.
  intros H N. rewrite next_placeholder by exact N. unfold parse_placeholder. cbn [p_rest p_pos].
  assert (P : parse_name n = (n, [])) by (pose proof (parse_name_app n [] H) as Q; rewrite app_nil_r in Q; apply Q; discriminate).
  rewrite P.
  eexists. f_equal. unfold advance. cbn [length]. rewrite Nat.sub_0_r. reflexivity.
Qed.

Lemma next_high_name n c r k : is_name n -> is_high c = true -> exists p, next (Parser InPlaceholder (n ++ c :: r) k) = (OUndefined, p).
Proof.
  intros H C. rewrite next_placeholder by (destruct n; discriminate). unfold parse_placeholder. cbn [p_rest p_pos].
  rewrite (parse_name_app n (c :: r) H).
  - rewrite C. eexists. reflexivity.
  - intros x s E. injection E as <- <-.
    assert (G : forall c, implb (is_high c) (negb (name_char c)) = true) by (clear; intros c; destruct c as [[] [] [] [] [] [] [] []]; vm_compute; reflexivity).
    specialize (G c). rewrite C in G. cbn in G. destruct (name_char c); [discriminate|reflexivity].
Qed.

Lemma next_bad_name n c r k : is_name n -> name_char c = false -> is_high c = false -> c <> ":"%char -> c <> RBRACE ->
  exists p, next (Parser InPlaceholder (n ++ c :: r) k) = (OError InvalidPlaceholder (k + length n), p).
Proof.
  intros H C G D E. rewrite next_placeholder by (destruct n; discriminate). unfold parse_placeholder. cbn [p_rest p_pos].
  rewrite (parse_name_app n (c :: r) H) by (intros x s Q; injection Q as <- <-; exact C).
  rewrite G. apply Ascii.eqb_neq in D, E. rewrite D, E. eexists. f_equal. rewrite advance_app. reflexivity.
Qed.

(** ** All calls *)
Lemma tokenize_mono f d p r : tokenize_from f p = Some r -> tokenize_from (f + d) p = Some r.
Proof.
  revert p r; induction f as [|f IH]; intros p r H; [discriminate|]. cbn [plus]. cbn [ParserModel.tokenize_from] in H |- *.
  destruct (next p) as [o p']. destruct o; try exact H.
  destruct (tokenize_from f p') as [x|] eqn:E; [|discriminate]. rewrite (IH _ _ E). exact H.
Qed.
Lemma tokenize_det f g p r r' : tokenize_from f p = Some r -> tokenize_from g p = Some r' -> r = r'.
Proof.
  intros A D. apply (tokenize_mono _ g) in A. apply (tokenize_mono _ f) in D. rewrite Nat.add_comm in D. congruence.
Qed.

Lemma token_with_spec_kind n s : match token_with_spec ld nd n s with OToken _ | OThrown _ | OAssert => True | _ => False end.
Proof.
  unfold token_with_spec, parse_leftover, asserted.
  repeat match goal with
         | |- context [if ?b then _ else _] => destruct b
         | |- context [match ?x with Some _ => _ | None => _ end] => destruct x
         | |- context [let '(_, _) := ?x in _] => destruct x
         | |- context [match ?x with (_, _) => _ end] => destruct x
         end; exact I.
Qed.

(** A rest that is not part of a literal before it. *)
Definition cont_ok (r : bytes) : Prop := exists e, end_ok e /\ r = end_text e.

Lemma name_starts n r : is_name n -> starts_open r = false -> starts_open (n ++ r) = false.
Proof.
  intros H R. destruct n as [|c n]; [exact R|]. cbn. destruct (Ascii.eqb c LBRACE) eqn:E; [|reflexivity].
  apply Ascii.eqb_eq in E. subst c. pose proof (proj2 (name_char_iff LBRACE) (H _ (or_introl eq_refl))) as Q. discriminate Q.
Qed.
Lemma cont_open n r : is_name n -> starts_open r = false -> cont_ok (LBRACE :: n ++ r).
Proof. intros H R. exists (LOpen (n ++ r)). split; [apply name_starts; assumption|reflexivity]. Qed.

Lemma tokenize_open f r k : starts_open r = false ->
  tokenize_from f (Parser Unknown (LBRACE :: r) k) = tokenize_from f (Parser InPlaceholder r (S k)).
Proof. intros H. destruct f as [|f]; [reflexivity|]. cbn [ParserModel.tokenize_from]. rewrite next_open by exact H. reflexivity. Qed.

Lemma tokenize_end f st k : st = Unknown \/ st = InLiteral \/ st = InPlaceholder -> tokenize_from (S f) (Parser st [] k) = Some (Tokens []).
Proof. intros [->|[->| ->]]; reflexivity. Qed.

Lemma cont_pieces ps r : match ps with q :: _ => is_text q = false | [] => True end -> well_formed ps -> cont_ok r -> cont_ok (write ps ++ r).
Proof.
  intros H W R. destruct ps as [|[t|n|n b] ps]; [exact R|discriminate H| |]; cbn [write flat_map write_piece].
  - destruct W as [W _].
    replace (((B "{" ++ n ++ B "}") ++ flat_map write_piece ps) ++ r) with (LBRACE :: n ++ (RBRACE :: flat_map write_piece ps ++ r)).
    + apply cont_open; [exact W|reflexivity].
    + change (B "{") with [LBRACE]. change (B "}") with [RBRACE]. cbn [app]. rewrite <- !app_assoc. reflexivity.
  - destruct W as [[W _] _].
    replace (((B "{" ++ n ++ B ":" ++ b ++ B "}") ++ flat_map write_piece ps) ++ r)
      with (LBRACE :: n ++ (":"%char :: b ++ RBRACE :: flat_map write_piece ps ++ r)).
    + apply cont_open; [exact W|reflexivity].
    + change (B "{") with [LBRACE]. change (B "}") with [RBRACE]. change (B ":") with [":"%char]. cbn [app]. rewrite <- !app_assoc.
      cbn [app]. rewrite <- !app_assoc. reflexivity.
Qed.

Lemma write_hole n ps r : write (Hole n :: ps) ++ r = LBRACE :: n ++ RBRACE :: (write ps ++ r).
Proof.
  unfold write. cbn [flat_map write_piece]. change (B "{") with [LBRACE]. change (B "}") with [RBRACE]. cbn [app].
  rewrite <- !app_assoc. reflexivity.
Qed.
Lemma write_hole_spec n b ps r : write (HoleSpec n b :: ps) ++ r = LBRACE :: n ++ ":"%char :: b ++ RBRACE :: (write ps ++ r).
Proof.
  unfold write. cbn [flat_map write_piece]. change (B "{") with [LBRACE]. change (B "}") with [RBRACE].
  change (B ":") with [":"%char]. cbn [app].
  rewrite <- !app_assoc. cbn [app]. rewrite <- !app_assoc. reflexivity.
Qed.
Lemma length_hole n ps : length (write (Hole n :: ps)) = (length n + 2 + length (write ps))%nat.
Proof.
  rewrite <- (app_nil_r (write (Hole n :: ps))), write_hole, app_nil_r. cbn [length]. rewrite app_length. cbn [length]. lia.
Qed.
Lemma length_hole_spec n b ps : length (write (HoleSpec n b :: ps)) = (length n + 3 + length b + length (write ps))%nat.
Proof.
  rewrite <- (app_nil_r (write (HoleSpec n b :: ps))), write_hole_spec, app_nil_r. cbn [length]. rewrite app_length. cbn [length].
  rewrite app_length. cbn [length]. lia.
Qed.
Lemma length_text t ps : length (write (Text t :: ps)) = (length (doubled t) + length (write ps))%nat.
Proof. unfold write. cbn [flat_map write_piece]. rewrite app_length. reflexivity. Qed.

Lemma tokenize_pieces ps : forall f r k x, well_formed ps -> cont_ok r ->
  tokenize_from (S f) (Parser Unknown r (k + length (write ps))) = Some x ->
  tokenize_from (length ps + S f) (Parser Unknown (write ps ++ r) k) = Some (collect (map (piece_outcome ld nd) ps) x).
Proof.
  induction ps as [|p ps IH]; intros f r k x W R X.
  { cbn [write flat_map app length map collect plus]. cbn [write flat_map length] in X. rewrite Nat.add_0_r in X. exact X. }
  destruct p as [t|n|n b].
  - destruct W as [[T A] W].
    rewrite length_text, Nat.add_assoc in X.
    pose proof (IH f r _ x W R X) as Y.
    destruct (cont_pieces ps r A W R) as (e & E & Q).
    assert (Z : write (Text t :: ps) ++ r = doubled t ++ end_text e).
    { unfold write. cbn [flat_map write_piece]. rewrite <- app_assoc. f_equal. exact Q. }
    rewrite Z. cbn [length plus ParserModel.tokenize_from]. rewrite next_text by assumption.
    change ((fix flat_map (l : list piece) : list ascii := match l with [] => [] | x :: t => write_piece x ++ flat_map t end) ps) with (write ps) in Q.
    rewrite Q in Y. cbn [map piece_outcome collect].
    destruct e as [|r'|r']; cbn [end_text] in Y.
    + replace (length ps + S f)%nat with (S (length ps + f)) in Y |- * by lia.
      rewrite tokenize_end in Y by tauto. rewrite tokenize_end by tauto. injection Y as <-. reflexivity.
    + rewrite <- tokenize_open by exact E. rewrite Y. destruct (collect _ _); reflexivity.
    + destruct E as (r'' & -> & E).
      replace (length ps + S f)%nat with (S (length ps + f)) in Y by lia.
      cbn [ParserModel.tokenize_from] in Y. rewrite next_close in Y by exact E. injection Y as <-. reflexivity.
  - destruct W as [N W]. rewrite write_hole. rewrite tokenize_open by (apply name_starts; [exact N|reflexivity]).
    cbn [length plus ParserModel.tokenize_from]. rewrite next_hole by exact N. cbn [map piece_outcome collect].
    rewrite (IH f r (S k + length n + 1)%nat x W R).
    + destruct (collect _ _); reflexivity.
    + rewrite <- X. f_equal. f_equal. rewrite length_hole. lia.
  - destruct W as [[N D] W]. rewrite write_hole_spec. rewrite tokenize_open by (apply name_starts; [exact N|reflexivity]).
    cbn [length plus ParserModel.tokenize_from]. rewrite next_hole_spec by assumption. cbn [map piece_outcome].
    change (B "{:" ++ b ++ B "}") with (B "{:" ++ b ++ [RBRACE]).
    pose proof (token_with_spec_kind n (B "{:" ++ b ++ [RBRACE])) as K.
    rewrite (IH f r (S k + length n + 1 + length b + 1)%nat x W R).
    + destruct (token_with_spec ld nd n (B "{:" ++ b ++ [RBRACE])); try contradiction; cbn [collect]; try reflexivity. destruct (collect _ _); reflexivity.
    + rewrite <- X. f_equal. f_equal. rewrite length_hole_spec. lia.
Qed.

Lemma is_high_iff c : is_high c = true <-> (128 <= N_of_ascii c)%N.
Proof. apply N.leb_le. Qed.

Lemma cont_ending e : well_ended e -> cont_ok (write_ending e).
Proof.
  destruct e as [| |n b|n|n c r|n c r|r]; cbn [well_ended write_ending]; intros H.
  - exists LEnd. split; [exact I|reflexivity].
  - exists (LOpen []). split; reflexivity.
  - apply (cont_open n (":"%char :: b)); [apply H|reflexivity].
  - destruct H as [H _]. pose proof (cont_open n [] H eq_refl) as C. rewrite app_nil_r in C. exact C.
  - destruct H as (N & A & C & D & E & F). destruct n as [|x n].
    + exists (LOpen (c :: r)). split; [|reflexivity]. cbn. apply Ascii.eqb_neq. apply E. reflexivity.
    + exists (LOpen ((x :: n) ++ c :: r)). split; [|reflexivity].
      pose proof (name_starts (x :: n) [] N eq_refl) as Q. exact Q.
  - destruct H as [N C]. destruct n as [|x n].
    + exists (LOpen (c :: r)). split; [|reflexivity]. cbn. apply Ascii.eqb_neq. intros ->. vm_compute in C. congruence.
    + exists (LOpen ((x :: n) ++ c :: r)). split; [|reflexivity].
      pose proof (name_starts (x :: n) [] N eq_refl) as Q. exact Q.
  - exists (LClose (RBRACE :: r)). split; [|reflexivity]. exists r. split; [reflexivity|]. destruct r as [|c r]; [reflexivity|].
    cbn. apply Ascii.eqb_neq. intros ->. exact (H r eq_refl).
Qed.

Lemma starts_cont e r : end_ok (LOpen r) -> e = LBRACE :: r -> starts_open r = false.
Proof. intros H _. exact H. Qed.

Lemma tokenize_ending f e k : well_ended e ->
  tokenize_from (S (S f)) (Parser Unknown (write_ending e) k) = Some (ending_result ld nd k e).
Proof.
  intros H. pose proof (cont_ending e H) as C.
  destruct e as [| |n b|n|n c r|n c r|r].
  - reflexivity.
  - reflexivity.
  - cbn [write_ending]. cbn [well_ended] in H. destruct H as [N D].
    change (B "{" ++ n ++ B ":" ++ b) with (LBRACE :: n ++ ":"%char :: b).
    rewrite tokenize_open by (apply name_starts; [exact N|reflexivity]).
    remember (S f) as f1. cbn [ParserModel.tokenize_from]. rewrite next_open_spec by assumption. subst f1.
    rewrite tokenize_end by tauto. cbn [ending_result collect].
    pose proof (token_with_spec_kind n (B "{:" ++ b)) as K.
    destruct (token_with_spec ld nd n (B "{:" ++ b)); try contradiction; reflexivity.
  - cbn [well_ended] in H. destruct H as [N D]. change (write_ending (OpenName n)) with (LBRACE :: n).
    rewrite tokenize_open by (rewrite <- (app_nil_r n); apply name_starts; [exact N|reflexivity]).
    remember (S f) as f1. cbn [ParserModel.tokenize_from]. destruct (next_open_name n (S k) N D) as [p ->]. cbn [ending_result].
    f_equal. f_equal. f_equal. lia.
  - change (write_ending (BadName n c r)) with (LBRACE :: n ++ c :: r) in *. destruct C as (e & E & Q).
    assert (O : starts_open (n ++ c :: r) = false).
    { destruct e as [|r'|r']; [discriminate Q| |].
      - injection Q as <-. exact E.
      - destruct E as (r'' & -> & _). discriminate Q. }
    destruct H as (N & A & C & D & _ & F).
    rewrite tokenize_open by exact O.
    remember (S f) as f1. cbn [ParserModel.tokenize_from].
    destruct (next_bad_name n c r (S k) N) as [p ->]; try assumption.
    + destruct (name_char c) eqn:NC; [|reflexivity]. exfalso. apply A. apply name_char_iff. exact NC.
    + destruct (is_high c) eqn:G; [|reflexivity]. apply is_high_iff in G. lia.
    + cbn [ending_result]. f_equal. f_equal. f_equal. lia.
  - change (write_ending (HighName n c r)) with (LBRACE :: n ++ c :: r) in *. destruct C as (e & E & Q).
    assert (O : starts_open (n ++ c :: r) = false).
    { destruct e as [|r'|r']; [discriminate Q| |].
      - injection Q as <-. exact E.
      - destruct E as (r'' & -> & _). discriminate Q. }
    destruct H as (N & F).
    rewrite tokenize_open by exact O.
    remember (S f) as f1. cbn [ParserModel.tokenize_from].
    destruct (next_high_name n c r (S k) N) as [p ->]; [apply is_high_iff; exact F|]. reflexivity.
  - cbn [write_ending]. destruct C as (e & E & Q). destruct e as [|r'|r']; [discriminate Q|discriminate Q|].
    destruct E as (r'' & -> & E). injection Q as ->.
    remember (S f) as f1. cbn [ParserModel.tokenize_from]. rewrite next_close by exact E. reflexivity.
Qed.

(** Every byte string is a pattern. *)
Lemma pattern_shape : forall n s, (length s <= n)%nat -> exists ps e, well_formed ps /\ well_ended e /\ s = write ps ++ write_ending e.
Proof.
  induction n as [|n IH]; intros s L.
  { destruct s; [|cbn in L; lia]. exists [], Complete. repeat split. }
  assert (OPEN : forall r, (length r <= n)%nat -> starts_open r = false ->
            exists ps e, well_formed ps /\ well_ended e /\ LBRACE :: r = write ps ++ write_ending e /\
            match ps with q :: _ => is_text q = false | [] => True end).
  { intros r Lr O. destruct (parse_name r) as [nm r1] eqn:P. destruct (parse_name_inv _ _ _ P) as (-> & N & C).
    rewrite app_length in Lr.
    destruct r1 as [|c r2].
    - destruct nm as [|x nm].
      + exists [], OpenBrace. repeat split.
      + exists [], (OpenName (x :: nm)). rewrite app_nil_r. repeat split; [exact N|discriminate].
    - specialize (C c r2 eq_refl). cbn [length] in Lr.
      destruct (is_high c) eqn:G.
      { exists [], (HighName nm c r2). apply is_high_iff in G. repeat split; assumption. }
      destruct (Ascii.eqb c ":") eqn:E1.
      { apply Ascii.eqb_eq in E1. subst c.
        destruct (parse_spec 1 r2) as [b r3] eqn:PS.
        destruct (parse_spec_inv _ _ _ _ PS) as [(b' & -> & -> & S1 & C1)|(-> & -> & S1)].
        - rewrite app_length in Lr. cbn [length] in Lr.
          destruct (IH r3 ltac:(lia)) as (ps & e & W & E & ->).
          exists (HoleSpec nm b' :: ps), e. split; [|split; [exact E|split; [|reflexivity]]].
          + split; [split; [exact N|split; [exact S1|rewrite C1; reflexivity]]|exact W].
          + rewrite write_hole_spec. reflexivity.
        - exists [], (OpenSpec nm r2). repeat split; assumption. }
      destruct (Ascii.eqb c RBRACE) eqn:E2.
      { apply Ascii.eqb_eq in E2. subst c.
        destruct (IH r2 ltac:(lia)) as (ps & e & W & E & ->).
        exists (Hole nm :: ps), e. split; [split; assumption|]. split; [exact E|]. split; [|reflexivity].
        rewrite write_hole. reflexivity. }
      exists [], (BadName nm c r2). apply Ascii.eqb_neq in E1, E2.
      split; [exact I|]. split; [|split; [reflexivity|exact I]].
      cbn [well_ended]. split; [exact N|]. split.
      { intros I. apply name_char_iff in I. congruence. }
      split; [exact E1|]. split; [exact E2|]. split.
      { intros ->. cbn in O. apply Ascii.eqb_neq. exact O. }
      destruct (N.lt_ge_cases (N_of_ascii c) 128) as [X|X]; [exact X|]. apply is_high_iff in X. congruence. }
  destruct (parse_literal s) as [t e0] eqn:P. destruct (parse_literal_inv _ _ L _ _ P) as [Q E].
  destruct t as [|c t].
  - cbn [doubled flat_map app] in Q. subst s. destruct e0 as [|r|r]; cbn [end_text] in *.
    + exists [], Complete. repeat split.
    + cbn [length] in L. destruct (OPEN r ltac:(lia) E) as (ps & e & A & D & F & _). exists ps, e. repeat split; assumption.
    + destruct E as (r' & -> & E). exists [], (CloseBrace r'). split; [exact I|]. split; [|reflexivity].
      intros r'' ->. cbn in E. discriminate E.
  - pose proof (length_doubled (c :: t)) as LD. cbn [length] in LD. rewrite Q, app_length in L.
    destruct e0 as [|r|r]; cbn [end_text] in *.
    + exists [Text (c :: t)], Complete. split; [split; [split; [discriminate|exact I]|exact I]|]. split; [exact I|].
      cbn [write flat_map write_piece write_ending]. rewrite app_nil_r in Q |- *. rewrite app_nil_r. exact Q.
    + cbn [length] in L. destruct (OPEN r ltac:(lia) E) as (ps & e & A & D & F & G).
      exists (Text (c :: t) :: ps), e. split; [split; [split; [discriminate|exact G]|exact A]|]. split; [exact D|].
      rewrite Q, F. unfold write. cbn [flat_map write_piece]. rewrite app_assoc. reflexivity.
    + destruct E as (r' & -> & E). exists [Text (c :: t)], (CloseBrace r').
      split; [split; [split; [discriminate|exact I]|exact I]|]. split; [intros r'' ->; cbn in E; discriminate E|].
      cbn [write flat_map write_piece write_ending]. rewrite app_nil_r. exact Q.
Qed.
Lemma pattern_shape_lemma s : exists ps e, well_formed ps /\ well_ended e /\ s = write ps ++ write_ending e.
Proof. apply (pattern_shape (length s)). lia. Qed.

Lemma piece_nonempty p ps : well_formed (p :: ps) -> (1 <= length (write_piece p))%nat.
Proof.
  destruct p as [t|n|n b]; intros H.
  - destruct H as [[H _] _]. cbn [write_piece]. apply doubled_nonempty in H. destruct (doubled t); [contradiction|cbn; lia].
  - cbn. lia.
  - cbn. lia.
Qed.
Lemma pieces_length ps : well_formed ps -> (length ps <= length (write ps))%nat.
Proof.
  induction ps as [|p ps IH]; intros H; [reflexivity|]. pose proof (piece_nonempty _ _ H) as P. destruct H as [_ H].
  unfold write. cbn [flat_map length]. rewrite app_length. specialize (IH H). unfold write in IH. lia.
Qed.
Lemma ending_length e f k : well_ended e -> (length (write_ending e) = 0)%nat ->
  tokenize_from (S f) (Parser Unknown (write_ending e) k) = Some (ending_result ld nd k e).
Proof. intros H. destruct e; cbn; try discriminate; try reflexivity. Qed.

Lemma meaning_lemma ps e : well_formed ps -> well_ended e ->
  tokenize ld nd (write ps ++ write_ending e) = Some (meaning ld nd ps e).
Proof.
  intros W E. unfold tokenize, parser_new, meaning.
  pose proof (pieces_length ps W) as L.
  destruct (Nat.eq_dec (length (write_ending e)) 0) as [Z|Z].
  - pose proof (tokenize_pieces ps 0 (write_ending e) 0 _ W (cont_ending e E) (ending_length e 0 _ E Z)) as Q.
    cbn [plus] in Q. apply (tokenize_mono _ (length (write ps) - length ps)) in Q. rewrite <- Q. f_equal.
    rewrite app_length. lia.
  - pose proof (tokenize_pieces ps 1 (write_ending e) 0 _ W (cont_ending e E) (tokenize_ending 0 e _ E)) as Q.
    cbn [plus] in Q. apply (tokenize_mono _ (length (write ps) + length (write_ending e) - 1 - length ps)) in Q. rewrite <- Q. f_equal.
    rewrite app_length. lia.
Qed.

(** ** Consequences *)
Lemma escaped_lemma t : tokenize ld nd (doubled t) = Some (Tokens (match t with [] => [] | _ => [TLiteral t] end)).
Proof.
  destruct t as [|c t]; [reflexivity|].
  pose proof (meaning_lemma [Text (c :: t)] Complete) as M. cbn [write flat_map write_piece write_ending] in M.
  rewrite !app_nil_r in M. apply M; [|exact I]. split; [|exact I]. split; [discriminate|exact I].
Qed.

Lemma terminates_lemma s : exists r, tokenize ld nd s = Some r.
Proof. destruct (pattern_shape_lemma s) as (ps & e & W & E & ->). eexists. apply meaning_lemma; assumption. Qed.

Lemma collect_error os : forall last f k, (forall o, In o os -> match o with OToken _ | OThrown _ | OAssert => True | _ => False end) ->
  collect os last = Failed (OError f k) -> last = Failed (OError f k).
Proof.
  induction os as [|o os IH]; intros last f k H E; [exact E|]. cbn [collect] in E.
  pose proof (H o (or_introl eq_refl)) as K. destruct o; try contradiction; try discriminate E.
  destruct (collect os last) eqn:C; [discriminate E|]. injection E as ->. apply (IH last f k); [|exact C].
  intros o I. apply H. right. exact I.
Qed.
Lemma piece_kind ps o : In o (map (piece_outcome ld nd) ps) -> match o with OToken _ | OThrown _ | OAssert => True | _ => False end.
Proof.
  intros I. apply in_map_iff in I. destruct I as (p & <- & _). destruct p; cbn [piece_outcome]; try exact I.
  apply token_with_spec_kind.
Qed.

Lemma position_lemma s f k : tokenize ld nd s = Some (Failed (OError f k)) ->
  (f = Illformed /\ k = length s) \/
  (f = Illformed /\ nth_error s k = Some RBRACE /\ nth_error s (S k) <> Some RBRACE) \/
  (f = InvalidPlaceholder /\ exists c, nth_error s k = Some c /\ ~ In c name_alphabet).
Proof.
  destruct (pattern_shape_lemma s) as (ps & e & W & E & ->). rewrite (meaning_lemma ps e W E). intros H. injection H as H.
  unfold meaning in H. apply collect_error in H; [|apply piece_kind].
  destruct e as [| |n b|n|n c r|n c r|r]; cbn [ending_result] in H; try discriminate H.
  - cbn [collect] in H. pose proof (token_with_spec_kind n (B "{:" ++ b)) as K.
    destruct (token_with_spec ld nd n (B "{:" ++ b)); try contradiction; discriminate H.
  - injection H as <- <-. left. split; [reflexivity|]. cbn [write_ending]. rewrite !app_length. cbn. lia.
  - injection H as <- <-. right. right. split; [reflexivity|]. exists c. split; [|apply E].
    cbn [write_ending]. rewrite nth_error_app2 by lia. replace (length (write ps) + 1 + length n - length (write ps))%nat with (S (length n)) by lia.
    cbn [B list_ascii_of_string app nth_error]. rewrite nth_error_app2 by lia. rewrite Nat.sub_diag. reflexivity.
  - injection H as <- <-. right. left. split; [reflexivity|]. cbn [write_ending]. split.
    + rewrite nth_error_app2 by lia. rewrite Nat.sub_diag. reflexivity.
    + rewrite nth_error_app2 by lia. replace (S (length (write ps)) - length (write ps))%nat with 1%nat by lia.
      cbn [nth_error]. destruct r as [|c r]; [discriminate|]. cbn. intros Q. injection Q as ->. exact (E r eq_refl).
Qed.

Lemma stays_broken_lemma p f k p' : next p = (OError f k, p') -> forall n, calls ld nd n p' = repeat (OError Broken k) n.
Proof.
  intros H. assert (G : p_state p' = IsBroken /\ p_pos p' = k).
  { unfold ParserModel.next in H.
    assert (NK : forall q, next_known ld nd q = (OError f k, p') -> p_state p' = IsBroken /\ p_pos p' = k).
    { clear H. intros q H. unfold next_known in H.
      assert (PP : parse_placeholder ld nd q = (OError f k, p') -> p_state p' = IsBroken /\ p_pos p' = k).
      { clear H. unfold parse_placeholder. destruct (parse_name (p_rest q)) as [nm s1].
        destruct s1 as [|c s2]; [intros H; injection H as _ <- <-; split; reflexivity|].
        destruct (is_high c); [discriminate|]. destruct (Ascii.eqb c ":").
        - destruct (parse_spec 1 s2) as [b s3]. intros H. pose proof (f_equal fst H) as H'. cbn [fst] in H'.
          pose proof (token_with_spec_kind nm (B "{:" ++ b)) as K. rewrite H' in K. contradiction.
        - destruct (Ascii.eqb c RBRACE); [discriminate|]. intros H. injection H as _ <- <-. split; reflexivity. }
      assert (NL : next_literal q = (OError f k, p') -> p_state p' = IsBroken /\ p_pos p' = k).
      { clear H. unfold next_literal. destruct (parse_literal (p_rest q)) as [t [|r|r]]; try discriminate.
        intros H. injection H as _ <- <-. split; reflexivity. }
      destruct (p_state q) eqn:S1.
      - destruct (p_rest q) eqn:R1; [discriminate|]. apply NL. exact H.
      - destruct (p_rest q) eqn:R1; [discriminate|]. apply NL. exact H.
      - destruct (p_rest q) eqn:R1; [discriminate|]. apply PP. exact H.
      - injection H as _ <- <-. split; [exact S1|reflexivity]. }
    destruct (p_state p) eqn:S1; try (apply (NK _ H)).
    destruct (p_rest p) eqn:R1; [discriminate|]. apply (NK _ H). }
  destruct G as [G1 G2]. induction n as [|n IH]; [reflexivity|]. cbn [calls repeat].
  assert (N : next p' = (OError Broken k, p')).
  { unfold ParserModel.next. rewrite G1. unfold next_known. rewrite G1, G2. reflexivity. }
  rewrite N. f_equal. exact IH.
Qed.

Lemma stays_ended_lemma p p' : next p = (OEnd, p') -> forall n, calls ld nd n p' = repeat OEnd n.
Proof.
  intros H.
  assert (G : p_rest p' = [] /\ p_state p' <> IsBroken).
  { unfold ParserModel.next in H.
    assert (NK : forall q, next_known ld nd q = (OEnd, p') -> p_rest p' = [] /\ p_state p' <> IsBroken).
    { clear H. intros q H. unfold next_known in H.
      assert (PP : parse_placeholder ld nd q <> (OEnd, p')).
      { clear H. unfold parse_placeholder. destruct (parse_name (p_rest q)) as [nm s1].
        destruct s1 as [|c s2]; [discriminate|].
        destruct (is_high c); [discriminate|]. destruct (Ascii.eqb c ":").
        - destruct (parse_spec 1 s2) as [b s3]. intros H. pose proof (f_equal fst H) as H'. cbn [fst] in H'.
          pose proof (token_with_spec_kind nm (B "{:" ++ b)) as K. rewrite H' in K. contradiction.
        - destruct (Ascii.eqb c RBRACE); discriminate. }
      assert (NL : next_literal q <> (OEnd, p')).
      { clear H. unfold next_literal. destruct (parse_literal (p_rest q)) as [t [|r|r]]; discriminate. }
      destruct (p_state q) eqn:S1.
      - destruct (p_rest q) eqn:R1; [|exfalso; exact (NL H)]. injection H as <-. rewrite S1. split; [exact R1|discriminate].
      - destruct (p_rest q) eqn:R1; [|exfalso; exact (NL H)]. injection H as <-. rewrite S1. split; [exact R1|discriminate].
      - destruct (p_rest q) eqn:R1; [|exfalso; exact (PP H)]. injection H as <-. rewrite S1. split; [exact R1|discriminate].
      - discriminate H. }
    destruct (p_state p) eqn:S1; try (apply (NK _ H)).
    destruct (p_rest p) eqn:R1; [|apply (NK _ H)]. injection H as <-. rewrite S1. split; [exact R1|discriminate]. }
  destruct G as [G1 G2]. induction n as [|n IH]; [reflexivity|]. cbn [calls repeat].
  assert (N : next p' = (OEnd, p')).
  { unfold ParserModel.next, next_known. rewrite G1. destruct (p_state p'); try reflexivity. contradiction. }
  rewrite N. f_equal. exact IH.
Qed.
End One.
