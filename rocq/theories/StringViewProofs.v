From Verif Require Import Base StringViewModel StringViewSpec.
Open Scope N_scope.

Lemma load_shows v bs : shows v bs -> load_many (v_data v) (v_size v) = Done bs.
Proof.
  intros [|a rest]; cbn [v_data v_size]; [reflexivity|]. unfold load_many.
  destruct (N.eqb_spec (N.of_nat (length a)) 0) as [E|E]; [destruct a; [reflexivity|cbn in E; lia]|].
  rewrite app_length. replace (N.of_nat (length a) <=? N.of_nat (length a + length rest)) with true by (symmetry; apply N.leb_le; lia).
  rewrite Nnat.Nat2N.id. rewrite firstn_app, Nat.sub_diag, firstn_O, app_nil_r, firstn_all. reflexivity.
Qed.
Lemma size_shows v bs : shows v bs -> v_size v = N.of_nat (length bs).
Proof. intros [|]; reflexivity. Qed.

Lemma index_lemma v bs i : shows v bs ->
  match nth_error bs (N.to_nat i) with Some c => index v i = Done c | None => index v i = OutOfRange end.
Proof.
  intros H. unfold index. rewrite (size_shows _ _ H).
  destruct (nth_error bs (N.to_nat i)) as [c|] eqn:E.
  - assert (L : (N.to_nat i < length bs)%nat) by (apply nth_error_Some; congruence).
    replace (i <? N.of_nat (length bs)) with true by (symmetry; apply N.ltb_lt; lia).
    destruct H as [|bs rest]; [cbn in L; lia|]. cbn [v_data load]. rewrite nth_error_app1 by exact L. rewrite E. reflexivity.
  - apply nth_error_None in E. replace (i <? N.of_nat (length bs)) with false by (symmetry; apply N.ltb_ge; lia). reflexivity.
Qed.

Lemma substr_lemma v bs pos count : shows v bs ->
  if pos <=? N.of_nat (length bs)
  then exists w, substr v pos count = Done w /\ shows w (firstn (N.to_nat count) (skipn (N.to_nat pos) bs))
  else substr v pos count = OutOfRange.
Proof.
  intros H. destruct (N.leb_spec pos (N.of_nat (length bs))) as [L|L].
  - unfold substr. rewrite (size_shows _ _ H). replace (pos <=? N.of_nat (length bs)) with true by (symmetry; apply N.leb_le; lia).
    destruct H as [|bs rest]; cbn [v_data].
    + cbn in L. replace pos with 0 by lia. change (advance None 0) with (@Done (option memory) None). eexists. split; [reflexivity|].
      change (N.of_nat (@length ascii [])) with 0. change (0 - 0) with 0. rewrite N.min_0_r. rewrite skipn_nil, firstn_nil. constructor.
    + assert (A : advance (Some (bs ++ rest)) pos = Done (Some (skipn (N.to_nat pos) bs ++ rest))).
      { unfold advance. destruct (N.eqb_spec pos 0) as [->|E]; [reflexivity|]. rewrite app_length.
        replace (pos <=? N.of_nat (length bs + length rest)) with true by (symmetry; apply N.leb_le; lia).
        rewrite skipn_app. replace (N.to_nat pos - length bs)%nat with 0%nat by lia. reflexivity. }
      rewrite A. eexists. split; [reflexivity|]. set (t := skipn (N.to_nat pos) bs) in *.
      assert (T : N.of_nat (length bs) - pos = N.of_nat (length t)) by (unfold t; rewrite skipn_length; lia). rewrite T.
      replace (N.min count (N.of_nat (length t))) with (N.of_nat (length (firstn (N.to_nat count) t))) by (rewrite firstn_length; lia).
      rewrite <- (firstn_skipn (N.to_nat count) t) at 1. rewrite <- app_assoc. constructor.
  - unfold substr. rewrite (size_shows _ _ H). replace (pos <=? N.of_nat (length bs)) with false by (symmetry; apply N.leb_gt; lia). reflexivity.
Qed.

Lemma eq_lemma v w a b : shows v a -> shows w b -> exists r, view_eq v w = Done r /\ (r = true <-> a = b).
Proof.
  intros HV HW. unfold view_eq. assert (SV := size_shows _ _ HV). assert (SW := size_shows _ _ HW).
  assert (LV := load_shows _ _ HV). assert (LW := load_shows _ _ HW).
  destruct (N.eqb_spec (v_size v) (v_size w)) as [E|E].
  - rewrite LV. rewrite E, LW. eexists. split; [reflexivity|apply bytes_eqb_eq].
  - eexists. split; [reflexivity|]. split; [discriminate|]. intros ->. congruence.
Qed.

Lemma signed_inj x y : signed_char x = signed_char y -> x = y.
Proof.
  unfold signed_char. intros E. rewrite <- (ascii_N_embedding x), <- (ascii_N_embedding y). f_equal.
  assert (X := N_ascii_bounded x). assert (Y := N_ascii_bounded y).
  destruct (N.ltb_spec (N_of_ascii x) 128), (N.ltb_spec (N_of_ascii y) 128); lia.
Qed.
Lemma lex_irrefl a : lexicographical_compare a a = false.
Proof. induction a as [|x a IH]; [reflexivity|]. cbn [lexicographical_compare]. rewrite !Z.ltb_irrefl. exact IH. Qed.
Lemma lex_total a b : a = b \/ lexicographical_compare a b = true \/ lexicographical_compare b a = true.
Proof.
  revert b. induction a as [|x a IH]; destruct b as [|y b]; cbn [lexicographical_compare]; auto.
  destruct (Z.ltb_spec (signed_char x) (signed_char y)); auto.
  destruct (Z.ltb_spec (signed_char y) (signed_char x)); auto.
  assert (x = y) by (apply signed_inj; lia). subst y.
  destruct (IH b) as [->|[E|E]]; auto.
Qed.
Lemma lex_trans a b c : lexicographical_compare a b = true -> lexicographical_compare b c = true -> lexicographical_compare a c = true.
Proof.
  revert b c. induction a as [|x a IH]; destruct b as [|y b], c as [|z c]; cbn [lexicographical_compare]; try congruence.
  destruct (Z.ltb_spec (signed_char x) (signed_char y)), (Z.ltb_spec (signed_char y) (signed_char z)),
    (Z.ltb_spec (signed_char x) (signed_char z)); try congruence; try lia;
    destruct (Z.ltb_spec (signed_char y) (signed_char x)), (Z.ltb_spec (signed_char z) (signed_char y)), (Z.ltb_spec (signed_char z) (signed_char x));
    try congruence; try lia.
  intros A C. exact (IH _ _ A C).
Qed.
Lemma lex_asym a b : lexicographical_compare a b = true -> lexicographical_compare b a = false.
Proof. intros H. destruct (lexicographical_compare b a) eqn:E; [|reflexivity]. rewrite <- (lex_irrefl a). symmetry. exact (lex_trans _ _ _ H E). Qed.

Lemma lt_done v w a b : shows v a -> shows w b -> view_lt v w = Done (lexicographical_compare a b).
Proof. intros HV HW. unfold view_lt. rewrite (load_shows _ _ HV), (load_shows _ _ HW). reflexivity. Qed.

Lemma order_lemma u v w a b c : shows u a -> shows v b -> shows w c ->
  view_lt u u = Done false
  /\ (view_lt u v = Done true -> view_lt v w = Done true -> view_lt u w = Done true)
  /\ ((view_eq u v = Done true /\ view_lt u v = Done false /\ view_lt v u = Done false)
      \/ (view_eq u v = Done false /\ view_lt u v = Done true /\ view_lt v u = Done false)
      \/ (view_eq u v = Done false /\ view_lt u v = Done false /\ view_lt v u = Done true)).
Proof.
  intros HU HV HW. rewrite (lt_done u u a a), (lt_done u v a b), (lt_done v w b c), (lt_done u w a c), (lt_done v u b a) by assumption.
  rewrite lex_irrefl. refine (conj eq_refl (conj _ _)).
  - intros X Y. injection X as X. injection Y as Y. rewrite (lex_trans _ _ _ X Y). reflexivity.
  - destruct (eq_lemma u v a b HU HV) as (r & -> & R). destruct (lex_total a b) as [->|[E|E]].
    + left. rewrite lex_irrefl. replace r with true by (symmetry; apply R; reflexivity). auto.
    + right. left. rewrite E, (lex_asym _ _ E). destruct r; [|auto]. rewrite (proj1 R eq_refl) in E. rewrite lex_irrefl in E. discriminate.
    + right. right. rewrite E, (lex_asym _ _ E). destruct r; [|auto]. rewrite (proj1 R eq_refl) in E. rewrite lex_irrefl in E. discriminate.
Qed.

Lemma string_order_lemma v w a b : shows v a -> shows w b -> ascii_only a -> ascii_only b ->
  exists r, view_lt v w = Done r /\ (r = true <-> string_before a b).
Proof.
  intros HV HW HA HB. rewrite (lt_done v w a b HV HW). eexists. split; [reflexivity|]. clear HV HW. revert b HB.
  induction HA as [|x a HX HA IH]; intros b HB; destruct HB as [|y b HY HB]; cbn [lexicographical_compare string_before]; try (split; [discriminate|contradiction]).
  - tauto.
  - assert (SX : signed_char x = Z.of_N (N_of_ascii x)) by (unfold signed_char; apply N.ltb_lt in HX; rewrite HX; reflexivity).
    assert (SY : signed_char y = Z.of_N (N_of_ascii y)) by (unfold signed_char; apply N.ltb_lt in HY; rewrite HY; reflexivity).
    destruct (Z.ltb_spec (signed_char x) (signed_char y)) as [L|L]; [split; [left; lia|reflexivity]|].
    destruct (Z.ltb_spec (signed_char y) (signed_char x)) as [G|G].
    + split; [discriminate|]. intros [X|[-> _]]; lia.
    + assert (x = y) by (apply signed_inj; lia). subst y. rewrite IH by exact HB. split; [intros X; right; auto|]. intros [X|[_ X]]; [lia|exact X].
Qed.

Lemma string_lemma s : shows (view_string s) s.
Proof. constructor. Qed.
Lemma to_string_lemma v bs : shows v bs -> to_string v = Done bs.
Proof. intros H. unfold to_string. assert (L := load_shows _ _ H). destruct H as [|bs rest]; [reflexivity|]. exact L. Qed.
Lemma array_lemma s c : shows (view_array (s ++ [c])) s.
Proof.
  unfold view_array. rewrite app_length. cbn [length]. replace (N.of_nat (length s + 1) - 1) with (N.of_nat (length s)) by lia. constructor.
Qed.
