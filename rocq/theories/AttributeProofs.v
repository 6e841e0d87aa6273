From Verif Require Import Base StringViewModel StringViewSpec StringViewProofs AttributeModel AttributeSpec.
Open Scope Z_scope.

Lemma i64_small z : - 2 ^ 63 <= z < 2 ^ 63 -> to_i64 z = z.
Proof. intros H. unfold to_i64. rewrite Z.mod_small by lia. lia. Qed.
Lemma u64_small z : 0 <= z < 2 ^ 64 -> Z.of_N (to_u64 z) = z.
Proof. intros H. unfold to_u64. rewrite Z.mod_small by lia. lia. Qed.

Lemma signed_range t z : signed_type t -> in_type t z -> - 2 ^ 63 <= z < 2 ^ 63.
Proof. intros S H. destruct S as [<-|[<-|[<-|[<-|[<-|[<-|[]]]]]]]; cbn in H; lia. Qed.
Lemma unsigned_range t z : ~ signed_type t -> in_type t z -> 0 <= z < 2 ^ 64.
Proof. intros S H. destruct t; cbn in H; try lia; exfalso; apply S; cbn; tauto. Qed.
Lemma is_signed_spec t : is_signed t = true <-> signed_type t.
Proof. destruct t; cbn; split; intros H; try reflexivity; try discriminate; try tauto; destruct H as [H|[H|[H|[H|[H|[H|[]]]]]]]; discriminate. Qed.

Lemma integer_lemma t z : in_type t z ->
  (signed_type t -> get_value TInt (make_value (XInteger t z)) = Some (GInt z) /\ get_view TInt (make_view (XInteger t z)) = Some (HInt z))
  /\ (~ signed_type t -> exists n, Z.of_N n = z /\ get_value TUint (make_value (XInteger t z)) = Some (GUint n)
        /\ get_view TUint (make_view (XInteger t z)) = Some (HUint n)).
Proof.
  intros H. cbn [make_value make_view]. split; intros S.
  - rewrite (proj2 (is_signed_spec t) S). cbn [get_value get_view]. rewrite (i64_small z) by exact (signed_range t z S H). split; reflexivity.
  - destruct (is_signed t) eqn:E; [apply is_signed_spec in E; contradiction|]. exists (to_u64 z). split; [apply u64_small; exact (unsigned_range t z S H)|].
    split; reflexivity.
Qed.

Lemma get_lemma t v w : (get_value t v <> None <-> t = value_kind v /\ t <> TFunction) /\ (get_view t w <> None <-> t = kind w).
Proof.
  split.
  - destruct t, v; cbn; split; intros H; try congruence; try (split; congruence); try (destruct H; congruence).
  - destruct t, w; cbn; split; intros H; congruence.
Qed.

Lemma owned_lemma v : into_owned (into_view v) = Done (match v with VFun f => VString (f_text f) | _ => v end).
Proof.
  destruct v; try reflexivity. unfold into_view, into_owned.
  rewrite (to_string_lemma (view_string s) s (string_lemma s)). reflexivity.
Qed.
Lemma viewed_lemma w : readable w -> (forall f, w <> WFun f) ->
  exists v, into_owned w = Done v /\ kind (into_view v) = kind w /\ (same_content w w -> same_content (into_view v) w).
Proof.
  intros R NF. destruct w; try (eexists; split; [reflexivity|split; [reflexivity|intros S; exact S]]).
  - destruct R as [s R]. cbn [into_owned]. rewrite (to_string_lemma _ _ R). eexists. split; [reflexivity|]. split; [reflexivity|].
    intros _. apply (same_string _ _ s); [apply string_lemma|exact R].
  - exfalso. exact (NF f eq_refl).
Qed.

(** ** Doubles *)
Section Doubles.
Open Scope N_scope.
Lemma nan_spec n : n < 2 ^ 64 -> (is_nan n = true <-> nan n).
Proof.
  intros H. unfold is_nan, nan. rewrite andb_true_iff, negb_true_iff, N.eqb_eq, N.eqb_neq.
  assert (D := N.div_mod' n (2 ^ 52)). assert (M := N.mod_lt n (2 ^ 52) ltac:(lia)).
  assert (D2 := N.div_mod' (n / 2 ^ 52) (2 ^ 11)). assert (M2 := N.mod_lt (n / 2 ^ 52) (2 ^ 11) ltac:(lia)).
  split.
  - intros [E F]. exists (n / 2 ^ 52 / 2 ^ 11), (n mod 2 ^ 52).
    assert (Q : n / 2 ^ 52 / 2 ^ 11 < 2) by (rewrite N.div_div by lia; apply N.div_lt_upper_bound; lia).
    generalize dependent (n / 2 ^ 52 / 2 ^ 11). generalize dependent ((n / 2 ^ 52) mod 2 ^ 11). generalize dependent (n / 2 ^ 52).
    generalize dependent (n mod 2 ^ 52). intros. subst. lia.
  - intros (s & f & S & F & E).
    assert (A : n / 2 ^ 52 = s * 2 ^ 11 + 2047) by (symmetry; apply (N.div_unique n (2 ^ 52) _ f); lia).
    assert (B' : n mod 2 ^ 52 = f) by (symmetry; apply (N.mod_unique n (2 ^ 52) (s * 2 ^ 11 + 2047)); lia).
    rewrite A, B'. split; [|lia]. symmetry. apply (N.mod_unique _ _ s); lia.
Qed.
Lemma zero_spec n : n < 2 ^ 64 -> (is_zero n = true <-> zero n).
Proof.
  intros H. unfold is_zero, zero. rewrite N.eqb_eq. assert (D := N.div_mod' n (2 ^ 63)). split.
  - intros E. rewrite E in D. assert (Q : n / 2 ^ 63 < 2) by (apply N.div_lt_upper_bound; lia).
    generalize dependent (n / 2 ^ 63). intros. assert (n0 = 0 \/ n0 = 1) as [-> | ->] by lia; lia.
  - intros [->| ->]; reflexivity.
Qed.
Lemma zero_not_nan n : zero n -> ~ nan n.
Proof. intros [->| ->] (s & f & S & F & E); [lia|]. assert (s = 0 \/ s = 1) as [-> | ->] by lia; lia. Qed.
Lemma double_eq_spec a b : a < 2 ^ 64 -> b < 2 ^ 64 -> (double_eq a b = true <-> same_content (WDouble a) (WDouble b)).
Proof.
  intros HA HB. unfold double_eq. rewrite !andb_true_iff, !negb_true_iff, orb_true_iff, andb_true_iff, N.eqb_eq, !zero_spec by assumption.
  assert (NA := nan_spec a HA). assert (NB := nan_spec b HB). split.
  - intros [[X Y] [E|[E F]]].
    + subst b. apply same_double. intros Q. apply NA in Q. congruence.
    + apply same_zero; assumption.
  - intros S. inversion S as [| | | | n Q|n m Z1 Z2| |]; subst.
    + assert (is_nan b = false) by (destruct (is_nan b); [exfalso; apply Q, NB; reflexivity|reflexivity]). auto.
    + assert (is_nan a = false) by (destruct (is_nan a); [exfalso; apply (zero_not_nan a Z1), NA; reflexivity|reflexivity]).
      assert (is_nan b = false) by (destruct (is_nan b); [exfalso; apply (zero_not_nan b Z2), NB; reflexivity|reflexivity]). auto.
Qed.
End Doubles.

Definition sized (w : aview) : Prop := match w with WDouble n => (n < 2 ^ 64)%N | _ => True end.

Lemma shows_unique v s t : shows v s -> shows v t -> s = t.
Proof. intros A C. apply load_shows in A. apply load_shows in C. congruence. Qed.

Lemma equal_lemma a b : readable a -> readable b -> sized a -> sized b ->
  exists r, view_equal a b = Done r /\ (r = true <-> same_content a b).
Proof.
  intros RA RB SA SB. destruct a, b; cbn [view_equal]; try (eexists; split; [reflexivity|]; split; [discriminate|intros S; inversion S; fail]).
  - eexists. split; [reflexivity|]. split; [constructor|reflexivity].
  - eexists. split; [reflexivity|]. rewrite Bool.eqb_true_iff. split; [intros ->; constructor|intros S; inversion S; reflexivity].
  - eexists. split; [reflexivity|]. rewrite Z.eqb_eq. split; [intros ->; constructor|intros S; inversion S; reflexivity].
  - eexists. split; [reflexivity|]. rewrite N.eqb_eq. split; [intros ->; constructor|intros S; inversion S; reflexivity].
  - eexists. split; [reflexivity|]. apply double_eq_spec; assumption.
  - destruct RA as [s RA], RB as [t RB]. destruct (eq_lemma _ _ _ _ RA RB) as (r & E & R). exists r. split; [exact E|]. rewrite R. split.
    + intros ->. exact (same_string _ _ t RA RB).
    + intros S. inversion S as [| | | | | |x y u X Y|]; subst. rewrite (shows_unique _ _ _ RA X). exact (shows_unique _ _ _ Y RB).
  - eexists. split; [reflexivity|]. destruct f as [o g t], f0 as [o' g' t']. cbn [w_object w_fn]. rewrite andb_true_iff, !N.eqb_eq. split.
    + intros [-> ->]. constructor.
    + intros S. inversion S. auto.
Qed.

Lemma content_sym a b : same_content a b -> same_content b a.
Proof. intros []; econstructor; eauto. Qed.
Lemma content_trans a b c : same_content a b -> same_content b c -> same_content a c.
Proof.
  intros A C. destruct A; inversion C; subst; try (constructor; assumption).
  econstructor; [eassumption|]. match goal with H1 : shows ?w ?s, H2 : shows ?w ?t |- _ => rewrite (shows_unique w s t H1 H2) end. assumption.
Qed.
Lemma content_refl a : readable a -> (forall n, a = WDouble n -> ~ nan n) -> same_content a a.
Proof.
  destruct a; intros R Q; try constructor; auto.
  - destruct R as [s R]. exact (same_string _ _ s R R).
  - destruct f. constructor.
Qed.
Lemma content_kind a b : same_content a b -> kind a = kind b.
Proof. intros []; reflexivity. Qed.

Lemma equivalence_lemma a b c : readable a -> readable b -> readable c -> sized a -> sized b -> sized c ->
  (view_equal a b = Done true -> view_equal b a = Done true)
  /\ (view_equal a b = Done true -> view_equal b c = Done true -> view_equal a c = Done true)
  /\ (view_equal a a = Done true <-> forall n, a = WDouble n -> ~ nan n)
  /\ (view_equal a b = Done true -> kind a = kind b).
Proof.
  intros RA RB RC SA SB SC.
  destruct (equal_lemma a b RA RB SA SB) as (r1 & -> & E1). destruct (equal_lemma b a RB RA SB SA) as (r2 & -> & E2).
  destruct (equal_lemma b c RB RC SB SC) as (r3 & -> & E3). destruct (equal_lemma a c RA RC SA SC) as (r4 & -> & E4).
  destruct (equal_lemma a a RA RA SA SA) as (r5 & -> & E5). refine (conj _ (conj _ (conj _ _))).
  - intros X. injection X as ->. f_equal. apply E2. apply content_sym. apply E1. reflexivity.
  - intros X Y. injection X as ->. injection Y as ->. f_equal. apply E4. eapply content_trans; [apply E1|apply E3]; reflexivity.
  - split.
    + intros X. injection X as ->. destruct (proj1 E5 eq_refl) eqn:Q; intros k K; try discriminate; injection K as <-.
      * exact n0.
      * apply zero_not_nan. assumption.
    + intros X. f_equal. apply E5. exact (content_refl a RA X).
  - intros X. injection X as ->. apply content_kind. apply E1. reflexivity.
Qed.
Lemma nan_lemma n : (n < 2 ^ 64)%N -> nan n -> view_equal (WDouble n) (WDouble n) = Done false.
Proof. intros H Q. cbn [view_equal]. unfold double_eq. rewrite (proj2 (nan_spec n H) Q). reflexivity. Qed.

Lemma text_lemma s : get_value TString (make_value (XString s)) = Some (GString s)
  /\ get_value TString (make_value (XArray (s ++ [NUL]))) = Some (GString s)
  /\ (exists v, get_view TString (make_view (XString s)) = Some (HString v) /\ shows v s)
  /\ (exists v, get_view TString (make_view (XArray (s ++ [NUL]))) = Some (HString v) /\ shows v s).
Proof.
  cbn [make_value make_view get_value get_view]. rewrite removelast_last. refine (conj eq_refl (conj eq_refl (conj _ _))).
  - eexists. split; [reflexivity|apply string_lemma].
  - eexists. split; [reflexivity|apply array_lemma].
Qed.
Lemma buffer_lemma s junk last : exists t, make_value (XArray (s ++ [NUL] ++ junk ++ [last])) = VString t /\ t = s ++ [NUL] ++ junk /\ t <> s.
Proof.
  exists (s ++ [NUL] ++ junk). cbn [make_value]. split.
  - replace (s ++ [NUL] ++ junk ++ [last]) with ((s ++ [NUL] ++ junk) ++ [last]) by (rewrite <- !app_assoc; reflexivity).
    rewrite removelast_last. reflexivity.
  - split; [reflexivity|]. intros E. apply (f_equal (@length ascii)) in E. rewrite app_length in E. cbn [length app] in E. lia.
Qed.
