From Verif Require Import Base Decimal ParserModel ParserSpec ParserProofs.

Lemma digit_iff c : is_digit c = true <-> In c (B "0123456789").
Proof.
  assert (G : forall c, Bool.eqb (is_digit c) (existsb (Ascii.eqb c) (B "0123456789")) = true)
    by (clear; intros c; destruct c as [[] [] [] [] [] [] [] []]; vm_compute; reflexivity).
  specialize (G c). apply Bool.eqb_prop in G. rewrite G, existsb_exists. split.
  - intros (x & I & E). apply Ascii.eqb_eq in E. subst. exact I.
  - intros I. exists c. split; [exact I|apply eqb_same].
Qed.
Lemma align_iff c : is_align c = true <-> In c (B "<^>").
Proof.
  assert (G : forall c, Bool.eqb (is_align c) (existsb (Ascii.eqb c) (B "<^>")) = true)
    by (clear; intros c; destruct c as [[] [] [] [] [] [] [] []]; vm_compute; reflexivity).
  specialize (G c). apply Bool.eqb_prop in G. rewrite G, existsb_exists. split.
  - intros (x & I & E). apply Ascii.eqb_eq in E. subst. exact I.
  - intros I. exists c. split; [exact I|apply eqb_same].
Qed.

Lemma digits_app w r : (forall c, In c w -> is_digit c = true) -> (forall c s, r = c :: s -> is_digit c = false) -> digits (w ++ r) = (w, r).
Proof.
  intros H R. induction w as [|c w IH].
  - destruct r as [|c s]; [reflexivity|]. cbn [app digits]. rewrite (R c s eq_refl). reflexivity.
  - cbn [app digits]. rewrite (H c (or_introl eq_refl)). rewrite IH; [reflexivity|]. intros x I. apply H. right. exact I.
Qed.

(** A type is no digit and no alignment. *)
Lemma short_spec_app types s r f : is_short_spec types s ->
  (forall c, In c types -> f c = true /\ is_digit c = false /\ is_align c = false) -> short_spec f (s ++ r) = Some (s, r).
Proof.
  intros (a & w & t & -> & A & W & T) F. destruct (F t T) as (F1 & F2 & F3). unfold short_spec.
  assert (D : digits (w ++ t :: r) = (w, t :: r)).
  { apply digits_app; [intros c I; apply digit_iff; apply W; exact I|]. intros c s E. injection E as <- <-. exact F2. }
  assert (M : maybe is_align ((a ++ w ++ [t]) ++ r) = (a, w ++ t :: r)).
  { rewrite <- !app_assoc. cbn [app]. destruct A as [->|(c & -> & C)].
    - cbn [app]. assert (N : match w ++ t :: r with x :: _ => is_align x = false | [] => True end).
      { destruct w as [|d w]; [exact F3|]. cbn. pose proof (W d (or_introl eq_refl)) as Wd. apply digit_iff in Wd.
        destruct (is_align d) eqn:E; [|reflexivity]. apply align_iff in E.
        cbn in E. destruct E as [<-|[<-|[<-|[]]]]; discriminate Wd. }
      destruct (w ++ t :: r) as [|x l]; [reflexivity|]. cbn. rewrite N. reflexivity.
    - cbn [app maybe]. rewrite (proj2 (align_iff c) C). reflexivity. }
  rewrite M, D, F1. reflexivity.
Qed.

Lemma sd_types c : In c (B "sd") -> (Ascii.eqb c "s" || Ascii.eqb c "d") = true /\ is_digit c = false /\ is_align c = false.
Proof. intros [<-|[<-|[]]]; vm_compute; repeat split. Qed.
Lemma s_types c : In c (B "s") -> Ascii.eqb "s" c = true /\ is_digit c = false /\ is_align c = false.
Proof. intros [<-|[]]; vm_compute; repeat split. Qed.

(** ** The pattern of `{...}` *)
Lemma starts_with_app p s : starts_with p (p ++ s) = true.
Proof. induction p as [|c p IH]; [reflexivity|]. cbn [app starts_with]. rewrite eqb_same. exact IH. Qed.
Lemma skipn_app_length {A} (p s : list A) : skipn (length p) (p ++ s) = s.
Proof. induction p; [reflexivity|assumption]. Qed.

Lemma sub_placeholder_plain word r : sub_placeholder word (word ++ RBRACE :: r) = Some ([], r).
Proof. unfold sub_placeholder. rewrite starts_with_app, skipn_app_length. reflexivity. Qed.
Lemma sub_placeholder_spec word s r : is_short_spec (B "sd") s ->
  sub_placeholder word (word ++ ":"%char :: s ++ RBRACE :: r) = Some (s, r).
Proof.
  intros H. unfold sub_placeholder. rewrite starts_with_app, skipn_app_length.
  change (eat ":" (":"%char :: s ++ RBRACE :: r)) with (Some (s ++ RBRACE :: r)). cbv iota beta.
  rewrite (short_spec_app (B "sd") s (RBRACE :: r) _ H sd_types). reflexivity.
Qed.

Lemma sub_placeholder_text w t r : t <> [] -> hd_error w <> Some LBRACE -> w <> [] -> sub_placeholder (LBRACE :: w) (doubled t ++ r) = None.
Proof.
  intros T W W'. unfold sub_placeholder. destruct (doubled_head t r T) as (c & s & -> & O).
  cbn [starts_with]. destruct (Ascii.eqb LBRACE c) eqn:E; [|reflexivity].
  rewrite Ascii.eqb_sym in E. specialize (O E). rewrite starts_with_open in O. destruct s as [|d s]; [discriminate O|].
  cbn [starts_open] in O. apply Ascii.eqb_eq in O. subst d.
  destruct w as [|x w]; [contradiction|]. cbn [andb starts_with].
  destruct (Ascii.eqb x LBRACE) eqn:E2; [|reflexivity]. apply Ascii.eqb_eq in E2. subst x. exfalso. apply W. reflexivity.
Qed.

Lemma sub_literal_app t r : sub_literal (doubled t ++ r) = (t ++ fst (sub_literal r), snd (sub_literal r)).
Proof.
  induction t as [|c t IH]; [cbn; destruct (sub_literal r); reflexivity|].
  cbn [doubled flat_map]. fold (doubled t).
  destruct (Ascii.eqb c LBRACE || Ascii.eqb c RBRACE) eqn:E.
  - cbn [app sub_literal]. rewrite E, eqb_same, IH. reflexivity.
  - cbn [app sub_literal]. rewrite E, IH. reflexivity.
Qed.

(** The rest after a text: the end, or a placeholder. *)
Lemma sub_literal_stop ps : sub_well_formed ps -> match ps with q :: _ => is_ptext q = false | [] => True end ->
  sub_literal (write_sub ps) = ([], write_sub ps).
Proof.
  intros W H. destruct ps as [|[t|[s|]|[s|]] ps]; [reflexivity|discriminate H| | | |]; reflexivity.
Qed.

Lemma sub_parse_write ps : forall f, sub_well_formed ps -> (length ps <= f)%nat ->
  sub_parse f (write_sub ps) = Some (map sub_meaning ps).
Proof.
  induction ps as [|p ps IH]; intros f W L; [destruct f; reflexivity|].
  destruct f as [|f]; [cbn in L; lia|]. cbn [length] in L. cbn [map].
  destruct p as [t|[s|]|[s|]].
  - destruct W as [[T A] W].
    change (write_sub (PText t :: ps)) with (doubled t ++ write_sub ps).
    assert (NE : exists c l, doubled t ++ write_sub ps = c :: l) by (destruct (doubled_head t (write_sub ps) T) as (c & l & Q & _); exists c, l; exact Q).
    pose proof (sub_placeholder_text (B "name") t (write_sub ps) T ltac:(discriminate) ltac:(discriminate)) as P1.
    pose proof (sub_placeholder_text (B "value") t (write_sub ps) T ltac:(discriminate) ltac:(discriminate)) as P2.
    change (LBRACE :: B "name") with (B "{name") in P1. change (LBRACE :: B "value") with (B "{value") in P2.
    pose proof (sub_literal_app t (write_sub ps)) as P3. rewrite (sub_literal_stop ps W A) in P3. cbn [fst snd] in P3.
    rewrite app_nil_r in P3.
    destruct NE as (c & l & Q). rewrite Q in *. cbn [sub_parse]. rewrite P1, P2, P3.
    destruct t as [|x t]; [contradiction|]. rewrite IH by (assumption || lia). reflexivity.
  - destruct W as [A W].
    assert (Q : write_sub (PName (Some s) :: ps) = B "{name" ++ ":"%char :: s ++ RBRACE :: write_sub ps).
    { unfold write_sub. cbn [flat_map write_subpiece]. rewrite <- !app_assoc. reflexivity. }
    pose proof (sub_placeholder_spec (B "{name") s (write_sub ps) A) as P. rewrite <- Q in P.
    change (write_sub (PName (Some s) :: ps)) with (LBRACE :: (B "name:" ++ s ++ B "}") ++ flat_map write_subpiece ps) in P |- *.
    cbn [sub_parse]. rewrite P. rewrite IH by (assumption || lia). reflexivity.
  - destruct W as [_ W].
    assert (Q : write_sub (PName None :: ps) = B "{name" ++ RBRACE :: write_sub ps) by reflexivity.
    pose proof (sub_placeholder_plain (B "{name") (write_sub ps)) as P. rewrite <- Q in P.
    change (write_sub (PName None :: ps)) with (LBRACE :: B "name}" ++ flat_map write_subpiece ps) in P |- *.
    cbn [sub_parse]. rewrite P. rewrite IH by (assumption || lia). reflexivity.
  - destruct W as [A W].
    assert (Q : write_sub (PValue (Some s) :: ps) = B "{value" ++ ":"%char :: s ++ RBRACE :: write_sub ps).
    { unfold write_sub. cbn [flat_map write_subpiece]. rewrite <- !app_assoc. reflexivity. }
    pose proof (sub_placeholder_spec (B "{value") s (write_sub ps) A) as P. rewrite <- Q in P.
    change (write_sub (PValue (Some s) :: ps)) with (LBRACE :: (B "value:" ++ s ++ B "}") ++ flat_map write_subpiece ps) in P |- *.
    cbn [sub_parse]. rewrite P.
    assert (P' : sub_placeholder (B "{name") (LBRACE :: (B "value:" ++ s ++ B "}") ++ flat_map write_subpiece ps) = None) by reflexivity.
    rewrite P'. rewrite IH by (assumption || lia). reflexivity.
  - destruct W as [_ W].
    assert (Q : write_sub (PValue None :: ps) = B "{value" ++ RBRACE :: write_sub ps) by reflexivity.
    pose proof (sub_placeholder_plain (B "{value") (write_sub ps)) as P. rewrite <- Q in P.
    change (write_sub (PValue None :: ps)) with (LBRACE :: B "value}" ++ flat_map write_subpiece ps) in P |- *.
    cbn [sub_parse]. rewrite P.
    assert (P' : sub_placeholder (B "{name") (LBRACE :: B "value}" ++ flat_map write_subpiece ps) = None) by reflexivity.
    rewrite P'. rewrite IH by (assumption || lia). reflexivity.
Qed.

Lemma sub_length ps : sub_well_formed ps -> (length ps <= length (write_sub ps))%nat.
Proof.
  induction ps as [|p ps IH]; intros H; [reflexivity|]. destruct H as [A H]. specialize (IH H).
  change (write_sub (p :: ps)) with (write_subpiece p ++ write_sub ps). rewrite app_length. cbn [length].
  assert (1 <= length (write_subpiece p))%nat; [|lia].
  destruct p as [t|[s|]|[s|]]; cbn [write_subpiece]; try (cbn; lia).
  destruct A as [A _]. apply doubled_nonempty in A. destruct (doubled t); [contradiction|cbn; lia].
Qed.
Lemma parse_pattern_write ps : sub_well_formed ps -> parse_pattern (write_sub ps) = Some (map sub_meaning ps).
Proof. intros H. apply sub_parse_write; [exact H|]. apply sub_length. exact H. Qed.

(** ** Extensions *)
Definition stop3 (x : ascii) : bytes := [":"%char; x; RBRACE].

Lemma text_until_cons x c s : (forall a, c :: s = stop3 x ++ a -> starts_close a = true) ->
  text_until (stop3 x) (c :: s) = match text_until (stop3 x) s with Some (t, r) => Some (c :: t, r) | None => None end.
Proof.
  intros H. cbn [text_until]. destruct (starts_with (stop3 x) (c :: s)) eqn:E; [|reflexivity].
  assert (Q : exists a, c :: s = stop3 x ++ a).
  { unfold stop3 in E |- *. cbn [starts_with] in E. destruct s as [|d [|e s]]; try (rewrite ?andb_false_r in E; discriminate E).
    apply andb_prop in E. destruct E as [E1 E]. apply andb_prop in E. destruct E as [E2 E]. apply andb_prop in E. destruct E as [E3 _].
    apply Ascii.eqb_eq in E1, E2, E3. subst. exists s. reflexivity. }
  destruct Q as (a & Q). pose proof (H a Q) as A. rewrite Q. cbn [stop3 length app skipn].
  assert (SC : starts_with (B "}") a = true).
  { destruct a as [|d a]; [discriminate A|]. cbn [starts_close] in A. change (Ascii.eqb RBRACE d && true = true).
    rewrite andb_true_r, Ascii.eqb_sym. exact A. }
  rewrite SC. reflexivity.
Qed.
Lemma text_until_here x r : starts_close r = false -> text_until (stop3 x) (stop3 x ++ r) = Some ([], r).
Proof.
  intros H. assert (S1 : starts_with (stop3 x) (stop3 x ++ r) = true) by apply starts_with_app.
  assert (S2 : starts_with (B "}") r = false).
  { destruct r as [|d r]; [reflexivity|]. cbn [starts_close] in H. change (Ascii.eqb RBRACE d && true = false).
    rewrite andb_true_r, Ascii.eqb_sym. exact H. }
  assert (G : forall y, text_until (stop3 x) y =
    if starts_with (stop3 x) y && negb (starts_with (B "}") (skipn (length (stop3 x)) y)) then Some ([], skipn (length (stop3 x)) y)
    else match y with [] => None | c :: s' => match text_until (stop3 x) s' with Some (t, r) => Some (c :: t, r) | None => None end end)
    by (intros [|c y]; reflexivity).
  rewrite G, S1, skipn_app_length, S2. reflexivity.
Qed.

Lemma text_until_occurs x s r : x <> ":"%char -> ~ occurs (stop3 x) s -> starts_close r = false ->
  text_until (stop3 x) (s ++ stop3 x ++ r) = Some (s, r).
Proof.
  intros X O R. induction s as [|c s IH]; [apply text_until_here; exact R|].
  cbn [app]. rewrite text_until_cons.
  - rewrite IH; [reflexivity|]. intros (a & b & ->). apply O. exists (c :: a), b. reflexivity.
  - intros a Q. exfalso. unfold stop3 in Q. destruct s as [|d [|e s]]; cbn [app] in Q.
    + injection Q as _ Q _. congruence.
    + injection Q as _ _ Q _. discriminate Q.
    + injection Q as -> -> -> _. apply O. exists [], s. reflexivity.
Qed.
Lemma text_until_none x s : ~ occurs (stop3 x) s -> text_until (stop3 x) s = None.
Proof.
  intros O. induction s as [|c s IH]; [reflexivity|]. rewrite text_until_cons.
  - rewrite IH; [reflexivity|]. intros (a & b & ->). apply O. exists (c :: a), b. reflexivity.
  - intros a Q. exfalso. apply O. exists [], a. exact Q.
Qed.

(** A text written out from sub-pieces hides no end of the extension. *)
Definition tail_ok (r : bytes) : Prop := match r with c :: _ => c = LBRACE \/ c = ":"%char | [] => False end.
Lemma until_plain x c s : c <> ":"%char -> text_until (stop3 x) (c :: s) = match text_until (stop3 x) s with Some (t, r) => Some (c :: t, r) | None => None end.
Proof. intros H. apply text_until_cons. intros a Q. exfalso. apply H. injection Q as Q _. exact Q. Qed.

Definition prepend (p : bytes) (r : option (bytes * bytes)) : option (bytes * bytes) :=
  match r with Some (t, q) => Some (p ++ t, q) | None => None end.
Lemma until_plain_app x p s : ~ In ":"%char p -> text_until (stop3 x) (p ++ s) = prepend p (text_until (stop3 x) s).
Proof.
  induction p as [|c p IH]; intros H; [cbn; destruct (text_until (stop3 x) s) as [[t q]|]; reflexivity|].
  cbn [app]. rewrite until_plain by (intros ->; apply H; left; reflexivity). rewrite IH by (intros I; apply H; right; exact I).
  destruct (text_until (stop3 x) s) as [[t q]|]; reflexivity.
Qed.
Lemma until_colon_app x d p s : x <> d -> ~ In ":"%char (d :: p) -> text_until (stop3 x) (":"%char :: d :: p ++ s) = prepend (":"%char :: d :: p) (text_until (stop3 x) s).
Proof.
  intros X H. rewrite text_until_cons.
  - change (d :: p ++ s) with ((d :: p) ++ s). rewrite until_plain_app by exact H.
    destruct (text_until (stop3 x) s) as [[t q]|]; reflexivity.
  - intros a Q. exfalso. injection Q as Q _. congruence.
Qed.

Lemma until_doubled x t r : x <> ":"%char -> x <> LBRACE -> x <> RBRACE -> tail_ok r ->
  text_until (stop3 x) (doubled t ++ r) = prepend (doubled t) (text_until (stop3 x) r).
Proof.
  intros X1 X2 X3 R. induction t as [|c t IH]; [cbn; destruct (text_until (stop3 x) r) as [[u q]|]; reflexivity|].
  cbn [doubled flat_map]. fold (doubled t).
  destruct (Ascii.eqb c LBRACE || Ascii.eqb c RBRACE) eqn:E.
  - assert (C : c <> ":"%char) by (intros ->; discriminate E).
    cbn [app]. rewrite !until_plain by exact C. rewrite IH. destruct (text_until (stop3 x) r) as [[u q]|]; reflexivity.
  - cbn [app]. rewrite text_until_cons.
    + rewrite IH. destruct (text_until (stop3 x) r) as [[u q]|]; reflexivity.
    + intros a Q. unfold stop3 in Q. injection Q as -> Q. (* doubled t ++ r = x :: RBRACE :: a *)
      destruct t as [|d t].
      * cbn [doubled flat_map app] in Q. rewrite Q in R. cbn in R. destruct R; congruence.
      * cbn [doubled flat_map] in Q. fold (doubled t) in Q.
        destruct (Ascii.eqb d LBRACE || Ascii.eqb d RBRACE) eqn:E2.
        { cbn [app] in Q. injection Q as -> Q. exfalso. apply orb_prop in E2. destruct E2 as [E2|E2]; apply Ascii.eqb_eq in E2; congruence. }
        cbn [app] in Q. injection Q as -> Q.
        destruct t as [|e t].
        { cbn [doubled flat_map app] in Q. rewrite Q in R. cbn in R. exfalso. destruct R as [R|R]; vm_compute in R; discriminate R. }
        cbn [doubled flat_map] in Q. fold (doubled t) in Q.
        destruct (Ascii.eqb e LBRACE || Ascii.eqb e RBRACE) eqn:E3.
        { cbn [app] in Q. injection Q as -> Q. subst a. reflexivity. }
        cbn [app] in Q. injection Q as -> Q. discriminate E3.
Qed.

Lemma short_no_colon types s : is_short_spec types s -> ~ In ":"%char types -> ~ In ":"%char s.
Proof.
  intros (a & w & t & -> & A & W & T) N I. rewrite !in_app_iff in I. destruct I as [I|[I|[I|[]]]].
  - destruct A as [->|(c & -> & C)]; [exact I|]. destruct I as [->|[]]. cbn in C. destruct C as [C|[C|[C|[]]]]; discriminate C.
  - apply W in I. cbn in I. repeat (destruct I as [I|I]; [discriminate I|]). exact I.
  - subst t. exact (N T).
Qed.
Lemma short_head types s : is_short_spec types s -> exists d p, s = d :: p /\ (In d types \/ In d (B "<^>0123456789")).
Proof.
  intros (a & w & t & -> & A & W & T). destruct A as [->|(c & -> & C)].
  - destruct w as [|d w].
    + exists t, []. split; [reflexivity|]. left. exact T.
    + exists d, (w ++ [t]). split; [reflexivity|]. right. pose proof (W d (or_introl eq_refl)) as I.
      change (B "<^>0123456789") with (B "<^>" ++ B "0123456789"). apply in_app_iff. right. exact I.
  - exists c, (w ++ [t]). split; [reflexivity|]. right. change (B "<^>0123456789") with (B "<^>" ++ B "0123456789"). apply in_app_iff. left. exact C.
Qed.

Lemma until_sub ps r : sub_well_formed ps -> tail_ok r -> text_until (stop3 "p") (write_sub ps ++ r) = prepend (write_sub ps) (text_until (stop3 "p") r).
Proof.
  intros W R. induction ps as [|p ps IH]; [cbn; destruct (text_until (stop3 "p") r) as [[u q]|]; reflexivity|].
  change (write_sub (p :: ps)) with (write_subpiece p ++ write_sub ps). rewrite <- app_assoc. destruct W as [A W]. specialize (IH W).
  assert (SPEC : forall w s, ~ In ":"%char w -> is_short_spec (B "sd") s ->
     text_until (stop3 "p") ((w ++ ":"%char :: s ++ [RBRACE]) ++ write_sub ps ++ r) =
     prepend ((w ++ ":"%char :: s ++ [RBRACE]) ++ write_sub ps) (text_until (stop3 "p") r)).
  { intros w s Hw Hs. rewrite <- app_assoc. rewrite until_plain_app by exact Hw. cbn [app].
    pose proof (short_no_colon _ _ Hs) as NC. destruct (short_head _ _ Hs) as (d & q & -> & D).
    cbn [app]. rewrite until_colon_app.
    - rewrite IH. destruct (text_until (stop3 "p") r) as [[u z]|]; [|reflexivity]. cbn [prepend].
      f_equal. f_equal. rewrite <- !app_assoc. cbn [app]. rewrite <- !app_assoc. reflexivity.
    - intros <-. cbn in D. repeat (destruct D as [D|D]; try discriminate D); try contradiction.
    - intros [I|I].
      + apply NC; [|left; exact I]. intros J. cbn in J. destruct J as [J|[J|[]]]; discriminate J.
      + rewrite in_app_iff in I. destruct I as [I|[I|[]]]; [|discriminate I].
        apply NC; [|right; exact I]. intros J. cbn in J. destruct J as [J|[J|[]]]; discriminate J. }
  assert (PLAIN : forall w, ~ In ":"%char w ->
     text_until (stop3 "p") (w ++ write_sub ps ++ r) = prepend (w ++ write_sub ps) (text_until (stop3 "p") r)).
  { intros w Hw. rewrite until_plain_app by exact Hw. rewrite IH. destruct (text_until (stop3 "p") r) as [[u z]|]; [|reflexivity].
    cbn [prepend]. rewrite <- app_assoc. reflexivity. }
  destruct p as [t|[s|]|[s|]]; cbn [write_subpiece].
  - destruct A as [T A]. rewrite until_doubled; try (vm_compute; discriminate).
    + rewrite IH. destruct (text_until (stop3 "p") r) as [[u z]|]; [|reflexivity]. cbn [prepend]. rewrite <- app_assoc. reflexivity.
    + destruct ps as [|[t'|[s'|]|[s'|]] ps]; [exact R|discriminate A| | | |]; left; reflexivity.
  - apply (SPEC (B "{name") s); [|exact A]. cbn. intros I. repeat (destruct I as [I|I]; [discriminate I|]). exact I.
  - apply (PLAIN (B "{name}")). cbn. intros I. repeat (destruct I as [I|I]; [discriminate I|]). exact I.
  - apply (SPEC (B "{value") s); [|exact A]. cbn. intros I. repeat (destruct I as [I|I]; [discriminate I|]). exact I.
  - apply (PLAIN (B "{value}")). cbn. intros I. repeat (destruct I as [I|I]; [discriminate I|]). exact I.
Qed.

Lemma extension_pattern ps r : sub_well_formed ps -> starts_close r = false ->
  extension (B ":p}") (LBRACE :: write_sub ps ++ B ":p}" ++ r) = Some (write_sub ps, r).
Proof.
  intros W R. unfold extension.
  change (eat "{" (LBRACE :: write_sub ps ++ B ":p}" ++ r)) with (Some (write_sub ps ++ stop3 "p" ++ r)). cbv iota beta.
  change (B ":p}") with (stop3 "p"). rewrite until_sub; [|exact W|right; reflexivity].
  rewrite text_until_here by exact R. cbn [prepend]. rewrite app_nil_r. reflexivity.
Qed.
Lemma extension_separator sep r : ~ occurs (B ":s}") sep -> starts_close r = false ->
  extension (B ":s}") (LBRACE :: sep ++ B ":s}" ++ r) = Some (sep, r).
Proof.
  intros O R. unfold extension.
  change (eat "{" (LBRACE :: sep ++ B ":s}" ++ r)) with (Some (sep ++ stop3 "s" ++ r)). cbv iota beta.
  change (B ":s}") with (stop3 "s"). apply text_until_occurs; [discriminate|exact O|exact R].
Qed.
Lemma extension_none stop c s : c <> LBRACE -> extension stop (c :: s) = None.
Proof. intros H. unfold extension, eat. change "{"%char with LBRACE. apply Ascii.eqb_neq in H. rewrite H. reflexivity. Qed.

Lemma short_head_char s : is_short_spec (B "s") s -> forall r, exists d p, s ++ r = d :: p /\ d <> LBRACE /\ d <> RBRACE.
Proof.
  intros H r. destruct (short_head _ _ H) as (d & p & -> & D). exists d, (p ++ r). split; [reflexivity|].
  cbn in D. split; intros ->; vm_compute in D; repeat (destruct D as [D|D]; try discriminate D); try contradiction.
Qed.

Section Leftover.
Variable ld : bytes -> bool.
Variable nd : bool.

Lemma grammar_lemma s2 e sp : extensions s2 = (e, sp ++ [RBRACE]) -> is_short_spec (B "s") sp ->
  parse_grammar (B "{:" ++ s2) = Some (e, sp).
Proof.
  intros E S. unfold parse_grammar. change (eat "{" (B "{:" ++ s2)) with (Some (":"%char :: s2)). cbv iota beta.
  change (eat ":" (":"%char :: s2)) with (Some s2). cbv iota beta. rewrite E.
  rewrite (short_spec_app (B "s") sp [RBRACE] _ S s_types). reflexivity.
Qed.

Lemma leftover_pattern_lemma ps sp : sub_well_formed ps -> is_short_spec (B "s") sp ->
  parse_leftover (B "{:" ++ B "{" ++ write_sub ps ++ B ":p}" ++ sp ++ B "}") =
  OToken (TLeftover (Leftover (B "{:" ++ sp ++ B "}") (B ", ") (map sub_meaning ps))).
Proof.
  intros W S. unfold parse_leftover.
  rewrite (grammar_lemma _ (Some (write_sub ps), None) sp).
  - rewrite parse_pattern_write by exact W. reflexivity.
  - destruct (short_head_char sp S (B "}")) as (d & p & Q & D1 & D2).
    unfold extensions. change (B "{" ++ write_sub ps ++ B ":p}" ++ sp ++ B "}") with (LBRACE :: write_sub ps ++ B ":p}" ++ sp ++ B "}").
    rewrite extension_pattern; [|exact W|rewrite Q; cbn; apply Ascii.eqb_neq; exact D2].
    rewrite Q at 1. rewrite extension_none by exact D1. reflexivity.
  - exact S.
Qed.

Lemma leftover_both_lemma ps sep sp : sub_well_formed ps -> ~ occurs (B ":s}") sep -> is_short_spec (B "s") sp ->
  parse_leftover (B "{:" ++ B "{" ++ write_sub ps ++ B ":p}" ++ B "{" ++ sep ++ B ":s}" ++ sp ++ B "}") =
  OToken (TLeftover (Leftover (B "{:" ++ sp ++ B "}") sep (map sub_meaning ps))).
Proof.
  intros W O S. unfold parse_leftover.
  rewrite (grammar_lemma _ (Some (write_sub ps), Some sep) sp).
  - rewrite parse_pattern_write by exact W. reflexivity.
  - destruct (short_head_char sp S (B "}")) as (d & p & Q & D1 & D2).
    unfold extensions.
    change (B "{" ++ write_sub ps ++ B ":p}" ++ B "{" ++ sep ++ B ":s}" ++ sp ++ B "}")
      with (LBRACE :: write_sub ps ++ B ":p}" ++ (LBRACE :: sep ++ B ":s}" ++ sp ++ B "}")).
    rewrite extension_pattern; [|exact W|reflexivity].
    rewrite extension_separator; [reflexivity|exact O|rewrite Q; cbn; apply Ascii.eqb_neq; exact D2].
  - exact S.
Qed.

Lemma occurs_p_separator sep sp : ~ occurs (B ":p}") sep -> is_short_spec (B "s") sp -> ~ occurs (B ":p}") (sep ++ B ":s}" ++ sp ++ B "}").
Proof.
  intros O S. assert (NC : ~ In ":"%char sp) by (apply (short_no_colon _ _ S); cbn; intros [J|[]]; discriminate J).
  induction sep as [|c sep IH].
  - intros (a & b & Q). cbn [app] in Q.
    destruct a as [|x a].
    + change (":"%char :: "s"%char :: RBRACE :: sp ++ B "}" = ":"%char :: "p"%char :: RBRACE :: b) in Q. injection Q as Q _. discriminate Q.
    + change (":"%char :: (B "s}" ++ sp ++ B "}") = x :: a ++ B ":p}" ++ b) in Q. injection Q as _ Q.
      assert (I : In ":"%char (B "s}" ++ sp ++ B "}")).
      { match type of Q with ?l = _ => change (B "s}" ++ sp ++ B "}") with l end.
        rewrite Q. apply in_app_iff. right. left. reflexivity. }
      rewrite !in_app_iff in I. destruct I as [I|[I|I]]; [|exact (NC I)|].
      * cbn in I. destruct I as [I|[I|[]]]; discriminate I.
      * cbn in I. destruct I as [I|[]]; discriminate I.
  - intros (a & b & Q). destruct a as [|x a].
    + cbn [app] in Q. destruct sep as [|d [|e sep]].
      * change (c :: ":"%char :: (B "s}" ++ sp ++ B "}") = ":"%char :: "p"%char :: RBRACE :: b) in Q. injection Q as _ Q _. discriminate Q.
      * change (c :: d :: ":"%char :: (B "s}" ++ sp ++ B "}") = ":"%char :: "p"%char :: RBRACE :: b) in Q. injection Q as _ _ Q _. discriminate Q.
      * change (c :: d :: e :: (sep ++ B ":s}" ++ sp ++ B "}") = ":"%char :: "p"%char :: RBRACE :: b) in Q.
        injection Q as -> -> -> _. apply O. exists [], sep. reflexivity.
    + injection Q as -> Q. apply IH.
      * intros (a' & b' & ->). apply O. exists (x :: a'), b'. reflexivity.
      * exists a, b. exact Q.
Qed.

Lemma leftover_separator_lemma sep sp : ~ occurs (B ":s}") sep -> ~ occurs (B ":p}") sep -> is_short_spec (B "s") sp ->
  parse_leftover (B "{:" ++ B "{" ++ sep ++ B ":s}" ++ sp ++ B "}") =
  OToken (TLeftover (Leftover (B "{:" ++ sp ++ B "}") sep (lo_tokens default_leftover))).
Proof.
  intros O P S. unfold parse_leftover.
  rewrite (grammar_lemma _ (None, Some sep) sp).
  - reflexivity.
  - destruct (short_head_char sp S (B "}")) as (d & p & Q & D1 & D2).
    unfold extensions. change (B "{" ++ sep ++ B ":s}" ++ sp ++ B "}") with (LBRACE :: sep ++ B ":s}" ++ sp ++ B "}").
    assert (N : extension (B ":p}") (LBRACE :: sep ++ B ":s}" ++ sp ++ B "}") = None).
    { unfold extension. change (eat "{" (LBRACE :: sep ++ B ":s}" ++ sp ++ B "}")) with (Some (sep ++ B ":s}" ++ sp ++ B "}")). cbv iota beta.
      apply (text_until_none "p"). apply occurs_p_separator; assumption. }
    rewrite N. rewrite extension_separator; [|exact O|rewrite Q; cbn; apply Ascii.eqb_neq; exact D2].
    rewrite Q at 1. rewrite extension_none by exact D1. reflexivity.
  - exact S.
Qed.
Lemma leftover_plain_lemma sp : is_short_spec (B "s") sp ->
  parse_leftover (B "{:" ++ sp ++ B "}") = OToken (TLeftover (Leftover (B "{:" ++ sp ++ B "}") (B ", ") (lo_tokens default_leftover))).
Proof.
  intros S. unfold parse_leftover. rewrite (grammar_lemma _ (None, None) sp).
  - reflexivity.
  - destruct (short_head_char sp S (B "}")) as (d & p & Q & D1 & D2). unfold extensions. rewrite Q.
    rewrite !extension_none by exact D1. rewrite <- Q. reflexivity.
  - exact S.
Qed.

(** The separator first: the pattern takes it in. *)
Lemma sub_literal_plain s r : no_braces s -> sub_literal (s ++ r) = (s ++ fst (sub_literal r), snd (sub_literal r)).
Proof.
  intros [H1 H2]. induction s as [|c s IH]; [cbn; destruct (sub_literal r); reflexivity|].
  cbn [app sub_literal].
  assert (E : (Ascii.eqb c LBRACE || Ascii.eqb c RBRACE) = false).
  { apply orb_false_iff. split; apply Ascii.eqb_neq; intros ->; [apply H1|apply H2]; left; reflexivity. }
  rewrite E. rewrite IH; [reflexivity| |]; intros I; [apply H1|apply H2]; right; exact I.
Qed.
Lemma sub_placeholder_no_open w c s : c <> LBRACE -> sub_placeholder (LBRACE :: w) (c :: s) = None.
Proof. intros H. unfold sub_placeholder. cbn [starts_with]. rewrite Ascii.eqb_sym. apply Ascii.eqb_neq in H. rewrite H. reflexivity. Qed.

Lemma separator_first_lemma sep ps sp : no_braces sep -> ~ occurs (B ":p}") sep -> sub_well_formed ps -> is_short_spec (B "s") sp ->
  parse_leftover (B "{:" ++ B "{" ++ sep ++ B ":s}" ++ B "{" ++ write_sub ps ++ B ":p}" ++ sp ++ B "}") = OThrown None.
Proof.
  intros N O W SS. destruct (short_head_char sp SS (B "}")) as (d & p & Q & D1 & D2).
  set (pat := sep ++ B ":s}{" ++ write_sub ps).
  assert (U : forall r, starts_close r = false -> text_until (stop3 "p") (pat ++ stop3 "p" ++ r) = Some (pat, r)).
  { intros r R. unfold pat. rewrite <- app_assoc.
    assert (G : forall s, ~ occurs (stop3 "p") s -> forall x t, x <> "p"%char -> x <> RBRACE ->
      text_until (stop3 "p") (s ++ x :: t) = prepend s (text_until (stop3 "p") (x :: t))).
    { clear. induction s as [|c s IH]; intros O x t X1 X2.
      - cbn [app]. destruct (text_until (stop3 "p") (x :: t)) as [[u q]|]; reflexivity.
      - cbn [app]. rewrite text_until_cons.
        + rewrite IH; [|intros (a & b & ->); apply O; exists (c :: a), b; reflexivity|exact X1|exact X2].
          destruct (text_until (stop3 "p") (x :: t)) as [[u q]|]; reflexivity.
        + intros a Q. exfalso. unfold stop3 in Q. destruct s as [|d [|e s]]; cbn [app] in Q.
          * injection Q as _ Q _. congruence.
          * injection Q as _ _ Q _. congruence.
          * injection Q as -> -> -> _. apply O. exists [], s. reflexivity. }
    rewrite <- app_assoc. change (B ":s}{" ++ write_sub ps ++ stop3 "p" ++ r) with (":"%char :: B "s}{" ++ write_sub ps ++ stop3 "p" ++ r).
    rewrite G; [|exact O|discriminate|discriminate].
    change (":"%char :: B "s}{" ++ write_sub ps ++ stop3 "p" ++ r) with (":"%char :: "s"%char :: B "}{" ++ (write_sub ps ++ stop3 "p" ++ r)).
    rewrite until_colon_app; [|discriminate|cbn; intros I; repeat (destruct I as [I|I]; [discriminate I|]); exact I].
    rewrite until_sub; [|exact W|right; reflexivity]. rewrite text_until_here by exact R. cbn [prepend]. rewrite app_nil_r. reflexivity. }
  unfold parse_leftover.
  assert (E : extensions (B "{" ++ sep ++ B ":s}" ++ B "{" ++ write_sub ps ++ B ":p}" ++ sp ++ B "}") = ((Some pat, None), sp ++ B "}")).
  { unfold extensions.
    assert (X : extension (B ":p}") (B "{" ++ sep ++ B ":s}" ++ B "{" ++ write_sub ps ++ B ":p}" ++ sp ++ B "}") = Some (pat, sp ++ B "}")).
    { unfold extension. match goal with |- context [eat "{" (B "{" ++ ?z)] => change (eat "{" (B "{" ++ z)) with (Some z) end. cbv iota beta.
      rewrite <- U; [|rewrite Q; cbn; apply Ascii.eqb_neq; exact D2]. unfold pat. change (B ":p}") with (stop3 "p"). f_equal.
      rewrite <- !app_assoc. reflexivity. }
    rewrite X. rewrite Q at 1. rewrite extension_none by exact D1. reflexivity. }
  rewrite (grammar_lemma _ (Some pat, None) sp E SS).
  assert (P : parse_pattern pat = None).
  { unfold parse_pattern.
    assert (F : exists f, length pat = S (S f)).
    { unfold pat. rewrite !app_length. cbn [length B list_ascii_of_string]. exists (length sep + 2 + length (write_sub ps))%nat. lia. }
    destruct F as [f ->]. 
    assert (L : sub_literal pat = (sep ++ B ":s", B "}{" ++ write_sub ps)).
    { unfold pat. replace (sep ++ B ":s}{" ++ write_sub ps) with ((sep ++ B ":s") ++ B "}{" ++ write_sub ps) by (rewrite <- app_assoc; reflexivity).
      rewrite sub_literal_plain.
      - cbn [app B list_ascii_of_string sub_literal].
        change (Ascii.eqb "}" LBRACE || Ascii.eqb "}" RBRACE) with true. change (Ascii.eqb "}" "{") with false. cbv iota.
        rewrite app_nil_r. reflexivity.
      - destruct N as [N1 N2]. split; intros I; apply in_app_iff in I; destruct I as [I|I]; try (apply N1; exact I); try (apply N2; exact I);
          cbn in I; destruct I as [I|[I|[]]]; discriminate I. }
    assert (HD : exists c l, pat = c :: l /\ c <> LBRACE).
    { unfold pat. destruct sep as [|c sep]; [exists ":"%char; eexists; split; [reflexivity|discriminate]|].
      exists c; eexists; split; [reflexivity|]. intros ->. apply (proj1 N). left. reflexivity. }
    destruct HD as (c & l & HQ & HC).
    assert (A1 : sub_placeholder (B "{name") pat = None) by (rewrite HQ; apply (sub_placeholder_no_open (B "name")); exact HC).
    assert (A2 : sub_placeholder (B "{value") pat = None) by (rewrite HQ; apply (sub_placeholder_no_open (B "value")); exact HC).
    rewrite HQ in A1, A2, L |- *. cbn [sub_parse]. rewrite A1, A2, L.
    destruct (sep ++ B ":s") as [|x y]; [reflexivity|]. cbn [B list_ascii_of_string app]. 
    replace (sub_placeholder _ ("}"%char :: "{"%char :: write_sub ps)) with (@None (bytes * bytes)) by reflexivity.
    reflexivity. }
  rewrite P. reflexivity.
Qed.
End Leftover.

(** ** Reserved placeholders *)
Lemma type_char_app x c d : type_char (x ++ [c; d]) = c.
Proof.
  unfold type_char. rewrite app_length. cbn [length]. replace (length x + 2 - 2)%nat with (length x) by lia.
  rewrite app_nth2 by lia. rewrite Nat.sub_diag. reflexivity.
Qed.
Lemma set_type_app s x c d : set_type s (x ++ [c; d]) = x ++ [s; d].
Proof.
  unfold set_type. rewrite app_length. cbn [length]. replace (length x + 2 - 2)%nat with (length x) by lia.
  replace (length x + 2 - 1)%nat with (length x + 1)%nat by lia.
  rewrite firstn_app, Nat.sub_diag, firstn_all. cbn [firstn]. rewrite app_nil_r. f_equal. f_equal.
  rewrite skipn_app. replace (length x + 1 - length x)%nat with 1%nat by lia. rewrite skipn_all2 by lia. reflexivity.
Qed.
Lemma until_brace_app p r : ~ In RBRACE p -> until_brace (p ++ RBRACE :: r) = (p, r).
Proof.
  induction p as [|c p IH]; intros H; [reflexivity|]. cbn [app until_brace].
  destruct (Ascii.eqb c RBRACE) eqn:E; [apply Ascii.eqb_eq in E; subst; exfalso; apply H; left; reflexivity|].
  rewrite IH by (intros I; apply H; right; exact I). reflexivity.
Qed.

Lemma count_no_brace s : no_braces s -> count LBRACE s = 0%nat /\ count RBRACE s = 0%nat.
Proof.
  intros [H1 H2]. induction s as [|c s IH]; [split; reflexivity|]. cbn [count].
  destruct IH as [I1 I2]; [intros I; apply H1; right; exact I|intros I; apply H2; right; exact I|]. rewrite I1, I2.
  destruct (Ascii.eqb LBRACE c) eqn:E1; [apply Ascii.eqb_eq in E1; subst; exfalso; apply H1; left; reflexivity|].
  destruct (Ascii.eqb RBRACE c) eqn:E2; [apply Ascii.eqb_eq in E2; subst; exfalso; apply H2; left; reflexivity|]. split; reflexivity.
Qed.
Lemma no_braces_app a b : no_braces (a ++ b) <-> no_braces a /\ no_braces b.
Proof. unfold no_braces. rewrite !in_app_iff. tauto. Qed.
Lemma balanced_plain s : no_braces s -> balanced s.
Proof.
  intros H. split.
  - intros a b ->. apply no_braces_app in H. destruct (count_no_brace a (proj1 H)) as [_ ->]. lia.
  - destruct (count_no_brace s H) as [-> ->]. reflexivity.
Qed.
Lemma balanced_app a b : balanced a -> balanced b -> balanced (a ++ b).
Proof.
  intros [A1 A2] [B1 B2]. split.
  - intros x y E. apply app_eq_app in E. destruct E as (l & [[-> ->]|[-> ->]]).
    + exact (A1 x l eq_refl).
    + rewrite !count_app. pose proof (B1 l y eq_refl). lia.
  - rewrite !count_app. lia.
Qed.
Lemma balanced_brace b : balanced b -> balanced (LBRACE :: b ++ [RBRACE]).
Proof.
  intros [H1 H2]. split.
  - intros x y E. destruct x as [|c x]; [cbn; lia|]. injection E as <- E. cbn [count]. rewrite eqb_same.
    change (Ascii.eqb RBRACE LBRACE) with false. cbv iota. apply app_eq_app in E. destruct E as (l & [[-> ->]|[-> E]]).
    + pose proof (H1 x l eq_refl). lia.
    + rewrite !count_app. destruct l as [|d l]; [cbn [count]; lia|]. injection E as <- E. symmetry in E. apply app_eq_nil in E. destruct E as [-> ->].
      cbn [count]. rewrite eqb_same. change (Ascii.eqb LBRACE RBRACE) with false. cbv iota. lia.
  - cbn [count]. rewrite !count_app. cbn [count]. rewrite !eqb_same. change (Ascii.eqb LBRACE RBRACE) with false.
    change (Ascii.eqb RBRACE LBRACE) with false. cbv iota. lia.
Qed.

Section Reserved.
Variable ld : bytes -> bool.
Variable nd : bool.

Lemma one_hole n b t : is_name n -> balanced b -> token_with_spec ld nd n (B "{:" ++ b ++ B "}") = OToken t ->
  tokenize ld nd (B "{" ++ n ++ B ":" ++ b ++ B "}") = Some (Tokens [t]).
Proof.
  intros N W T. pose proof (meaning_lemma ld nd [HoleSpec n b] Complete) as M.
  cbn [write flat_map write_piece write_ending] in M. rewrite !app_nil_r in M.
  rewrite M; [|split; [split; assumption|exact I]|exact I].
  unfold meaning. cbn [map piece_outcome]. rewrite T. reflexivity.
Qed.
Lemma name_ok n : forallb (fun c => existsb (Ascii.eqb c) name_alphabet) n = true -> is_name n.
Proof.
  intros H c I. rewrite forallb_forall in H. specialize (H c I). apply existsb_exists in H.
  destruct H as (x & J & E). apply Ascii.eqb_eq in E. subst. exact J.
Qed.
Lemma spec_shape a c : B "{:" ++ (a ++ [c]) ++ B "}" = (B "{:" ++ a) ++ [c; RBRACE].
Proof. rewrite <- !app_assoc. reflexivity. Qed.
Lemma asserted_ok a c t : asserted nd ((B "{:" ++ a) ++ [c; RBRACE]) t = OToken t.
Proof.
  unfold asserted. rewrite !app_length. cbn [length B list_ascii_of_string].
  replace (Nat.leb (2 + length a + 2) 2) with false; [rewrite andb_false_r; reflexivity|]. symmetry. apply Nat.leb_gt. lia.
Qed.

Lemma reserved_lemma a c : no_braces a -> c <> LBRACE -> c <> RBRACE ->
  let spec := B "{:" ++ (a ++ [c]) ++ B "}" in
  tokenize ld nd (B "{process:" ++ (a ++ [c]) ++ B "}") =
    Some (Tokens [if Ascii.eqb c "s" then TProcessName spec else TProcessId spec]) /\
  tokenize ld nd (B "{thread:" ++ (a ++ [c]) ++ B "}") =
    Some (Tokens [if Ascii.eqb c "d" then TThreadId spec else if Ascii.eqb c "s" then TThreadName spec else TThreadHex spec]) /\
  tokenize ld nd (B "{severity:" ++ (a ++ [c]) ++ B "}") =
    Some (Tokens [if Ascii.eqb c "d" then TSeverityNum spec else TSeverityUser spec]) /\
  tokenize ld nd (B "{timestamp:" ++ a ++ B "d" ++ B "}") = Some (Tokens [TTimestampNum (B "{:" ++ a ++ B "d" ++ B "}")]).
Proof.
  intros H C1 C2 spec.
  assert (NB : no_braces (a ++ [c])).
  { apply no_braces_app. split; [exact H|]. split; intros [I|[]]; congruence. }
  pose proof (balanced_plain _ NB) as BP.
  refine (conj _ (conj _ (conj _ _))).
  - apply (one_hole (B "process")); [apply name_ok; reflexivity|exact BP|].
    unfold token_with_spec. change (bytes_eqb (B "process") (B "message")) with false. change (bytes_eqb (B "process") (B "process")) with true.
    cbv iota. unfold spec. rewrite spec_shape, type_char_app. apply asserted_ok.
  - apply (one_hole (B "thread")); [apply name_ok; reflexivity|exact BP|].
    unfold token_with_spec. change (bytes_eqb (B "thread") (B "message")) with false. change (bytes_eqb (B "thread") (B "process")) with false.
    change (bytes_eqb (B "thread") (B "thread")) with true.
    cbv iota. unfold spec. rewrite spec_shape, type_char_app. apply asserted_ok.
  - apply (one_hole (B "severity")); [apply name_ok; reflexivity|exact BP|].
    unfold token_with_spec. change (bytes_eqb (B "severity") (B "message")) with false. change (bytes_eqb (B "severity") (B "process")) with false.
    change (bytes_eqb (B "severity") (B "thread")) with false. change (bytes_eqb (B "severity") (B "severity")) with true.
    cbv iota. unfold spec. rewrite spec_shape, type_char_app. apply asserted_ok.
  - assert (NB' : no_braces (a ++ B "d")).
    { apply no_braces_app. split; [exact H|]. split; intros [I|[]]; discriminate I. }
    replace (a ++ B "d" ++ B "}") with ((a ++ B "d") ++ B "}") by (rewrite <- app_assoc; reflexivity).
    apply (one_hole (B "timestamp")); [apply name_ok; reflexivity|exact (balanced_plain _ NB')|].
    unfold token_with_spec. change (bytes_eqb (B "timestamp") (B "message")) with false. change (bytes_eqb (B "timestamp") (B "process")) with false.
    change (bytes_eqb (B "timestamp") (B "thread")) with false. change (bytes_eqb (B "timestamp") (B "severity")) with false.
    change (bytes_eqb (B "timestamp") (B "timestamp")) with true.
    cbv iota. change (B "d") with ["d"%char]. rewrite spec_shape, type_char_app. apply asserted_ok.
Qed.

Lemma timestamp_lemma p a : p <> [] -> no_braces p -> no_braces a ->
  tokenize ld nd (B "{timestamp:{" ++ p ++ B "}" ++ a ++ B "s}") = Some (Tokens [TTimestampUser p (B "{:" ++ a ++ B "s}") true]) /\
  tokenize ld nd (B "{timestamp:{" ++ p ++ B "}" ++ a ++ B "l}") = Some (Tokens [TTimestampUser p (B "{:" ++ a ++ B "s}") false]).
Proof.
  intros P HP HA.
  assert (EX : forall g r, extract g (B "{:{" ++ p ++ RBRACE :: r) = TTimestampUser p (B "{:" ++ r) g).
  { intros g r. unfold extract. change (skipn 2 (B "{:{" ++ p ++ RBRACE :: r)) with (LBRACE :: p ++ RBRACE :: r).
    cbv iota beta. rewrite eqb_same. rewrite until_brace_app by apply HP. destruct p; [contradiction|reflexivity]. }
  assert (BAL : forall c, c <> LBRACE -> c <> RBRACE -> balanced (((LBRACE :: p ++ [RBRACE]) ++ a) ++ [c])).
  { intros c C1 C2. apply balanced_app; [apply balanced_app|].
    - apply balanced_brace. apply balanced_plain. exact HP.
    - apply balanced_plain. exact HA.
    - apply balanced_plain. split; intros [I|[]]; congruence. }
  assert (SH : forall c, B "{timestamp:{" ++ p ++ B "}" ++ a ++ [c] ++ B "}" =
                         B "{" ++ B "timestamp" ++ B ":" ++ (((LBRACE :: p ++ [RBRACE]) ++ a) ++ [c]) ++ B "}").
  { intros c. cbn [B list_ascii_of_string app]. rewrite <- !app_assoc. cbn [app]. reflexivity. }
  assert (SP : forall c, B "{:" ++ (((LBRACE :: p ++ [RBRACE]) ++ a) ++ [c]) ++ B "}" = B "{:{" ++ p ++ RBRACE :: a ++ [c; RBRACE]).
  { intros c. cbn [B list_ascii_of_string app]. rewrite <- !app_assoc. cbn [app]. reflexivity. }
  split.
  - change (B "s}") with (["s"%char] ++ B "}") at 1. rewrite SH. apply one_hole; [apply name_ok; reflexivity|apply BAL; discriminate|].
    unfold token_with_spec. change (bytes_eqb (B "timestamp") (B "message")) with false. change (bytes_eqb (B "timestamp") (B "process")) with false.
    change (bytes_eqb (B "timestamp") (B "thread")) with false. change (bytes_eqb (B "timestamp") (B "severity")) with false.
    change (bytes_eqb (B "timestamp") (B "timestamp")) with true. cbv iota.
    rewrite spec_shape, type_char_app, asserted_ok. change (Ascii.eqb "s" "d") with false. change (Ascii.eqb "s" "l") with false. cbv iota.
    rewrite <- spec_shape, SP, EX. reflexivity.
  - change (B "l}") with (["l"%char] ++ B "}") at 1. rewrite SH. apply one_hole; [apply name_ok; reflexivity|apply BAL; discriminate|].
    unfold token_with_spec. change (bytes_eqb (B "timestamp") (B "message")) with false. change (bytes_eqb (B "timestamp") (B "process")) with false.
    change (bytes_eqb (B "timestamp") (B "thread")) with false. change (bytes_eqb (B "timestamp") (B "severity")) with false.
    change (bytes_eqb (B "timestamp") (B "timestamp")) with true. cbv iota.
    rewrite spec_shape, type_char_app, asserted_ok. change (Ascii.eqb "l" "d") with false. change (Ascii.eqb "l" "l") with true. cbv iota.
    rewrite set_type_app, <- spec_shape, SP, EX. reflexivity.
Qed.

(** `{...}` at the level of the pattern. *)
Lemma leftover_hole b o : balanced b -> parse_leftover (B "{:" ++ b ++ B "}") = o ->
  tokenize ld nd (B "{...:" ++ b ++ B "}") = Some (collect [o] (Tokens [])).
Proof.
  intros W T. pose proof (meaning_lemma ld nd [HoleSpec (B "...") b] Complete) as M.
  cbn [write flat_map write_piece write_ending] in M. rewrite !app_nil_r in M.
  change (B "{...:" ++ b ++ B "}") with (B "{" ++ B "..." ++ B ":" ++ b ++ B "}").
  rewrite M; [|split; [split; [apply name_ok; reflexivity|exact W]|exact I]|exact I].
  unfold meaning. cbn [map piece_outcome ending_result]. do 2 f_equal.
  change (token_with_spec ld nd (B "...") (B "{:" ++ b ++ B "}")) with (parse_leftover (B "{:" ++ b ++ B "}")). rewrite T. reflexivity.
Qed.
End Reserved.
