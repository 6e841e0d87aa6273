(** Proofs about the string formatter: patterns. *)
From Verif Require Import Base ParserModel FmtModel FmtSpec FmtProofs FmtSubProofs StrModel StrSpec StrProofs.
From Verif Require ParserSpec ParserProofs ParserSubProofs Values JsonFmtModel.
Import ParserSpec(is_name, no_braces, balanced, is_short_spec).
Open Scope N_scope.

(** ---- the text of a specification ---- *)

Definition plain_facts (c : ascii) : bool :=
  (if letter c then negb (Ascii.eqb c LBRACE) && negb (Ascii.eqb c RBRACE) else true)
  && (match digit_number c with Some d => if d <? 10 then negb (letter c) && ParserModel.is_digit c && existsb (Ascii.eqb c) (B "0123456789") else true | None => true end)
  && (if ParserModel.is_align c then match align_char c with Some _ => true | None => false end else true)
  && Bool.eqb (ParserModel.is_digit c) (is_digit c).
Lemma plain_ok : forall c, plain_facts c = true.
Proof. per_byte. Qed.

Lemma letter_brace c : letter c = true -> c <> LBRACE /\ c <> RBRACE.
Proof.
  intros H. assert (P := plain_ok c). unfold plain_facts in P. rewrite H, !andb_true_iff, !negb_true_iff in P.
  destruct P as [[[[P1 P2] _] _] _]. apply Ascii.eqb_neq in P1, P2. auto.
Qed.
Lemma digit_chars ds : forall acc v, read_digits 10 acc ds = Some v ->
  Forall (fun c => letter c = false /\ ParserModel.is_digit c = true /\ In c (B "0123456789")) ds.
Proof.
  induction ds as [|c ds IH]; intros acc v H; [constructor|]. cbn [read_digits] in H.
  destruct (digit_number c) as [d|] eqn:E; [|discriminate]. destruct (d <? 10) eqn:D; [|discriminate].
  constructor; [|apply (IH _ _ H)]. assert (P := plain_ok c). unfold plain_facts in P. rewrite E, D, !andb_true_iff, negb_true_iff in P.
  destruct P as [[[_ [[P1 P2] P3]] _] _]. refine (conj P1 (conj P2 _)). apply existsb_exists in P3 as (x & I & Q).
  apply Ascii.eqb_eq in Q. subst. exact I.
Qed.
Lemma rank_align c : 2 <= rank c -> ParserModel.is_align c = false.
Proof.
  intros H. assert (P := plain_ok c). unfold plain_facts in P. rewrite !andb_true_iff in P. destruct P as [[_ P] _].
  rewrite (rank2 c H) in P. destruct (ParserModel.is_align c); [discriminate|reflexivity].
Qed.
Lemma rank_digit c : 6 <= rank c -> ParserModel.is_digit c = false.
Proof.
  intros H. assert (P := plain_ok c). unfold plain_facts in P. rewrite !andb_true_iff in P. destruct P as [_ P].
  apply Bool.eqb_prop in P. rewrite P. apply (rank6 c H).
Qed.

Definition body_text (w : wish) : bytes :=
  align_text (w_align w) ++ opt_text (w_sign w)
   ++ (if w_hash w then B "#" else []) ++ (if w_zero w then B "0" else [])
   ++ match w_width w with Some (_, ds) => ds | None => [] end
   ++ match w_precision w with Some (_, ds) => "."%char :: ds | None => [] end.
Lemma after_body w : after_colon w = opt_text (w_fill w) ++ body_text w ++ opt_text (w_type w).
Proof. unfold after_colon, wish_text, body_text. cbn [tl]. rewrite <- !app_assoc. reflexivity. Qed.

Definition plain_char (c : ascii) : Prop := letter c = false /\ c <> LBRACE /\ c <> RBRACE.
Lemma body_chars a w : sensible a w -> Forall plain_char (body_text w).
Proof.
  intros (_ & FL & _ & SG & _ & _ & W & PR & T). unfold body_text.
  assert (D : forall ds v, read_digits 10 0 ds = Some v -> Forall plain_char ds).
  { intros ds v H. assert (H1 := digit_chars ds 0 v H). assert (H2 := digits_rank ds 0 v H). revert H1 H2. clear.
    induction ds as [|c ds IH]; intros H1 H2; [constructor|]. apply Forall_cons_iff in H1 as [A1 B1], H2 as [A2 B2].
    constructor; [|apply IH; assumption]. unfold plain_char. tauto. }
  assert (ONE : forall c, plain_char c -> Forall plain_char [c]) by (intros c H; constructor; [exact H|constructor]).
  repeat (apply Forall_app; split).
  - destruct (w_align w); cbn; repeat constructor; unfold plain_char; repeat split; discriminate.
  - destruct (w_sign w) as [c|]; [|constructor]. apply ONE. destruct SG as [[-> | [-> | ->]] _]; repeat split; discriminate.
  - destruct (w_hash w); [|constructor]. apply (ONE "#"%char). repeat split; discriminate.
  - destruct (w_zero w); [|constructor]. apply (ONE "0"%char). repeat split; discriminate.
  - destruct (w_width w) as [[n ds]|]; [|constructor]. destruct W as [(_ & RD & _) _]. apply (D ds n RD).
  - destruct (w_precision w) as [[n ds]|]; [|constructor]. destruct PR as ((_ & RD & _) & _).
    constructor; [repeat split; discriminate|apply (D ds n RD)].
Qed.

Lemma forall_no_braces s : Forall (fun c => c <> LBRACE /\ c <> RBRACE) s -> no_braces s.
Proof. intros F. rewrite Forall_forall in F. split; intros I; destruct (F _ I); congruence. Qed.
Lemma no_braces_forall s : no_braces s -> Forall (fun c => c <> LBRACE /\ c <> RBRACE) s.
Proof. intros [H1 H2]. apply Forall_forall. intros c I. split; intros ->; contradiction. Qed.

Lemma after_no_braces w : well_written w -> no_braces (after_colon w).
Proof.
  intros (a & S1). assert (BC := body_chars a w S1). destruct S1 as (_ & FL & _ & _ & _ & _ & _ & _ & T).
  rewrite after_body. apply forall_no_braces. rewrite !Forall_app. refine (conj _ (conj _ _)).
  - destruct (w_fill w) as [c|]; [|constructor]. constructor; [tauto|constructor].
  - eapply Forall_impl; [|exact BC]. intros c (_ & H). exact H.
  - destruct (w_type w) as [c|]; [|constructor]. constructor; [apply letter_brace; exact T|constructor].
Qed.

(** The last character is the type, or is no letter. *)
Lemma after_shape w : well_written w -> exists x c, after_colon w = x ++ [c]
  /\ match w_type w with Some t => c = t /\ x = opt_text (w_fill w) ++ body_text w | None => letter c = false end.
Proof.
  intros (a & S1). assert (BC := body_chars a w S1). destruct S1 as (NE & FL & _ & _ & _ & _ & _ & _ & T).
  rewrite after_body. destruct (w_type w) as [t|] eqn:ET.
  - exists (opt_text (w_fill w) ++ body_text w), t. split; [rewrite <- app_assoc; reflexivity|]. split; reflexivity.
  - cbn [opt_text]. rewrite app_nil_r. destruct (body_text w) as [|b bs] eqn:EB.
    + exfalso. assert (AD : w_align w = ADefault).
      { unfold body_text in EB. destruct (w_align w); try discriminate EB. reflexivity. }
      destruct (w_fill w) as [c|] eqn:EF; [destruct FL as (_ & _ & _ & FL); congruence|].
      apply NE. assert (Q := after_body w). rewrite EF, EB, ET in Q. unfold after_colon, wish_text in *. cbn [tl] in Q. rewrite Q. reflexivity.
    + assert (NN : b :: bs <> []) by discriminate. destruct (exists_last NN) as (x & c & Q). rewrite Q in *.
      exists (opt_text (w_fill w) ++ x), c. split; [rewrite <- app_assoc; reflexivity|].
      apply Forall_app in BC as [_ BC]. apply Forall_cons_iff in BC as [BC _]. apply BC.
Qed.
Lemma after_not_empty w : well_written w -> exists c s, after_colon w = c :: s /\ c <> LBRACE /\ c <> RBRACE.
Proof.
  intros H. assert (NB := no_braces_forall _ (after_no_braces w H)). destruct (after_shape w H) as (x & c & E & _).
  destruct (after_colon w) as [|d s]; [destruct x; discriminate|]. exists d, s. apply Forall_cons_iff in NB as [NB _]. split; [reflexivity|exact NB].
Qed.

Lemma spec_braces w : B "{:" ++ after_colon w ++ B "}" = B "{" ++ spec_text (Some w) ++ B "}".
Proof. reflexivity. Qed.

(** The letter the parser looks at. *)
Lemma last_letter w t : well_written w -> letter t = true ->
  Ascii.eqb (type_char (B "{:" ++ after_colon w ++ B "}")) t = typed t (Some w).
Proof.
  intros H L. destruct (after_shape w H) as (x & c & E & Q). rewrite E, ParserSubProofs.spec_shape, ParserSubProofs.type_char_app.
  unfold typed, type_of, layout, asks. cbn [sp_type]. destruct (w_type w) as [u|]; [destruct Q as [-> _]; reflexivity|].
  destruct (Ascii.eqb_spec c t) as [->|_]; [congruence|]. destruct (Ascii.eqb_spec NUL t) as [<-|_]; [discriminate L|reflexivity].
Qed.
Lemma asserted_spec nd w t : well_written w -> asserted nd (B "{:" ++ after_colon w ++ B "}") t = OToken t.
Proof. intros H. destruct (after_shape w H) as (x & c & E & _). rewrite E, ParserSubProofs.spec_shape. apply ParserSubProofs.asserted_ok. Qed.

(** A specification of type [l] becomes one of type [s]. *)
Definition text_wish (w : wish) : wish :=
  Wish (w_fill w) (w_align w) (w_sign w) (w_hash w) (w_zero w) (w_width w) (w_precision w) (Some "s"%char).
Lemma text_wish_text w t : w_type w = Some t -> after_colon w = (opt_text (w_fill w) ++ body_text w) ++ [t]
  /\ after_colon (text_wish w) = (opt_text (w_fill w) ++ body_text w) ++ ["s"%char].
Proof. intros H. rewrite !after_body, H. split; rewrite <- app_assoc; reflexivity. Qed.
Lemma text_wish_suits a w : sensible a w -> sensible a (text_wish w).
Proof.
  intros (NE & FL & AL & SG & H & Z & W & PR & T). unfold sensible. cbn [text_wish w_fill w_align w_sign w_hash w_zero w_width w_precision w_type].
  refine (conj _ (conj FL (conj AL (conj SG (conj H (conj Z (conj W (conj PR eq_refl)))))))).
  intros E. assert (Q := after_body (text_wish w)). unfold after_colon in Q. rewrite E in Q. cbn [text_wish w_type opt_text] in Q.
  change (tl (B ":")) with (@nil ascii) in Q. symmetry in Q. apply app_eq_nil in Q as [_ Q]. apply app_eq_nil in Q as [_ Q]. discriminate.
Qed.
Lemma text_wish_shows w s out : shows_text (Some (text_wish w)) s out <-> shows_text (Some w) s out.
Proof. unfold shows_text, cut, layout, asks. cbn [text_wish w_fill w_align w_sign w_hash w_zero w_width w_precision w_type sp_align sp_fill sp_width sp_precision]. tauto. Qed.

(** Short specifications. *)
Lemma brief_short types w : brief types w -> well_written w -> is_short_spec types (after_colon w).
Proof.
  intros (F & AL & SG & H & Z & PR & t & T & I) (a & S1). rewrite after_body. unfold body_text. rewrite F, SG, H, Z, PR, T. cbn [opt_text app].
  exists (align_text (w_align w)), (match w_width w with Some (_, ds) => ds | None => [] end), t.
  refine (conj _ (conj _ (conj _ I))).
  - rewrite app_nil_r, <- app_assoc. reflexivity.
  - destruct (w_align w); try congruence; cbn [align_text]; try (left; reflexivity); right; eexists; (split; [reflexivity|]); cbn; tauto.
  - destruct S1 as (_ & _ & _ & _ & _ & _ & W & _). destruct (w_width w) as [[n ds]|]; [|intros c []].
    destruct W as [(_ & RD & _) _]. assert (D := digit_chars ds 0 n RD). rewrite Forall_forall in D. intros c J. apply (D c J).
Qed.

(** The specification after a default. *)
Lemma maybe_none p s : p (peek s) = false -> (s <> [] \/ s = []) -> maybe p s = ([], s).
Proof. intros H _. destruct s as [|c s]; [reflexivity|]. cbn [peek hd] in H. unfold maybe. rewrite H. reflexivity. Qed.

Definition fill_part (s : bytes) : bytes * bytes :=
  match s with
  | c :: s' => if match s' with a :: _ => ParserModel.is_align a | [] => false end then ([c], s') else ([], s)
  | [] => ([], []) end.
Definition precision_part (s5 : bytes) : bytes * bytes :=
  match s5 with
  | c :: s' => if Ascii.eqb c "." then match digits s' with ([], _) => ([], s5) | (d, r) => (c :: d, r) end
               else ([], s5)
  | [] => ([], []) end.
Lemma long_spec_parts s : long_spec s =
  (let '(f, s1) := fill_part s in
  let '(a, s2) := maybe ParserModel.is_align s1 in
  let '(h, s3) := maybe (Ascii.eqb "#") s2 in
  let '(z, s4) := maybe (Ascii.eqb "0") s3 in
  let '(w, s5) := digits s4 in
  let '(p, s6) := precision_part s5 in
  let '(t, s7) := maybe (fun c => Ascii.eqb c "s" || Ascii.eqb c "d" || Ascii.eqb c "f" || Ascii.eqb c "x") s6 in
  (f ++ a ++ h ++ z ++ w ++ p ++ t, s7)).
Proof. reflexivity. Qed.

Lemma long_spec_ok w : well_written w -> loose w -> long_spec (after_colon w ++ [RBRACE]) = (after_colon w, [RBRACE]).
Proof.
  intros (a & OK) (AL & SG & TY).
  assert (BODY := after_body w). unfold body_text in BODY. rewrite SG in BODY. cbn [opt_text app] in BODY.
  pose (t7 := (opt_text (w_type w) ++ [RBRACE] : bytes)).
  pose (pr := (match w_precision w with Some (_, ds) => "."%char :: ds | None => [] end : bytes)).
  pose (t6 := (pr ++ t7 : bytes)). pose (wd := (match w_width w with Some (_, ds) => ds | None => [] end : bytes)).
  pose (t5 := (wd ++ t6 : bytes)). pose (zr := (if w_zero w then B "0" else [] : bytes)). pose (t4 := (zr ++ t5 : bytes)).
  pose (hs := (if w_hash w then B "#" else [] : bytes)). pose (t3 := (hs ++ t4 : bytes)).
  assert (P7 : 7 <= rank (peek t7)) by exact (peek7 w [] a OK). assert (P6 : 6 <= rank (peek t6)) by exact (peek6 w [] a OK).
  assert (P5 : 5 <= rank (peek t5)) by exact (peek5 w [] a OK). assert (P4 : 4 <= rank (peek t4)) by exact (peek4 w [] a OK).
  assert (P2 : 2 <= rank (peek t3)) by (assert (Q := peek2 w [] a OK); rewrite SG in Q; exact Q).
  assert (SEC : w_fill w = None -> w_align w = ADefault -> 2 <= rank (peek (tl t3))).
  { intros F A. assert (Q := second2 w [] a OK F A). rewrite SG in Q. apply Q. }
  assert (SP : wish_text w ++ [RBRACE] = ":"%char :: opt_text (w_fill w) ++ align_text (w_align w) ++ t3).
  { assert (Q := wish_split w []). rewrite SG in Q. exact Q. }
  assert (E : after_colon w ++ [RBRACE] = opt_text (w_fill w) ++ align_text (w_align w) ++ t3).
  { unfold after_colon. change (tl (wish_text w) ++ [RBRACE]) with (tl (wish_text w ++ [RBRACE])). rewrite SP. reflexivity. }
  rewrite E, long_spec_parts.
  assert (FS : fill_part (opt_text (w_fill w) ++ align_text (w_align w) ++ t3) = (opt_text (w_fill w), align_text (w_align w) ++ t3)).
  { destruct OK as (_ & FL & _). destruct (w_fill w) as [c|] eqn:F.
    - destruct FL as (_ & _ & _ & FL). destruct (w_align w); try congruence; reflexivity.
    - cbn [opt_text app]. destruct (w_align w) eqn:A; try congruence.
      4: { assert (S1 := SEC eq_refl eq_refl). cbn [align_text app]. destruct t3 as [|c s]; [reflexivity|]. cbn [tl] in S1.
           destruct s as [|d s]; [reflexivity|]. cbn [peek hd] in S1. unfold fill_part. rewrite (rank_align d S1). reflexivity. }
      all: cbn [align_text B list_ascii_of_string app]; destruct t3 as [|d s]; [reflexivity|]; cbn [peek hd] in P2;
           unfold fill_part; rewrite (rank_align d P2); reflexivity. }
  rewrite FS. cbv beta iota.
  assert (AS : maybe ParserModel.is_align (align_text (w_align w) ++ t3) = (align_text (w_align w), t3)).
  { destruct (w_align w); try congruence; try reflexivity. cbn [align_text app]. apply maybe_none; [|destruct t3; auto; left; discriminate].
    apply rank_align. exact P2. }
  rewrite AS. cbv beta iota.
  assert (HS : maybe (Ascii.eqb "#") t3 = (hs, t4)).
  { unfold t3, hs. destruct (w_hash w); [reflexivity|]. cbn [app]. apply maybe_none; [|destruct t4; auto; left; discriminate].
    rewrite Ascii.eqb_sym. apply rank4. exact P4. }
  rewrite HS. cbv beta iota.
  assert (ZS : maybe (Ascii.eqb "0") t4 = (zr, t5)).
  { unfold t4, zr. destruct (w_zero w); [reflexivity|]. cbn [app]. apply maybe_none; [|destruct t5; auto; left; discriminate].
    rewrite Ascii.eqb_sym. apply rank5. exact P5. }
  rewrite ZS. cbv beta iota.
  assert (DG : forall ds n t, digits_of n ds -> 6 <= rank (peek t) -> digits (ds ++ t) = (ds, t)).
  { intros ds n t (_ & RD & _) R. apply ParserSubProofs.digits_app.
    - assert (D := digit_chars ds 0 n RD). rewrite Forall_forall in D. intros c I. apply (D c I).
    - intros c s ->. apply rank_digit. exact R. }
  assert (WS : digits t5 = (wd, t6)).
  { destruct OK as (_ & _ & _ & _ & _ & _ & W & _). unfold t5, wd. destruct (w_width w) as [[n ds]|].
    - apply (DG ds n); [apply W|exact P6].
    - cbn [app]. destruct t6 as [|c s]; [reflexivity|]. cbn [peek hd] in P6. cbn [digits]. rewrite (rank_digit c P6). reflexivity. }
  rewrite WS. cbv beta iota.
  assert (PS : precision_part t6 = (pr, t7)).
  { destruct OK as (_ & _ & _ & _ & _ & _ & _ & PR & _). unfold t6, pr. destruct (w_precision w) as [[n ds]|].
    - cbn [app precision_part]. rewrite Ascii.eqb_refl. destruct PR as (PR & _). rewrite (DG ds n t7) by (exact PR || lia).
      destruct PR as (NE & _). destruct ds; [congruence|reflexivity].
    - cbn [app]. destruct t7 as [|c s]; [reflexivity|]. cbn [peek hd] in P7. unfold precision_part. rewrite (rank7 c P7). reflexivity. }
  rewrite PS. cbv beta iota.
  assert (TS : maybe (fun c => Ascii.eqb c "s" || Ascii.eqb c "d" || Ascii.eqb c "f" || Ascii.eqb c "x") t7 = (opt_text (w_type w), [RBRACE])).
  { unfold t7. destruct (w_type w) as [t|]; [|reflexivity]. cbn in TY. cbn [opt_text app].
    repeat destruct TY as [TY|TY]; try contradiction; subst t; reflexivity. }
  rewrite TS. cbv beta iota. f_equal. rewrite BODY. rewrite <- !app_assoc. reflexivity.
Qed.

(** ---- defaults ---- *)

Lemma starts_with_split p s : starts_with p s = true -> exists r, s = p ++ r.
Proof.
  revert s. induction p as [|c p IH]; intros s H; [exists s; reflexivity|]. destruct s as [|d s]; [discriminate|].
  cbn [starts_with] in H. apply andb_true_iff in H as [H1 H2]. apply Ascii.eqb_eq in H1. subst d.
  destruct (IH s H2) as (r & ->). exists r. reflexivity.
Qed.

Lemma until_stop k s r : ~ In ":"%char k -> ~ ParserSpec.occurs (":"%char :: k) s -> starts_with (B "}") r = false ->
  text_until (":"%char :: k) (s ++ (":"%char :: k) ++ r) = Some (s, r).
Proof.
  intros K O R. induction s as [|c s IH].
  - cbn [app text_until]. change (":"%char :: k ++ r) with ((":"%char :: k) ++ r). rewrite ParserSubProofs.starts_with_app.
    rewrite ParserSubProofs.skipn_app_length, R. reflexivity.
  - assert (NO : ~ ParserSpec.occurs (":"%char :: k) s) by (intros (x & y & ->); apply O; exists (c :: x), y; reflexivity).
    specialize (IH NO). remember ((":"%char :: k) ++ r) as X eqn:EX. cbn [app text_until]. rewrite IH.
    destruct (starts_with (":"%char :: k) (c :: s ++ X)) eqn:E; [|reflexivity]. exfalso. subst X.
      apply starts_with_split in E as (x & E). apply (f_equal (@tl ascii)) in E as E2. apply (f_equal (hd NUL)) in E as E1. cbn [hd tl app] in E1, E2. subst c.
      apply app_eq_app in E2. destruct E2 as (l & [[-> E2]|[-> E2]]).
      * apply O. exists [], l. reflexivity.
      * destruct l as [|d l]; [apply O; exists [], []; rewrite !app_nil_r; reflexivity|].
        apply (f_equal (hd NUL)) in E2. cbn [hd app] in E2. subst d. apply K. apply in_or_app. right. left. reflexivity.
Qed.

Section Patterns.
Variable lexical_double : bytes -> bool.
Variable ndebug : bool.

Lemma parse_otherwise_ok t w : ~ ParserSpec.occurs (B ":default}") t -> well_written w -> loose w ->
  parse_otherwise (B "{:" ++ (B "{" ++ t ++ B ":default}" ++ after_colon w) ++ B "}") = Some (t, after_colon w).
Proof.
  intros O W L. unfold parse_otherwise.
  replace (B "{:" ++ (B "{" ++ t ++ B ":default}" ++ after_colon w) ++ B "}")
    with (B "{:{" ++ t ++ B ":default}" ++ after_colon w ++ [RBRACE]) by (cbn [B list_ascii_of_string app]; rewrite <- !app_assoc; reflexivity).
  change (eat "{" (B "{:{" ++ t ++ B ":default}" ++ after_colon w ++ [RBRACE])) with (Some (B ":{" ++ t ++ B ":default}" ++ after_colon w ++ [RBRACE])).
  cbv beta iota.
  change (eat ":" (B ":{" ++ t ++ B ":default}" ++ after_colon w ++ [RBRACE])) with (Some (B "{" ++ t ++ B ":default}" ++ after_colon w ++ [RBRACE])).
  cbv beta iota.
  change (eat "{" (B "{" ++ t ++ B ":default}" ++ after_colon w ++ [RBRACE])) with (Some (t ++ B ":default}" ++ after_colon w ++ [RBRACE])).
  cbv beta iota.
  assert (U := until_stop (B "default}") t (after_colon w ++ [RBRACE])). 
  change (":"%char :: B "default}") with (B ":default}") in U. rewrite U; clear U.
  - rewrite (long_spec_ok w W L). reflexivity.
  - intros I. cbn in I. repeat destruct I as [I|I]; try discriminate; contradiction.
  - exact O.
  - destruct (after_not_empty w W) as (c & s & -> & _ & R). cbn [app B list_ascii_of_string starts_with]. rewrite andb_true_r.
    apply Ascii.eqb_neq. intros E. apply R. symmetry. exact E.
Qed.

Lemma parse_otherwise_plain s c : c <> LBRACE -> parse_otherwise (B "{:" ++ c :: s) = None.
Proof.
  intros H. unfold parse_otherwise. change (eat "{" (B "{:" ++ c :: s)) with (Some (":"%char :: c :: s)). cbv beta iota.
  change (eat ":" (":"%char :: c :: s)) with (Some (c :: s)). cbv beta iota. unfold eat at 1. change "{"%char with LBRACE.
  apply Ascii.eqb_neq in H. rewrite H. reflexivity.
Qed.

Lemma not_reserved n : ~ In n reserved ->
  bytes_eqb n (B "message") = false /\ bytes_eqb n (B "process") = false /\ bytes_eqb n (B "thread") = false
  /\ bytes_eqb n (B "severity") = false /\ bytes_eqb n (B "timestamp") = false /\ bytes_eqb n (B "...") = false.
Proof.
  intros H. repeat split; apply bytes_eqb_false; intros ->; apply H; unfold reserved; cbn [In]; tauto.
Qed.

(** ---- items as the parser's pieces ---- *)

Definition item_piece (i : item) : ParserSpec.piece :=
  match i with
  | Words t => ParserSpec.Text t
  | Slot n None => ParserSpec.Hole n
  | Slot n (Some w) => ParserSpec.HoleSpec n (after_colon w)
  | Fallback n t w => ParserSpec.HoleSpec n (B "{" ++ t ++ B ":default}" ++ after_colon w)
  | Clock p w => ParserSpec.HoleSpec (B "timestamp") (B "{" ++ p ++ B "}" ++ after_colon w)
  | Rest ps sep w => ParserSpec.HoleSpec (B "...") (rest_body ps sep w)
  end.

Lemma item_piece_text i : ParserSpec.write_piece (item_piece i) = item_text i.
Proof. destruct i as [t|n [w|]|n t w|p w|ps sep w]; reflexivity. Qed.
Lemma pattern_piece_text is : ParserSpec.write (map item_piece is) = pattern_text is.
Proof.
  unfold ParserSpec.write, pattern_text. induction is as [|i is IH]; [reflexivity|]. cbn [map flat_map]. rewrite item_piece_text, IH. reflexivity.
Qed.

Lemma fallback_balanced t w : balanced t -> well_written w -> balanced (B "{" ++ t ++ B ":default}" ++ after_colon w).
Proof.
  intros T W. replace (B "{" ++ t ++ B ":default}" ++ after_colon w) with ((LBRACE :: (t ++ B ":default") ++ [RBRACE]) ++ after_colon w)
    by (cbn [B list_ascii_of_string app]; rewrite <- !app_assoc; reflexivity).
  apply ParserSubProofs.balanced_app; [|apply ParserSubProofs.balanced_plain, after_no_braces; exact W].
  apply ParserSubProofs.balanced_brace. apply ParserSubProofs.balanced_app; [exact T|]. apply ParserSubProofs.balanced_plain.
  split; intros I; cbn in I; repeat destruct I as [I|I]; try discriminate; contradiction.
Qed.
Lemma clock_balanced p w : no_braces p -> well_written w -> balanced (B "{" ++ p ++ B "}" ++ after_colon w).
Proof.
  intros T W. replace (B "{" ++ p ++ B "}" ++ after_colon w) with ((LBRACE :: p ++ [RBRACE]) ++ after_colon w)
    by (cbn [B list_ascii_of_string app]; rewrite <- !app_assoc; reflexivity).
  apply ParserSubProofs.balanced_app; [|apply ParserSubProofs.balanced_plain, after_no_braces; exact W].
  apply ParserSubProofs.balanced_brace, ParserSubProofs.balanced_plain. exact T.
Qed.

Lemma pieces_well_formed is : pattern_ok is -> ParserSpec.well_formed (map item_piece is).
Proof.
  intros [F A]. induction is as [|i is IH]; [exact I|]. apply Forall_cons_iff in F as [FI F]. destruct A as [A1 A2].
  cbn [map ParserSpec.well_formed]. split; [|apply IH; assumption].
  destruct i as [t|n [w|]|n t w|p w|ps sep w]; cbn [item_piece item_ok] in *.
  - split; [exact FI|]. specialize (A1 eq_refl). destruct is as [|j is]; [exact I|]. cbn [map]. destruct j as [u|n [w|]|n u w|p w|ps sep w]; try reflexivity. discriminate A1.
  - split; [apply FI|]. apply ParserSubProofs.balanced_plain, after_no_braces, FI.
  - exact FI.
  - split; [apply FI|]. apply fallback_balanced; apply FI.
  - split; [apply ParserSubProofs.name_ok; reflexivity|]. apply clock_balanced; apply FI.
  - split; [apply ParserSubProofs.name_ok; reflexivity|]. apply FI.
Qed.

Lemma sub_pieces_well_formed ps : Forall part_ok ps -> apart is_words_ ps -> ParserSpec.sub_well_formed (map part_piece ps).
Proof.
  induction ps as [|p ps IH]; intros F A; [exact I|]. apply Forall_cons_iff in F as [FI F]. destruct A as [A1 A2].
  cbn [map ParserSpec.sub_well_formed]. split; [|apply IH; assumption].
  destruct p as [t|[w|]|[w|]]; cbn [part_piece option_map part_ok] in *; try exact I.
  - split; [exact FI|]. specialize (A1 eq_refl). destruct ps as [|j ps]; [exact I|]. cbn [map]. destruct j as [u|[w|]|[w|]]; try reflexivity. discriminate A1.
  - apply brief_short; apply FI.
  - apply brief_short; apply FI.
Qed.
Lemma sub_pieces_tokens ps : map ParserSpec.sub_meaning (map part_piece ps) = map part_token ps.
Proof. rewrite map_map. apply map_ext. intros [t|w|w]; reflexivity. Qed.

Section Formatting.
Variable dbl : spec -> N -> bytes.
Variable double_of : bytes -> N.
Variable sevmap : severity_map.

Notation shows := (item_shows dbl double_of lexical_double sevmap).
Notation prints r t := (write_token dbl double_of sevmap r t).
Definition works (i : item) (t : token) : Prop :=
  forall r, item_suits lexical_double sevmap r i -> exists out, prints r t = Done out /\ shows r i out.

Lemma lift_ok (r : result bytes) (P : bytes -> Prop) : (exists out, r = Ok out /\ P out) -> exists out, lift r = Done out /\ P out.
Proof. intros (out & -> & H). exists out. split; [reflexivity|exact H]. Qed.

Lemma asks_hex : asks_for dbl (B "{:#x}") (Some hex_wish).
Proof. exact (asks_spec dbl (Some hex_wish)). Qed.
Lemma hex_suits : suits_unsigned (Some hex_wish).
Proof.
  split; [|discriminate]. cbn. repeat split; try discriminate; try exact I. all: intros H; discriminate H.
Qed.

Lemma microseconds_range r : (- 2 ^ 63 <= r_nanoseconds r < 2 ^ 63)%Z -> (- 2 ^ 63 <= microseconds r < 2 ^ 63)%Z.
Proof.
  unfold microseconds. intros H. assert (Q := Z.quot_rem' (r_nanoseconds r) 1000). assert (R := Z.rem_bound_abs (r_nanoseconds r) 1000).
  assert (SG := Z.rem_sign_mul (r_nanoseconds r) 1000). specialize (R ltac:(lia)). specialize (SG ltac:(lia)).
  revert Q R SG. generalize (Z.quot (r_nanoseconds r) 1000), (Z.rem (r_nanoseconds r) 1000). intros q m Q R SG.
  generalize dependent (r_nanoseconds r). intros z. nia.
Qed.

(** Placeholders without a type letter of their own meaning. *)
Ltac name_case n N := destruct (bytes_eqb n N) eqn:?E; [apply bytes_eqb_eq in E; subst n|].
Ltac names := cbn [item_shows item_suits slot_shows slot_suits].

Lemma hole_works n : works (Slot n None) (token_without_spec n).
Proof.
  intros r. unfold item_shows, item_suits, slot_shows, slot_suits, token_without_spec.
  assert (AF : asks_for dbl (B "{}") None) by exact (asks_spec dbl None).
  destruct (bytes_eqb n (B "message")).
  { intros [S1 G]. apply lift_ok, show_good_view; assumption. }
  destruct (bytes_eqb n (B "process")).
  { change (typed "s" None) with false. cbv iota. intros [S1 G]. apply lift_ok, show_ulong; assumption. }
  destruct (bytes_eqb n (B "thread")).
  { change (typed "s" None) with false. change (typed "d" None) with false. cbv iota. intros [S1 G]. apply lift_ok, show_ulong; [apply asks_hex|apply hex_suits|exact G]. }
  destruct (bytes_eqb n (B "severity")).
  { change (typed "d" None) with false. cbv iota. intros (out & E). exists out. cbn [write_token]. change (B "{}") with (B "{" ++ spec_text None ++ B "}") at 1. rewrite E. split; reflexivity. }
  destruct (bytes_eqb n (B "timestamp")).
  { change (typed "d" None) with false. change (typed "l" None) with false. cbv iota. intros [S1 G].
    apply lift_ok, show_buffer; [exact AF|split; [exact I|left; reflexivity]|exact G]. }
  destruct (bytes_eqb n (B "...")).
  { intros H. apply (show_others dbl double_of default_leftover default_parts None); [reflexivity|apply asks_empty|exact H]. }
  intros (v & F & H). cbn [write_token]. rewrite (find_first n r v F). destruct (show_value dbl (B "{}") None v AF H) as (out & E & Q).
  exists out. rewrite E. split; [reflexivity|]. exists v. split; assumption.
Qed.

Lemma typed_excludes c d w : typed c w = true -> c <> d -> typed d w = false.
Proof. unfold typed. intros H N. apply Ascii.eqb_eq in H. rewrite H. apply Ascii.eqb_neq. exact N. Qed.

Lemma spec_works n w : n <> B "..." -> well_written w ->
  exists t, token_with_spec lexical_double ndebug n (B "{:" ++ after_colon w ++ B "}") = OToken t /\ works (Slot n (Some w)) t
    /\ (~ In n reserved -> t = TRequired n (B "{:" ++ after_colon w ++ B "}")).
Proof.
  intros D W. unfold token_with_spec.
  assert (LD := last_letter w "d" W eq_refl). assert (LS := last_letter w "s" W eq_refl). assert (LL := last_letter w "l" W eq_refl).
  rewrite LD, LS, LL. clear LD LS LL. rewrite !asserted_spec by exact W.
  assert (AF := asks_spec dbl (Some w)). rewrite <- spec_braces in AF. remember (B "{:" ++ after_colon w ++ B "}") as f eqn:EF.
  unfold works, item_shows, item_suits, slot_shows, slot_suits.
  destruct (bytes_eqb n (B "message")) eqn:E1.
  { eexists. split; [reflexivity|]. split; [|intros N; apply not_reserved in N; destruct N; congruence].
    intros r [S1 G]. apply lift_ok, show_good_view; assumption. }
  destruct (bytes_eqb n (B "process")) eqn:E2.
  { eexists. split; [reflexivity|]. split; [|intros N; apply not_reserved in N; destruct N as (_ & N & _); congruence].
    intros r. destruct (typed "s" (Some w)); intros [S1 G]; apply lift_ok; [apply show_literal|apply show_ulong]; assumption. }
  destruct (bytes_eqb n (B "thread")) eqn:E3.
  { eexists. split; [reflexivity|]. split; [|intros N; apply not_reserved in N; destruct N as (_ & _ & N & _); congruence].
    intros r. destruct (typed "d" (Some w)); [|destruct (typed "s" (Some w))]; intros [S1 G]; apply lift_ok;
      [apply show_ulong|apply show_literal|apply show_ulong]; assumption. }
  destruct (bytes_eqb n (B "severity")) eqn:E4.
  { eexists. split; [reflexivity|]. split; [|intros N; apply not_reserved in N; destruct N as (_ & _ & _ & N & _); congruence].
    intros r. destruct (typed "d" (Some w)); [intros [S1 G]; apply lift_ok, show_int; assumption|].
    intros (out & E). exists out. cbn [write_token]. rewrite <- spec_braces, <- EF in *. rewrite E. split; reflexivity. }
  destruct (bytes_eqb n (B "timestamp")) eqn:E5.
  { eexists. split; [reflexivity|]. split; [|intros N; apply not_reserved in N; destruct N as (_ & _ & _ & _ & N & _); congruence].
    intros r. destruct (typed "d" (Some w)) eqn:TD; [intros [S1 G]; apply lift_ok, show_long; [exact AF|exact S1|apply microseconds_range; exact G]|].
    assert (EX : forall g u, well_written u -> extract g (B "{:" ++ after_colon u ++ B "}") = TTimestampUser default_time_pattern (B "{:" ++ after_colon u ++ B "}") g).
    { intros g u WU. destruct (after_not_empty u WU) as (c & s & -> & C1 & C2). unfold extract.
      change (skipn 2 (B "{:" ++ (c :: s) ++ B "}")) with (c :: s ++ B "}"). cbv beta iota. apply Ascii.eqb_neq in C1. rewrite C1. reflexivity. }
    intros [[S1 S2] G]. destruct (typed "l" (Some w)) eqn:TL.
    - unfold typed, type_of in TL. apply Ascii.eqb_eq in TL. cbn [layout asks sp_type] in TL.
      destruct (w_type w) as [t|] eqn:TT; [subst t|discriminate TL]. destruct (text_wish_text w _ TT) as [T1 T2].
      assert (ST : set_type "s" f = B "{:" ++ after_colon (text_wish w) ++ B "}").
      { rewrite EF, T1, T2, !ParserSubProofs.spec_shape. apply ParserSubProofs.set_type_app. }
      assert (S1' := text_wish_suits _ w S1). rewrite ST, EX by (eexists; exact S1').
      destruct (show_buffer dbl (B "{:" ++ after_colon (text_wish w) ++ B "}") (Some (text_wish w)) (r_stamp r default_time_pattern false) (r_junk r)) as (out & O1 & O2).
      + rewrite spec_braces. apply asks_spec.
      + split; [exact S1'|right; reflexivity].
      + exact G.
      + exists out. split; [exact (f_equal lift O1)|]. apply text_wish_shows. exact O2.
    - rewrite EF, EX by exact W. rewrite <- EF. apply lift_ok, show_buffer; [exact AF|split; [exact S1|]|exact G].
      destruct S2 as [S2|S2]; [exact S2|]. unfold typed in TL. rewrite S2 in TL. discriminate TL. }
  rewrite (proj2 (bytes_eqb_false n (B "..."))) by exact D.
  assert (PO : parse_optional lexical_double n f = None).
  { unfold parse_optional. destruct (after_not_empty w W) as (c & s & E & C & _). rewrite EF, E. cbn [app]. rewrite parse_otherwise_plain by exact C. reflexivity. }
  rewrite PO. eexists. split; [reflexivity|]. split; [|reflexivity].
  intros r (v & F & H). cbn [write_token]. rewrite (find_first n r v F). destruct (show_value dbl f (Some w) v AF H) as (out & E & Q).
  exists out. rewrite E. split; [reflexivity|]. exists v. split; assumption.
Qed.

Lemma lexical_int_range s z : lexical_int s = Some z -> (- 2 ^ 63 <= z < 2 ^ 63)%Z.
Proof.
  unfold lexical_int. destruct (match s with [] => _ | _ => _ end) as [neg d]. destruct d as [|c d]; [discriminate|].
  destruct (forallb ParserModel.is_digit (c :: d)); [|discriminate]. cbv zeta. generalize (digits_value (c :: d)). intros n.
  destruct neg.
  - destruct (Z.leb_spec (Z.of_N n) (2 ^ 63)); [|discriminate]. intros E; injection E as <-. lia.
  - destruct (Z.ltb_spec (Z.of_N n) (2 ^ 63)); [|discriminate]. intros E; injection E as <-. lia.
Qed.

Lemma show_default f w t : asks_for dbl f w -> default_suits w (default_value lexical_double t) ->
  exists out, write_otherwise dbl double_of f (default_value lexical_double t) = Ok out /\ default_shows dbl double_of w (default_value lexical_double t) out.
Proof.
  intros AF. unfold default_value. destruct (lexical_int t) as [z|] eqn:L.
  - intros H. apply show_long; [exact AF|exact H|apply (lexical_int_range t z L)].
  - destruct (lexical_double t).
    + intros [S1 T]. cbn [write_otherwise default_shows]. rewrite AF by (apply suits_double; exact S1). cbn [format_arg].
      unfold type_of in T. rewrite (float_type_in _ T). eexists. split; reflexivity.
    + intros H. apply show_string; assumption.
Qed.

Lemma fallback_works n t w : item_ok (Fallback n t w) ->
  exists k, token_with_spec lexical_double ndebug n (B "{:" ++ (B "{" ++ t ++ B ":default}" ++ after_colon w) ++ B "}") = OToken k
    /\ works (Fallback n t w) k.
Proof.
  intros (NM & NR & BL & OC & LO & WW). assert (N := not_reserved n NR). destruct N as (N1 & N2 & N3 & N4 & N5 & N6).
  unfold token_with_spec. rewrite N1, N2, N3, N4, N5, N6. unfold parse_optional. rewrite (parse_otherwise_ok t w OC WW LO).
  eexists. split; [reflexivity|]. intros r H. change (match lexical_int t with Some z => DInt z | None => if lexical_double t then DDouble t else DString t end) with (default_value lexical_double t).
  assert (AF : asks_for dbl (B "{:" ++ after_colon w ++ B "}") (Some w)) by (rewrite spec_braces; apply asks_spec).
  cbn [write_token item_shows item_suits] in *. destruct H as [(v & F & H)|[F H]].
  - rewrite (find_first n r v F). destruct (show_value dbl _ (Some w) v AF H) as (out & E & Q). exists out. rewrite E. split; [reflexivity|].
    left. exists v. split; assumption.
  - rewrite (find_none n r F). destruct (show_default _ (Some w) t AF H) as (out & E & Q). exists out. rewrite E. split; [reflexivity|].
    right. split; assumption.
Qed.

Lemma clock_works p w : item_ok (Clock p w) ->
  exists k, token_with_spec lexical_double ndebug (B "timestamp") (B "{:" ++ (B "{" ++ p ++ B "}" ++ after_colon w) ++ B "}") = OToken k
    /\ works (Clock p w) k.
Proof.
  intros (P & NB & W & TY).
  assert (EX : forall g x, extract g (B "{:{" ++ p ++ RBRACE :: x) = TTimestampUser p (B "{:" ++ x) g).
  { intros g x. unfold extract. change (skipn 2 (B "{:{" ++ p ++ RBRACE :: x)) with (LBRACE :: p ++ RBRACE :: x).
    cbv iota beta. rewrite Ascii.eqb_refl. rewrite ParserSubProofs.until_brace_app by apply NB. destruct p; [contradiction|reflexivity]. }
  assert (exists t, w_type w = Some t /\ (t = "s" \/ t = "l")%char) as (t & TT & TC) by (destruct TY; eexists; split; eauto).
  destruct (text_wish_text w t TT) as [T1 T2].
  set (y := opt_text (w_fill w) ++ body_text w) in *.
  assert (SH : forall c, B "{:" ++ (B "{" ++ p ++ B "}" ++ y ++ [c]) ++ B "}" = (B "{:" ++ (LBRACE :: p ++ [RBRACE]) ++ y) ++ [c; RBRACE]).
  { intros c. cbn [B list_ascii_of_string app]. rewrite <- !app_assoc. cbn [app]. rewrite <- !app_assoc. reflexivity. }
  assert (SP : forall c, (B "{:" ++ (LBRACE :: p ++ [RBRACE]) ++ y) ++ [c; RBRACE] = B "{:{" ++ p ++ RBRACE :: (y ++ [c]) ++ B "}").
  { intros c. cbn [B list_ascii_of_string app]. rewrite <- !app_assoc. cbn [app]. reflexivity. }
  assert (AS : forall c k, asserted ndebug ((B "{:" ++ (LBRACE :: p ++ [RBRACE]) ++ y) ++ [c; RBRACE]) k = OToken k).
  { intros c k. apply ParserSubProofs.asserted_ok. }
  unfold token_with_spec. change (bytes_eqb (B "timestamp") (B "message")) with false. change (bytes_eqb (B "timestamp") (B "process")) with false.
  change (bytes_eqb (B "timestamp") (B "thread")) with false. change (bytes_eqb (B "timestamp") (B "severity")) with false.
  change (bytes_eqb (B "timestamp") (B "timestamp")) with true. cbv iota.
  rewrite T1, SH, AS, ParserSubProofs.type_char_app. eexists. split; [reflexivity|].
  intros r [[S1 S2] G]. destruct TC as [-> | ->].
  - change (Ascii.eqb "s" "d") with false. change (Ascii.eqb "s" "l") with false. cbv iota. rewrite SP, EX, <- T1.
    assert (TL : typed "l" (Some w) = false) by (unfold typed, type_of; cbn [layout asks sp_type]; rewrite TT; reflexivity).
    unfold item_shows. rewrite TL in *. apply lift_ok, show_buffer; [rewrite spec_braces; apply asks_spec|split; [exact S1|]|exact G].
    right. unfold type_of. cbn [layout asks sp_type]. rewrite TT. reflexivity.
  - change (Ascii.eqb "l" "d") with false. change (Ascii.eqb "l" "l") with true. cbv iota. rewrite ParserSubProofs.set_type_app, SP, EX, <- T2.
    assert (TL : typed "l" (Some w) = true) by (unfold typed, type_of; cbn [layout asks sp_type]; rewrite TT; reflexivity).
    unfold item_shows. rewrite TL in *. assert (S1' := text_wish_suits _ w S1).
    destruct (show_buffer dbl (B "{:" ++ after_colon (text_wish w) ++ B "}") (Some (text_wish w)) (r_stamp r p false) (r_junk r)) as (out & O1 & O2).
    + rewrite spec_braces. apply asks_spec.
    + split; [exact S1'|right; reflexivity].
    + exact G.
    + exists out. split; [exact (f_equal lift O1)|]. apply text_wish_shows. exact O2.
Qed.

Lemma rest_works ps sep w : item_ok (Rest ps sep w) ->
  exists k, token_with_spec lexical_double ndebug (B "...") (B "{:" ++ rest_body ps sep w ++ B "}") = OToken k /\ works (Rest ps sep w) k.
Proof.
  intros (PS & SE & SP & BR & WW & _). assert (SS := brief_short _ w BR WW).
  change (token_with_spec lexical_double ndebug (B "...") (B "{:" ++ rest_body ps sep w ++ B "}"))
    with (parse_leftover (B "{:" ++ rest_body ps sep w ++ B "}")).
  assert (E : parse_leftover (B "{:" ++ rest_body ps sep w ++ B "}")
    = OToken (TLeftover (Leftover (B "{:" ++ after_colon w ++ B "}") (or_default default_separator sep) (map part_token (or_default default_parts ps))))).
  { unfold rest_body. destruct ps as [ps|], sep as [sep|]; cbn [or_default app] in *.
    - assert (Q := ParserSubProofs.leftover_both_lemma (map part_piece ps) sep (after_colon w) (sub_pieces_well_formed ps (proj1 PS) (proj2 PS)) SE SS).
      rewrite sub_pieces_tokens in Q. rewrite <- Q. f_equal. rewrite <- !app_assoc. reflexivity.
    - assert (Q := ParserSubProofs.leftover_pattern_lemma (map part_piece ps) (after_colon w) (sub_pieces_well_formed ps (proj1 PS) (proj2 PS)) SS).
      rewrite sub_pieces_tokens in Q. etransitivity; [|exact Q]. f_equal. rewrite <- !app_assoc. reflexivity.
    - assert (Q := ParserSubProofs.leftover_separator_lemma sep (after_colon w) SE (SP eq_refl) SS).
      rewrite <- !app_assoc. exact Q.
    - exact (ParserSubProofs.leftover_plain_lemma (after_colon w) SS). }
  eexists. split; [exact E|]. intros r H. unfold item_shows, item_suits in *.
  apply (show_others dbl double_of (Leftover _ _ _) (or_default default_parts ps) (Some w)); [reflexivity| |exact H].
  cbn [lo_spec]. rewrite spec_braces. apply asks_spec.
Qed.

(** ---- every item ---- *)

Lemma item_works i : item_ok i -> exists t, ParserSpec.piece_outcome lexical_double ndebug (item_piece i) = OToken t /\ works i t
  /\ forall n w, i = Slot n w -> ~ In n reserved -> exists f, t = TRequired n f.
Proof.
  intros H. destruct i as [t|n [w|]|n t w|p w|ps sep w]; cbn [item_piece ParserSpec.piece_outcome].
  - exists (TLiteral t). split; [reflexivity|]. split; [|discriminate]. intros r _. exists t. split; reflexivity.
  - destruct H as (_ & D & W). destruct (spec_works n w D W) as (t & E & Q & N). exists t. refine (conj E (conj Q _)).
    intros m u X R. injection X as <- <-. eexists. apply N. exact R.
  - exists (token_without_spec n). split; [reflexivity|]. split; [apply hole_works|]. intros m u X R. injection X as <- <-.
    destruct (not_reserved n R) as (N1 & N2 & N3 & N4 & N5 & N6). unfold token_without_spec. rewrite N1, N2, N3, N4, N5, N6. eexists. reflexivity.
  - destruct (fallback_works n t w H) as (k & E & Q). exists k. refine (conj E (conj Q _)). discriminate.
  - destruct (clock_works p w H) as (k & E & Q). exists k. refine (conj E (conj Q _)). discriminate.
  - destruct (rest_works ps sep w H) as (k & E & Q). exists k. refine (conj E (conj Q _)). discriminate.
Qed.

Lemma items_tokens is : Forall item_ok is -> exists ts, map (ParserSpec.piece_outcome lexical_double ndebug) (map item_piece is) = map OToken ts
  /\ Forall2 works is ts
  /\ Forall2 (fun i t => forall n w, i = Slot n w -> ~ In n reserved -> exists f, t = TRequired n f) is ts.
Proof.
  induction 1 as [|i is H HS IH]; [exists []; repeat split; constructor|].
  destruct (item_works i H) as (t & E & Q & N), IH as (ts & ES & QS & NS). exists (t :: ts). cbn [map]. rewrite E, ES.
  refine (conj eq_refl (conj _ _)); constructor; assumption.
Qed.

Lemma collect_tokens ts : ParserSpec.collect (map OToken ts) (Tokens []) = Tokens ts.
Proof. induction ts as [|t ts IH]; [reflexivity|]. cbn [map ParserSpec.collect]. rewrite IH. reflexivity. Qed.

Lemma tokenize_items is ts : pattern_ok is -> map (ParserSpec.piece_outcome lexical_double ndebug) (map item_piece is) = map OToken ts ->
  tokenize lexical_double ndebug (pattern_text is) = Some (Tokens ts).
Proof.
  intros OK E. assert (M := ParserProofs.meaning_lemma lexical_double ndebug (map item_piece is) ParserSpec.Complete (pieces_well_formed is OK) I).
  cbn [ParserSpec.write_ending] in M. rewrite app_nil_r, pattern_piece_text in M. rewrite M. unfold ParserSpec.meaning. rewrite E.
  cbn [ParserSpec.ending_result]. rewrite collect_tokens. reflexivity.
Qed.

Lemma format_works r is ts : Forall2 works is ts -> Forall (item_suits lexical_double sevmap r) is ->
  exists outs, Forall2 (shows r) is outs /\ forall rest, format dbl double_of sevmap r (ts ++ rest) = before (concat outs) (format dbl double_of sevmap r rest).
Proof.
  induction 1 as [|i t is ts W WS IH]; intros S1; [exists []; split; [constructor|]|].
  - intros rest. cbn [app concat]. destruct (format dbl double_of sevmap r rest); reflexivity.
  - apply Forall_cons_iff in S1 as [S1 S2]. destruct (IH S2) as (outs & F & E), (W r S1) as (out & O1 & O2).
    exists (out :: outs). split; [constructor; assumption|]. intros rest. cbn [app format]. rewrite O1. cbn [then_]. rewrite E.
    destruct (format dbl double_of sevmap r rest); cbn [before concat]; [rewrite <- app_assoc|..]; reflexivity.
Qed.

Theorem whole_lemma is : pattern_ok is -> exists ts, tokenize lexical_double ndebug (pattern_text is) = Some (Tokens ts) /\
  forall r, Forall (item_suits lexical_double sevmap r) is ->
    exists outs, Forall2 (shows r) is outs /\ format dbl double_of sevmap r ts = Done (concat outs).
Proof.
  intros OK. destruct (items_tokens is (proj1 OK)) as (ts & E & W & _). exists ts. split; [apply tokenize_items; assumption|].
  intros r S1. destruct (format_works r is ts W S1) as (outs & F & Q). exists outs. split; [exact F|]. specialize (Q []).
  rewrite app_nil_r in Q. rewrite Q. cbn [format before]. rewrite app_nil_r. reflexivity.
Qed.

Theorem missing_lemma pre n w post : pattern_ok (pre ++ Slot n w :: post) -> ~ In n reserved ->
  exists ts, tokenize lexical_double ndebug (pattern_text (pre ++ Slot n w :: post)) = Some (Tokens ts) /\
  forall r, Forall (item_suits lexical_double sevmap r) pre -> none_called n r -> format dbl double_of sevmap r ts = Missing n.
Proof.
  intros OK R. destruct (items_tokens _ (proj1 OK)) as (ts & E & W & N). exists ts. split; [apply tokenize_items; assumption|].
  intros r S1 NC. apply Forall2_app_inv_l in W as (ts1 & ts2 & W1 & W2 & ->). inversion W2 as [|? t2 ? ts3 _ _]; subst.
  destruct (format_works r pre ts1 W1 S1) as (outs & _ & ->).
  assert (exists f, t2 = TRequired n f) as (f & ->).
  { apply Forall2_app_inv_l in N as (us1 & us2 & N1 & N2 & EQ). assert (L1 := Forall2_len _ _ _ W1). assert (L2 := Forall2_len _ _ _ N1).
    inversion N2 as [|? u2 ? us3 HN _]; subst. apply (f_equal (fun l => nth_error l (length ts1))) in EQ.
    rewrite nth_error_app2, Nat.sub_diag in EQ by lia. rewrite nth_error_app2 in EQ by lia. replace (length ts1 - length us1)%nat with 0%nat in EQ by lia.
    cbn in EQ. injection EQ as ->. apply (HN n w eq_refl R). }
  cbn [format write_token]. rewrite (find_none n r NC). reflexivity.
Qed.
End Formatting.
End Patterns.

(** ---- no undefined behaviour ---- *)

Section Safety.
Variable dbl : spec -> N -> bytes.
Variable double_of : bytes -> N.

Definition defined {A} (r : result A) : Prop := r <> Undefined.
Lemma defined_bind {A C} (r : result A) (k : A -> result C) : defined r -> (forall a, r = Ok a -> defined (k a)) -> defined (bind r k).
Proof. unfold defined. destruct r as [a|e|]; cbn [bind]; intros H1 H2; [apply H2; reflexivity|discriminate|congruence]. Qed.
Lemma defined_ok {A} (a : A) : defined (Ok a). Proof. discriminate. Qed.
Lemma defined_error {A} e : defined (@Error A e). Proof. discriminate. Qed.
Hint Resolve defined_ok defined_error : core.

Lemma write_int_defined wd z sp : int_range wd z -> defined (write_int wd z sp).
Proof.
  intros R. destruct (radix (sp_type sp)) as [[[base upper] mark]|] eqn:E.
  - destruct (write_int_ok wd z sp base upper mark R E) as (ds & _ & ->). auto.
  - rewrite (write_int_unknown wd z sp E). auto.
Qed.

Lemma strlen_in m : In NUL m -> exists n, strlen m = Some n /\ n <= length_N m.
Proof.
  induction m as [|c m IH]; intros H; [destruct H|]. cbn [strlen]. destruct (Ascii.eqb_spec c NUL) as [->|N].
  - exists 0. split; [reflexivity|lia].
  - destruct H as [H|H]; [congruence|]. destruct (IH H) as (n & -> & L). eexists. split; [reflexivity|]. unfold length_N in *. cbn [length]. lia.
Qed.

Lemma write_string_defined p n sp : valid_arg (AString p n) -> defined (write_string p n sp).
Proof.
  intros H. unfold write_string. destruct (negb _ && negb _); [auto|].
  destruct p as [m|].
  - destruct H as [L Z].
    assert (SZ : exists k, (if n =? 0 then match m with [] => Undefined | c :: _ => if Ascii.eqb c NUL then Ok 0 else match strlen m with Some n => Ok n | None => Undefined end end
                else Ok n) = Ok k /\ k <= length_N m).
    { destruct (N.eqb_spec n 0) as [->|]; [|exists n; split; [reflexivity|exact L]]. specialize (Z eq_refl). destruct (strlen_in m Z) as (k & E & LE).
      destruct m as [|c m]; [destruct Z|]. destruct (Ascii.eqb c NUL); [exists 0; split; [reflexivity|lia]|]. rewrite E. exists k. split; [reflexivity|exact LE]. }
    destruct SZ as (k & -> & LE). cbn [bind]. apply defined_bind; [|intros; auto]. unfold read.
    set (q := match sp_precision sp with Some q => _ | None => _ end). assert (q <= length_N m).
    { unfold q. destruct (sp_precision sp) as [x|]; [|exact LE]. destruct (N.ltb_spec x k); lia. }
    destruct (N.ltb_spec (length_N m) q); [lia|auto].
  - cbn in H. subst n. cbn. auto.
Qed.

Lemma format_arg_defined sp a : valid_arg a -> defined (format_arg dbl sp a).
Proof.
  destruct a as [z|n|z|n|b|z|bits|p|p n]; cbn [format_arg valid_arg]; intros H.
  - apply write_int_defined. unfold int_range. cbn [bits_of]. lia.
  - apply write_int_defined. unfold int_range. cbn [bits_of]. lia.
  - apply write_int_defined. unfold int_range. cbn [bits_of]. lia.
  - apply write_int_defined. unfold int_range. cbn [bits_of]. lia.
  - unfold write_bool. destruct (negb _); [apply write_int_defined; unfold int_range; cbn [bits_of]; destruct b; lia|].
    apply write_string_defined. split; [rewrite length_N_app; lia|destruct b; discriminate].
  - unfold write_char. destruct (negb _ && negb _); [apply write_int_defined; unfold int_range; cbn [bits_of]; lia|]. destruct (_ || _); auto.
  - destruct (is_float_type _); auto.
  - apply write_string_defined. destruct p as [m|]; cbn; [split; [lia|auto]|reflexivity].
  - apply write_string_defined. exact H.
Qed.

(** Nothing in the scanner is undefined and every placeholder is left behind. *)
Definition shrinks {A} (r : result (A * bytes)) (s : bytes) : Prop :=
  defined r /\ forall a t, r = Ok (a, t) -> (length t <= length s)%nat.

Lemma parse_int_go_length s : forall v, (length (snd (parse_int_go v s)) <= length s)%nat.
Proof.
  induction s as [|c s IH]; intros v; [cbn; lia|]. cbn [parse_int_go]. destruct (is_digit c); [|cbn; lia]. cbv zeta.
  destruct (_ <? _); cbn [snd length]; [lia|]. specialize (IH ((v * 10 + (N_of_ascii c - 48)) mod 2 ^ 32)). lia.
Qed.
Lemma parse_int_shrinks s : shrinks (parse_int s) s.
Proof.
  unfold parse_int. assert (L := parse_int_go_length s 0). destruct (parse_int_go 0 s) as [v t]. cbn [snd] in L.
  destruct (_ <? _); split; auto; intros a u E; [discriminate|]. injection E as <- <-. exact L.
Qed.

Section Args.
Variable args : list arg.
Hypothesis VALID : Forall valid_arg args.

Lemma do_get_arg_valid i : defined (do_get_arg args i) /\ forall a, do_get_arg args i = Ok a -> valid_arg a.
Proof.
  unfold do_get_arg. destruct (nth_error args (N.to_nat i)) as [a|] eqn:E; split; auto; intros x Q; [|discriminate].
  injection Q as <-. rewrite Forall_forall in VALID. apply VALID. apply (nth_error_In _ _ E).
Qed.

Lemma parse_arg_index_ok ix s : defined (parse_arg_index args ix s)
  /\ forall a ix' t, parse_arg_index args ix s = Ok (a, ix', t) -> valid_arg a /\ (length t <= length s)%nat.
Proof.
  unfold parse_arg_index. destruct (is_digit (peek s)).
  - destruct (parse_int_shrinks s) as [D L]. destruct (parse_int s) as [[n t]|e|]; [|split; [cbn; auto|discriminate]|congruence]. cbn [bind].
    specialize (L n t eq_refl). destruct (do_get_arg_valid n) as [D1 D2].
    destruct ix as [[|p]|]; [| |]; try (split; [auto|discriminate]);
      (destruct (do_get_arg args n) as [a|e|]; [|split; [auto|discriminate]|congruence]; split; [auto|]; intros x y u E; injection E as <- <- <-; split; [apply D2; reflexivity|exact L]).
  - destruct ix as [i|]; [|split; [auto|discriminate]]. destruct (do_get_arg_valid i) as [D1 D2].
    destruct (do_get_arg args i) as [a|e|]; [|split; [auto|discriminate]|congruence]. split; [auto|]. intros x y u E; injection E as <- <- <-.
    split; [apply D2; reflexivity|lia].
Qed.
Lemma parse_arg_ok ix s : defined (parse_arg args ix s)
  /\ forall a ix' t, parse_arg args ix s = Ok (a, ix', t) -> valid_arg a /\ (length t <= length s)%nat.
Proof. unfold parse_arg. destruct (is_name_start (peek s)); [split; [auto|discriminate]|apply parse_arg_index_ok]. Qed.

Lemma int_of_arg_defined e1 e2 a : defined (int_of_arg e1 e2 a).
Proof. destruct a; cbn; auto; repeat (match goal with |- context [if ?b then _ else _] => destruct b end; auto). Qed.

Lemma parse_nested_ok ix e1 e2 s : shrinks (parse_nested args ix e1 e2 s) s.
Proof.
  unfold parse_nested. destruct (parse_arg_ok ix s) as [D L]. destruct (parse_arg args ix s) as [[[a ix'] t]|e|]; [|split; [cbn; auto|discriminate]|congruence].
  cbn [bind]. destruct (L a ix' t eq_refl) as [_ L']. destruct t as [|c t]; [split; [auto|discriminate]|].
  destruct (Ascii.eqb c RBRACE); [|split; [auto|discriminate]].
  assert (I := int_of_arg_defined e1 e2 a). destruct (int_of_arg e1 e2 a) as [n|e|]; [|split; [cbn; auto|discriminate]|congruence].
  cbn [bind]. split; [auto|]. intros x u E. injection E as <- <-. cbn [length] in L'. lia.
Qed.

Lemma require_numeric_defined a : defined (require_numeric a).
Proof. unfold require_numeric. destruct (is_numeric a); auto. Qed.
Lemma check_align_defined a al : defined (check_align a al).
Proof. destruct al; cbn; auto. apply require_numeric_defined. Qed.
Lemma check_sign_defined a : defined (check_sign a).
Proof. unfold check_sign. apply defined_bind; [apply require_numeric_defined|]. intros _ _. destruct a; auto. Qed.

Lemma bind_shrinks {A C} (r : result A) (x : C) (t s : bytes) : defined r -> (length t <= length s)%nat -> shrinks (_ <- r; Ok (x, t)) s.
Proof. intros D L. destruct r; cbn [bind]; (split; [auto; congruence|]); intros y u E; [|discriminate|congruence]. injection E as <- <-. exact L. Qed.

Lemma tl_length (s : bytes) : (length (tl s) <= length s)%nat.
Proof. destruct s; cbn; lia. Qed.

Lemma parse_align_shrinks a s : shrinks (parse_align a s) s.
Proof.
  unfold parse_align. destruct s as [|c s1]; [split; [auto|]; intros x t E; injection E as <- <-; lia|].
  destruct (align_char (peek s1)) as [al|].
  - destruct (Ascii.eqb c RBRACE); [split; [auto|]; intros x t E; injection E as <- <-; lia|].
    destruct (Ascii.eqb c LBRACE); [split; [auto|discriminate]|].
    apply bind_shrinks; [apply check_align_defined|]. assert (L := tl_length s1). cbn [length]. lia.
  - destruct (align_char c) as [al|]; [|split; [auto|]; intros x t E; injection E as <- <-; lia].
    apply bind_shrinks; [apply check_align_defined|]. cbn [length]. lia.
Qed.
Lemma parse_sign_shrinks a s : shrinks (parse_sign a s) s.
Proof.
  unfold parse_sign. destruct s as [|c s1]; [split; [auto|]; intros x t E; injection E as <- <-; lia|].
  repeat match goal with |- context [if Ascii.eqb c ?d then _ else _] => destruct (Ascii.eqb c d);
    [apply bind_shrinks; [apply check_sign_defined|cbn [length]; lia]|] end.
  split; [auto|]. intros x t E. injection E as <- <-. lia.
Qed.
Lemma parse_flag_shrinks f a s : shrinks (parse_flag f a s) s.
Proof.
  unfold parse_flag. destruct s as [|c s1]; [split; [auto|]; intros x t E; injection E as <- <-; lia|].
  destruct (Ascii.eqb c f); [apply bind_shrinks; [apply require_numeric_defined|cbn [length]; lia]|].
  split; [auto|]. intros x t E. injection E as <- <-. lia.
Qed.
Lemma parse_width_shrinks ix s : shrinks (parse_width args ix s) s.
Proof.
  unfold parse_width. destruct (is_digit (peek s)).
  - destruct (parse_int_shrinks s) as [D L]. destruct (parse_int s) as [[n t]|e|]; [|split; [cbn; auto|discriminate]|congruence].
    cbn [bind fst snd]. split; [auto|]. intros x u E. injection E as <- <-. apply (L n t eq_refl).
  - destruct s as [|c s1]; [split; [auto|]; intros x t E; injection E as <- <-; lia|]. destruct (Ascii.eqb c LBRACE).
    + destruct (parse_nested_ok ix ENegativeWidth EWidthNotInteger s1) as [D L]. split; [exact D|]. intros x t E. specialize (L x t E). cbn [length]. lia.
    + split; [auto|]. intros x t E. injection E as <- <-. lia.
Qed.
Lemma parse_precision_shrinks a ix s : shrinks (parse_precision args a ix s) s.
Proof.
  unfold parse_precision. destruct s as [|c s1]; [split; [auto|]; intros x t E; injection E as <- <-; lia|].
  destruct (Ascii.eqb c "."); [|split; [auto|]; intros x t E; injection E as <- <-; lia].
  assert (SH : shrinks (if is_digit (peek s1) then ns <- parse_int s1; Ok (fst ns, ix, snd ns)
              else match s1 with
                   | [] => Error EMissingPrecision
                   | c' :: s'' => if Ascii.eqb c' LBRACE then parse_nested args ix ENegativePrecision EPrecisionNotInteger s''
                                  else Error EMissingPrecision
                   end) s1).
  { destruct (is_digit (peek s1)).
    - destruct (parse_int_shrinks s1) as [D L]. destruct (parse_int s1) as [[n t]|e|]; [|split; [cbn; auto|discriminate]|congruence].
      cbn [bind fst snd]. split; [auto|]. intros x u E. injection E as <- <-. apply (L n t eq_refl).
    - destruct s1 as [|d s2]; [split; [auto|discriminate]|]. destruct (Ascii.eqb d LBRACE); [|split; [auto|discriminate]].
      destruct (parse_nested_ok ix ENegativePrecision EPrecisionNotInteger s2) as [D L]. split; [exact D|]. intros x t E. specialize (L x t E). cbn [length]. lia. }
  destruct SH as [D L]. match goal with |- context [bind ?r _] => destruct r as [[[n ix'] t]|e|] end; [|split; [cbn; auto|discriminate]|congruence].
  cbn [bind]. destruct (is_integer a); [split; [auto|discriminate]|]. split; [auto|]. intros x u E. injection E as <- <-.
  specialize (L _ _ eq_refl). cbn [length]. lia.
Qed.

Lemma parse_spec_shrinks a ix s : shrinks (parse_spec args a ix s) s.
Proof.
  unfold parse_spec. destruct s as [|c s0]; [split; [auto|]; intros x t E; injection E as <- <-; lia|].
  destruct (Ascii.eqb c ":"); [|split; [auto|]; intros x t E; injection E as <- <-; lia].
  destruct (parse_align_shrinks a s0) as [D1 L1]. destruct (parse_align a s0) as [[[al fill] s1]|e|]; [|split; [cbn; auto|discriminate]|congruence].
  specialize (L1 _ _ eq_refl). cbn [bind].
  destruct (parse_sign_shrinks a s1) as [D2 L2]. destruct (parse_sign a s1) as [[[[sg pl] mi] s2]|e|]; [|split; [cbn; auto|discriminate]|congruence].
  specialize (L2 _ _ eq_refl). cbn [bind].
  destruct (parse_flag_shrinks "#" a s2) as [D3 L3]. destruct (parse_flag "#" a s2) as [[h s3]|e|]; [|split; [cbn; auto|discriminate]|congruence].
  specialize (L3 _ _ eq_refl). cbn [bind].
  destruct (parse_flag_shrinks "0" a s3) as [D4 L4]. destruct (parse_flag "0" a s3) as [[z s4]|e|]; [|split; [cbn; auto|discriminate]|congruence].
  specialize (L4 _ _ eq_refl). cbn [bind].
  destruct (parse_width_shrinks ix s4) as [D5 L5]. destruct (parse_width args ix s4) as [[[wd ix5] s5]|e|]; [|split; [cbn; auto|discriminate]|congruence].
  specialize (L5 _ _ eq_refl). cbn [bind].
  destruct (parse_precision_shrinks a ix5 s5) as [D6 L6]. destruct (parse_precision args a ix5 s5) as [[[pr ix6] s6]|e|]; [|split; [cbn; auto|discriminate]|congruence].
  specialize (L6 _ _ eq_refl). cbn [bind].
  assert (L7 : (length (snd (match s6 with [] => (NUL, s6) | c :: s7 => if Ascii.eqb c RBRACE then (NUL, s6) else (c, s7) end)) <= length s6)%nat).
  { destruct s6 as [|d s7]; [cbn; lia|]. destruct (Ascii.eqb d RBRACE); cbn [snd length]; lia. }
  destruct (match s6 with [] => _ | _ => _ end) as [ty s7]. cbn [snd] in L7. split; [auto|]. intros x t E. injection E as <- <-. cbn [length]. lia.
Qed.

Lemma format_placeholder_ok a ix s : valid_arg a -> shrinks (format_placeholder dbl args a ix s) s.
Proof.
  intros V. unfold format_placeholder. destruct (parse_spec_shrinks a ix s) as [D L].
  destruct (parse_spec args a ix s) as [[[sp ix'] t]|e|]; [|split; [cbn; auto|discriminate]|congruence]. specialize (L _ _ eq_refl). cbn [bind].
  destruct t as [|c t]; [split; [auto|discriminate]|]. destruct (Ascii.eqb c RBRACE); [|split; [auto|discriminate]].
  assert (F := format_arg_defined sp a V). destruct (format_arg dbl sp a) as [o|e|]; [|split; [cbn; auto|discriminate]|congruence].
  cbn [bind]. split; [auto|]. intros x u E. injection E as <- <-. cbn [length] in L. lia.
Qed.

Lemma format_go_defined fuel : forall ix s, (length s < fuel)%nat -> defined (format_go dbl args fuel ix s).
Proof.
  induction fuel as [|fuel IH]; intros ix s L; [lia|]. cbn [format_go]. destruct s as [|c s]; [auto|]. cbn [length] in L.
  destruct (negb _ && negb _); [apply defined_bind; [apply IH; lia|auto]|].
  destruct (Ascii.eqb (peek s) c); [apply defined_bind; [apply IH; assert (Q := tl_length s); lia|auto]|].
  destruct (Ascii.eqb c RBRACE); [auto|].
  destruct (parse_arg_ok ix s) as [D P]. apply defined_bind; [exact D|]. intros [[a ix1] s1] E1. destruct (P _ _ _ E1) as [V L1].
  destruct (format_placeholder_ok a ix1 s1 V) as [D2 P2]. apply defined_bind; [exact D2|]. intros [[t ix2] s2] E2.
  specialize (P2 _ _ E2). apply defined_bind; [apply IH; lia|auto].
Qed.

Lemma write_defined f : defined (write dbl f args).
Proof. unfold write. cbv zeta. apply format_go_defined. lia. Qed.
End Args.

Lemma write_one_defined f a : valid_arg a -> defined (write dbl f [a]).
Proof. intros H. apply write_defined. constructor; [exact H|constructor]. Qed.

(** The string formatter. *)
Lemma literal_valid s : valid_arg (arg_of_literal s).
Proof. cbn. apply in_or_app. right. left. reflexivity. Qed.
Lemma string_valid s : valid_arg (arg_of_string s).
Proof. cbn. split; [rewrite length_N_app; lia|]. intros _. apply in_or_app. right. left. reflexivity. Qed.

Lemma write_value_defined f v : valid_value v -> defined (write_value dbl f v).
Proof.
  destruct v as [|b|z|n|bits|v|t]; cbn [write_value valid_value]; intros H; auto; apply write_one_defined; auto; try exact I.
  - apply literal_valid.
Qed.

Variable sevmap : severity_map.
Hypothesis SEV : forall z f, (- 2 ^ 31 <= z < 2 ^ 31)%Z -> defined (sevmap z f).

Lemma write_sub_defined a t : valid_view (fst a) -> valid_value (snd a) -> defined (write_sub dbl a t).
Proof. intros V W. destruct t; cbn [write_sub]; [auto|apply write_one_defined; exact V|apply write_value_defined; exact W]. Qed.
Lemma write_subs_defined a ts : valid_view (fst a) -> valid_value (snd a) -> defined (write_subs dbl a ts).
Proof.
  intros V W. induction ts as [|t ts IH]; cbn [write_subs]; [auto|]. apply defined_bind; [apply write_sub_defined; assumption|].
  intros s _. apply defined_bind; [exact IH|auto].
Qed.
Lemma eval_list_defined lo l : Forall (fun a => valid_view (fst a) /\ valid_value (snd a)) l -> forall first, defined (eval_list dbl lo first l).
Proof.
  induction 1 as [|a l [V W] HS IH]; intros first; cbn [eval_list]; [auto|]. apply defined_bind; [apply write_subs_defined; assumption|].
  intros s _. apply defined_bind; [apply IH|]. intros [t f] _. auto.
Qed.
Lemma eval_defined lo p : Forall (fun a => valid_view (fst a) /\ valid_value (snd a)) (concat p) -> forall first, defined (eval dbl lo first p).
Proof.
  induction p as [|l p IH]; intros H first; cbn [eval]; [auto|]. cbn [concat] in H. apply Forall_app in H as [H1 H2].
  apply defined_bind; [apply eval_list_defined; exact H1|]. intros [s f] _. apply defined_bind; [apply IH; exact H2|auto].
Qed.

Lemma find_valid name r v : valid_record r -> find name (r_pack r) = Some v -> valid_value v.
Proof.
  intros (_ & _ & _ & _ & _ & _ & _ & V). rewrite find_concat. unfold attributes in V. induction V as [|[n x] l [H1 H2] HS IH]; [discriminate|].
  cbn [find_in]. destruct (bytes_eqb (viewed n) name); [|exact IH]. intros E. injection E as <-. exact H2.
Qed.

Lemma lift_defined r : defined r -> lift r <> Undef.
Proof. destruct r; cbn; [discriminate..|]. intros H. exfalso. apply H. reflexivity. Qed.

Lemma otherwise_defined f d : (match d with DInt z => (- 2 ^ 63 <= z < 2 ^ 63)%Z | _ => True end) -> defined (write_otherwise dbl double_of f d).
Proof. destruct d; cbn [write_otherwise]; intros H; apply write_one_defined; [exact H|exact I|apply string_valid]. Qed.

Definition token_valid (t : token) : Prop := match t with TOptional _ _ (DInt z) => (- 2 ^ 63 <= z < 2 ^ 63)%Z | _ => True end.

Lemma write_token_defined r t : valid_record r -> token_valid t -> write_token dbl double_of sevmap r t <> Undef.
Proof.
  intros V T. assert (FV := fun n v => find_valid n r v V). destruct V as (V1 & V2 & V3 & V4 & V5 & V6 & V7 & V8).
  destruct t; cbn [write_token]; try (apply lift_defined; apply write_one_defined); try discriminate; try assumption; try (apply literal_valid).
  - destruct (find name (r_pack r)) as [v|] eqn:E; [|discriminate]. apply lift_defined, write_value_defined. apply (FV name v E).
  - destruct (find name (r_pack r)) as [v|] eqn:E; apply lift_defined; [apply write_value_defined, (FV name v E)|]. apply otherwise_defined. destruct otherwise; exact T.
  - apply lift_defined, defined_bind; [apply eval_defined; exact V8|]. intros s _. destruct (N.eqb_spec (length_N s) 0); [auto|].
    apply write_one_defined. cbn. split; [lia|congruence].
  - apply lift_defined. apply SEV. exact V2.
  - apply (microseconds_range r V3).
  - cbn [valid_arg]. rewrite length_N_app. split; [lia|]. intros Z. apply in_or_app. right. apply (V7 pattern gmtime).
    destruct (r_stamp r pattern gmtime); [reflexivity|discriminate Z].
Qed.
End Safety.

(** ---- fields without a width ---- *)

Lemma field_none number al fill mark body out : field number al fill 0 mark body out -> out = mark ++ body.
Proof.
  intros (l & i & r & -> & _ & _ & _ & L & _). rewrite !length_N_app in L. replace (N.max 0 (length_N mark + length_N body)) with (length_N mark + length_N body) in L by lia.
  assert (length_N l = 0 /\ length_N i = 0 /\ length_N r = 0) as (L1 & L2 & L3) by lia. unfold length_N in *.
  destruct l, i, r; cbn [length] in *; try lia. rewrite !app_nil_l, app_nil_r. reflexivity.
Qed.
Lemma shows_text_none w s out : sp_width (layout w) = 0 -> sp_precision (layout w) = None -> shows_text w s out -> out = s.
Proof. unfold shows_text, cut. intros -> ->. apply field_none. Qed.
Lemma shows_number_none w z out : sp_width (layout w) = 0 -> (type_of w = NUL \/ type_of w = "d"%char) -> match w with Some w => w_sign w = None | None => True end ->
  shows_number w z out -> decimal z out.
Proof.
  intros W T SG (base & upper & mark & ds & R & NU & F). rewrite W in F. apply field_none in F.
  assert (E : Some (10, false, []) = Some (base, upper, mark)) by (rewrite <- R; destruct T as [-> | ->]; reflexivity).
  injection E as <- <- <-. exists ds. split; [exact NU|].
  assert (Q : (if sp_hash (layout w) then [] else []) = @nil ascii) by (destruct (sp_hash (layout w)); reflexivity).
  rewrite Q, app_nil_r in F. rewrite F. f_equal. destruct w as [w|]; [|reflexivity]. cbn [sign_mark]. unfold sign_text. rewrite SG. reflexivity.
Qed.

(** ---- every accepted pattern ---- *)

Lemma collect_valid os : Forall (fun o => forall t, o = OToken t -> token_valid t) os -> forall last ts,
  ParserSpec.collect os last = Tokens ts -> (forall us, last = Tokens us -> Forall token_valid us) -> Forall token_valid ts.
Proof.
  induction 1 as [|o os H HS IH]; intros last ts E L; [apply L; exact E|]. cbn [ParserSpec.collect] in E. destruct o; try discriminate.
  destruct (ParserSpec.collect os last) as [us|o] eqn:C; [|discriminate].
  injection E as <-. constructor; [apply H; reflexivity|]. eapply IH; [exact C|exact L].
Qed.

Lemma token_with_spec_valid ld nd n s t : token_with_spec ld nd n s = OToken t -> token_valid t.
Proof.
  assert (AS : forall s k, asserted nd s k = OToken t -> k = t).
  { intros s' k. unfold asserted. destruct (negb nd && Nat.leb (length s') 2); [discriminate|]. congruence. }
  assert (EX : forall g s, token_valid (extract g s)).
  { intros g s'. unfold extract. destruct (match skipn 2 s' with [] => _ | _ => _ end). exact I. }
  unfold token_with_spec.
  repeat match goal with |- context [if bytes_eqb n ?m then _ else _] => destruct (bytes_eqb n m) end.
  - intros E. injection E as <-. exact I.
  - intros E. apply AS in E. subst t. destruct (Ascii.eqb _ _); exact I.
  - intros E. apply AS in E. subst t. repeat destruct (Ascii.eqb _ _); exact I.
  - intros E. apply AS in E. subst t. repeat destruct (Ascii.eqb _ _); exact I.
  - intros E. apply AS in E. subst t. repeat match goal with |- context [if Ascii.eqb ?a ?b then _ else _] => destruct (Ascii.eqb a b) end; [exact I|apply EX|apply EX].
  - unfold parse_leftover. destruct (parse_grammar s) as [[[p q] sp]|]; [|discriminate].
    destruct p as [pat|]; [destruct (parse_pattern pat); [|discriminate]|]; intros E; injection E as <-; exact I.
  - unfold parse_optional. destruct (parse_otherwise s) as [[d sp]|]; intros E; injection E as <-; [|exact I].
    cbn [token_valid]. destruct (lexical_int d) as [z|] eqn:Z; [apply (lexical_int_range d z Z)|]. destruct (ld d); exact I.
Qed.
Lemma token_without_spec_valid n : token_valid (token_without_spec n).
Proof. unfold token_without_spec. repeat match goal with |- context [if bytes_eqb n ?m then _ else _] => destruct (bytes_eqb n m) end; exact I. Qed.

Lemma tokenize_valid ld nd s ts : tokenize ld nd s = Some (Tokens ts) -> Forall token_valid ts.
Proof.
  destruct (ParserProofs.pattern_shape_lemma s) as (ps & e & W & E & ->). rewrite ParserProofs.meaning_lemma by assumption.
  intros Q. injection Q as Q. unfold ParserSpec.meaning in Q.
  assert (PO : Forall (fun o => forall t, o = OToken t -> token_valid t) (map (ParserSpec.piece_outcome ld nd) ps)).
  { apply Forall_map, Forall_forall. intros p _ t. destruct p as [x|n|n b]; cbn [ParserSpec.piece_outcome]; intros H.
    - injection H as <-. exact I.
    - injection H as <-. apply token_without_spec_valid.
    - apply (token_with_spec_valid _ _ _ _ _ H). }
  apply (collect_valid _ PO _ _ Q). intros us EE. destruct e; cbn [ParserSpec.ending_result] in EE; try discriminate.
  - injection EE as <-. constructor.
  - injection EE as <-. constructor.
  - eapply collect_valid; [|exact EE|].
    + constructor; [|constructor]. intros t H. apply (token_with_spec_valid _ _ _ _ _ H).
    + intros vs V. injection V as <-. constructor.
Qed.

Lemma format_defined dbl double_of sevmap r : (forall z f, (- 2 ^ 31 <= z < 2 ^ 31)%Z -> sevmap z f <> Undefined) ->
  valid_record r -> forall ts, Forall token_valid ts -> format dbl double_of sevmap r ts <> Undef.
Proof.
  intros SEV V. induction 1 as [|t ts T TS IH]; cbn [format]; [discriminate|].
  assert (D := write_token_defined dbl double_of sevmap SEV r t V T). destruct (write_token dbl double_of sevmap r t); cbn [then_]; try discriminate; [|congruence].
  destruct (format dbl double_of sevmap r ts); cbn [before]; try discriminate. congruence.
Qed.

Lemma number_map_defined dbl z f : (- 2 ^ 31 <= z < 2 ^ 31)%Z -> number_map dbl z f <> Undefined.
Proof. intros H. apply (write_one_defined dbl f (AInt z)). exact H. Qed.
Lemma list_map_defined dbl names z f : (- 2 ^ 31 <= z < 2 ^ 31)%Z -> list_map dbl names z f <> Undefined.
Proof.
  intros H. unfold list_map. cbv zeta. destruct (_ <? _); apply write_one_defined; [apply string_valid|]. cbn [valid_arg].
  assert (B1 := Z.mod_pos_bound z (2 ^ 64) ltac:(lia)). revert B1. generalize (z mod 2 ^ 64)%Z. intros x X. lia.
Qed.

Lemma safe_lemma ld nd dbl double_of sevmap pattern ts r :
  (sevmap = number_map dbl \/ exists names, sevmap = list_map dbl names) ->
  tokenize ld nd pattern = Some (Tokens ts) -> valid_record r -> format dbl double_of sevmap r ts <> Undef.
Proof.
  intros SM E V. apply format_defined; [|exact V|apply (tokenize_valid _ _ _ _ E)].
  intros z f H. destruct SM as [-> |(names & ->)]; [apply number_map_defined|apply list_map_defined]; exact H.
Qed.

(** ---- rows of the README's table ---- *)

Definition typed_wish (t : ascii) : wish := Wish None ADefault None false false None None (Some t).
Lemma typed_sensible a t : letter t = true -> sensible a (typed_wish t).
Proof.
  intros L. unfold sensible, typed_wish. cbn [w_fill w_align w_sign w_hash w_zero w_width w_precision w_type].
  repeat split; try discriminate; try exact L.
Qed.
Lemma typed_written t : letter t = true -> well_written (typed_wish t).
Proof. intros L. exists (AInt 0). apply typed_sensible. exact L. Qed.

Section Rows.
Variable lexical_double : bytes -> bool.
Variable ndebug : bool.
Variable dbl : spec -> N -> bytes.
Variable double_of : bytes -> N.
Variable sevmap : severity_map.
Notation formats_ := (formats lexical_double ndebug dbl double_of sevmap).

Lemma row_lemma r i : item_ok i -> item_suits lexical_double sevmap r i ->
  exists out, formats_ (item_text i) r out /\ item_shows dbl double_of lexical_double sevmap r i out.
Proof.
  intros OK S1. assert (PO : pattern_ok [i]) by (split; [constructor; [exact OK|constructor]|cbn; split; [intros; exact I|exact I]]).
  destruct (whole_lemma lexical_double ndebug dbl double_of sevmap [i] PO) as (ts & T & F).
  destruct (F r) as (outs & FS & E); [constructor; [exact S1|constructor]|]. inversion FS as [|? o ? os H1 H2]; subst. inversion H2; subst.
  exists o. split; [|exact H1]. exists ts. cbn [pattern_text flat_map] in T. rewrite app_nil_r in T. cbn [concat] in E. rewrite app_nil_r in E. split; assumption.
Qed.

Lemma typed_unsigned : suits_unsigned (Some (typed_wish "d")).
Proof. split; [apply typed_sensible; reflexivity|discriminate]. Qed.
Lemma typed_signed : suits_signed (Some (typed_wish "d")).
Proof. split; [apply typed_sensible; reflexivity|discriminate]. Qed.
Lemma typed_text : suits_text (Some (typed_wish "s")).
Proof. split; [apply typed_sensible; reflexivity|right; reflexivity]. Qed.
Lemma slot_ok n t : letter t = true -> is_name n -> n <> B "..." -> item_ok (Slot n (Some (typed_wish t))).
Proof. intros L N D. exact (conj N (conj D (typed_written t L))). Qed.

Ltac row r i := let out := fresh "out" in let F := fresh "F" in let Q := fresh "Q" in
  destruct (row_lemma r i) as (out & F & Q); [try (apply slot_ok; [reflexivity|apply ParserSubProofs.name_ok; reflexivity|discriminate]);
    try (apply ParserSubProofs.name_ok; reflexivity)| |exists out; split; [exact F|]].

Lemma process_rows r : r_pid r < 2 ^ 64 -> forall p, In p [B "{process}"; B "{process:d}"] ->
  exists out, formats_ p r out /\ decimal (Z.of_N (r_pid r)) out.
Proof.
  intros H p [<-|[<-|[]]].
  - row r (Slot (B "process") None); [split; [split; [exact I|discriminate]|exact H]|].
    apply (shows_number_none None); [reflexivity|left; reflexivity|exact I|exact Q].
  - row r (Slot (B "process") (Some (typed_wish "d"))); [split; [apply typed_unsigned|exact H]|].
    apply (shows_number_none (Some (typed_wish "d"))); [reflexivity|right; reflexivity|reflexivity|exact Q].
Qed.
Lemma process_name_row r : ~ In NUL (r_procname r) -> formats_ (B "{process:s}") r (r_procname r).
Proof.
  intros H. assert (exists out, formats_ (B "{process:s}") r out /\ out = r_procname r) as (out & F & <-); [|exact F].
  row r (Slot (B "process") (Some (typed_wish "s"))); [split; [apply typed_text|exact H]|].
  apply (shows_text_none (Some (typed_wish "s"))); [reflexivity|reflexivity|exact Q].
Qed.
Lemma thread_row r : r_tid r < 2 ^ 64 -> exists ds, formats_ (B "{thread}") r (B "0x" ++ ds) /\ numeral 16 false (r_tid r) ds.
Proof.
  intros H. assert (exists out, formats_ (B "{thread}") r out /\ exists ds, out = B "0x" ++ ds /\ numeral 16 false (r_tid r) ds) as (out & F & ds & -> & N);
    [|exists ds; split; assumption].
  row r (Slot (B "thread") None); [split; [split; [exact I|discriminate]|exact H]|].
  destruct Q as (base & upper & mark & ds & R & NU & FI). change (radix (type_of (Some hex_wish))) with (Some (16, false, B "0x")) in R. injection R as <- <- <-.
  apply field_none in FI. exists ds. rewrite Zabs2N.id in NU. split; [|exact NU]. rewrite FI.
  assert (SM : sign_mark (Some hex_wish) (Z.of_N (r_tid r)) = []).
  { unfold sign_mark, sign_text. destruct (Z.ltb_spec (Z.of_N (r_tid r)) 0); [lia|reflexivity]. }
  rewrite SM. reflexivity.
Qed.
Lemma thread_name_row r : ~ In NUL (thread_name r) -> formats_ (B "{thread:s}") r (thread_name r).
Proof.
  intros H. assert (exists out, formats_ (B "{thread:s}") r out /\ out = thread_name r) as (out & F & <-); [|exact F].
  row r (Slot (B "thread") (Some (typed_wish "s"))); [split; [apply typed_text|exact H]|].
  apply (shows_text_none (Some (typed_wish "s"))); [reflexivity|reflexivity|exact Q].
Qed.
Lemma severity_row r : (- 2 ^ 31 <= r_severity r < 2 ^ 31)%Z -> exists out, formats_ (B "{severity:d}") r out /\ decimal (r_severity r) out.
Proof.
  intros H. row r (Slot (B "severity") (Some (typed_wish "d"))); [split; [apply typed_signed|exact H]|].
  apply (shows_number_none (Some (typed_wish "d"))); [reflexivity|right; reflexivity|reflexivity|exact Q].
Qed.
Lemma severity_user_rows r p out : In p [B "{}"; B "{:s}"] -> sevmap (r_severity r) p = Ok out ->
  formats_ (B "{severity" ++ tl p) r out.
Proof.
  intros IN H. assert (exists o, formats_ (B "{severity" ++ tl p) r o /\ sevmap (r_severity r) p = Ok o) as (o & F & Q); [|congruence].
  destruct IN as [<-|[<-|[]]].
  - row r (Slot (B "severity") None); [exists out; exact H|exact Q].
  - row r (Slot (B "severity") (Some (typed_wish "s"))); [exists out; exact H|exact Q].
Qed.
Lemma micro_row r : (- 2 ^ 63 <= r_nanoseconds r < 2 ^ 63)%Z -> exists out, formats_ (B "{timestamp:d}") r out /\ decimal (Z.quot (r_nanoseconds r) 1000) out.
Proof.
  intros H. row r (Slot (B "timestamp") (Some (typed_wish "d"))); [split; [apply typed_signed|exact H]|].
  apply (shows_number_none (Some (typed_wish "d"))); [reflexivity|right; reflexivity|reflexivity|exact Q].
Qed.
Lemma time_suits t : t = "s"%char \/ t = "l"%char -> suits_time (Some (typed_wish t)).
Proof. intros [-> | ->]; (split; [apply typed_sensible; reflexivity|]); [left; right; reflexivity|right; reflexivity]. Qed.
Lemma clock_row r p t : p <> [] -> no_braces p -> (t = "s" \/ t = "l")%char ->
  stamp_suits r p (Ascii.eqb t "s") -> formats_ (B "{timestamp:{" ++ p ++ B "}" ++ [t] ++ B "}") r (r_stamp r p (Ascii.eqb t "s")).
Proof.
  intros P NB T H. assert (EQ : B "{timestamp:{" ++ p ++ B "}" ++ [t] ++ B "}" = item_text (Clock p (typed_wish t))).
  { cbn [item_text B list_ascii_of_string app]. rewrite <- app_assoc. destruct T as [-> | ->]; reflexivity. }
  assert (TL : negb (typed "l" (Some (typed_wish t))) = Ascii.eqb t "s") by (destruct T as [-> | ->]; reflexivity).
  rewrite EQ. assert (exists o, formats_ (item_text (Clock p (typed_wish t))) r o /\ o = r_stamp r p (Ascii.eqb t "s")) as (o & F & <-); [|exact F].
  destruct (row_lemma r (Clock p (typed_wish t))) as (out & F & Q).
  - refine (conj P (conj NB (conj _ _))); [apply typed_written; destruct T as [-> | ->]; reflexivity|destruct T as [-> | ->]; auto].
  - split; [apply time_suits; exact T|]. rewrite TL. exact H.
  - exists out. split; [exact F|]. unfold item_shows in Q. rewrite TL in Q. apply (shows_text_none (Some (typed_wish t))); [reflexivity|reflexivity|exact Q].
Qed.
Lemma time_rows r p : In p [B "{timestamp}"; B "{timestamp:s}"] -> stamp_suits r time_format true -> formats_ p r (r_stamp r time_format true).
Proof.
  intros IN H. assert (exists o, formats_ p r o /\ o = r_stamp r time_format true) as (o & F & <-); [|exact F].
  destruct IN as [<-|[<-|[]]].
  - row r (Slot (B "timestamp") None); [split; [split; [exact I|left; left; reflexivity]|exact H]|].
    apply (shows_text_none None); [reflexivity|reflexivity|exact Q].
  - row r (Slot (B "timestamp") (Some (typed_wish "s"))); [split; [apply time_suits; left; reflexivity|exact H]|].
    apply (shows_text_none (Some (typed_wish "s"))); [reflexivity|reflexivity|exact Q].
Qed.
Lemma message_row r : good_view (r_formatted r) -> formats_ (B "{message}") r (viewed (r_formatted r)).
Proof.
  intros H. assert (exists o, formats_ (B "{message}") r o /\ o = viewed (r_formatted r)) as (o & F & <-); [|exact F].
  row r (Slot (B "message") None); [split; [split; [exact I|left; reflexivity]|exact H]|].
  apply (shows_text_none None); [reflexivity|reflexivity|exact Q].
Qed.

(** `{...}`. *)
Lemma all_attributes_lemma r : Forall (fun a => good_view (fst a) /\ suits_value None (snd a)) (attributes r) ->
  exists values, Forall2 (fun a v => shows_value dbl None (snd a) v) (attributes r) values
    /\ formats_ (B "{...}") r (join (B ", ") (map (fun p => viewed (fst (fst p)) ++ B ": " ++ snd p) (combine (attributes r) values))).
Proof.
  intros H.
  assert (S1 : others_suit default_parts None r).
  { split; [split; [exact I|left; reflexivity]|]. eapply Forall_impl; [|exact H]. intros a [G V]. repeat constructor; try exact G; try exact V; try exact I. all: left; reflexivity. }
  destruct (row_lemma r (Slot (B "...") None)) as (out & F & Q); [apply ParserSubProofs.name_ok; reflexivity|exact S1|].
  assert (Q' : others_show dbl default_parts default_separator None r out) by exact Q. clear Q. destruct Q' as (text & (texts & -> & T) & E).
  assert (EO : out = join default_separator texts).
  { destruct (join default_separator texts) eqn:J; [exact E|]. rewrite <- J in E |- *. apply (shows_text_none None); [reflexivity|reflexivity|exact E]. }
  clear E. subst out.
  assert (G : exists values, Forall2 (fun a v => shows_value dbl None (snd a) v) (attributes r) values
     /\ texts = map (fun p => viewed (fst (fst p)) ++ B ": " ++ snd p) (combine (attributes r) values)).
  { clear F S1 H. induction T as [|a t l ts (us & U & ->) T (values & V & ->)]; [exists []; split; [constructor|reflexivity]|].
    unfold default_parts in U. inversion U as [|? u1 ? us1 U1 U1']; subst. inversion U1' as [|? u2 ? us2 U2 U2']; subst.
    inversion U2' as [|? u3 ? us3 U3 U3']; subst. inversion U3'; subst. cbn [part_shows] in U1, U2, U3. subst u2.
    apply (shows_text_none None) in U1; [|reflexivity|reflexivity]. subst u1. exists (u3 :: values). split; [constructor; assumption|].
    cbn [combine map concat fst snd]. rewrite app_nil_r. reflexivity. }
  destruct G as (values & V & ->). exists values. split; [exact V|exact F].
Qed.
Lemma rest_lemma r ps sep w : item_ok (Rest ps sep w) -> others_suit (or_default default_parts ps) (Some w) r ->
  exists out, formats_ (item_text (Rest ps sep w)) r out
    /\ others_show dbl (or_default default_parts ps) (or_default default_separator sep) (Some w) r out.
Proof. intros OK S1. exact (row_lemma r (Rest ps sep w) OK S1). Qed.
End Rows.

(** Severity names. *)
Lemma named_lemma dbl names z name w f : asks_for dbl f w -> suits_text w ->
  (0 <= z)%Z -> nth_error names (Z.to_nat z) = Some name -> (z < 2 ^ 31)%Z ->
  exists out, list_map dbl names z f = Ok out /\ shows_text w name out.
Proof.
  intros AF S1 P N L. unfold list_map. cbv zeta. rewrite Z.mod_small by lia.
  assert (B1 : (Z.to_nat z < length names)%nat) by (apply nth_error_Some; congruence).
  replace (Z.to_N z <? length_N names) with true by (symmetry; apply N.ltb_lt; unfold length_N; lia).
  replace (N.to_nat (Z.to_N z)) with (Z.to_nat z) by lia. rewrite (nth_error_nth _ _ _ N). apply show_string; assumption.
Qed.
Lemma unnamed_lemma dbl names z w f : asks_for dbl f w -> suits_unsigned w -> (Z.of_nat (length names) <= z < 2 ^ 31)%Z ->
  exists out, list_map dbl names z f = Ok out /\ shows_number w z out.
Proof.
  intros AF S1 L. unfold list_map. cbv zeta. rewrite Z.mod_small by lia.
  replace (Z.to_N z <? length_N names) with false by (symmetry; apply N.ltb_ge; unfold length_N; lia).
  destruct (show_ulong dbl f w (Z.to_N z) AF S1) as (out & E & Q); [lia|]. exists out. split; [exact E|]. rewrite Z2N.id in Q by lia. exact Q.
Qed.

Lemma json_severity_lemma names z : (- 2 ^ 31 <= z < 2 ^ 31)%Z -> length_N names <= 2 ^ 31 ->
  JsonFmtModel.severity_value names z =
    match (if (z <? 0)%Z then None else nth_error names (Z.to_nat z)) with Some name => Values.VString name | None => Values.VInt z end.
Proof.
  intros H L. unfold JsonFmtModel.severity_value, length_N in *. cbv zeta.
  destruct (Z.ltb_spec z 0) as [P|P].
  - assert (E : (z mod 2 ^ 64 = z + 2 ^ 64)%Z) by (rewrite <- (Z.mod_small (z + 2 ^ 64) (2 ^ 64)) by lia; rewrite <- Z.add_mod_idemp_r by lia; rewrite Z.mod_same by lia; rewrite Z.add_0_r; reflexivity).
    rewrite E. destruct names as [|n names]; [reflexivity|]. match goal with |- (if ?b then _ else _) = _ => assert (b = true) as ->; [|reflexivity] end.
    rewrite orb_true_iff. right. apply N.leb_le. lia.
  - rewrite Z.mod_small by lia. destruct (nth_error names (Z.to_nat z)) as [n|] eqn:E.
    + assert (B1 : (Z.to_nat z < length names)%nat) by (apply nth_error_Some; congruence).
      match goal with |- (if ?b then _ else _) = _ => assert (b = false) as -> end.
      { destruct names; [cbn in B1; lia|]. apply orb_false_iff. split; [reflexivity|]. apply N.leb_gt. lia. }
      f_equal. replace (N.to_nat (Z.to_N z)) with (Z.to_nat z) by lia. apply (nth_error_nth _ _ _ E).
    + apply nth_error_None in E. match goal with |- (if ?b then _ else _) = _ => assert (b = true) as ->; [|reflexivity] end.
      destruct names as [|m names]; [reflexivity|]. apply orb_true_iff. right. apply N.leb_le. lia.
Qed.

Lemma beyond_lemma dbl secret : ~ In NUL secret -> exists v, viewed v = B "user" /\ write_value dbl (B "{}") (AText v) = Ok (B "user" ++ secret).
Proof.
  intros N. exists (View (Some ((B "user" ++ secret) ++ NUL :: [])) 4). split; [reflexivity|].
  destruct (show_c_string dbl None (B "user" ++ secret) [] (or_introl eq_refl)) as (out & E & Q).
  - apply in_nul_app; [|exact N]. intros J. cbn in J. repeat destruct J as [J|J]; try discriminate. contradiction.
  - apply shows_text_none in Q; [|reflexivity|reflexivity]. subst out. exact (eq_trans (write_plain dbl _) E).
Qed.

Lemma negative_lemma dbl : exists names z out, (- 2 ^ 31 <= z < 0)%Z /\ list_map dbl names z (B "{}") = Ok out
  /\ out = B "18446744073709551615" /\ ~ decimal z out.
Proof.
  exists [B "DEBUG"], (-1)%Z, (B "18446744073709551615"). refine (conj _ (conj _ (conj eq_refl _))); [lia|vm_compute; reflexivity|].
  intros (ds & _ & E). discriminate E.
Qed.
Lemma severity_name_lemma nd dbl double_of : exists names r out,
  formats (fun _ => false) nd dbl double_of (list_map dbl names) (B "{severity}") r out /\ out = B "INFO" /\ ~ decimal (r_severity r) out.
Proof.
  exists [B "DEBUG"; B "INFO"], (SRec (View None 0) 1 0 0 [] 0 0 [] None (fun _ _ => []) []), (B "INFO"). refine (conj _ (conj eq_refl _)).
  - destruct nd; eexists; (split; [vm_compute; reflexivity|vm_compute; reflexivity]).
  - intros (ds & (_ & R & _) & E). cbn in E. subst ds. discriminate R.
Qed.
