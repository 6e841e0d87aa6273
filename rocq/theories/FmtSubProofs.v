(** Proofs about the formatting library: specifications and format strings. *)
From Verif Require Import Base Decimal FmtModel FmtSpec FmtProofs.
Open Scope N_scope.

Lemma kinds a : is_integer a = whole_kind a /\ is_numeric a = number_kind a.
Proof. destruct a; split; reflexivity. Qed.

Lemma require_numeric_ok a : number_kind a = true -> require_numeric a = Ok tt.
Proof. intros H. unfold require_numeric. destruct (kinds a) as [_ ->]. rewrite H. reflexivity. Qed.

Section Texts.
Variables (w : wish) (rest : bytes).
Let t7 : bytes := opt_text (w_type w) ++ RBRACE :: rest.
Let t6 : bytes := match w_precision w with Some (_, ds) => "."%char :: ds | None => [] end ++ t7.
Let t5 : bytes := match w_width w with Some (_, ds) => ds | None => [] end ++ t6.
Let t4 : bytes := (if w_zero w then B "0" else []) ++ t5.
Let t3 : bytes := (if w_hash w then B "#" else []) ++ t4.
Let t2 : bytes := opt_text (w_sign w) ++ t3.

Lemma wish_split : wish_text w ++ RBRACE :: rest = ":"%char :: opt_text (w_fill w) ++ align_text (w_align w) ++ t2.
Proof. unfold wish_text, t2, t3, t4, t5, t6, t7. cbn [app]. rewrite <- !app_assoc. reflexivity. Qed.

Variable a : arg.
Hypothesis OK : sensible a w.

Lemma peek7 : 7 <= rank (peek t7).
Proof.
  destruct OK as (_ & _ & _ & _ & _ & _ & _ & _ & T). unfold t7, opt_text. destruct (w_type w) as [c|].
  - cbn [app peek hd]. apply letter_rank in T as [T _]. rewrite T. lia.
  - cbn [app peek hd]. vm_compute. discriminate.
Qed.
Lemma peek6 : 6 <= rank (peek t6).
Proof.
  assert (P := peek7). unfold t6. destruct (w_precision w) as [[n ds]|]; cbn [app]; [vm_compute; discriminate|lia].
Qed.
Lemma peek5 : 5 <= rank (peek t5).
Proof.
  assert (P := peek6). destruct OK as (_ & _ & _ & _ & _ & _ & W & _ & _). unfold t5.
  destruct (w_width w) as [[n ds]|]; [|cbn [app]; lia]. destruct W as [W W'].
  assert (F := digits_first n ds W ltac:(lia)). destruct W as (NE & _). destruct ds; [congruence|]. exact F.
Qed.
Lemma peek4 : 4 <= rank (peek t4).
Proof. assert (P := peek5). unfold t4. destruct (w_zero w); [vm_compute; discriminate|cbn [app]; lia]. Qed.
Lemma peek3 : 3 <= rank (peek t3).
Proof. assert (P := peek4). unfold t3. destruct (w_hash w); [vm_compute; discriminate|cbn [app]; lia]. Qed.
Lemma peek2 : 2 <= rank (peek t2).
Proof.
  assert (P := peek3). destruct OK as (_ & _ & _ & SG & _). unfold t2. destruct (w_sign w) as [c|]; [|cbn [app opt_text]; lia].
  destruct SG as [[-> | [-> | ->]] _]; vm_compute; discriminate.
Qed.

(** The second character of an unfilled and unaligned specification. *)
Lemma second2 : w_fill w = None -> w_align w = ADefault -> 2 <= rank (peek (tl t2)) /\ peek t2 <> RBRACE /\ t2 <> [].
Proof.
  intros F A. assert (P7 := peek7). assert (P6 := peek6). assert (P5 := peek5). assert (P4 := peek4). assert (P3 := peek3).
  destruct OK as (NE & _ & _ & SG & _ & _ & W & PR & T).
  unfold wish_text in NE. rewrite F, A in NE. unfold t2 in *.
  destruct (w_sign w) as [c|].
  { cbn [opt_text app tl peek hd]. fold (peek t3). refine (conj _ (conj _ _)); [lia| |discriminate].
    destruct SG as [[-> | [-> | ->]] _]; discriminate. }
  cbn [opt_text app]. unfold t3 in *. destruct (w_hash w).
  { change (B "#" ++ t4) with ("#"%char :: t4). cbn [tl]. refine (conj _ (conj _ _)); [lia|discriminate|discriminate]. }
  cbn [app]. unfold t4 in *. destruct (w_zero w).
  { change (B "0" ++ t5) with ("0"%char :: t5). cbn [tl]. refine (conj _ (conj _ _)); [lia|discriminate|discriminate]. }
  cbn [app]. unfold t5 in *. destruct (w_width w) as [[n ds]|].
  { destruct W as [W W']. destruct W as (NN & RD & _). assert (FD := digits_rank ds 0 n RD).
    destruct ds as [|c ds]; [congruence|]. apply Forall_cons_iff in FD as [FC FD]. cbn [app tl].
    refine (conj _ (conj _ _)); [|cbn [peek hd]; intros E; apply (proj2 (proj2 (proj2 FC))); exact E|discriminate].
    destruct ds as [|c' ds]; [cbn [app]; lia|]. apply Forall_cons_iff in FD as [FC' _]. cbn [app peek hd]. lia. }
  cbn [app]. unfold t6 in *. destruct (w_precision w) as [[n ds]|].
  { destruct PR as (PR & _). destruct PR as (NN & RD & _). assert (FD := digits_rank ds 0 n RD).
    cbn [app tl]. destruct ds as [|c ds]; [congruence|]. apply Forall_cons_iff in FD as [FC _]. cbn [app peek hd].
    refine (conj _ (conj _ _)); [lia|discriminate|discriminate]. }
  cbn [app]. unfold t7 in *. destruct (w_type w) as [c|].
  { cbn [opt_text app tl peek hd]. refine (conj _ (conj _ _)); [vm_compute; discriminate| |discriminate].
    intros E. apply letter_rank in T as (_ & T & _). rewrite E in T. discriminate. }
  exfalso. apply NE. reflexivity.
Qed.

Lemma parse_align_ok : parse_align a (opt_text (w_fill w) ++ align_text (w_align w) ++ t2)
  = Ok (w_align w, match w_fill w with Some c => c | None => " "%char end, t2).
Proof.
  assert (P2 := peek2). destruct OK as (_ & FL & AL & _).
  assert (CA : check_align a (w_align w) = Ok tt).
  { unfold check_align. destruct (w_align w); try reflexivity. apply require_numeric_ok, AL. reflexivity. }
  assert (Q : forall al, al <> ADefault -> exists c, align_text al = [c] /\ align_char c = Some al).
  { intros [] H; try congruence; eexists; split; reflexivity. }
  destruct (w_fill w) as [c|] eqn:F.
  - destruct FL as (F1 & F2 & _ & F3). destruct (Q _ F3) as (x & X1 & X2). rewrite X1. cbn [opt_text app].
    unfold parse_align. cbn [peek hd tl]. rewrite X2. apply Ascii.eqb_neq in F1, F2. rewrite F1, F2, CA. reflexivity.
  - cbn [opt_text app]. destruct (w_align w) eqn:A.
    5: { cbn [align_text app]. destruct (second2 F A) as (S1 & S2 & S3). unfold parse_align.
         destruct t2 as [|c s1]; [congruence|]. cbn [tl peek hd] in *. fold (peek s1) in *.
         rewrite (rank2 _ S1), (rank2 _ P2). reflexivity. }
    all: cbn [align_text B list_ascii_of_string app]; unfold parse_align; rewrite (rank2 _ P2);
      match goal with |- context [align_char ?c] => change (align_char c) with (Some (w_align (Wish None ltac:(let x := eval cbv in (align_char c) in match x with Some ?y => exact y end) None false false None None None))) end;
      cbn [w_align]; rewrite CA; reflexivity.
Qed.

Lemma parse_sign_ok : parse_sign a t2 = Ok (sp_sign (asks w), sp_plus (asks w), sp_minus (asks w), t3).
Proof.
  assert (P3 := peek3). destruct OK as (_ & _ & _ & SG & _). unfold t2. cbn [asks sp_sign sp_plus sp_minus].
  destruct (w_sign w) as [c|].
  - destruct SG as (SG & NK & U).
    assert (C : check_sign a = Ok tt).
    { unfold check_sign. rewrite require_numeric_ok by exact NK. cbn [bind]. destruct a; try contradiction; reflexivity. }
    destruct SG as [-> | [-> | ->]]; cbn [opt_text app]; unfold parse_sign; rewrite C; reflexivity.
  - cbn [opt_text app]. unfold parse_sign. destruct t3 as [|c s]; [reflexivity|]. cbn [peek hd] in P3.
    destruct (rank3 _ P3) as (-> & -> & ->). reflexivity.
Qed.

Lemma parse_hash_ok : parse_flag "#" a t3 = Ok (w_hash w, t4).
Proof.
  assert (P4 := peek4). destruct OK as (_ & _ & _ & _ & H & _). unfold t3. destruct (w_hash w).
  - change (B "#" ++ t4) with ("#"%char :: t4). unfold parse_flag. rewrite Ascii.eqb_refl, require_numeric_ok by auto. reflexivity.
  - cbn [app]. unfold parse_flag. destruct t4 as [|c s]; [reflexivity|]. cbn [peek hd] in P4. rewrite (rank4 _ P4). reflexivity.
Qed.

Lemma parse_zero_ok : parse_flag "0" a t4 = Ok (w_zero w, t5).
Proof.
  assert (P5 := peek5). destruct OK as (_ & _ & _ & _ & _ & H & _). unfold t4. destruct (w_zero w).
  - change (B "0" ++ t5) with ("0"%char :: t5). unfold parse_flag. rewrite Ascii.eqb_refl, require_numeric_ok by auto. reflexivity.
  - cbn [app]. unfold parse_flag. destruct t5 as [|c s]; [reflexivity|]. cbn [peek hd] in P5. rewrite (rank5 _ P5). reflexivity.
Qed.

Lemma parse_width_ok args ix : parse_width args ix t5 = Ok (sp_width (asks w), ix, t6).
Proof.
  assert (P6 := peek6). destruct OK as (_ & _ & _ & _ & _ & _ & W & _). unfold t5. cbn [asks sp_width].
  destruct (rank6 _ P6) as [D L]. unfold parse_width. destruct (w_width w) as [[n ds]|].
  - destruct W as [W W']. destruct (parse_int_ok n ds t6 W ltac:(lia) D) as [E ->]. rewrite E. reflexivity.
  - cbn [app]. rewrite D. destruct t6 as [|c s]; [reflexivity|]. cbn [peek hd] in L. rewrite L. reflexivity.
Qed.

Lemma parse_precision_ok args ix : parse_precision args a ix t6 = Ok (sp_precision (asks w), ix, t7).
Proof.
  assert (P7 := peek7). destruct OK as (_ & _ & _ & _ & _ & _ & _ & PR & _). unfold t6. cbn [asks sp_precision].
  destruct (rank6 (peek t7) ltac:(lia)) as [D L]. assert (DT := rank7 _ P7).
  unfold parse_precision. destruct (w_precision w) as [[n ds]|].
  - destruct PR as (PR & PB & PI). cbn [app]. rewrite Ascii.eqb_refl.
    destruct (parse_int_ok n ds t7 PR ltac:(lia) D) as [E ->]. rewrite E. cbn [bind fst snd].
    destruct (kinds a) as [-> _]. rewrite PI. reflexivity.
  - cbn [app]. destruct t7 as [|c s]; [reflexivity|]. cbn [peek hd] in DT. rewrite DT. reflexivity.
Qed.

Lemma parse_spec_ok args ix : parse_spec args a ix (wish_text w ++ RBRACE :: rest) = Ok (asks w, ix, RBRACE :: rest).
Proof.
  rewrite wish_split. unfold parse_spec. rewrite Ascii.eqb_refl.
  rewrite parse_align_ok. cbn [bind]. rewrite parse_sign_ok. cbn [bind]. rewrite parse_hash_ok. cbn [bind].
  rewrite parse_zero_ok. cbn [bind]. rewrite parse_width_ok. cbn [bind]. rewrite parse_precision_ok. cbn [bind].
  destruct OK as (_ & _ & _ & _ & _ & _ & _ & _ & T). unfold t7, asks. cbn [sp_sign sp_plus sp_minus sp_width sp_precision].
  destruct (w_type w) as [c|].
  - cbn [opt_text app]. apply letter_rank in T as (_ & -> & _). reflexivity.
  - cbn [opt_text app]. rewrite Ascii.eqb_refl. reflexivity.
Qed.
End Texts.

(** ---- format strings ---- *)

Section Strings.
Variables (dbl : spec -> N -> bytes) (args : list arg).

Lemma parse_arg_next k a s : nth_error args (N.to_nat k) = Some a -> (peek s = ":" \/ peek s = RBRACE)%char ->
  parse_arg args (Some k) s = Ok (a, Some (k + 1), s).
Proof.
  intros E P. unfold parse_arg, parse_arg_index, do_get_arg. rewrite E.
  destruct P as [-> | ->]; reflexivity.
Qed.

Lemma parse_arg_none k s : nth_error args (N.to_nat k) = None -> (peek s = ":" \/ peek s = RBRACE)%char ->
  parse_arg args (Some k) s = Error EIndexRange.
Proof.
  intros E P. unfold parse_arg, parse_arg_index, do_get_arg. rewrite E.
  destruct P as [-> | ->]; reflexivity.
Qed.

Lemma placeholder_plain a ix rest :
  format_placeholder dbl args a ix (RBRACE :: rest) = match format_arg dbl empty_spec a with Ok t => Ok (t, ix, rest) | Error e => Error e | Undefined => Undefined end.
Proof.
  unfold format_placeholder, parse_spec. change (Ascii.eqb RBRACE ":") with false. cbn [bind]. rewrite Ascii.eqb_refl.
  destruct (format_arg dbl empty_spec a); reflexivity.
Qed.

Lemma placeholder_wish w a ix rest : sensible a w ->
  format_placeholder dbl args a ix (wish_text w ++ RBRACE :: rest)
  = match format_arg dbl (asks w) a with Ok t => Ok (t, ix, rest) | Error e => Error e | Undefined => Undefined end.
Proof.
  intros OK. unfold format_placeholder. rewrite (parse_spec_ok w rest a OK). cbn [bind]. rewrite Ascii.eqb_refl.
  destruct (format_arg dbl (asks w) a); reflexivity.
Qed.

Lemma format_fuel s : forall f f' ix, (length s < f)%nat -> (length s < f')%nat ->
  format_go dbl args f ix s = format_go dbl args f' ix s.
Proof.
  assert (PI : forall t v, (length (snd (parse_int_go v t)) <= length t)%nat).
  { induction t as [|c t IHt]; intros v; cbn [parse_int_go snd length]; [lia|].
    destruct (is_digit c); [|cbn [snd length]; lia]. cbv zeta. destruct (_ <? _); [cbn [snd]; lia|].
    specialize (IHt ((v * 10 + (N_of_ascii c - 48)) mod 2 ^ 32)). lia. }
  assert (PN : forall t n r, parse_int t = Ok (n, r) -> (length r <= length t)%nat).
  { intros t n r. unfold parse_int. specialize (PI t 0). destruct (parse_int_go 0 t). cbn [snd] in PI.
    destruct (INT_MAX <? n0); [discriminate|]. intros E. injection E as <- <-. exact PI. }
  assert (PA : forall ix t b i r, parse_arg args ix t = Ok (b, i, r) -> (length r <= length t)%nat).
  { intros ix t b i r. unfold parse_arg. destruct (is_name_start (peek t)); [discriminate|]. unfold parse_arg_index.
    destruct (is_digit (peek t)).
    - destruct (parse_int t) as [[n u]| |] eqn:E; cbn [bind]; try discriminate. apply PN in E.
      destruct ix as [[|p]|]; try discriminate;
        (destruct (do_get_arg args n); try discriminate; intros Q; injection Q as <- <- <-; exact E).
    - destruct ix; [|discriminate]. destruct (do_get_arg args n); try discriminate. intros Q; injection Q as <- <- <-. lia. }
  assert (PNest : forall ix e1 e2 t n i r, parse_nested args ix e1 e2 t = Ok (n, i, r) -> (length r <= length t)%nat).
  { intros ix e1 e2 t n i r. unfold parse_nested. destruct (parse_arg args ix t) as [[[b j] u]| |] eqn:E; cbn [bind]; try discriminate.
    apply PA in E. destruct u as [|c u]; [discriminate|]. destruct (Ascii.eqb c RBRACE); [|discriminate].
    destruct (int_of_arg e1 e2 b); cbn [bind]; try discriminate. intros Q; injection Q as <- <- <-. cbn [length] in E. lia. }
  assert (PAl : forall b t al c r, parse_align b t = Ok (al, c, r) -> (length r <= length t)%nat).
  { intros b t al c r. unfold parse_align. destruct t as [|x t1]; [intros Q; injection Q as <- <- <-; lia|].
    destruct (align_char (peek t1)) as [al'|].
    - destruct (Ascii.eqb x RBRACE); [intros Q; injection Q as <- <- <-; lia|]. destruct (Ascii.eqb x LBRACE); [discriminate|].
      destruct (check_align b al'); cbn [bind]; try discriminate. intros Q; injection Q as <- <- <-. destruct t1; cbn [tl length]; lia.
    - destruct (align_char x) as [al'|]; [|intros Q; injection Q as <- <- <-; lia].
      destruct (check_align b al'); cbn [bind]; try discriminate. intros Q; injection Q as <- <- <-. cbn [length]; lia. }
  assert (PSg : forall b t x y z r, parse_sign b t = Ok (x, y, z, r) -> (length r <= length t)%nat).
  { intros b t x y z r. unfold parse_sign. destruct t as [|c t1]; [intros Q; injection Q as <- <- <- <-; lia|].
    destruct (Ascii.eqb c "+"); [|destruct (Ascii.eqb c "-"); [|destruct (Ascii.eqb c " ")]];
      try (destruct (check_sign b); cbn [bind]; try discriminate);
      intros Q; injection Q as <- <- <- <-; cbn [length]; lia. }
  assert (PF : forall f b t x r, parse_flag f b t = Ok (x, r) -> (length r <= length t)%nat).
  { intros f b t x r. unfold parse_flag. destruct t as [|c t1]; [intros Q; injection Q as <- <-; lia|].
    destruct (Ascii.eqb c f); [destruct (require_numeric b); cbn [bind]; try discriminate|];
      intros Q; injection Q as <- <-; cbn [length]; lia. }
  assert (PW : forall ix t n i r, parse_width args ix t = Ok (n, i, r) -> (length r <= length t)%nat).
  { intros ix t n i r. unfold parse_width. destruct (is_digit (peek t)).
    - destruct (parse_int t) as [[m u]| |] eqn:E; cbn [bind fst snd]; try discriminate. apply PN in E.
      intros Q; injection Q as <- <- <-. exact E.
    - destruct t as [|c t1]; [intros Q; injection Q as <- <- <-; lia|]. destruct (Ascii.eqb c LBRACE).
      + intros Q. apply PNest in Q. cbn [length]. lia.
      + intros Q; injection Q as <- <- <-; lia. }
  assert (PP : forall b ix t n i r, parse_precision args b ix t = Ok (n, i, r) -> (length r <= length t)%nat).
  { intros b ix t n i r. unfold parse_precision. destruct t as [|c t1]; [intros Q; injection Q as <- <- <-; lia|].
    destruct (Ascii.eqb c "."); [|intros Q; injection Q as <- <- <-; lia].
    match goal with |- bind ?x _ = _ -> _ => destruct x as [[[m j] u]| |] eqn:E end; cbn [bind]; try discriminate.
    assert (L : (length u <= length t1)%nat).
    { destruct (is_digit (peek t1)).
      - destruct (parse_int t1) as [[m' u']| |] eqn:E'; cbn [bind fst snd] in E; try discriminate. apply PN in E'.
        injection E as <- <- <-. exact E'.
      - destruct t1 as [|c1 t2]; [discriminate|]. destruct (Ascii.eqb c1 LBRACE); [|discriminate]. apply PNest in E. cbn [length]. lia. }
    destruct (is_integer b); [discriminate|]. intros Q; injection Q as <- <- <-. cbn [length]. lia. }
  assert (PS : forall b ix t sp i r, parse_spec args b ix t = Ok (sp, i, r) -> (length r <= length t)%nat).
  { intros b ix t sp i r. unfold parse_spec. destruct t as [|c t0]; [intros Q; injection Q as <- <- <-; lia|].
    destruct (Ascii.eqb c ":"); [|intros Q; injection Q as <- <- <-; lia].
    destruct (parse_align b t0) as [[[al fi] s1]| |] eqn:E1; cbn [bind]; try discriminate. apply PAl in E1.
    destruct (parse_sign b s1) as [[[[x y] z] s2]| |] eqn:E2; cbn [bind]; try discriminate. apply PSg in E2.
    destruct (parse_flag "#" b s2) as [[h s3]| |] eqn:E3; cbn [bind]; try discriminate. apply PF in E3.
    destruct (parse_flag "0" b s3) as [[ze s4]| |] eqn:E4; cbn [bind]; try discriminate. apply PF in E4.
    destruct (parse_width args ix s4) as [[[wi i5] s5]| |] eqn:E5; cbn [bind]; try discriminate. apply PW in E5.
    destruct (parse_precision args b i5 s5) as [[[pr i6] s6]| |] eqn:E6; cbn [bind]; try discriminate. apply PP in E6.
    destruct s6 as [|c6 s7]; [intros Q; injection Q as <- <- <-; cbn [length] in *; lia|].
    destruct (Ascii.eqb c6 RBRACE); intros Q; injection Q as <- <- <-; cbn [length] in *; lia. }
  assert (PH : forall b ix t o i r, format_placeholder dbl args b ix t = Ok (o, i, r) -> (length r <= length t)%nat).
  { intros b ix t o i r. unfold format_placeholder.
    destruct (parse_spec args b ix t) as [[[sp j] u]| |] eqn:E; cbn [bind]; try discriminate. apply PS in E.
    destruct u as [|c u]; [discriminate|]. destruct (Ascii.eqb c RBRACE); [|discriminate].
    destruct (format_arg dbl sp b); cbn [bind]; try discriminate. intros Q; injection Q as <- <- <-. cbn [length] in E. lia. }
  intros f. revert s. induction f as [|f IH]; intros s f' ix H H'; [lia|]. destruct f' as [|f']; [lia|]. cbn [format_go].
  destruct s as [|c s]; [reflexivity|]. cbn [length] in *.
  destruct (negb (Ascii.eqb c LBRACE) && negb (Ascii.eqb c RBRACE)).
  { rewrite (IH s f' ix) by lia. reflexivity. }
  destruct (Ascii.eqb (peek s) c).
  { rewrite (IH (tl s) f' ix); [reflexivity| |]; destruct s; cbn [tl length] in *; lia. }
  destruct (Ascii.eqb c RBRACE); [reflexivity|].
  destruct (parse_arg args ix s) as [[[b i] u]| |] eqn:E; cbn [bind]; try reflexivity. apply PA in E.
  destruct (format_placeholder dbl args b i u) as [[[o j] v]| |] eqn:E2; cbn [bind]; try reflexivity. apply PH in E2.
  rewrite (IH v f' j) by lia. reflexivity.
Qed.

Definition run (ix : index) (s : bytes) : result bytes := format_go dbl args (S (length s)) ix s.

Lemma run_nil ix : run ix [] = Ok [].
Proof. reflexivity. Qed.

Definition text_facts (c : ascii) : bool :=
  if Ascii.eqb c LBRACE then true else if Ascii.eqb c RBRACE then true
  else negb (Ascii.eqb c LBRACE) && negb (Ascii.eqb c RBRACE).

Lemma run_text ix s rest : run ix (flat_map brace_text s ++ rest)
  = match run ix rest with Ok out => Ok (s ++ out) | Error e => Error e | Undefined => Undefined end.
Proof.
  induction s as [|c s IH]; [cbn [flat_map app]; destruct (run ix rest); reflexivity|].
  cbn [flat_map]. rewrite <- app_assoc. set (tail := flat_map brace_text s ++ rest) in *.
  unfold run at 1. unfold brace_text. destruct (Ascii.eqb_spec c LBRACE) as [->|N1].
  - change (B "{{" ++ tail) with (LBRACE :: LBRACE :: tail). remember (length (LBRACE :: LBRACE :: tail)) as g eqn:G. cbn [length] in G. cbn [format_go]. rewrite Ascii.eqb_refl. cbn [negb andb peek hd tl].
    rewrite Ascii.eqb_refl. rewrite (format_fuel tail _ (S (length tail))) by lia. fold (run ix tail). rewrite IH.
    destruct (run ix rest); reflexivity.
  - destruct (Ascii.eqb_spec c RBRACE) as [->|N2].
    + change (B "}}" ++ tail) with (RBRACE :: RBRACE :: tail). remember (length (RBRACE :: RBRACE :: tail)) as g eqn:G. cbn [length] in G. cbn [format_go]. rewrite Ascii.eqb_refl.
      change (negb (Ascii.eqb RBRACE LBRACE) && negb true) with false. cbv iota. cbn [peek hd tl].
      rewrite Ascii.eqb_refl. rewrite (format_fuel tail _ (S (length tail))) by lia. fold (run ix tail). rewrite IH.
      destruct (run ix rest); reflexivity.
    + cbn [app]. remember (length (c :: tail)) as g eqn:G. cbn [length] in G. cbn [format_go]. apply Ascii.eqb_neq in N1, N2. rewrite N1, N2. cbn [negb andb].
      rewrite (format_fuel tail _ (S (length tail))) by lia. fold (run ix tail). rewrite IH. destruct (run ix rest); reflexivity.
Qed.

Lemma run_open ix s : peek s <> LBRACE -> run ix (LBRACE :: s) =
  match parse_arg args ix s with
  | Ok (a, ix1, s1) => match format_placeholder dbl args a ix1 s1 with
                       | Ok (t, ix2, s2) => match format_go dbl args (S (length s)) ix2 s2 with
                                            | Ok out => Ok (t ++ out) | Error e => Error e | Undefined => Undefined end
                       | Error e => Error e | Undefined => Undefined end
  | Error e => Error e | Undefined => Undefined end.
Proof.
  intros P. unfold run. cbn [length]. remember (S (length s)) as g eqn:G. cbn [format_go]. rewrite Ascii.eqb_refl. cbn [negb andb].
  apply Ascii.eqb_neq in P. rewrite P. change (Ascii.eqb LBRACE RBRACE) with false. cbv iota.
  destruct (parse_arg args ix s) as [[[b i] u]| |]; cbn [bind]; try reflexivity.
Qed.

Lemma skipn_nth k (a : arg) rest : skipn (N.to_nat k) args = a :: rest ->
  nth_error args (N.to_nat k) = Some a /\ skipn (N.to_nat (k + 1)) args = rest.
Proof.
  replace (N.to_nat (k + 1)) with (S (N.to_nat k)) by lia. generalize (N.to_nat k) as n. clear k. intros n.
  revert args. induction n as [|n IH]; intros l H.
  - cbn [skipn] in H. subst l. split; reflexivity.
  - destruct l as [|x l]; [discriminate|]. cbn [skipn] in H. destruct (IH l H) as [E1 E2]. split; [exact E1|]. exact E2.
Qed.

Lemma skipn_none k : skipn (N.to_nat k) args = [] -> nth_error args (N.to_nat k) = None.
Proof.
  intros H. apply nth_error_None. assert (L := skipn_length (N.to_nat k) args). rewrite H in L. cbn [length] in L. lia.
Qed.

(** What a format string gives: everything in turn, and an error if arguments are missing. *)
Fixpoint enough (ps : list piece) (rest : list arg) : bool :=
  match ps, rest with
  | [], _ => true
  | Text _ :: ps', _ => enough ps' rest
  | Next _ :: ps', _ :: rest' => enough ps' rest'
  | Next _ :: _, [] => false
  end.

Lemma run_pieces ps : forall k rest, skipn (N.to_nat k) args = rest -> Forall sensible_pair (pairing ps rest) ->
  run (Some k) (format_text ps) =
  if enough ps rest then in_turn (format_arg dbl) (pairing ps rest)
  else match in_turn (format_arg dbl) (pairing ps rest) with Ok _ => Error EIndexRange | r => r end.
Proof.
  induction ps as [|p ps IH]; intros k rest SK F; [reflexivity|]. unfold format_text. cbn [flat_map]. fold (format_text ps).
  destruct p as [s|ow].
  - cbn [piece_text pairing enough in_turn] in *. apply Forall_cons_iff in F as [_ F]. rewrite run_text, (IH k rest SK F).
    destruct (enough ps rest), (in_turn (format_arg dbl) (pairing ps rest)); reflexivity.
  - destruct rest as [|a rest].
    + cbn [enough pairing in_turn]. assert (NN := skipn_none k SK). destruct ow as [w|]; cbn [piece_text].
      * change (B "{" ++ wish_text w ++ B "}") with (LBRACE :: wish_text w ++ B "}"). cbn [app].
        rewrite run_open by discriminate. rewrite parse_arg_none; [reflexivity|exact NN|left; reflexivity].
      * change (B "{}" ++ format_text ps) with (LBRACE :: RBRACE :: format_text ps).
        rewrite run_open by discriminate. rewrite parse_arg_none; [reflexivity|exact NN|right; reflexivity].
    + destruct (skipn_nth k a rest SK) as [NA SK']. cbn [enough pairing in_turn] in *. apply Forall_cons_iff in F as [FW F].
      specialize (IH (k + 1) rest SK' F). destruct ow as [w|]; cbn [piece_text sensible_pair] in *.
      * change (B "{" ++ wish_text w ++ B "}") with (LBRACE :: wish_text w ++ [RBRACE]). cbn [app]. rewrite <- app_assoc. cbn [app].
        rewrite run_open by discriminate. rewrite (parse_arg_next k a) by (exact NA || (left; reflexivity)).
        rewrite (placeholder_wish w a) by exact FW. destruct (format_arg dbl (asks w) a) as [t|e|]; [|destruct (enough ps rest); reflexivity..].
        rewrite (format_fuel (format_text ps) _ (S (length (format_text ps)))) by (rewrite ?app_length; cbn [length]; lia).
        fold (run (Some (k + 1)) (format_text ps)). rewrite IH.
        destruct (enough ps rest), (in_turn (format_arg dbl) (pairing ps rest)); reflexivity.
      * change (B "{}" ++ format_text ps) with (LBRACE :: RBRACE :: format_text ps).
        rewrite run_open by discriminate. rewrite (parse_arg_next k a) by (exact NA || (right; reflexivity)).
        rewrite placeholder_plain. destruct (format_arg dbl empty_spec a) as [t|e|]; [|destruct (enough ps rest); reflexivity..].
        rewrite (format_fuel (format_text ps) _ (S (length (format_text ps)))) by (cbn [length]; lia).
        fold (run (Some (k + 1)) (format_text ps)). rewrite IH.
        destruct (enough ps rest), (in_turn (format_arg dbl) (pairing ps rest)); reflexivity.
Qed.
End Strings.

(** ---- no NUL in a sensible format string ---- *)

Lemma in_nul_app (a b : bytes) : ~ In NUL a -> ~ In NUL b -> ~ In NUL (a ++ b).
Proof. intros A C I. apply in_app_or in I as [I|I]; auto. Qed.

Lemma digits_no_nul n ds : digits_of n ds -> ~ In NUL ds.
Proof.
  intros (_ & RD & _) I. assert (F := digits_rank ds 0 n RD). rewrite Forall_forall in F. destruct (F _ I) as (_ & C & _). congruence.
Qed.

Lemma wish_no_nul a w : sensible a w -> ~ In NUL (wish_text w).
Proof.
  intros (_ & FL & _ & SG & _ & _ & W & PR & T). unfold wish_text.
  assert (S1 : forall c, c <> NUL -> ~ In NUL [c]) by (intros c H [I|[]]; congruence).
  intros [I|I]; [discriminate|]. revert I.
  repeat apply in_nul_app.
  - destruct (w_fill w) as [c|]; [apply S1; tauto|intros []].
  - destruct (w_align w); cbn; intros I; repeat destruct I as [I|I]; try discriminate; destruct I.
  - destruct (w_sign w) as [c|]; [|intros []]. apply S1. destruct SG as [[-> | [-> | ->]] _]; discriminate.
  - destruct (w_hash w); [apply S1; discriminate|intros []].
  - destruct (w_zero w); [apply S1; discriminate|intros []].
  - destruct (w_width w) as [[n ds]|]; [apply (digits_no_nul n), W|intros []].
  - destruct (w_precision w) as [[n ds]|]; [|intros []]. intros [I|I]; [discriminate|]. revert I. apply (digits_no_nul n), PR.
  - destruct (w_type w) as [c|]; [|intros []]. apply S1. intros ->. discriminate T.
Qed.

Lemma brace_no_nul s : ~ In NUL s -> ~ In NUL (flat_map brace_text s).
Proof.
  intros H I. apply in_flat_map in I as (c & I & J). unfold brace_text in J.
  destruct (Ascii.eqb c LBRACE); [cbn in J; repeat destruct J as [J|J]; try discriminate; destruct J|].
  destruct (Ascii.eqb c RBRACE); [cbn in J; repeat destruct J as [J|J]; try discriminate; destruct J|].
  destruct J as [J|[]]. congruence.
Qed.

Lemma enough_placeholders ps : forall rest, enough ps rest = (placeholders ps <=? length rest)%nat.
Proof.
  induction ps as [|[s|w] ps IH]; intros rest; cbn [enough placeholders]; [reflexivity|apply IH|].
  destruct rest as [|a rest]; [reflexivity|]. rewrite IH. reflexivity.
Qed.

Lemma format_no_nul ps : forall rest, enough ps rest = true -> Forall sensible_pair (pairing ps rest) -> ~ In NUL (format_text ps).
Proof.
  induction ps as [|[s|ow] ps IH]; intros rest E F; cbn [enough pairing] in *; [intros []| |].
  - apply Forall_cons_iff in F as [F1 F]. unfold format_text. cbn [flat_map piece_text]. apply in_nul_app; [apply brace_no_nul; exact F1|].
    apply (IH rest E F).
  - destruct rest as [|a rest]; [discriminate|]. apply Forall_cons_iff in F as [F1 F]. unfold format_text. cbn [flat_map].
    apply in_nul_app; [|apply (IH rest E F)]. destruct ow as [w|]; cbn [piece_text sensible_pair] in *.
    + repeat apply in_nul_app; [|apply (wish_no_nul a w F1)|]; intros [I|[]]; discriminate.
    + intros [I|[I|[]]]; discriminate.
Qed.

Lemma c_string_id s : ~ In NUL s -> c_string s = s.
Proof.
  induction s as [|c s IH]; intros H; [reflexivity|]. cbn [c_string]. destruct (Ascii.eqb_spec c NUL) as [->|_].
  - exfalso. apply H. left. reflexivity.
  - rewrite IH; [reflexivity|]. intros I. apply H. right. exact I.
Qed.

Lemma write_pieces dbl ps args : (placeholders ps <= length args)%nat -> Forall sensible_pair (pairing ps args) ->
  write dbl (format_text ps) args = in_turn (format_arg dbl) (pairing ps args).
Proof.
  intros P F. assert (E : enough ps args = true) by (rewrite enough_placeholders; apply Nat.leb_le; exact P).
  unfold write. cbv zeta. rewrite (c_string_id _ (format_no_nul ps args E F)).
  change (run dbl args (Some 0) (format_text ps) = in_turn (format_arg dbl) (pairing ps args)).
  rewrite (run_pieces dbl args ps 0 args eq_refl F), E. reflexivity.
Qed.

Lemma write_missing dbl ps args : (length args < placeholders ps)%nat -> Forall sensible_pair (pairing ps args) ->
  ~ In NUL (format_text ps) ->
  write dbl (format_text ps) args = match in_turn (format_arg dbl) (pairing ps args) with Ok _ => Error EIndexRange | r => r end.
Proof.
  intros P F NN. assert (E : enough ps args = false) by (rewrite enough_placeholders; apply Nat.leb_gt; exact P).
  unfold write. cbv zeta. rewrite (c_string_id _ NN).
  change (run dbl args (Some 0) (format_text ps) = match in_turn (format_arg dbl) (pairing ps args) with Ok _ => Error EIndexRange | r => r end).
  rewrite (run_pieces dbl args ps 0 args eq_refl F), E. reflexivity.
Qed.

Lemma write_one dbl w a : sensible a w -> write dbl (B "{" ++ wish_text w ++ B "}") [a] = format_arg dbl (asks w) a.
Proof.
  intros S1. assert (H := write_pieces dbl [Next (Some w)] [a] ltac:(cbn; lia)).
  cbn [pairing] in H. specialize (H ltac:(constructor; [exact S1|constructor])).
  unfold format_text in H. cbn [flat_map piece_text in_turn] in H. rewrite app_nil_r in H. rewrite H.
  destruct (format_arg dbl (asks w) a); rewrite ?app_nil_r; reflexivity.
Qed.

Lemma write_plain dbl a : write dbl (B "{}") [a] = format_arg dbl empty_spec a.
Proof.
  assert (H := write_pieces dbl [Next None] [a] ltac:(cbn; lia)).
  cbn [pairing] in H. specialize (H ltac:(constructor; [exact I|constructor])).
  change (format_text [Next None]) with (B "{}") in H. cbn [in_turn] in H. rewrite H.
  destruct (format_arg dbl empty_spec a); rewrite ?app_nil_r; reflexivity.
Qed.

(** ---- integers and strings through a format string ---- *)

Lemma sign_asks w z : match w_sign w with Some c => (c = "+" \/ c = "-" \/ c = " ")%char | None => True end ->
  sign_of (asks w) z = sign_text w z.
Proof.
  unfold sign_of, sign_text, asks. cbn [sp_sign sp_plus]. destruct (z <? 0)%Z; [reflexivity|].
  destruct (w_sign w) as [c|]; [|reflexivity]. intros [-> | [-> | ->]]; reflexivity.
Qed.

Lemma integer_field dbl w a z base upper mark : carries a z -> sensible a w -> radix (sp_type (asks w)) = Some (base, upper, mark) ->
  exists ds out, write dbl (B "{" ++ wish_text w ++ B "}") [a] = Ok out /\ numeral base upper (Z.abs_N z) ds
    /\ field true (sp_align (asks w)) (sp_fill (asks w)) (sp_width (asks w)) (sign_text w z ++ (if w_hash w then mark else [])) ds out.
Proof.
  intros C S1 R. destruct (carries_int dbl a z (asks w) C) as (wd & E & RG).
  destruct (write_int_ok wd z (asks w) base upper mark RG R) as (ds & NU & Q).
  exists ds. eexists. rewrite (write_one dbl w a S1), E, Q. split; [reflexivity|]. split; [exact NU|].
  rewrite sign_asks; [|destruct S1 as (_ & _ & _ & SG & _); destruct (w_sign w); [apply SG|exact I]].
  apply laid_field.
Qed.

Lemma integer_plain dbl a z : carries a z ->
  exists ds, write dbl (B "{}") [a] = Ok ((if (z <? 0)%Z then B "-" else []) ++ ds) /\ numeral 10 false (Z.abs_N z) ds.
Proof.
  intros C. destruct (carries_int dbl a z empty_spec C) as (wd & E & RG).
  destruct (write_int_ok wd z empty_spec 10 false [] RG eq_refl) as (ds & NU & Q).
  exists ds. rewrite write_plain, E, Q. split; [|exact NU]. unfold laid, sign_of. cbn [empty_spec sp_align sp_width sp_fill sp_hash sp_sign].
  replace (0 - _) with 0 by lia. cbn [N.to_nat repeat app]. rewrite app_nil_r. reflexivity.
Qed.

Lemma pad_field s sp : field false (sp_align sp) (sp_fill sp) (sp_width sp) [] s (pad_str s sp).
Proof.
  unfold pad_str, field. cbv zeta. cbn [app].
  pose (f := fun n => repeat (sp_fill sp) (N.to_nat n)). set (p := sp_width sp - length_N s).
  fold (f p). fold (f (p / 2)). fold (f (p - p / 2)).
  assert (F : forall n, fills (sp_fill sp) (f n)) by (intros; apply fills_repeat).
  assert (FL : forall n, length_N (f n) = n) by (intros; unfold f; rewrite length_N_repeat; lia).
  assert (F0 : fills (sp_fill sp) []) by constructor.
  assert (H := half_bounds p). assert (L0 : length_N (@nil ascii) = 0) by reflexivity.
  destruct (N.ltb_spec (length_N s) (sp_width sp)) as [W|W].
  - destruct (sp_align sp);
    [exists [], [], (f p) | exists (f p), [], [] | exists [], [], (f p) | exists (f (p / 2)), [], (f (p - p / 2)) | exists [], [], (f p)];
    (refine (conj _ (conj _ (conj _ (conj _ (conj _ _))))); [cbn [app]; rewrite ?app_nil_r; reflexivity| auto | auto | auto | |]).
    all: try (split; reflexivity).
    all: try (rewrite !length_N_app, !FL; clear - W H; unfold p in *; lia).
    split; [reflexivity|]. rewrite !FL. exact H.
  - exists [], [], []. cbn [app]. rewrite app_nil_r, L0.
    refine (conj eq_refl (conj F0 (conj F0 (conj F0 (conj _ _))))); [lia|].
    destruct (sp_align sp); try (split; reflexivity). split; [reflexivity|lia].
Qed.

(** The part of a string a precision leaves. *)
Lemma string_field dbl w m size : sensible (AString (Some m) size) w -> (w_type w = None \/ w_type w = Some "s"%char) ->
  0 < size <= length_N m ->
  exists out, write dbl (B "{" ++ wish_text w ++ B "}") [AString (Some m) size] = Ok out
    /\ field false (sp_align (asks w)) (sp_fill (asks w)) (sp_width (asks w)) []
         (firstn (N.to_nat (match w_precision w with Some (q, _) => N.min q size | None => size end)) m) out.
Proof.
  intros S1 T R. rewrite (write_one dbl w _ S1). cbn [format_arg]. unfold write_string.
  assert (TY : negb (Ascii.eqb (sp_type (asks w)) NUL) && negb (Ascii.eqb (sp_type (asks w)) "s") = false).
  { cbn [asks sp_type]. destruct T as [-> | ->]; reflexivity. }
  rewrite TY. destruct (N.eqb_spec size 0); [lia|]. cbn [bind].
  assert (PR : match sp_precision (asks w) with Some q => if q <? size then q else size | None => size end
             = match w_precision w with Some (q, _) => N.min q size | None => size end).
  { cbn [asks sp_precision]. destruct (w_precision w) as [[q ds]|]; cbn [option_map fst]; [|reflexivity].
    destruct (N.ltb_spec q size); lia. }
  rewrite PR. unfold read.
  assert (LE : match w_precision w with Some (q, _) => N.min q size | None => size end <= length_N m) by (destruct (w_precision w) as [[q ds]|]; lia).
  destruct (N.ltb_spec (length_N m) (match w_precision w with Some (q, _) => N.min q size | None => size end)); [lia|].
  cbn [bind]. eexists. split; [reflexivity|]. apply pad_field.
Qed.

Lemma strlen_ok s m : ~ In NUL s -> strlen (s ++ NUL :: m) = Some (length_N s).
Proof.
  induction s as [|c s IH]; intros H; [reflexivity|]. cbn [app strlen]. destruct (Ascii.eqb_spec c NUL) as [->|_].
  - exfalso. apply H. left. reflexivity.
  - rewrite IH by (intros I; apply H; right; exact I). cbn [option_map]. f_equal. unfold length_N. cbn [length]. lia.
Qed.

Lemma strlen_none m : ~ In NUL m -> strlen m = None.
Proof.
  induction m as [|c m IH]; intros H; [reflexivity|]. cbn [strlen]. destruct (Ascii.eqb_spec c NUL) as [->|_].
  - exfalso. apply H. left. reflexivity.
  - rewrite IH by (intros I; apply H; right; exact I). reflexivity.
Qed.

(** A pointer to a C string, with or without precision. *)
Lemma c_string_field dbl w s m : sensible (ACString (Some (s ++ NUL :: m))) w -> (w_type w = None \/ w_type w = Some "s"%char) ->
  ~ In NUL s ->
  exists out, write dbl (B "{" ++ wish_text w ++ B "}") [ACString (Some (s ++ NUL :: m))] = Ok out
    /\ field false (sp_align (asks w)) (sp_fill (asks w)) (sp_width (asks w)) []
         (match w_precision w with Some (q, _) => firstn (N.to_nat q) s | None => s end) out.
Proof.
  intros S1 T NN. rewrite (write_one dbl w _ S1). cbn [format_arg]. unfold write_string.
  assert (TY : negb (Ascii.eqb (sp_type (asks w)) NUL) && negb (Ascii.eqb (sp_type (asks w)) "s") = false).
  { cbn [asks sp_type]. destruct T as [-> | ->]; reflexivity. }
  rewrite TY. change (0 =? 0) with true. cbv iota.
  assert (SZ : match s ++ NUL :: m with [] => Undefined
     | c :: _ => if Ascii.eqb c NUL then Ok 0 else match strlen (s ++ NUL :: m) with Some n => Ok n | None => Undefined end end = Ok (length_N s)).
  { rewrite strlen_ok by exact NN. destruct s as [|c s]; [reflexivity|]. cbn [app]. destruct (Ascii.eqb_spec c NUL) as [->|_]; [|reflexivity].
    exfalso. apply NN. left. reflexivity. }
  rewrite SZ. cbn [bind].
  set (q := match sp_precision (asks w) with Some q => if q <? length_N s then q else length_N s | None => length_N s end).
  assert (QL : q <= length_N s) by (unfold q; destruct (sp_precision (asks w)) as [x|]; [destruct (N.ltb_spec x (length_N s)); lia|lia]).
  unfold read. rewrite length_N_app. destruct (N.ltb_spec (length_N s + length_N (NUL :: m)) q); [lia|]. cbn [bind].
  eexists. split; [reflexivity|].
  match goal with |- field _ _ _ _ _ ?x _ => assert (EQ : firstn (N.to_nat q) (s ++ NUL :: m) = x); [|rewrite <- EQ; apply pad_field] end.
  rewrite firstn_app. replace (N.to_nat q - length s)%nat with 0%nat by (unfold length_N in QL; lia). rewrite firstn_O, app_nil_r.
  unfold q. cbn [asks sp_precision]. destruct (w_precision w) as [[x ds]|]; cbn [option_map fst].
  - destruct (N.ltb_spec x (length_N s)); [reflexivity|]. rewrite !firstn_all2; [reflexivity| |]; unfold length_N in *; lia.
  - apply firstn_all2. unfold length_N. lia.
Qed.

(** ---- canonical numerals are unique ---- *)

Lemma digit_unique (upper : bool) a b d : digit_number a = Some d -> digit_number b = Some d ->
  (if upper then is_lower a else is_upper a) = false -> (if upper then is_lower b else is_upper b) = false -> a = b.
Proof.
  assert (C : forall c, match digit_number c with
     | Some d => (if is_lower c then true else Ascii.eqb c (nth (N.to_nat d) (B "0123456789ABCDEF") NUL)) && (if is_upper c then true else Ascii.eqb c (nth (N.to_nat d) (B "0123456789abcdef") NUL))
     | None => true end = true) by per_byte.
  intros A1 B1 A2 B2. assert (CA := C a). assert (CB := C b). rewrite A1 in CA. rewrite B1 in CB.
  apply andb_true_iff in CA as [CA1 CA2], CB as [CB1 CB2]. destruct upper.
  - rewrite A2 in CA1. rewrite B2 in CB1. apply Ascii.eqb_eq in CA1, CB1. congruence.
  - rewrite A2 in CA2. rewrite B2 in CB2. apply Ascii.eqb_eq in CA2, CB2. congruence.
Qed.

Lemma read_snoc base (s : bytes) c v : read_digits base 0 (s ++ [c]) = Some v ->
  exists u d, read_digits base 0 s = Some u /\ digit_number c = Some d /\ d < base /\ v = u * base + d.
Proof.
  rewrite read_digits_app. destruct (read_digits base 0 s) as [u|]; [|discriminate]. cbn [read_digits].
  destruct (digit_number c) as [d|]; [|discriminate]. destruct (N.ltb_spec d base) as [L|]; [|discriminate].
  intros E. injection E as <-. exists u, d. auto.
Qed.

Lemma zero_case : forall c, match digit_number c with Some 0 => negb (is_upper c) && negb (is_lower c) | _ => true end = true.
Proof. per_byte. Qed.

Lemma numeral_init base upper (s : bytes) c v : 2 <= base -> numeral base upper v (s ++ [c]) -> s <> [] -> exists u d,
  numeral base upper u s /\ 0 < u /\ digit_number c = Some d /\ d < base /\ v = u * base + d.
Proof.
  intros HB (_ & R & Z & C) NE. apply read_snoc in R as (u & d & R1 & R2 & R3 & ->). exists u, d.
  apply Forall_app in C as [C _].
  assert (H0 : hd NUL s <> "0"%char).
  { intros E. destruct s as [|x s]; [congruence|]. cbn [hd app] in *. specialize (Z E). destruct s; discriminate. }
  assert (P : 0 < u).
  { destruct s as [|x s]; [congruence|]. cbn [read_digits hd] in *. destruct (digit_number x) as [dx|] eqn:EX; [|discriminate].
    destruct (dx <? base); [|discriminate]. apply read_digits_mono in R1; [|lia].
    destruct (N.eq_dec dx 0) as [->|]; [|lia]. exfalso. apply H0.
    apply (digit_unique false x "0"%char 0 EX eq_refl).
    - assert (K := zero_case x). rewrite EX in K. apply andb_true_iff in K as [K _]. apply negb_true_iff. exact K.
    - reflexivity. }
  refine (conj (conj NE (conj R1 (conj _ C))) (conj P (conj R2 (conj R3 eq_refl)))). intros E. contradiction.
Qed.

Lemma numeral_unique base upper : 2 <= base <= 16 -> forall s t v, numeral base upper v s -> numeral base upper v t -> s = t.
Proof.
  intros HB.
  induction s as [|c s IH] using rev_ind; intros t v HS HT; [destruct HS as (HS & _); congruence|].
  destruct t as [|c' t _] using rev_ind; [destruct HT as (HT & _); congruence|].
  assert (FS := HS). assert (FT := HT).
  destruct HS as (_ & RS & ZS & CS), HT as (_ & RT & ZT & CT).
  apply read_snoc in RS as (u & d & S1 & S2 & S3 & ->). apply read_snoc in RT as (u' & d' & T1 & T2 & T3 & E).
  assert (d = d' /\ u = u') as [<- <-].
  { assert (M1 : (u * base + d) mod base = d) by (rewrite N.add_comm, N.mod_add by lia; apply N.mod_small; exact S3).
    assert (M2 : (u' * base + d') mod base = d') by (rewrite N.add_comm, N.mod_add by lia; apply N.mod_small; exact T3).
    assert (d = d') by (rewrite <- M1, <- M2, E; reflexivity). subst d'. split; [reflexivity|]. nia. }
  assert (CE : c = c').
  { apply Forall_app in CS as [_ CS], CT as [_ CT]. apply Forall_cons_iff in CS as [CS _], CT as [CT _].
    apply (digit_unique upper c c' d S2 T2 CS CT). }
  subst c'. f_equal.
  destruct s as [|x s].
  - destruct t as [|y t]; [reflexivity|]. exfalso. cbn [read_digits] in S1. injection S1 as S1.
    apply numeral_init in FT as (w & e & _ & P & _ & _ & Q); [|lia|discriminate]. subst u.
    assert (w * base + e = d) by lia. nia.
  - apply numeral_init in FS as (a & e & NA & PA & EA & LA & QA); [|lia|discriminate].
    destruct t as [|y t].
    + exfalso. cbn [read_digits] in T1. injection T1 as T1. subst u. rewrite S2 in EA. injection EA as ->. nia.
    + apply numeral_init in FT as (b & e' & NB & PB & EB & LB & QB); [|lia|discriminate].
      apply (IH _ u).
      * assert (a = u) by (rewrite S2 in EA; injection EA as <-; nia). subst a. exact NA.
      * assert (b = u) by (rewrite S2 in EB; injection EB as <-; nia). subst b. exact NB.
Qed.

(** ---- numbers that are too big ---- *)

Lemma read_digits_split : forall ds acc n, read_digits 10 acc ds = Some n ->
  exists r, n = acc * 10 ^ N.of_nat (length ds) + r /\ r < 10 ^ N.of_nat (length ds).
Proof.
  induction ds as [|c ds IH]; intros acc n H; cbn [read_digits] in H.
  - injection H as <-. exists 0. cbn. rewrite N.pow_0_r. lia.
  - destruct (digit_number c) as [d|]; [|discriminate]. destruct (N.ltb_spec d 10) as [D|]; [|discriminate].
    destruct (IH _ _ H) as (r & E & L). cbn [length]. rewrite Nat2N.inj_succ, N.pow_succ_r'.
    set (q := 10 ^ N.of_nat (length ds)) in *. clearbody q. exists (d * q + r). split; [lia|]. nia.
Qed.
Lemma read_digits_div ds acc n : read_digits 10 acc ds = Some n -> n / 10 ^ N.of_nat (length ds) = acc.
Proof.
  intros H. destruct (read_digits_split _ _ _ H) as (r & -> & L). rewrite N.div_add_l by (apply N.pow_nonzero; lia).
  rewrite (N.div_small r) by exact L. lia.
Qed.
Lemma pow10_mono n a b : a <= b -> n / 10 ^ b <= n / 10 ^ a.
Proof.
  intros L. replace b with (a + (b - a)) by lia. rewrite N.pow_add_r, <- N.div_div by (apply N.pow_nonzero; lia).
  pose proof (N.pow_nonzero 10 (b - a) ltac:(lia)) as NZ. set (q := 10 ^ (b - a)) in *. clearbody q.
  apply N.div_le_upper_bound; [exact NZ|]. generalize (n / 10 ^ a). intros m. nia.
Qed.

Lemma parse_int_go_caught t : forall ds acc n k, acc < 2 ^ 32 -> read_digits 10 acc ds = Some n ->
  2 ^ 32 <= n / 10 ^ k -> n / 10 ^ (k + 1) < 2 ^ 32 -> (n / 10 ^ k) mod 2 ^ 32 < n / 10 ^ (k + 1) ->
  fst (parse_int_go acc (ds ++ t)) = 2 ^ 32 - 1.
Proof.
  induction ds as [|c ds IH]; intros acc n k LA H K1 K2 K3; cbn [read_digits app] in *.
  - injection H as ->. pose proof (pow10_mono n 0 k ltac:(lia)) as M. rewrite N.pow_0_r, N.div_1_r in M. lia.
  - assert (HD := read_digits_div (c :: ds) acc n H).
    destruct (digit_number c) as [d|] eqn:E; [|discriminate]. destruct (N.ltb_spec d 10) as [D|]; [|discriminate].
    assert (HD' := read_digits_div ds _ n H). cbn [length] in HD. rewrite Nat2N.inj_succ, <- N.add_1_r in HD.
    destruct (decimal_digit c d E D) as [D1 D2]. cbn [parse_int_go]. rewrite D1. cbv zeta. rewrite D2.
    destruct (N.lt_ge_cases (acc * 10 + d) (2 ^ 32)) as [LN|LN].
    + rewrite N.mod_small by lia. destruct (N.ltb_spec (acc * 10 + d) acc); [lia|]. exact (IH _ _ k LN H K1 K2 K3).
    + assert (EK : k = N.of_nat (length ds)).
      { destruct (N.lt_trichotomy k (N.of_nat (length ds))) as [L|[L|L]]; [|exact L|].
        - pose proof (pow10_mono n (k + 1) (N.of_nat (length ds)) ltac:(lia)). lia.
        - pose proof (pow10_mono n (N.of_nat (length ds) + 1) k ltac:(lia)). lia. }
      subst k. rewrite HD, HD' in K3. destruct (N.ltb_spec ((acc * 10 + d) mod 2 ^ 32) acc); [reflexivity|lia].
Qed.

Lemma too_big_rejected n ds t : digits_of n ds -> noticed n -> is_digit (peek t) = false ->
  parse_int (ds ++ t) = Error ENumberTooBig.
Proof.
  intros (NE & RD & _) [L|(k & K1 & K2 & K3)] HT; unfold parse_int.
  - rewrite (parse_int_go_ok ds t HT 0 n RD) by lia.
    unfold INT_MAX. destruct (N.ltb_spec (2 ^ 31 - 1) n); [reflexivity|lia].
  - pose proof (parse_int_go_caught t ds 0 n k ltac:(lia) RD K1 K2 K3) as E. destruct (parse_int_go 0 (ds ++ t)) as [v s']. cbn [fst] in E. subst v. reflexivity.
Qed.

Lemma noticed_positive n : noticed n -> 0 < n.
Proof.
  intros [L|(k & K1 & _)]; [lia|]. pose proof (pow10_mono n 0 k ltac:(lia)) as M. rewrite N.pow_0_r, N.div_1_r in M. lia.
Qed.

Lemma too_big_width dbl n ds a : digits_of n ds -> noticed n ->
  write dbl (B "{:" ++ ds ++ B "}") [a] = Error ENumberTooBig.
Proof.
  intros D R. unfold write. cbv zeta. rewrite c_string_id.
  2:{ apply in_nul_app; [|apply in_nul_app; [apply (digits_no_nul n), D|]]; intros I; repeat destruct I as [I|I]; try discriminate; destruct I. }
  change (B "{:" ++ ds ++ B "}") with (LBRACE :: ":"%char :: ds ++ [RBRACE]).
  change (run dbl [a] (Some 0) (LBRACE :: ":"%char :: ds ++ [RBRACE]) = Error ENumberTooBig).
  rewrite run_open by discriminate. rewrite (parse_arg_next [a] 0 a) by (reflexivity || (left; reflexivity)).
  unfold format_placeholder, parse_spec. rewrite Ascii.eqb_refl.
  assert (F1 := digits_first n ds D (noticed_positive n R)). assert (RD := proj1 (proj2 D)). assert (FD := digits_rank ds 0 n RD).
  assert (NE := proj1 D). assert (TB := too_big_rejected n ds [RBRACE] D R eq_refl).
  destruct ds as [|c ds]; [congruence|]. cbn [hd] in F1. apply Forall_cons_iff in FD as [FC FD].
  assert (AL : parse_align a ((c :: ds) ++ [RBRACE]) = Ok (ADefault, " "%char, (c :: ds) ++ [RBRACE])).
  { cbn [app parse_align]. assert (RP : 2 <= rank (peek (ds ++ [RBRACE]))).
    { destruct ds as [|c' ds]; [vm_compute; discriminate|]. apply Forall_cons_iff in FD as [FC' _]. cbn [app peek hd]. lia. }
    rewrite (rank2 _ RP), (rank2 c) by lia. reflexivity. }
  rewrite AL. cbn [bind]. unfold parse_sign. cbn [app]. destruct (rank3 c ltac:(lia)) as (-> & -> & ->). cbn [bind].
  unfold parse_flag. rewrite (rank4 c) by lia. cbn [bind]. rewrite (rank5 c) by lia. cbn [bind].
  unfold parse_width. cbn [peek hd]. cbn [read_digits] in RD. destruct (digit_number c) as [d|] eqn:DC; [|discriminate].
  destruct (N.ltb_spec d 10) as [D10|]; [|discriminate]. destruct (decimal_digit c d DC D10) as [-> _].
  change (c :: ds ++ [RBRACE]) with ((c :: ds) ++ [RBRACE]). rewrite TB. reflexivity.
Qed.

Lemma write_single dbl a s sp : ~ In NUL s -> parse_spec [a] a (Some 1) (":"%char :: s) = Ok (sp, Some 1, [RBRACE]) ->
  write dbl (LBRACE :: ":"%char :: s) [a] = format_arg dbl sp a.
Proof.
  intros NN PS. unfold write. cbv zeta. rewrite c_string_id.
  2:{ intros [I|[I|I]]; [discriminate|discriminate|contradiction]. }
  change (run dbl [a] (Some 0) (LBRACE :: ":"%char :: s) = format_arg dbl sp a).
  rewrite run_open by discriminate. rewrite (parse_arg_next [a] 0 a) by (reflexivity || (left; reflexivity)).
  unfold format_placeholder. change (0 + 1) with 1. rewrite PS. cbn [bind]. rewrite Ascii.eqb_refl.
  destruct (format_arg dbl sp a) as [t| |]; cbn [bind]; [|reflexivity|reflexivity].
  remember (length (":"%char :: s)) as g. cbn [format_go bind]. rewrite app_nil_r. reflexivity.
Qed.

(** Any width: refused, or what is left of it in 32 bits. *)
Lemma parse_int_go_any t : is_digit (peek t) = false -> forall ds acc n, read_digits 10 acc ds = Some n ->
  fst (parse_int_go (acc mod 2 ^ 32) (ds ++ t)) = 2 ^ 32 - 1 \/ parse_int_go (acc mod 2 ^ 32) (ds ++ t) = (n mod 2 ^ 32, t).
Proof.
  intros HT. induction ds as [|c ds IH]; intros acc n H; cbn [read_digits app] in *.
  - injection H as ->. right. destruct t as [|c t]; [reflexivity|]. cbn [peek hd] in HT. cbn [parse_int_go]. rewrite HT. reflexivity.
  - destruct (digit_number c) as [d|] eqn:E; [|discriminate]. destruct (N.ltb_spec d 10) as [D|]; [|discriminate].
    destruct (decimal_digit c d E D) as [D1 D2]. cbn [parse_int_go]. rewrite D1. cbv zeta. rewrite D2.
    destruct (_ <? acc mod 2 ^ 32); [left; reflexivity|].
    replace ((acc mod 2 ^ 32 * 10 + d) mod 2 ^ 32) with ((acc * 10 + d) mod 2 ^ 32) by
      (rewrite (N.add_mod (acc * 10)), (N.mul_mod acc), (N.add_mod (acc mod 2 ^ 32 * 10)), (N.mul_mod (acc mod 2 ^ 32)), N.mod_mod by discriminate; reflexivity).
    exact (IH _ _ H).
Qed.
Lemma parse_int_any n ds t : digits_of n ds -> is_digit (peek t) = false ->
  parse_int (ds ++ t) = Error ENumberTooBig \/ (n mod 2 ^ 32 < 2 ^ 31 /\ parse_int (ds ++ t) = Ok (n mod 2 ^ 32, t)).
Proof.
  intros (_ & RD & _) HT. unfold parse_int. destruct (parse_int_go_any t HT ds 0 n RD) as [E|E]; change (0 mod 2 ^ 32) with 0 in E.
  - left. destruct (parse_int_go 0 (ds ++ t)) as [v s']. cbn [fst] in E. subst v. reflexivity.
  - rewrite E. unfold INT_MAX. destruct (N.ltb_spec (2 ^ 31 - 1) (n mod 2 ^ 32)); [left; reflexivity|right]. split; [lia|reflexivity].
Qed.
Lemma width_parsed dbl n ds a m : digits_of n ds -> 0 < n -> parse_int (ds ++ [RBRACE]) = Ok (m, [RBRACE]) ->
  write dbl (B "{:" ++ ds ++ B "}") [a] = format_arg dbl (Spec m " " ADefault false false false false None NUL) a.
Proof.
  intros D PO PI. change (B "{:" ++ ds ++ B "}") with (LBRACE :: ":"%char :: ds ++ [RBRACE]).
  apply write_single.
  { apply in_nul_app; [apply (digits_no_nul n), D|]. intros [I|[]]. discriminate I. }
  unfold parse_spec. rewrite Ascii.eqb_refl.
  assert (F1 := digits_first n ds D PO). assert (RD := proj1 (proj2 D)). assert (FD := digits_rank ds 0 n RD). assert (NE := proj1 D).
  destruct ds as [|c ds]; [congruence|]. cbn [hd] in F1. apply Forall_cons_iff in FD as [FC FD].
  assert (AL : parse_align a ((c :: ds) ++ [RBRACE]) = Ok (ADefault, " "%char, (c :: ds) ++ [RBRACE])).
  { cbn [app parse_align]. assert (RP : 2 <= rank (peek (ds ++ [RBRACE]))).
    { destruct ds as [|c' ds]; [vm_compute; discriminate|]. apply Forall_cons_iff in FD as [FC' _]. cbn [app peek hd]. lia. }
    rewrite (rank2 _ RP), (rank2 c) by lia. reflexivity. }
  rewrite AL. cbn [bind]. unfold parse_sign. cbn [app]. destruct (rank3 c ltac:(lia)) as (-> & -> & ->). cbn [bind].
  unfold parse_flag. rewrite (rank4 c) by lia. cbn [bind]. rewrite (rank5 c) by lia. cbn [bind].
  unfold parse_width. cbn [peek hd]. cbn [read_digits] in RD. destruct (digit_number c) as [d|] eqn:DC; [|discriminate].
  destruct (N.ltb_spec d 10) as [D10|]; [|discriminate]. destruct (decimal_digit c d DC D10) as [-> _].
  change (c :: ds ++ [RBRACE]) with ((c :: ds) ++ [RBRACE]). rewrite PI. reflexivity.
Qed.
Lemma parse_int_go_grows : forall s acc v s', parse_int_go acc s = (v, s') -> acc < 2 ^ 32 -> v = 2 ^ 32 - 1 \/ acc <= v.
Proof.
  induction s as [|c s IH]; intros acc v s' H L; cbn [parse_int_go] in H; [injection H as <- _; right; lia|].
  destruct (is_digit c); [|injection H as <- _; right; lia]. cbv zeta in H. destruct (N.ltb_spec ((acc * 10 + (N_of_ascii c - 48)) mod 2 ^ 32) acc).
  - injection H as <- _. left. reflexivity.
  - destruct (IH _ _ _ H) as [E|E]; [apply N.mod_upper_bound; discriminate|left; exact E|right; lia].
Qed.
Lemma parse_int_go_wrapped t : forall ds acc n v s', acc < 2 ^ 32 -> read_digits 10 acc ds = Some n -> 2 ^ 32 <= n ->
  parse_int_go acc (ds ++ t) = (v, s') -> 429496729 <= v.
Proof.
  induction ds as [|c ds IH]; intros acc n v s' L H G E; cbn [read_digits app] in *; [injection H as ->; lia|].
  destruct (digit_number c) as [d|] eqn:EC; [|discriminate]. destruct (N.ltb_spec d 10) as [D|]; [|discriminate].
  destruct (decimal_digit c d EC D) as [D1 D2]. cbn [parse_int_go] in E. rewrite D1 in E. cbv zeta in E. rewrite D2 in E.
  destruct (N.ltb_spec ((acc * 10 + d) mod 2 ^ 32) acc) as [W|W]; [injection E as <- _; discriminate|].
  destruct (N.lt_ge_cases (acc * 10 + d) (2 ^ 32)) as [LN|LN].
  - rewrite N.mod_small in E by exact LN. exact (IH _ _ _ _ LN H G E).
  - destruct (parse_int_go_grows _ _ _ _ E) as [->|M]; [apply N.mod_upper_bound; discriminate|discriminate|]. lia.
Qed.
Lemma any_width dbl n ds a : digits_of n ds -> 0 < n ->
  write dbl (B "{:" ++ ds ++ B "}") [a] = Error ENumberTooBig \/
  ((n < 2 ^ 31 \/ 429496729 <= n mod 2 ^ 32 < 2 ^ 31) /\
   forall ds', digits_of (n mod 2 ^ 32) ds' -> write dbl (B "{:" ++ ds ++ B "}") [a] = write dbl (B "{:" ++ ds' ++ B "}") [a]).
Proof.
  intros D PO. destruct (parse_int_any n ds [RBRACE] D eq_refl) as [E|[L E]].
  - left. change (B "{:" ++ ds ++ B "}") with (LBRACE :: ":"%char :: ds ++ [RBRACE]). unfold write. cbv zeta. rewrite c_string_id.
    2:{ intros [I|[I|I]]; [discriminate|discriminate|]. revert I. apply in_nul_app; [apply (digits_no_nul n), D|]. intros [I|[]]; discriminate I. }
    change (run dbl [a] (Some 0) (LBRACE :: ":"%char :: ds ++ [RBRACE]) = Error ENumberTooBig).
    rewrite run_open by discriminate. rewrite (parse_arg_next [a] 0 a) by (reflexivity || (left; reflexivity)).
    unfold format_placeholder, parse_spec. rewrite Ascii.eqb_refl.
    assert (F1 := digits_first n ds D PO). assert (RD := proj1 (proj2 D)). assert (FD := digits_rank ds 0 n RD). assert (NE := proj1 D).
    destruct ds as [|c ds]; [congruence|]. cbn [hd] in F1. apply Forall_cons_iff in FD as [FC FD].
    assert (AL : parse_align a ((c :: ds) ++ [RBRACE]) = Ok (ADefault, " "%char, (c :: ds) ++ [RBRACE])).
    { cbn [app parse_align]. assert (RP : 2 <= rank (peek (ds ++ [RBRACE]))).
      { destruct ds as [|c' ds]; [vm_compute; discriminate|]. apply Forall_cons_iff in FD as [FC' _]. cbn [app peek hd]. lia. }
      rewrite (rank2 _ RP), (rank2 c) by lia. reflexivity. }
    rewrite AL. cbn [bind]. unfold parse_sign. cbn [app]. destruct (rank3 c ltac:(lia)) as (-> & -> & ->). cbn [bind].
    unfold parse_flag. rewrite (rank4 c) by lia. cbn [bind]. rewrite (rank5 c) by lia. cbn [bind].
    unfold parse_width. cbn [peek hd]. cbn [read_digits] in RD. destruct (digit_number c) as [d|] eqn:DC; [|discriminate].
    destruct (N.ltb_spec d 10) as [D10|]; [|discriminate]. destruct (decimal_digit c d DC D10) as [-> _].
    change (c :: ds ++ [RBRACE]) with ((c :: ds) ++ [RBRACE]). rewrite E. reflexivity.
  - right. assert (B : n < 2 ^ 31 \/ 429496729 <= n mod 2 ^ 32 < 2 ^ 31).
    { destruct (N.lt_ge_cases n (2 ^ 32)) as [S|S]; [left; rewrite N.mod_small in L by exact S; exact L|right]. split; [|exact L].
      unfold parse_int in E. destruct (parse_int_go 0 (ds ++ [RBRACE])) as [v s'] eqn:G. destruct (INT_MAX <? v); [discriminate E|]. injection E as E _.
      rewrite <- E. exact (parse_int_go_wrapped [RBRACE] ds 0 n v s' ltac:(lia) (proj1 (proj2 D)) S G). }
    split; [exact B|]. assert (P' : 0 < n mod 2 ^ 32) by (destruct B as [B|B]; [rewrite N.mod_small by lia|]; lia).
    intros ds' D'. rewrite (width_parsed dbl n ds a _ D PO E). symmetry. apply (width_parsed dbl (n mod 2 ^ 32)); [exact D'|exact P'|].
    unfold parse_int. rewrite (parse_int_go_ok ds' [RBRACE] eq_refl 0 (n mod 2 ^ 32) (proj1 (proj2 D'))) by (pose proof (N.mod_upper_bound n (2 ^ 32)); lia).
    unfold INT_MAX. destruct (N.ltb_spec (2 ^ 31 - 1) (n mod 2 ^ 32)); [lia|reflexivity].
Qed.

Lemma laid_default_length f w pre s : w >= length_N (pre ++ s) ->
  length_N (laid (Spec w f ADefault false false false false None NUL) pre s) = w.
Proof.
  intros L. unfold laid. cbn [sp_align sp_width sp_fill]. rewrite !length_N_app, length_N_repeat. rewrite length_N_app in L. lia.
Qed.

Lemma wrapped_width dbl : exists out, write dbl (B "{:10000000000}") [AInt 7] = Ok out /\ length_N out = 1410065408.
Proof.
  assert (PS : exists sp, sp = Spec 1410065408 " " ADefault false false false false None NUL /\
    parse_spec [AInt 7] (AInt 7) (Some 1) (B ":10000000000}") = Ok (sp, Some 1, [RBRACE])).
  { eexists. split; [reflexivity|]. vm_compute. reflexivity. }
  destruct PS as (sp & ESP & PS).
  destruct (write_int_ok W32 7 sp 10 false []) as (ds & NU & Q); [unfold int_range; cbn; lia|rewrite ESP; reflexivity|].
  assert (E7 : ds = B "7").
  { apply (numeral_unique 10 false ltac:(lia) _ _ 7 NU). refine (conj _ (conj eq_refl (conj _ _))); [discriminate|discriminate|repeat constructor]. }
  subst ds. exists (laid sp (sign_of sp 7 ++ (if sp_hash sp then [] else [])) (B "7")). split.
  - refine (eq_trans (write_single dbl (AInt 7) (B "10000000000}") sp _ PS) Q).
    intros I; repeat destruct I as [I|I]; try discriminate; destruct I.
  - rewrite ESP. apply laid_default_length. vm_compute. discriminate.
Qed.
