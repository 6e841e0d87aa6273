From Verif Require Import Base Decimal FmtModel FmtSpec FmtProofs FmtSubProofs MetaFormatModel MetaFormatSpec.
From Verif Require StringViewModel.
Open Scope N_scope.

(** ---- arguments ---- *)

Lemma laid_empty prefix s : laid empty_spec prefix s = prefix ++ s.
Proof. unfold laid. cbv zeta. cbn [sp_align empty_spec sp_width]. rewrite N.sub_0_l. reflexivity. Qed.

Lemma digits_plain w n : n < 2 ^ bits_of w -> count_digits w n = Some (length_N (dec n)) /\ decimal_back 65 n = Some (rev (dec n)).
Proof.
  intros R. split; [apply count_digits_ok; exact R|]. apply decimal_back_ok; [|lia].
  apply N.lt_le_trans with (1 := R). apply N.le_trans with (2 ^ N.of_nat 65).
  - apply N.pow_le_mono_r; [lia|destruct w; cbn [bits_of]; lia].
  - apply N.pow_le_mono_l. lia.
Qed.

Lemma write_int_plain w z : int_range w z -> write_int w z empty_spec = Ok ((if (z <? 0)%Z then B "-" else []) ++ dec (Z.abs_N z)).
Proof.
  intros R. destruct (abs_value_ok w z R) as [A AR]. unfold write_int. cbv zeta. rewrite A.
  cbn [sp_type sp_sign empty_spec]. change (N_of_ascii NUL) with 0. cbv iota.
  destruct (digits_plain w _ AR) as [-> ->]. rewrite fill_digits_ok, laid_empty. reflexivity.
Qed.

Lemma unsigned_cells w n p : n < 2 ^ bits_of w ->
  write_unsigned_decimal w n (N.of_nat p) = Some (repeat None p ++ stored (dec n)).
Proof.
  intros R. unfold write_unsigned_decimal. destruct (digits_plain w n R) as [-> ->].
  assert (K := put_back_ok (rev (dec n)) (repeat None p) []). rewrite !app_nil_r, rev_length, repeat_length, rev_involutive in K.
  unfold blank, length_N. rewrite <- Nat2N.inj_add, Nat2N.id, repeat_app. exact K.
Qed.

Lemma write_decimal_plain w z : int_range w z -> write_decimal w z = Ok ((if (z <? 0)%Z then B "-" else []) ++ dec (Z.abs_N z)).
Proof.
  intros R. destruct (abs_value_ok w z R) as [A AR]. unfold write_decimal. cbv zeta.
  destruct (z <? 0)%Z.
  - rewrite A. change 1 with (N.of_nat 1). rewrite (unsigned_cells w _ 1 AR). cbn [repeat app put]. change (Some "-"%char :: stored (dec (Z.abs_N z))) with (stored (B "-" ++ dec (Z.abs_N z))).
    rewrite all_stored_ok. reflexivity.
  - rewrite A. change 0 with (N.of_nat 0). rewrite (unsigned_cells w _ 0 AR). cbn [repeat app]. rewrite all_stored_ok. reflexivity.
Qed.

Lemma signed_char_back c : chr (Z.to_N (StringViewModel.signed_char c mod 256)) = c.
Proof.
  unfold StringViewModel.signed_char. assert (R := N_ascii_bounded c).
  transitivity (chr (N_of_ascii c)); [|apply ascii_N_embedding]. f_equal.
  destruct (N.ltb_spec (N_of_ascii c) 128).
  - rewrite Z.mod_small by lia. lia.
  - replace (Z.of_N (N_of_ascii c) - 256)%Z with (Z.of_N (N_of_ascii c) + (-1) * 256)%Z by lia.
    rewrite Z.mod_add by lia. rewrite Z.mod_small by lia. lia.
Qed.

Lemma strlen_in m : In NUL m -> exists s t, m = s ++ NUL :: t /\ ~ In NUL s.
Proof.
  induction m as [|c m IH]; intros I; [destruct I|]. destruct (Ascii.eqb_spec c NUL) as [->|N1].
  - exists [], m. split; [reflexivity|intros []].
  - destruct I as [I|I]; [congruence|]. destruct (IH I) as (s & t & -> & NI). exists (c :: s), t. split; [reflexivity|].
    intros [J|J]; [congruence|exact (NI J)].
Qed.

Lemma read_app s t : read (s ++ t) (length_N s) = Ok s.
Proof.
  unfold read. rewrite length_N_app. destruct (N.ltb_spec (length_N s + length_N t) (length_N s)); [lia|].
  unfold length_N. rewrite Nat2N.id, firstn_app, firstn_all, Nat.sub_diag. cbn [firstn]. rewrite app_nil_r. reflexivity.
Qed.

Lemma pad_empty s : pad_str s empty_spec = s.
Proof. unfold pad_str. cbv zeta. cbn [sp_width empty_spec]. destruct (N.ltb_spec (length_N s) 0); [lia|reflexivity]. Qed.

Lemma write_string_sized m size : 0 < size <= length_N m ->
  write_string (Some m) size empty_spec = Ok (firstn (N.to_nat size) m).
Proof.
  intros R. unfold write_string. cbn [sp_type sp_precision empty_spec]. rewrite Ascii.eqb_refl. cbn [negb andb].
  destruct (N.eqb_spec size 0); [lia|]. cbn [bind]. unfold read. destruct (N.ltb_spec (length_N m) size); [lia|].
  cbn [bind]. rewrite pad_empty. reflexivity.
Qed.

Lemma write_string_nul s t : ~ In NUL s -> write_string (Some (s ++ NUL :: t)) 0 empty_spec = Ok s.
Proof.
  intros NI. unfold write_string. cbn [sp_type sp_precision empty_spec]. rewrite Ascii.eqb_refl. cbn [negb andb].
  change (0 =? 0) with true. cbv iota. rewrite (strlen_ok s t NI).
  destruct s as [|c s]; cbn [app].
  - rewrite Ascii.eqb_refl. cbn [bind]. unfold read. rewrite N.ltb_antisym.
    replace (0 <=? length_N (NUL :: t)) with true by (symmetry; apply N.leb_le; lia). cbn [negb bind N.to_nat firstn].
    rewrite pad_empty. reflexivity.
  - destruct (Ascii.eqb_spec c NUL) as [->|_]; [exfalso; apply NI; left; reflexivity|]. cbn [bind].
    change (c :: s ++ NUL :: t) with ((c :: s) ++ NUL :: t). rewrite read_app. cbn [bind]. rewrite pad_empty. reflexivity.
Qed.

Section Arguments.
Variable dbl : spec -> N -> bytes.

Lemma stream_same v : proper v -> ~ treated_differently v ->
  exists t, stream dbl v = Ok t /\ format_arg dbl empty_spec (make_value v) = Ok t.
Proof.
  intros P D.
  assert (INT : forall w z, int_range w z -> exists t, write_decimal w z = Ok t /\ write_int w z empty_spec = Ok t).
  { intros w z R. eexists. split; [apply write_decimal_plain|apply write_int_plain]; exact R. }
  assert (UINT : forall w n, n < 2 ^ bits_of w -> int_range w (Z.of_N n)).
  { intros w n R. assert (Z.of_N (2 ^ bits_of w) = 2 ^ Z.of_N (bits_of w))%Z by (rewrite N2Z.inj_pow; reflexivity).
    unfold int_range. assert (0 < 2 ^ (Z.of_N (bits_of w) - 1))%Z by (destruct w; reflexivity). lia. }
  destruct v; cbn [proper treated_differently stream make_value format_arg] in *; try (exfalso; apply D; exact I).
  - exists [c]. split; [reflexivity|]. unfold write_char. cbn [sp_type sp_align sp_sign sp_plus sp_minus sp_hash empty_spec].
    rewrite Ascii.eqb_refl. cbn [negb andb orb]. rewrite signed_char_back, pad_empty. reflexivity.
  - apply INT. unfold int_range. cbn [bits_of]. change (Z.of_N 32) with 32%Z. lia.
  - apply INT, UINT. cbn [bits_of]. lia.
  - apply INT. unfold int_range. cbn [bits_of]. change (Z.of_N 32) with 32%Z. lia.
  - destruct (INT W32 (Z.of_N n) (UINT W32 n P)) as (t & _ & E). exists t. split; exact E.
  - apply INT. unfold int_range. cbn [bits_of]. change (Z.of_N 64) with 64%Z. lia.
  - destruct (INT W64 (Z.of_N n) (UINT W64 n P)) as (t & _ & E). exists t. split; exact E.
  - apply INT. unfold int_range. cbn [bits_of]. change (Z.of_N 64) with 64%Z. lia.
  - destruct (INT W64 (Z.of_N n) (UINT W64 n P)) as (t & _ & E). exists t. split; exact E.
  - exists (dbl empty_spec bits). split; reflexivity.
  - destruct p as [m|]; [|destruct P]. destruct (strlen_in m P) as (s & t & -> & NI). exists s.
    rewrite (strlen_ok s t NI), read_app. split; [reflexivity|apply write_string_nul; exact NI].
  - exists s. split; [reflexivity|]. destruct s as [|c s]; [reflexivity|].
    rewrite write_string_sized by (rewrite length_N_app; unfold length_N; cbn [length]; lia).
    unfold length_N. rewrite Nat2N.id, firstn_app, firstn_all, Nat.sub_diag. cbn [firstn]. rewrite app_nil_r. reflexivity.
  - exists (firstn (N.to_nat size) m). unfold read. destruct (N.ltb_spec (length_N m) size); [lia|].
    split; [reflexivity|]. destruct (N.eq_dec size 0) as [->|NZ]; [|apply write_string_sized; lia].
    destruct m as [|c m]; [exfalso; apply D; split; [reflexivity|discriminate]|].
    destruct (Ascii.eqb_spec c NUL) as [->|NC]; [apply (write_string_nul [] m); intros []|].
    exfalso. apply D. split; [reflexivity|]. intros E. injection E as E. exact (NC E).
Qed.

(** ---- patterns as tokens ---- *)

Inductive token := Plain (c : ascii) | Brace (c : ascii) | Hole.
Definition fine (t : token) : Prop := match t with Plain c => is_brace c = false | Brace c => is_brace c = true | Hole => True end.
Definition tok (t : token) : bytes := match t with Plain c => [c] | Brace c => [c; c] | Hole => [LBRACE; RBRACE] end.
Definition toks (ts : list token) : bytes := flat_map tok ts.
Definition special (t : token) : nat := match t with Plain _ => 0 | _ => 1 end.
Fixpoint specials (ts : list token) : nat := match ts with [] => 0 | t :: ts' => special t + specials ts' end.

Lemma brace_cases c : is_brace c = true -> c = LBRACE \/ c = RBRACE.
Proof. unfold is_brace. intros H. apply orb_true_iff in H as [H|H]; apply Ascii.eqb_eq in H; auto. Qed.
Lemma plain_cases c : is_brace c = false -> Ascii.eqb c LBRACE = false /\ Ascii.eqb c RBRACE = false.
Proof. unfold is_brace. intros H. apply orb_false_iff in H. exact H. Qed.

Lemma count_toks ts : Forall fine ts -> forall r, count_go (toks ts) r = Some (r + N.of_nat (specials ts)).
Proof.
  induction ts as [|t ts IH]; intros F r; [cbn; f_equal; lia|]. apply Forall_cons_iff in F as [F1 F]. specialize (IH F).
  change (toks (t :: ts)) with (tok t ++ toks ts). destruct t as [c|c|]; cbn [tok app specials special fine] in *.
  - apply plain_cases in F1 as [E1 E2]. cbn [count_go]. rewrite E1, E2, IH. reflexivity.
  - apply brace_cases in F1 as [-> | ->].
    + cbn [count_go]. rewrite Ascii.eqb_refl, IH. f_equal. lia.
    + cbn [count_go]. change (Ascii.eqb RBRACE LBRACE) with false. cbv iota. rewrite Ascii.eqb_refl, IH. f_equal. lia.
  - cbn [count_go parse_argument]. rewrite Ascii.eqb_refl. change (Ascii.eqb RBRACE LBRACE) with false. cbv iota.
    rewrite Ascii.eqb_refl, IH. f_equal. lia.
Qed.

Lemma count_tokens s : forall r n, count_go s r = Some n -> exists ts, Forall fine ts /\ s = toks ts.
Proof.
  assert (G : forall k s, (length s <= k)%nat -> forall r n, count_go s r = Some n -> exists ts, Forall fine ts /\ s = toks ts).
  { induction k as [|k IH]; intros [|c s1] L r n E; cbn [length] in L; try lia.
    - exists []. split; [constructor|reflexivity].
    - exists []. split; [constructor|reflexivity].
    - cbn [count_go] in E. destruct (Ascii.eqb_spec c LBRACE) as [->|N1].
      + destruct s1 as [|d s2]; [discriminate|]. cbn [length] in L. destruct (Ascii.eqb_spec d LBRACE) as [->|N2].
        * destruct (IH s2 ltac:(lia) _ _ E) as (ts & F & ->). exists (Brace LBRACE :: ts). split; [constructor; [reflexivity|exact F]|reflexivity].
        * cbn [parse_argument] in E. destruct (Ascii.eqb_spec d RBRACE) as [->|_]; [|discriminate].
          destruct (IH s2 ltac:(lia) _ _ E) as (ts & F & ->). exists (Hole :: ts). split; [constructor; [exact I|exact F]|reflexivity].
      + destruct (Ascii.eqb_spec c RBRACE) as [->|N2].
        * destruct s1 as [|d s2]; [discriminate|]. cbn [length] in L. destruct (Ascii.eqb_spec d RBRACE) as [->|_]; [|discriminate].
          destruct (IH s2 ltac:(lia) _ _ E) as (ts & F & ->). exists (Brace RBRACE :: ts). split; [constructor; [reflexivity|exact F]|reflexivity].
        * destruct (IH s1 ltac:(lia) _ _ E) as (ts & F & ->). exists (Plain c :: ts). split; [|reflexivity].
          constructor; [|exact F]. apply Ascii.eqb_neq in N1, N2. unfold fine, is_brace. rewrite N1, N2. reflexivity. }
  exact (G (length s) s (le_n _)).
Qed.

(** ---- the nested literals ---- *)

Fixpoint lits (acc : bytes) (ts : list token) : list (bytes * bool) :=
  match ts with
  | [] => [(acc, false)]
  | Plain c :: ts' => lits (acc ++ [c]) ts'
  | Brace c :: ts' => (acc ++ [c], false) :: lits [] ts'
  | Hole :: ts' => (acc, true) :: lits [] ts'
  end.

Lemma next_skip acc s : Forall (fun c => is_brace c = false) acc -> forall pos, next_go (acc ++ s) pos = next_go s (pos + length_N acc).
Proof.
  induction acc as [|c acc IH]; intros F pos; [cbn [app]; f_equal; unfold length_N; cbn [length]; lia|].
  apply Forall_cons_iff in F as [F1 F]. apply plain_cases in F1 as [E1 E2]. cbn [app next_go]. rewrite E1, E2, (IH F).
  f_equal. unfold length_N. cbn [length]. lia.
Qed.

Lemma take_drop (acc : bytes) x s : firstn (N.to_nat (length_N acc)) (acc ++ s) = acc
  /\ firstn (N.to_nat (length_N acc + 1)) (acc ++ x :: s) = acc ++ [x].
Proof.
  unfold length_N. split.
  - rewrite Nat2N.id, firstn_app, firstn_all, Nat.sub_diag. cbn [firstn]. apply app_nil_r.
  - replace (N.to_nat (N.of_nat (length acc) + 1)) with (length acc + 1)%nat by lia.
    rewrite firstn_app_2. reflexivity.
Qed.

Lemma drop_two (acc : bytes) x y s : skipn (N.to_nat (length_N acc + 2)) (acc ++ x :: y :: s) = s.
Proof.
  unfold length_N. replace (N.to_nat (N.of_nat (length acc) + 2)) with (length acc + 2)%nat by lia.
  rewrite skipn_app. rewrite skipn_all2 by lia. replace (length acc + 2 - length acc)%nat with 2%nat by lia. reflexivity.
Qed.

Lemma construct_ok ts : Forall fine ts -> forall acc, Forall (fun c => is_brace c = false) acc ->
  construct (S (specials ts)) (acc ++ toks ts) = Some (lits acc ts).
Proof.
  induction ts as [|t ts IH]; intros F acc A; [cbn; rewrite app_nil_r; reflexivity|].
  apply Forall_cons_iff in F as [F1 F]. specialize (IH F). change (toks (t :: ts)) with (tok t ++ toks ts).
  destruct t as [c|c|]; cbn [tok specials special lits app fine Nat.add] in *.
  - change (acc ++ c :: toks ts) with (acc ++ [c] ++ toks ts). rewrite app_assoc. apply IH.
    apply Forall_app. split; [exact A|]. constructor; [exact F1|constructor].
  - remember (S (specials ts)) as n eqn:EN. cbn [construct]. rewrite EN. rewrite <- EN. unfold next_literal. rewrite (next_skip acc _ A), N.add_0_l.
    assert (E : next_go (c :: c :: toks ts) (length_N acc) = Some (length_N acc + 1, false)).
    { apply brace_cases in F1 as [-> | ->]; cbn [next_go]; [rewrite Ascii.eqb_refl; reflexivity|].
      change (Ascii.eqb RBRACE LBRACE) with false. cbv iota. rewrite Ascii.eqb_refl. reflexivity. }
    rewrite E. destruct (take_drop acc c (c :: toks ts)) as [_ ->]. cbv zeta.
    replace (length_N (acc ++ [c]) + 1) with (length_N acc + 2) by (rewrite length_N_app; unfold length_N; cbn [length]; lia).
    rewrite drop_two. destruct (N.leb_spec (length_N acc + 2) (length_N (acc ++ c :: c :: toks ts))) as [_|G].
    + change (toks ts) with ([] ++ toks ts). rewrite IH by constructor. reflexivity.
    + rewrite length_N_app in G. unfold length_N in G. cbn [length] in G. lia.
  - remember (S (specials ts)) as n eqn:EN. cbn [construct]. rewrite EN. rewrite <- EN. unfold next_literal. rewrite (next_skip acc _ A), N.add_0_l.
    cbn [next_go]. rewrite Ascii.eqb_refl. change (Ascii.eqb RBRACE LBRACE) with false. cbv iota.
    destruct (take_drop acc NUL (LBRACE :: RBRACE :: toks ts)) as [-> _]. cbv zeta. rewrite drop_two.
    destruct (N.leb_spec (length_N acc + 2) (length_N (acc ++ LBRACE :: RBRACE :: toks ts))) as [_|G].
    + change (toks ts) with ([] ++ toks ts). rewrite IH by constructor. reflexivity.
    + rewrite length_N_app in G. unfold length_N in G. cbn [length] in G. lia.
Qed.

Lemma instantiates_ok n : forall k, instantiates (S n) k = (n <=? k)%nat.
Proof.
  induction n as [|n IH]; intros k; [reflexivity|]. remember (S n) as m eqn:M. cbn [instantiates]. rewrite M. rewrite <- M.
  destruct k as [|k]; [subst m; reflexivity|]. rewrite !IH. subst m.
  destruct (Nat.leb_spec n k), (Nat.leb_spec n (S k)), (Nat.leb_spec (S n) (S k)); cbn; try reflexivity; lia.
Qed.

Lemma precompiled_toks ts args : Forall fine ts ->
  precompiled dbl (toks ts) args = if (specials ts <=? length args)%nat then Some (format dbl (lits [] ts) args) else None.
Proof.
  intros F. unfold precompiled, literal_count. rewrite (count_toks ts F).
  replace (N.to_nat (1 + N.of_nat (specials ts))) with (S (specials ts)) by lia.
  assert (C := construct_ok ts F [] (Forall_nil _)). cbn [app] in C. rewrite C, instantiates_ok. reflexivity.
Qed.

Lemma precompiled_accepted s args r : precompiled dbl s args = Some r ->
  exists ts, Forall fine ts /\ s = toks ts /\ (specials ts <= length args)%nat /\ r = format dbl (lits [] ts) args.
Proof.
  intros H. assert (C : exists n, literal_count s = Some n) by (unfold precompiled in H; destruct (literal_count s) as [n|]; [exists n; reflexivity|discriminate]).
  destruct C as [n C]. destruct (count_tokens s 1 n C) as (ts & F & ->). exists ts. split; [exact F|]. split; [reflexivity|].
  rewrite (precompiled_toks ts args F) in H. destruct (Nat.leb_spec (specials ts) (length args)); [|discriminate].
  split; [assumption|]. congruence.
Qed.

(** ---- tokens and pieces ---- *)

Definition piece_of (t : token) : piece := match t with Plain c | Brace c => Text [c] | Hole => Next None end.

Lemma pieces_text ts : Forall fine ts -> format_text (map piece_of ts) = toks ts.
Proof.
  induction ts as [|t ts IH]; intros F; [reflexivity|]. apply Forall_cons_iff in F as [F1 F].
  unfold format_text. cbn [map flat_map]. fold (format_text (map piece_of ts)). rewrite (IH F).
  change (toks (t :: ts)) with (tok t ++ toks ts). f_equal.
  destruct t as [c|c|]; cbn [piece_of piece_text flat_map fine tok] in *; [| |reflexivity].
  - rewrite app_nil_r. apply plain_cases in F1 as [E1 E2]. unfold brace_text. rewrite E1, E2. reflexivity.
  - rewrite app_nil_r. apply brace_cases in F1 as [-> | ->]; reflexivity.
Qed.

Definition char_token (c : ascii) : token := if is_brace c then Brace c else Plain c.
Definition tokens_of (p : piece) : list token := match p with Text s => map char_token s | Next _ => [Hole] end.

Lemma tokens_fine ps : Forall fine (flat_map tokens_of ps).
Proof.
  apply Forall_forall. intros t I. apply in_flat_map in I as (p & _ & I). destruct p as [s|w]; cbn [tokens_of] in I.
  - apply in_map_iff in I as (c & <- & _). unfold char_token. destruct (is_brace c) eqn:E; exact E.
  - destruct I as [<-|[]]. exact I.
Qed.

Lemma tokens_text ps : Forall bare ps -> toks (flat_map tokens_of ps) = format_text ps.
Proof.
  induction ps as [|p ps IH]; intros F; [reflexivity|]. apply Forall_cons_iff in F as [F1 F].
  unfold format_text. cbn [flat_map]. fold (format_text ps). unfold toks. rewrite flat_map_app. fold (toks (flat_map tokens_of ps)). rewrite (IH F). f_equal.
  destruct p as [s|[w|]]; [|destruct F1|reflexivity]. cbn [tokens_of piece_text].
  induction s as [|c s IHs]; [reflexivity|]. cbn [map flat_map]. rewrite (IHs I). f_equal. unfold char_token, is_brace, brace_text, tok.
  destruct (Ascii.eqb_spec c LBRACE) as [->|_]; [reflexivity|]. destruct (Ascii.eqb_spec c RBRACE) as [->|_]; reflexivity.
Qed.

Lemma specials_app a b : specials (a ++ b) = (specials a + specials b)%nat.
Proof. induction a as [|t a IH]; cbn [app specials]; [reflexivity|]. rewrite IH. lia. Qed.

Lemma specials_count ps : specials (flat_map tokens_of ps) = (placeholders ps + braces ps)%nat.
Proof.
  induction ps as [|p ps IH]; [reflexivity|]. cbn [flat_map]. rewrite specials_app, IH. destruct p as [s|w]; cbn [tokens_of placeholders braces].
  - assert (E : specials (map char_token s) = length (filter is_brace s)); [|lia].
    clear. induction s as [|c s IH]; [reflexivity|]. cbn [map specials filter]. unfold char_token at 1.
    destruct (is_brace c); cbn [special length]; rewrite IH; reflexivity.
  - cbn [specials special]. lia.
Qed.

Lemma pieces_bare ts : Forall bare (map piece_of ts).
Proof. apply Forall_forall. intros p I. apply in_map_iff in I as (t & <- & _). destruct t; exact I. Qed.

Lemma pieces_specials ts : Forall fine ts -> (placeholders (map piece_of ts) + braces (map piece_of ts))%nat = specials ts.
Proof.
  induction ts as [|t ts IH]; intros F; [reflexivity|]. apply Forall_cons_iff in F as [F1 F]. specialize (IH F).
  destruct t as [c|c|]; cbn [map piece_of placeholders braces specials special filter fine] in *; rewrite ?F1; cbn [length]; lia.
Qed.

(** ---- the theorems ---- *)

Lemma accepts pattern args : (exists r, precompiled dbl pattern args = Some r) <->
  exists ps, Forall bare ps /\ pattern = format_text ps /\ (placeholders ps + braces ps <= length args)%nat.
Proof.
  split.
  - intros [r H]. destruct (precompiled_accepted _ _ _ H) as (ts & F & -> & L & _). exists (map piece_of ts).
    split; [apply pieces_bare|]. split; [symmetry; apply pieces_text; exact F|]. rewrite pieces_specials by exact F. exact L.
  - intros (ps & F & -> & L). rewrite <- (tokens_text ps F). eexists. rewrite (precompiled_toks _ _ (tokens_fine ps)).
    rewrite specials_count. apply Nat.leb_le in L. rewrite L. reflexivity.
Qed.

Lemma refuses ps args : Forall bare ps -> (length args < placeholders ps + braces ps)%nat -> precompiled dbl (format_text ps) args = None.
Proof.
  intros F L. rewrite <- (tokens_text ps F), (precompiled_toks _ _ (tokens_fine ps)), specials_count.
  apply Nat.leb_gt in L. rewrite L. reflexivity.
Qed.

Lemma lits_cons acc ts : exists l ls, lits acc ts = l :: ls.
Proof. revert acc. induction ts as [|[c|c|] ts IH]; intros acc; cbn [lits]; try (eexists; eexists; reflexivity). apply IH. Qed.

Lemma format_lits ts : forall acc args, (specials ts <= length args)%nat -> Forall proper args -> Forall (fun v => ~ treated_differently v) args ->
  format dbl (lits acc ts) args = match in_turn (format_arg dbl) (pairing (map piece_of ts) (map make_value args)) with
                                  | Ok out => Ok (acc ++ out) | Error e => Error e | Undefined => Undefined end.
Proof.
  induction ts as [|t ts IH]; intros acc args L P D; [cbn; rewrite app_nil_r; reflexivity|].
  destruct t as [c|c|]; cbn [lits map piece_of pairing in_turn specials special] in *.
  - rewrite IH by assumption. destruct (in_turn _ _) as [out| |]; [|reflexivity..]. rewrite <- app_assoc. reflexivity.
  - destruct (lits_cons [] ts) as (l & ls & E). cbn [format]. rewrite E. destruct args as [|a args]; [cbn [length] in L; lia|].
    rewrite <- E. rewrite IH by (assumption || lia). destruct (in_turn _ _) as [out| |]; cbn [bind]; [|reflexivity..].
    rewrite <- app_assoc. reflexivity.
  - destruct (lits_cons [] ts) as (l & ls & E). cbn [format]. rewrite E. destruct args as [|a args]; [cbn [length] in L; lia|].
    cbn [length] in L. apply Forall_cons_iff in P as [P1 P], D as [D1 D]. cbn [map pairing in_turn].
    destruct (stream_same a P1 D1) as (t & S1 & S2). rewrite S1, S2. cbn [bind].
    rewrite <- E. rewrite IH by (assumption || lia). destruct (in_turn _ _) as [out| |]; cbn [bind]; reflexivity.
Qed.

Lemma same_text pattern args r : precompiled dbl pattern args = Some r -> ~ In NUL pattern ->
  Forall proper args -> Forall (fun v => ~ treated_differently v) args ->
  write dbl pattern (map make_value args) = r.
Proof.
  intros H NN P D. destruct (precompiled_accepted _ _ _ H) as (ts & F & -> & L & ->).
  rewrite (format_lits ts [] args L P D). rewrite <- (pieces_text ts F) in NN |- *.
  rewrite write_pieces.
  - destruct (in_turn _ _); reflexivity.
  - rewrite map_length. assert (Q := pieces_specials ts F). lia.
  - clear - NN F. revert args. induction ts as [|t ts IH]; intros args; cbn [map pairing]; [constructor|].
    apply Forall_cons_iff in F as [F1 F]. unfold format_text in NN. cbn [map flat_map] in NN. fold (format_text (map piece_of ts)) in NN.
    assert (N2 : ~ In NUL (format_text (map piece_of ts))) by (intros J; apply NN; apply in_or_app; right; exact J).
    assert (N1 : ~ In NUL (piece_text (piece_of t))) by (intros J; apply NN; apply in_or_app; left; exact J).
    assert (K : forall c, ~ In NUL (piece_text (Text [c])) -> ~ In NUL [c]).
    { intros c NC [J|[]]. apply NC. subst c. left. reflexivity. }
    destruct t as [c|c|]; cbn [piece_of pairing].
    + constructor; [apply K; exact N1|]. apply IH; assumption.
    + constructor; [apply K; exact N1|]. apply IH; assumption.
    + destruct args as [|a args]; [constructor|]. cbn [map]. constructor; [exact I|]. apply IH; assumption.
Qed.

(** The exceptions are exceptions indeed. *)
Definition differ (a : option (result bytes)) (b : result bytes) : bool :=
  match a, b with Some (Ok x), Ok y => negb (bytes_eqb x y) | _, _ => false end.
Lemma differ_ok a b : differ a b = true -> a <> Some b.
Proof.
  intros H ->. destruct b as [y|e|]; try discriminate H. cbn in H. assert (E : bytes_eqb y y = true) by (apply bytes_eqb_eq; reflexivity).
  rewrite E in H. discriminate H.
Qed.
Lemma different v : proper v -> treated_differently v -> precompiled dbl (B "{}") [v] <> Some (write dbl (B "{}") [make_value v]).
Proof.
  destruct v; cbn [proper treated_differently]; intros P D; try destruct D.
  - apply differ_ok. destruct b; reflexivity.
  - assert (A : forallb (fun k => differ (precompiled dbl (B "{}") [VSchar (Z.of_nat k - 128)]) (write dbl (B "{}") [make_value (VSchar (Z.of_nat k - 128))])) (seq 0 256) = true) by (vm_compute; reflexivity).
    apply differ_ok. rewrite forallb_forall in A. specialize (A (Z.to_nat (z + 128))). rewrite Z2Nat.id in A by lia.
    replace (z + 128 - 128)%Z with z in A by lia. apply A. apply in_seq. lia.
  - assert (A : forallb (fun k => differ (precompiled dbl (B "{}") [VUchar (N.of_nat k)]) (write dbl (B "{}") [make_value (VUchar (N.of_nat k))])) (seq 0 256) = true) by (vm_compute; reflexivity).
    apply differ_ok. rewrite forallb_forall in A. specialize (A (N.to_nat n)). rewrite N2Nat.id in A. apply A. apply in_seq. lia.
  - subst size. assert (E : precompiled dbl (B "{}") [VRef m 0] = Some (t <- stream dbl (VRef m 0); Ok ([] ++ t ++ []))) by reflexivity.
    rewrite E. cbn [stream make_value]. unfold read at 1. destruct (N.ltb_spec (length_N m) 0); [lia|]. cbn [bind N.to_nat firstn app].
    change (B "{}") with (format_text [Next None]). rewrite write_pieces; [|cbn; lia|repeat constructor].
    cbn [pairing in_turn format_arg]. unfold write_string. cbn [sp_type sp_precision empty_spec]. rewrite Ascii.eqb_refl. cbn [negb andb].
    change (0 =? 0) with true. cbv iota. destruct m as [|c m]; [cbn [bind]; discriminate|].
    destruct (Ascii.eqb_spec c NUL) as [->|NC]; [exfalso; apply H0; reflexivity|].
    destruct (strlen (c :: m)) as [n|] eqn:SL; cbn [bind]; [|discriminate].
    unfold read. destruct (length_N (c :: m) <? n); cbn [bind]; [discriminate|]. rewrite pad_empty.
    assert (NZ : n <> 0).
    { intros ->. cbn [strlen] in SL. destruct (Ascii.eqb_spec c NUL); [contradiction|]. destruct (strlen m); [|discriminate SL]. injection SL. lia. }
    destruct (N.to_nat n) as [|k] eqn:EN; [lia|]. cbn [firstn app]. discriminate.
Qed.

(** ---- the facade ---- *)

Lemma write_nul s t args : ~ In NUL s -> write dbl (s ++ NUL :: t) args = write dbl s args.
Proof.
  intros NI. assert (E : c_string (s ++ NUL :: t) = c_string s); [|unfold write; rewrite E; reflexivity].
  clear args. induction s as [|c s IH]; [reflexivity|]. cbn [app c_string]. destruct (Ascii.eqb c NUL); [reflexivity|].
  rewrite IH; [reflexivity|]. intros J. apply NI. right. exact J.
Qed.

Lemma facade_any s m size args : ~ In NUL s -> args <> [] ->
  facade_log dbl (StringViewModel.View (Some (s ++ NUL :: m)) size) args =
    Logged (StringViewModel.View (Some (s ++ NUL :: m)) size) (write dbl s (map make_value args)).
Proof.
  intros NI NE. destruct args as [|a args]; [congruence|]. unfold facade_log. f_equal.
  cbn [StringViewModel.v_data write_all]. rewrite (strlen_ok s m NI). apply write_nul. exact NI.
Qed.
Lemma facade_text s m args : ~ In NUL s -> args <> [] ->
  let v := StringViewModel.View (Some (s ++ NUL :: m)) (length_N s) in
  facade_log dbl v args = Logged v (write dbl s (map make_value args)).
Proof.
  intros NI NE v. destruct args as [|a args]; [congruence|]. unfold facade_log. f_equal.
  unfold v. cbn [StringViewModel.v_data write_all]. rewrite (strlen_ok s m NI). apply write_nul. exact NI.
Qed.

Lemma facade_plain s m : facade_log dbl (StringViewModel.View (Some (s ++ m)) (length_N s)) []
  = Logged (StringViewModel.View (Some (s ++ m)) (length_N s)) (Ok s).
Proof.
  unfold facade_log, viewed, StringViewModel.load_many. cbn [StringViewModel.v_data StringViewModel.v_size]. f_equal.
  destruct (N.eqb_spec (length_N s) 0) as [E|E].
  - destruct s; [reflexivity|discriminate].
  - destruct (N.leb_spec (length_N s) (N.of_nat (length (s ++ m)))) as [_|G].
    + unfold length_N. rewrite Nat2N.id, firstn_app, firstn_all, Nat.sub_diag. cbn [firstn]. rewrite app_nil_r. reflexivity.
    + rewrite app_length in G. unfold length_N in G. lia.
Qed.
End Arguments.
