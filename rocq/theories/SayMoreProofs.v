(** Proofs: what a call says. *)
From Verif Require Import Base Values RootModel FactoriesModel SystemModel SayModel SaySpec SayProofs.
From Verif Require Import FmtModel FmtSpec FmtProofs FmtSubProofs.
From Verif Require MetaFormatModel MetaFormatSpec MetaFormatProofs StrModel StrSpec StrProofs StringViewModel PrintfMoreProofs.
Import MetaFormatModel.
Open Scope N_scope.

Section Shown.
Variable dbl : FmtModel.spec -> N -> bytes.

Lemma character_arg w z c : chr (Z.to_N (z mod 256)) = c -> StrSpec.suits (AChar 0) w -> for_characters w ->
  exists out, format_arg dbl (StrSpec.layout w) (AChar z) = Ok out /\ shows_character w c out.
Proof.
  intros E SU FC. cbn [format_arg]. unfold write_char. rewrite E.
  assert (T : negb (Ascii.eqb (sp_type (StrSpec.layout w)) NUL) && negb (Ascii.eqb (sp_type (StrSpec.layout w)) "c") = false).
  { destruct w as [w|]; [|reflexivity]. destruct FC as (_ & _ & _ & _ & [T|T]); cbn [StrSpec.layout asks sp_type]; rewrite T; reflexivity. }
  rewrite T.
  assert (G : (match sp_align (StrSpec.layout w) with ANumeric => true | _ => false end) || sp_sign (StrSpec.layout w) || sp_plus (StrSpec.layout w) || sp_minus (StrSpec.layout w) || sp_hash (StrSpec.layout w) = false).
  { destruct w as [w|]; [|reflexivity]. destruct FC as (A & S1 & H & Z & _). cbn [StrSpec.layout asks sp_align sp_sign sp_plus sp_minus sp_hash]. rewrite S1, H, Z.
    destruct (w_align w); try reflexivity. congruence. }
  rewrite G. eexists. split; [reflexivity|]. apply pad_field.
Qed.

Lemma number_arg w a z : carries a z -> StrSpec.suits a w -> radix (StrSpec.type_of w) <> None ->
  exists out, format_arg dbl (StrSpec.layout w) a = Ok out /\ StrSpec.shows_number w z out.
Proof. exact (StrProofs.show_number dbl w a z). Qed.

Lemma show_arg w v : shows_well w v -> exists out, format_arg dbl (StrSpec.layout w) (make_value v) = Ok out /\ shown dbl w v out.
Proof.
  intros [P S1]. destruct v as [b|c|z|n|z|n|z|n|z|n|z|n|bits|p|s|m size]; cbn [make_value shown] in *; cbn [MetaFormatSpec.proper] in P.
  - destruct S1 as [S1 T]. apply StrProofs.show_bool; assumption.
  - destruct S1 as [S1 T]. apply character_arg; [apply MetaFormatProofs.signed_char_back|exact S1|exact T].
  - destruct S1 as [S1 T]. apply character_arg; [reflexivity|exact S1|exact T].
  - destruct S1 as [S1 T]. apply character_arg; [|exact S1|exact T]. rewrite Z.mod_small by lia. rewrite N2Z.id. reflexivity.
  - destruct S1 as [S1 T]. apply number_arg; [cbn; lia|destruct w; exact S1|exact T].
  - destruct S1 as [S1 T]. apply number_arg; [cbn; lia|destruct w; exact S1|exact T].
  - destruct S1 as [S1 T]. apply number_arg; [cbn; lia|destruct w; exact S1|exact T].
  - destruct S1 as [S1 T]. apply number_arg; [cbn; lia|destruct w; exact S1|exact T].
  - destruct S1 as [S1 T]. apply number_arg; [cbn; lia|destruct w; exact S1|exact T].
  - destruct S1 as [S1 T]. apply number_arg; [cbn; lia|destruct w; exact S1|exact T].
  - destruct S1 as [S1 T]. apply number_arg; [cbn; lia|destruct w; exact S1|exact T].
  - destruct S1 as [S1 T]. apply number_arg; [cbn; lia|destruct w; exact S1|exact T].
  - destruct S1 as [S1 T]. cbn [format_arg]. fold (StrSpec.type_of w). rewrite (StrProofs.float_type_in _ T). eexists. split; reflexivity.
  - destruct S1 as [S1 T]. destruct p as [m|]; [|contradiction]. destruct (MetaFormatProofs.strlen_in m P) as (s & t & -> & NN).
    destruct (StrProofs.show_c_string dbl w s t T NN) as (out & E & SH). exists out. split; [exact E|]. exists s, t. auto.
  - destruct S1 as [S1 T]. destruct (StrProofs.show_view dbl w (s ++ [NUL]) (length_N s) T) as (out & E & SH).
    + rewrite length_N_app. lia.
    + intros Z. destruct s; [reflexivity|discriminate].
    + exists out. split; [exact E|]. unfold length_N in SH. rewrite Nat2N.id, firstn_app, firstn_all, Nat.sub_diag, firstn_O, app_nil_r in SH. exact SH.
  - destruct S1 as [[S1 T] Z]. apply StrProofs.show_view; assumption.
Qed.

Lemma text_one w s a b : StrSpec.shows_text w s a -> StrSpec.shows_text w s b -> a = b.
Proof. apply PrintfMoreProofs.field_one. Qed.
Lemma radix_range c base upper mark : radix c = Some (base, upper, mark) -> 2 <= base <= 16.
Proof. unfold radix. repeat match goal with |- context [if ?x then _ else _] => destruct x end; intros H; inversion H; lia. Qed.
Lemma number_one w z a b : StrSpec.shows_number w z a -> StrSpec.shows_number w z b -> a = b.
Proof.
  intros (base & up & mk & ds & R & NU & F) (base' & up' & mk' & ds' & R' & NU' & F'). rewrite R in R'. injection R' as <- <- <-.
  rewrite (numeral_unique base up (radix_range _ _ _ _ R) _ _ _ NU' NU) in F'. exact (PrintfMoreProofs.field_one _ _ _ _ _ _ _ _ F F').
Qed.
Lemma nul_one (s t m n : bytes) : ~ In NUL s -> ~ In NUL t -> s ++ NUL :: m = t ++ NUL :: n -> s = t.
Proof.
  revert t. induction s as [|c s IH]; intros [|d t] HS HT E; cbn in E; try reflexivity.
  - exfalso. apply HT. left. congruence.
  - exfalso. apply HS. left. congruence.
  - assert (c = d) by congruence. assert (E1 : s ++ NUL :: m = t ++ NUL :: n) by congruence. subst d. f_equal. apply IH; [intros H; apply HS; right; exact H|intros H; apply HT; right; exact H|exact E1].
Qed.
Lemma shown_one w v a b : shown dbl w v a -> shown dbl w v b -> a = b.
Proof.
  destruct v; cbn [shown]; try apply number_one; try apply text_one; try (apply PrintfMoreProofs.field_one).
  - destruct (Ascii.eqb (StrSpec.type_of w) NUL); [apply text_one|apply number_one].
  - congruence.
  - intros (s & m & -> & NS & SH) (t & n & E & NT & TH). injection E as E. rewrite <- (nul_one _ _ _ _ NS NT E) in TH. exact (text_one _ _ _ _ SH TH).
Qed.
Lemma told_one ps args : forall outs outs', told dbl ps args outs -> told dbl ps args outs' -> outs = outs'.
Proof.
  intros outs outs' T. revert outs'. induction T as [args|s ps args outs T IH|w ps v args out outs SH T IH]; intros outs' T'; inversion T'; subst.
  - reflexivity.
  - f_equal. apply IH. assumption.
  - f_equal; [eapply shown_one; eassumption|apply IH; assumption].
Qed.

Lemma told_turn ps args : fitting ps args -> (placeholders ps <= length args)%nat ->
  exists outs, told dbl ps args outs /\ in_turn (format_arg dbl) (pairing ps (map make_value args)) = Ok (concat outs).
Proof.
  revert args. induction ps as [|[s|w] ps IH]; intros args F L.
  - exists []. split; [constructor|]. destruct args; reflexivity.
  - destruct (IH args) as (outs & T & E); [exact F|exact L|]. exists (s :: outs). split; [constructor; exact T|]. cbn [pairing in_turn]. rewrite E. reflexivity.
  - destruct args as [|v args]; [cbn in L; lia|]. destruct F as [SW F]. destruct (IH args F) as (outs & T & E); [cbn in L; lia|].
    destruct (show_arg w v SW) as (out & FA & SH). exists (out :: outs). split; [constructor; assumption|]. cbn [map pairing in_turn].
    change (match w with Some w0 => asks w0 | None => empty_spec end) with (StrSpec.layout w). rewrite FA, E. reflexivity.
Qed.
Lemma short_turn ps args : fitting ps args -> (length args < placeholders ps)%nat ->
  exists out, in_turn (format_arg dbl) (pairing ps (map make_value args)) = Ok out.
Proof.
  revert args. induction ps as [|[s|w] ps IH]; intros args F L.
  - cbn in L. lia.
  - destruct (IH args) as (out & E); [exact F|exact L|]. exists (s ++ out). cbn [pairing in_turn]. rewrite E. reflexivity.
  - destruct args as [|v args]; [exists []; reflexivity|]. destruct F as [SW F]. destruct (IH args F) as (outs & E); [cbn in L; lia|].
    destruct (show_arg w v SW) as (out & FA & SH). exists (out ++ outs). cbn [map pairing in_turn].
    change (match w with Some w0 => asks w0 | None => empty_spec end) with (StrSpec.layout w). rewrite FA, E. reflexivity.
Qed.

Lemma suits_make w v : shows_well w v -> StrSpec.suits (make_value v) w.
Proof. intros [P S1]. destruct w as [w|]; [|exact I]. destruct v; cbn [make_value] in *; try exact (proj1 S1). exact (proj1 (proj1 S1)). Qed.
Lemma text_no_nul s : ~ In NUL (flat_map brace_text s) -> ~ In NUL s.
Proof.
  intros H I. apply H. apply in_flat_map. exists NUL. split; [exact I|left; reflexivity].
Qed.
Lemma fitting_pairs ps args : ~ In NUL (format_text ps) -> fitting ps args -> Forall sensible_pair (pairing ps (map make_value args)).
Proof.
  revert args. induction ps as [|p ps IH]; intros args NN F; [destruct args; constructor|].
  assert (NP : ~ In NUL (piece_text p) /\ ~ In NUL (format_text ps)).
  { split; intros H; apply NN; unfold format_text; cbn [flat_map]; apply in_or_app; [left|right]; exact H. }
  destruct NP as [NP NR]. destruct p as [s|w]; cbn [pairing].
  - constructor; [exact (text_no_nul s NP)|]. apply IH; [exact NR|]. exact F.
  - destruct args as [|v args]; cbn [map]; [constructor|]. destruct F as [SW F]. constructor; [|apply IH; assumption].
    cbn [sensible_pair]. destruct w as [w|]; [exact (suits_make (Some w) v SW)|exact I].
Qed.

Lemma told_enough ps args outs : told dbl ps args outs -> (placeholders ps <= length args)%nat.
Proof. induction 1; cbn [placeholders length]; lia. Qed.

Lemma args_text u ps : s_args u <> [] -> written u ps -> l_text (facade_log dbl (s_pattern u) (s_args u)) = write dbl (format_text ps) (map make_value (s_args u)).
Proof.
  intros NE (NN & m & E). destruct (s_pattern u) as [d n]. cbn [StringViewModel.v_data] in E. subst d. rewrite MetaFormatProofs.facade_any by assumption. reflexivity.
Qed.

Lemma says_message u text : says dbl u text -> exists v, message dbl u = Ok v /\ calm_view v /\ StrModel.viewed v = text.
Proof.
  intros [(E & m & P & Z)|(NE & NT & ps & outs & W & F & T & ->)].
  - unfold message. rewrite E, P. eexists. split; [reflexivity|]. cbn [StringViewModel.v_data StringViewModel.v_size]. split; [exists text, m; auto|apply viewed_front].
  - pose proof (args_text u ps NE W) as A. destruct (told_turn ps (s_args u) F (told_enough _ _ _ T)) as (outs' & T' & E).
    rewrite (told_one _ _ _ _ T' T) in E.
    rewrite (write_pieces dbl ps (map make_value (s_args u))) in A; [|rewrite map_length; exact (told_enough _ _ _ T)|apply fitting_pairs; [exact (proj1 W)|exact F]].
    rewrite E in A. unfold message. rewrite A. destruct (s_args u) as [|a args]; [congruence|]. eexists. split; [reflexivity|]. split; [|apply viewed_front].
    exists (concat outs), (s_behind u). split; [reflexivity|]. intros H. contradiction.
Qed.
Lemma stammers_message u : stammers u -> message dbl u = Error EIndexRange.
Proof.
  intros (NE & ps & W & L & F). pose proof (args_text u ps NE W) as A. destruct (short_turn ps (s_args u) F L) as (out & E).
  rewrite (write_missing dbl ps (map make_value (s_args u))) in A; [|rewrite map_length; exact L|apply fitting_pairs; [exact (proj1 W)|exact F]|exact (proj1 W)].
  rewrite E in A. unfold message. rewrite A. destruct (s_args u); [congruence|reflexivity].
Qed.
End Shown.
