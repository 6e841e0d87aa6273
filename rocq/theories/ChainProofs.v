(** Proofs about chains and printing. *)
From Verif Require Import Base FmtModel FmtSpec FmtProofs FmtSubProofs MetaFormatModel MetaFormatSpec MetaFormatProofs ChainModel ChainSpec.
From Verif Require StringViewModel PrintfModel.
Open Scope N_scope.

Lemma unsigned_range w n : n < 2 ^ bits_of w -> int_range w (Z.of_N n).
Proof.
  intros R. assert (Z.of_N (2 ^ bits_of w) = 2 ^ Z.of_N (bits_of w))%Z by (rewrite N2Z.inj_pow; reflexivity).
  unfold int_range. assert (0 < 2 ^ (Z.of_N (bits_of w) - 1))%Z by (destruct w; reflexivity). lia.
Qed.

Lemma overload_ok v z : proper v -> denotes v z -> exists w, overload v = Some (w, z) /\ int_range w z.
Proof.
  intros P D. destruct v; cbn [proper denotes overload] in *; try (destruct D; fail).
  - exists W32. subst z. split; [reflexivity|]. unfold int_range. destruct b; cbn; lia.
  - exists W32. subst z. split; [reflexivity|]. pose proof (N_ascii_bounded c). unfold int_range. cbn [bits_of]. change (Z.of_N 32) with 32%Z.
    destruct (N_of_ascii c <? 128); lia.
  - exists W32. subst z. split; [reflexivity|]. unfold int_range. cbn [bits_of]. change (Z.of_N 32) with 32%Z. lia.
  - exists W32. subst z. split; [reflexivity|]. apply unsigned_range. cbn [bits_of]. lia.
  - exists W32. subst z. split; [reflexivity|]. unfold int_range. cbn [bits_of]. change (Z.of_N 32) with 32%Z. lia.
  - exists W32. subst z. split; [reflexivity|]. apply unsigned_range. cbn [bits_of]. lia.
  - exists W32. subst z. split; [reflexivity|]. unfold int_range. cbn [bits_of]. change (Z.of_N 32) with 32%Z. lia.
  - exists W32. subst z. split; [reflexivity|]. apply unsigned_range. exact P.
  - exists W64. subst z. split; [reflexivity|]. unfold int_range. cbn [bits_of]. change (Z.of_N 64) with 64%Z. lia.
  - exists W64. subst z. split; [reflexivity|]. apply unsigned_range. exact P.
  - exists W64. subst z. split; [reflexivity|]. unfold int_range. cbn [bits_of]. change (Z.of_N 64) with 64%Z. lia.
  - exists W64. subst z. split; [reflexivity|]. apply unsigned_range. exact P.
Qed.

Lemma code_radix c : exists mark, radix (sp_type (int_format c 0 " ")) = Some (fst (code_base c), snd (code_base c), mark).
Proof. destruct c as [[]|]; eexists; reflexivity. Qed.

Lemma padded_lemma dbl c v z width fill : proper v -> denotes v z ->
  exists ds out, put dbl (Pad c v width fill) = Some (Ok out) /\ numeral (fst (code_base c)) (snd (code_base c)) (Z.abs_N z) ds
    /\ field true ARight fill width (if (z <? 0)%Z then B "-" else []) ds out.
Proof.
  intros P D. destruct (overload_ok v z P D) as (w & O & R). destruct (code_radix c) as (mark & C).
  destruct (write_int_ok w z (int_format c width fill) _ _ _ R C) as (ds & NU & Q).
  exists ds. eexists. cbn [put]. rewrite O. cbn [option_map fst snd]. rewrite Q. split; [reflexivity|]. split; [exact NU|].
  pose proof (laid_field (int_format c width fill) (if (z <? 0)%Z then B "-" else []) ds) as F.
  unfold sign_of. cbn [int_format sp_sign sp_hash sp_align sp_fill sp_width] in *. rewrite app_nil_r.
  destruct F as (l & i & r & E & F1 & F2 & F3 & L & A). exists l, i, r. tauto.
Qed.

Lemma coded_lemma dbl c v z : proper v -> denotes v z ->
  exists ds, put dbl (Coded c v) = Some (Ok ((if (z <? 0)%Z then B "-" else []) ++ ds))
    /\ numeral (fst (code_base (Some c))) (snd (code_base (Some c))) (Z.abs_N z) ds.
Proof.
  intros P D. destruct (overload_ok v z P D) as (w & O & R). destruct (code_radix (Some c)) as (mark & C).
  destruct (write_int_ok w z (int_format (Some c) 0 " ") _ _ _ R C) as (ds & NU & Q).
  exists ds. cbn [put]. rewrite O. cbn [option_map fst snd]. rewrite Q. split; [|exact NU].
  do 2 f_equal. unfold sign_of. cbn [int_format sp_sign sp_hash]. rewrite app_nil_r. unfold laid.
  cbn [int_format sp_align sp_width sp_fill]. rewrite N.sub_0_l. reflexivity.
Qed.

Lemma column_lemma dbl s m width fill : ~ In NUL s ->
  exists out, put dbl (PadText (Some (s ++ NUL :: m)) width fill) = Some (Ok out) /\ field false ALeft fill width [] s out.
Proof.
  intros NI. cbn [put]. rewrite (strlen_ok s m NI), read_app. cbn [bind]. eexists. split; [reflexivity|].
  pose proof (pad_field s (int_format None width fill)) as F. cbn [int_format sp_align sp_fill sp_width] in F.
  destruct F as (l & i & r & E & F1 & F2 & F3 & L & A). exists l, i, r. tauto.
Qed.

(** ---- chains and format strings ---- *)

Lemma wide_word v : proper v -> wide_type v -> exists w z, overload v = Some (w, z) /\
  forall dbl sp, format_arg dbl sp (make_value v) = write_int w z sp.
Proof.
  intros P W. destruct v; try (destruct W; fail); eexists; eexists; (split; [reflexivity|]); intros; reflexivity.
Qed.

Lemma wide_int v : proper v -> wide_type v -> exists z, denotes v z.
Proof. intros P W. destruct v; try (destruct W; fail); eexists; reflexivity. Qed.

Lemma same_put dbl i p a : same i p a -> exists w t, p = Next w /\ put dbl i = Some (Ok t) /\
  format_arg dbl (match w with Some w => asks w | None => empty_spec end) a = Ok t /\ sensible_pair (inr (w, a)).
Proof.
  intros S1. destruct S1 as [v P D|c v P W|c v width fill ds P W L DS F1 F2 F3|m width fill ds HI L DS F1 F2 F3].
  - destruct (stream_same dbl v P D) as (t & E1 & E2). exists None, t. cbn [put]. rewrite E1. repeat split; exact E2.
  - destruct (wide_word v P W) as (w & z & O & FA). destruct (wide_int v P W) as (z' & D).
    destruct (coded_lemma dbl c v z' P D) as (ds & E & _). eexists. eexists. split; [reflexivity|]. split; [exact E|]. split.
    + rewrite FA. cbn [put] in E. rewrite O in E. cbn [option_map fst snd] in E. injection E as E. refine (eq_trans _ E). destruct c; reflexivity.
    + assert (LT : match code_letter (Some c) with Some l => letter l = true | None => True end) by (destruct c; reflexivity).
      cbn [sensible_pair]. unfold sensible. cbn [w_fill w_align w_sign w_hash w_zero w_width w_precision w_type].
      split; [destruct c; discriminate|]. repeat (split; [first [exact I|discriminate]|]). exact LT.
  - destruct (wide_word v P W) as (w & z & O & FA). destruct (wide_int v P W) as (z' & D).
    destruct (padded_lemma dbl c v z' width fill P D) as (ds' & out & E & _ & _). eexists. exists out. split; [reflexivity|]. split; [exact E|]. split.
    + rewrite FA. cbn [put] in E. rewrite O in E. cbn [option_map fst snd] in E. injection E as E. refine (eq_trans _ E).
      assert (SP : asks (Wish (Some fill) ARight None false false (width_digits width ds) None (code_letter c))
                   = Spec width fill ARight false false false false None (sp_type (int_format c width fill))).
      { unfold asks, width_digits. cbn [w_fill w_align w_sign w_hash w_zero w_width w_precision w_type option_map].
        destruct (N.eqb_spec width 0) as [->|NZ]; destruct c as [[]|]; reflexivity. }
      rewrite SP. destruct c as [[]|]; reflexivity.
    + assert (LT : match code_letter c with Some l => letter l = true | None => True end) by (destruct c as [[]|]; exact I || reflexivity).
      cbn [sensible_pair]. unfold sensible. cbn [w_fill w_align w_sign w_hash w_zero w_width w_precision w_type].
      split; [discriminate|]. split; [repeat split; try assumption; discriminate|]. split; [discriminate|]. split; [exact I|].
      split; [discriminate|]. split; [discriminate|]. split; [|split; [exact I|exact LT]].
      unfold width_digits. destruct (N.eqb_spec width 0); [exact I|]. split; [exact DS|lia].
  - destruct (strlen_in m HI) as (s & t & -> & NI). cbn [put]. rewrite (strlen_ok s t NI), read_app. cbn [bind].
    eexists. eexists. split; [reflexivity|]. split; [reflexivity|].
    set (w := Wish (Some fill) ALeft None false false (width_digits width ds) None None).
    assert (SP : asks w = Spec width fill ALeft false false false false None NUL).
    { unfold asks, w, width_digits. cbn [w_fill w_align w_sign w_hash w_zero w_width w_precision w_type option_map].
      destruct (N.eqb_spec width 0) as [->|NZ]; reflexivity. }
    split.
    + rewrite SP. cbn [format_arg]. unfold write_string. cbn [sp_type sp_precision]. rewrite Ascii.eqb_refl. cbn [negb andb].
      change (0 =? 0) with true. cbv iota.
      destruct s as [|c s].
      * cbn [app]. rewrite Ascii.eqb_refl. cbn [bind]. change (NUL :: t) with ([] ++ NUL :: t). change 0 with (length_N (@nil ascii)).
        rewrite read_app. cbn [bind]. reflexivity.
      * cbn [app]. destruct (Ascii.eqb_spec c NUL) as [->|NC]; [exfalso; apply NI; left; reflexivity|].
        change (c :: s ++ NUL :: t) with ((c :: s) ++ NUL :: t). rewrite (strlen_ok (c :: s) t NI). cbn [bind]. rewrite read_app. cbn [bind]. reflexivity.
    + cbn [sensible_pair]. unfold sensible, w. cbn [w_fill w_align w_sign w_hash w_zero w_width w_precision w_type].
      split; [discriminate|]. split; [repeat split; try assumption; discriminate|]. split; [discriminate|]. split; [exact I|].
      split; [discriminate|]. split; [discriminate|]. split; [|split; exact I].
      unfold width_digits. destruct (N.eqb_spec width 0); [exact I|]. split; [exact DS|lia].
Qed.

Lemma same_all_turn dbl is ps args : same_all is ps args ->
  (placeholders ps <= length args)%nat /\ Forall sensible_pair (pairing ps args) /\
  exists out, chain dbl is = Some (Ok out) /\ in_turn (format_arg dbl) (pairing ps args) = Ok out.
Proof.
  induction 1 as [|i is p ps a args S1 SA IH].
  - split; [cbn; lia|]. split; [constructor|]. exists []. split; reflexivity.
  - destruct IH as (PL & FO & out & E1 & E2). destruct (same_put dbl i p a S1) as (w & t & -> & P1 & P2 & SP).
    split; [cbn; lia|]. split; [constructor; [exact SP|exact FO]|]. exists (t ++ out). cbn [chain pairing in_turn].
    rewrite P1, P2, E1, E2. split; reflexivity.
Qed.

Lemma chain_lemma dbl is ps args : same_all is ps args ->
  exists out, chain dbl is = Some (Ok out) /\ write dbl (format_text ps) args = Ok out.
Proof.
  intros SA. destruct (same_all_turn dbl is ps args SA) as (PL & FO & out & E1 & E2). exists out. split; [exact E1|].
  rewrite (write_pieces dbl ps args PL FO). exact E2.
Qed.

(** ---- zeros ---- *)

Lemma zeros_read base s : forall acc, 2 <= base -> fills "0" s -> exists k, read_digits base acc s = Some (acc * base ^ k).
Proof.
  intros acc B2 F. revert acc. induction F as [|c s <- F IH]; intros acc.
  - exists 0. cbn. rewrite N.mul_1_r. reflexivity.
  - cbn [read_digits]. change (digit_number "0") with (Some 0). cbv beta iota. destruct (N.ltb_spec 0 base); [|lia].
    destruct (IH (acc * base + 0)) as (k & E). exists (N.succ k). rewrite E, N.pow_succ_r', N.add_0_r, N.mul_assoc. reflexivity.
Qed.

Lemma zeros_lemma dbl c v z width : proper v -> denotes v z -> (0 <= z)%Z ->
  exists out, put dbl (Pad c v width "0") = Some (Ok out) /\ read_digits (fst (code_base c)) 0 out = Some (Z.to_N z)
    /\ width <= length_N out.
Proof.
  intros P D PZ. destruct (padded_lemma dbl c v z width "0" P D) as (ds & out & E & NU & F). exists out. split; [exact E|].
  destruct (Z.ltb_spec z 0); [lia|]. destruct F as (l & i & r & EO & F1 & F2 & F3 & L & -> & ->). cbn [app] in EO. rewrite app_nil_r in EO.
  split; [|rewrite L; lia]. subst out.
  destruct NU as (NE & RD & _). destruct (zeros_read (fst (code_base c)) l 0 ltac:(destruct c as [[]|]; cbn; lia) F1) as (k & EL).
  rewrite read_digits_app, EL, N.mul_0_l, RD. f_equal. lia.
Qed.

(** ---- files ---- *)

Lemma firstn_min {A} (s : list A) r : firstn (N.to_nat (N.min r (length_N s))) s = firstn (N.to_nat r) s.
Proof.
  unfold length_N. destruct (N.le_gt_cases r (N.of_nat (length s))).
  - rewrite N.min_l by lia. reflexivity.
  - rewrite N.min_r by lia. rewrite Nat2N.id, firstn_all, firstn_all2 by lia. reflexivity.
Qed.
Lemma fwrite_sent s f : sent s f (fst (fwrite s f)).
Proof.
  unfold sent, fwrite. destruct (f_room f) as [r|] eqn:R; cbn [fst f_data f_room option_map].
  - rewrite firstn_min. split; [reflexivity|]. f_equal. lia.
  - unfold length_N. rewrite Nat2N.id, firstn_all. split; reflexivity.
Qed.
Lemma sent_app s t f g h : sent s f g -> sent t g h -> sent (s ++ t) f h.
Proof.
  unfold sent. destruct (f_room f) as [r|].
  - intros (E1 & R1). rewrite R1. intros (E2 & R2). rewrite E2, E1, R2. split.
    + rewrite <- app_assoc, firstn_app. unfold length_N. do 3 f_equal. lia.
    + f_equal. rewrite length_N_app. lia.
  - intros (E1 & R1). rewrite R1. intros (E2 & R2). rewrite E2, E1. split; [rewrite app_assoc; reflexivity|exact R2].
Qed.

Lemma print_lemma dbl format args f s : write dbl format args = Ok s -> exists f', print dbl format args f = Returned f' tt /\ sent s f f'.
Proof. intros E. unfold print. rewrite E. eexists. split; [reflexivity|apply fwrite_sent]. Qed.

Lemma print_error_lemma dbl format args f e : write dbl format args = Error e -> print dbl format args f = Threw f e.
Proof. intros E. unfold print. rewrite E. reflexivity. Qed.

Lemma colored_lemma dbl c format args f s : write dbl format args = Ok s ->
  exists f', print_colored dbl c format args f = Returned f' tt
    /\ sent (chr 27 :: B "[3" ++ [chr (48 + color_number c)] ++ B "m" ++ s ++ chr 27 :: B "[0m") f f'.
Proof.
  intros E. unfold print_colored. destruct (print_lemma dbl format args (fst (fwrite (escape c) f)) s E) as (g & EP & SG). rewrite EP.
  eexists. split; [reflexivity|].
  replace (chr 27 :: B "[3" ++ [chr (48 + color_number c)] ++ B "m" ++ s ++ chr 27 :: B "[0m") with (escape c ++ s ++ RESET_COLOR)
    by (unfold escape, ESC, RESET_COLOR; cbn [app]; rewrite <- !app_assoc; reflexivity).
  eapply sent_app; [apply fwrite_sent|]. eapply sent_app; [exact SG|apply fwrite_sent].
Qed.

Lemma to_int_ok n : n < 2 ^ 31 -> to_int n = Z.of_N n.
Proof. intros L. unfold to_int. rewrite Z.mod_small by lia. cbv zeta. destruct (Z.ltb_spec (Z.of_N n) (2 ^ 31)); lia. Qed.

Lemma fprintf_lemma dbl format args f s : PrintfModel.sprintf dbl format args = Ok s -> length_N s < 2 ^ 31 ->
  exists f', fprintf dbl format args f
    = Returned f' (match f_room f with Some r => if r <? length_N s then (-1)%Z else Z.of_N (length_N s) | None => Z.of_N (length_N s) end)
    /\ sent s f f'.
Proof.
  intros E L. unfold fprintf. rewrite E. pose proof (fwrite_sent s f) as S1.
  destruct (fwrite s f) as [f' n] eqn:W. exists f'. split; [|exact S1]. f_equal. rewrite (to_int_ok _ L).
  unfold fwrite in W. injection W as _ <-. destruct (f_room f) as [r|].
  - destruct (N.ltb_spec r (length_N s)).
    + destruct (N.ltb_spec (N.min r (length_N s)) (length_N s)); [reflexivity|lia].
    + destruct (N.ltb_spec (N.min r (length_N s)) (length_N s)); [lia|reflexivity].
  - destruct (N.ltb_spec (length_N s) (length_N s)); [lia|reflexivity].
Qed.

Lemma fprintf_wrap dbl format args s : PrintfModel.sprintf dbl format args = Ok s -> length_N s = 2 ^ 31 ->
  fprintf dbl format args (File [] None) = Returned (File s None) (- 2 ^ 31)%Z.
Proof.
  intros E L. unfold fprintf. rewrite E. unfold fwrite. cbn [f_room f_data option_map app].
  destruct (N.ltb_spec (length_N s) (length_N s)); [lia|].
  rewrite firstn_all2 by (unfold length_N; lia). rewrite L. reflexivity.
Qed.

(** ---- error texts ---- *)

Lemma signed_low c : N_of_ascii c < 128 -> StringViewModel.signed_char c = Z.of_N (N_of_ascii c).
Proof. intros L. unfold StringViewModel.signed_char. destruct (N.ltb_spec (N_of_ascii c) 128); [reflexivity|lia]. Qed.

Definition type_arg (type : bytes) : arg := ACString (Some (type ++ [NUL])).
Lemma type_arg_text dbl type : ~ In NUL type -> format_arg dbl empty_spec (type_arg type) = Ok type.
Proof. intros NI. exact (write_string_nul type [] NI). Qed.

Lemma message_lemma dbl (middle : list piece) a t type : ~ In NUL type ->
  Forall sensible_pair (pairing (Text (B "unknown format code '") :: middle ++ [Text (B "' for "); Next None]) [a; type_arg type]) ->
  (placeholders (Text (B "unknown format code '") :: middle ++ [Text (B "' for "); Next None]) <= 2)%nat ->
  (in_turn (format_arg dbl) (pairing (Text (B "unknown format code '") :: middle ++ [Text (B "' for "); Next None]) [a; type_arg type])
   = Ok (B "unknown format code '" ++ t ++ B "' for " ++ type)) ->
  write dbl (format_text (Text (B "unknown format code '") :: middle ++ [Text (B "' for "); Next None])) [a; type_arg type]
   = Ok (B "unknown format code '" ++ t ++ B "' for " ++ type).
Proof. intros NI F PL E. rewrite write_pieces; [exact E|exact PL|exact F]. Qed.

Lemma printable_lemma dbl c type : 32 <= N_of_ascii c <= 126 -> ~ In NUL type ->
  report_unknown_type dbl c type = Ok (B "unknown format code '" ++ [c] ++ B "' for " ++ type).
Proof.
  intros [L1 L2] NI. unfold report_unknown_type, isprint.
  destruct (N.leb_spec 32 (N_of_ascii c)); [|lia]. destruct (N.leb_spec (N_of_ascii c) 126); [|lia]. cbn [andb].
  apply (message_lemma dbl [Next None]); [exact NI| |cbn; lia|].
  - cbn [app pairing]. constructor; [|constructor; [exact I|constructor; [|constructor; [exact I|constructor]]]];
      cbn; intros H1; repeat (destruct H1 as [H1|H1]; [discriminate H1|]); exact H1.
  - cbn [app pairing in_turn]. rewrite (type_arg_text dbl type NI). cbn [format_arg]. unfold write_char.
    cbn [sp_type sp_align sp_sign sp_plus sp_minus sp_hash empty_spec]. rewrite Ascii.eqb_refl. cbn [negb andb orb].
    rewrite signed_char_back, pad_empty, app_nil_r. reflexivity.
Qed.

Definition hex_wish : wish := Wish None ADefault None false true (Some (2, B "2")) None (Some "x"%char).
Lemma hex_sensible n : sensible (AUint n) hex_wish.
Proof.
  unfold sensible, hex_wish. cbn [w_fill w_align w_sign w_hash w_zero w_width w_precision w_type].
  split; [discriminate|]. split; [exact I|]. split; [discriminate|]. split; [exact I|]. split; [discriminate|]. split; [reflexivity|].
  split; [split; [|lia]|]. { split; [discriminate|]. split; [reflexivity|]. split; [discriminate|]. repeat constructor. }
  split; [exact I|reflexivity].
Qed.

Lemma other_lemma dbl c type : isprint c = false -> ~ In NUL type ->
  exists ds i, numeral 16 false (Z.to_N (StringViewModel.signed_char c mod 2 ^ 32)) ds /\ fills "0" i
    /\ length_N (i ++ ds) = N.max 2 (length_N ds)
    /\ report_unknown_type dbl c type = Ok (B "unknown format code '" ++ (B "\x" ++ i ++ ds) ++ B "' for " ++ type).
Proof.
  intros IP NI. unfold report_unknown_type. rewrite IP. set (n := Z.to_N (StringViewModel.signed_char c mod 2 ^ 32)).
  assert (R : int_range W32 (Z.of_N n)).
  { apply unsigned_range. unfold n. cbn [bits_of]. pose proof (Z.mod_pos_bound (StringViewModel.signed_char c) (2 ^ 32) ltac:(lia)). lia. }
  destruct (write_int_ok W32 (Z.of_N n) (asks hex_wish) 16 false (B "0x") R eq_refl) as (ds & NU & Q).
  rewrite <- (Zabs2N.id n) in NU at 1. rewrite Zabs2N.id in NU.
  exists ds, (repeat "0"%char (N.to_nat (2 - length_N ds))).
  replace (Z.abs_N (Z.of_N n)) with n in NU by (rewrite Zabs2N.id; reflexivity).
  split; [exact NU|]. split; [apply fills_repeat|]. split; [rewrite length_N_app, length_N_repeat; lia|].
  apply (message_lemma dbl [Text (B "\x"); Next (Some hex_wish)]); [exact NI| |cbn; lia|].
  - cbn [app pairing]. constructor; [|constructor; [|constructor; [apply hex_sensible|constructor; [|constructor; [exact I|constructor]]]]];
      cbn; intros H1; repeat (destruct H1 as [H1|H1]; [discriminate H1|]); exact H1.
  - cbn [app pairing in_turn]. rewrite (type_arg_text dbl type NI). cbn [format_arg]. rewrite Q.
    unfold sign_of. destruct (Z.ltb_spec (Z.of_N n) 0); [lia|]. unfold laid.
    cbn [asks hex_wish w_fill w_align w_sign w_hash w_zero w_width w_precision w_type sp_sign sp_hash sp_align sp_width sp_fill app].
    rewrite app_nil_r, <- !app_assoc. reflexivity.
Qed.

Lemma control_lemma dbl c type : N_of_ascii c < 128 -> isprint c = false -> ~ In NUL type ->
  exists ds, two_digits (N_of_ascii c) ds /\ report_unknown_type dbl c type = Ok (B "unknown format code '\x" ++ ds ++ B "' for " ++ type).
Proof.
  intros L IP NI. destruct (other_lemma dbl c type IP NI) as (ds & i & NU & FI & LN & E). rewrite (signed_low c L) in NU.
  rewrite Z.mod_small, N2Z.id in NU by lia. exists (i ++ ds). split; [|exact E].
  destruct NU as (NE & RD & NZ & FU). split; [|split].
  - assert (length_N ds <= 2); [|unfold length_N in *; lia].
    destruct (N.le_gt_cases (length_N ds) 2) as [H|H]; [exact H|exfalso].
    destruct ds as [|a ds]; [congruence|]. cbn [read_digits] in RD. destruct (digit_number a) as [d|] eqn:DA; [|discriminate].
    destruct (d <? 16); [|discriminate]. rewrite N.mul_0_l, N.add_0_l in RD.
    assert (D0 : d <> 0).
    { intros ->. assert (a = "0"%char).
      { clear - DA. unfold digit_number in DA. destruct (andb _ _) eqn:B1 in DA.
        - injection DA as DA. apply andb_prop in B1. destruct B1 as [B1 B2]. apply N.leb_le in B1, B2.
          rewrite <- (ascii_N_embedding a). replace (N_of_ascii a) with 48 by lia. reflexivity.
        - destruct (andb _ _) eqn:B2 in DA; [injection DA as DA; apply andb_prop in B2; destruct B2 as [B2 B3]; apply N.leb_le in B2, B3; lia|].
          destruct (andb _ _) eqn:B3 in DA; [|discriminate]. injection DA as DA. apply andb_prop in B3. destruct B3 as [B3 B4]. apply N.leb_le in B3, B4. lia. }
      subst a. specialize (NZ eq_refl). injection NZ as ->. unfold length_N in H. cbn in H. lia. }
    destruct ds as [|b ds]; [unfold length_N in H; cbn in H; lia|]. cbn [read_digits] in RD.
    destruct (digit_number b) as [e|]; [|discriminate]. destruct (e <? 16); [|discriminate].
    destruct ds as [|c2 ds]; [unfold length_N in H; cbn in H; lia|]. cbn [read_digits] in RD.
    destruct (digit_number c2) as [e2|]; [|discriminate]. destruct (e2 <? 16); [|discriminate].
    apply (read_digits_mono 16 ds ltac:(lia)) in RD. lia.
  - destruct (zeros_read 16 i 0 ltac:(lia) FI) as (k & EI). rewrite read_digits_app, EI, N.mul_0_l. exact RD.
  - apply Forall_app. split; [|exact FU]. eapply Forall_impl; [|exact FI]. intros x <-. reflexivity.
Qed.

Lemma high_lemma dbl c type : 128 <= N_of_ascii c -> ~ In NUL type ->
  exists ds, two_digits (N_of_ascii c) ds /\ report_unknown_type dbl c type = Ok (B "unknown format code '\xffffff" ++ ds ++ B "' for " ++ type).
Proof.
  intros L NI. assert (IP : isprint c = false).
  { unfold isprint. destruct (N.leb_spec (N_of_ascii c) 126); [lia|apply andb_false_r]. }
  destruct (other_lemma dbl c type IP NI) as (ds & i & NU & FI & LN & E).
  pose proof (N_ascii_bounded c) as UB.
  assert (SC : Z.to_N (StringViewModel.signed_char c mod 2 ^ 32) = 4294967040 + N_of_ascii c).
  { unfold StringViewModel.signed_char. destruct (N.ltb_spec (N_of_ascii c) 128); [lia|].
    rewrite <- (Z.mod_unique (Z.of_N (N_of_ascii c) - 256) (2 ^ 32) (-1) (4294967040 + Z.of_N (N_of_ascii c)) ltac:(lia) ltac:(lia)). lia. }
  rewrite SC in NU.
  assert (EX : exists hh, two_digits (N_of_ascii c) hh /\ numeral 16 false (4294967040 + N_of_ascii c) (B "ffffff" ++ hh)).
  { assert (ALL : forall k, k < 16 -> exists a, digit_number a = Some k /\ is_upper a = false).
    { intros k K. exists (lower_hex k). assert (CK : forallb (fun k => match digit_number (lower_hex k) with Some x => (x =? k) && negb (is_upper (lower_hex k)) | None => false end)
        (map N.of_nat (seq 0 16)) = true) by reflexivity.
      rewrite forallb_forall in CK. specialize (CK k). destruct (digit_number (lower_hex k)) as [x|].
      - assert (IK : In k (map N.of_nat (seq 0 16))) by (apply in_map_iff; exists (N.to_nat k); split; [lia|apply in_seq; lia]).
        specialize (CK IK). apply andb_prop in CK. destruct CK as [C1 C2]. apply N.eqb_eq in C1. subst x. split; [reflexivity|]. destruct (is_upper (lower_hex k)); [discriminate|reflexivity].
      - assert (IK : In k (map N.of_nat (seq 0 16))) by (apply in_map_iff; exists (N.to_nat k); split; [lia|apply in_seq; lia]). discriminate (CK IK). }
    pose proof (N.div_mod' (N_of_ascii c) 16) as DM. pose proof (N.mod_upper_bound (N_of_ascii c) 16 ltac:(lia)) as MB.
    assert (N_of_ascii c / 16 < 16) as DB by (apply N.div_lt_upper_bound; lia).
    destruct (ALL _ DB) as (a & A1 & A2). destruct (ALL _ MB) as (b & B1 & B2). exists [a; b].
    assert (R2 : forall acc, read_digits 16 acc [a; b] = Some ((acc * 16 + N_of_ascii c / 16) * 16 + N_of_ascii c mod 16)).
    { intros acc. cbn [read_digits]. rewrite A1, B1. destruct (N.ltb_spec (N_of_ascii c / 16) 16); [|lia].
      destruct (N.ltb_spec (N_of_ascii c mod 16) 16); [|lia]. reflexivity. }
    split.
    - split; [reflexivity|]. split; [rewrite R2; f_equal; lia|]. repeat constructor; assumption.
    - split; [discriminate|]. split; [|split; [discriminate|]].
      + rewrite read_digits_app. change (read_digits 16 0 (B "ffffff")) with (Some 16777215). cbv beta iota. rewrite R2. f_equal. lia.
      + apply Forall_app. split; repeat constructor; assumption. }
  destruct EX as (hh & TD & NH). exists hh. split; [exact TD|].
  assert (ds = B "ffffff" ++ hh) as -> by exact (numeral_unique 16 false ltac:(lia) _ _ _ NU NH).
  assert (i = []) as ->.
  { destruct TD as (LH & _). unfold length_N in LN. rewrite !app_length, LH in LN. cbn [length] in LN. change (length (B "ffffff")) with 6%nat in LN.
    destruct i; [reflexivity|cbn in LN; lia]. }
  rewrite E. reflexivity.
Qed.
