From Verif Require Import Base Decimal TimeModel TimeSpec TimeProofs FmtModel FmtSpec FmtProofs FmtSubProofs DateModel DateSpec.
From Verif Require StrSpec StrSubProofs.
Open Scope N_scope.

(** ---- numbers with a fixed number of digits ---- *)

Lemma fixed_length k : forall n, length (fixed k n) = k.
Proof. induction k as [|k IH]; intros n; cbn [fixed]; [reflexivity|]. rewrite app_length, IH. cbn. lia. Qed.

Lemma repeat_app_comm {A} (x : A) k : repeat x k ++ [x] = x :: repeat x k.
Proof. induction k as [|k IH]; [reflexivity|]. cbn. rewrite IH. reflexivity. Qed.

Lemma fixed_dec k : forall n, n < 10 ^ N.of_nat k -> (0 < k)%nat -> fixed k n = repeat "0"%char (k - length (dec n)) ++ dec n.
Proof.
  induction k as [|k IH]; intros n H P; [lia|]. cbn [fixed].
  unfold dec in *. rewrite (notation_unfold 10 n) by lia. destruct (N.ltb_spec n 10) as [L|L].
  - rewrite N.mod_small, N.div_small by exact L. cbn [length app].
    assert (Z : forall k, fixed k 0 = repeat "0"%char k).
    { intros j. induction j as [|j IHj]; [reflexivity|]. cbn [fixed]. change (0 / 10) with 0. rewrite IHj. change (digit (0 mod 10)) with "0"%char. apply repeat_app_comm. }
    rewrite Z. replace (S k - 1)%nat with k by lia. reflexivity.
  - rewrite IH.
    + rewrite app_length. cbn [length]. rewrite <- app_assoc. f_equal. f_equal. lia.
    + rewrite Nat2N.inj_succ, N.pow_succ_r' in H. apply N.div_lt_upper_bound; lia.
    + destruct k; [|lia]. change (10 ^ N.of_nat 1) with 10 in H. lia.
Qed.

Lemma fixed_read k : forall n, n < 10 ^ N.of_nat k -> read_digits 10 0 (fixed k n) = Some n.
Proof.
  induction k as [|k IH]; intros n H; cbn [fixed].
  - change (10 ^ N.of_nat 0) with 1 in H. cbn. f_equal. lia.
  - rewrite read_digits_app, IH.
    + cbn [read_digits]. assert (M := N.mod_lt n 10 ltac:(lia)).
      assert (D : digit_number (digit (n mod 10)) = Some (n mod 10)).
      { generalize dependent (n mod 10). intros d M.
        assert (C : forallb (fun d => match digit_number (digit (N.of_nat d)) with Some e => e =? N.of_nat d | None => false end) (seq 0 10) = true) by reflexivity.
        rewrite forallb_forall in C. specialize (C (N.to_nat d)). rewrite N2Nat.id in C. specialize (C ltac:(apply in_seq; lia)).
        destruct (digit_number (digit d)); [|discriminate]. apply N.eqb_eq in C. congruence. }
      rewrite D. destruct (N.ltb_spec (n mod 10) 10) as [_|L]; [|lia]. f_equal. rewrite (N.div_mod n 10) at 3 by lia. lia.
    + rewrite Nat2N.inj_succ, N.pow_succ_r' in H. apply N.div_lt_upper_bound; lia.
Qed.

Lemma sdec_dec z : (0 <= z)%Z -> sdec z = dec (Z.to_N z).
Proof. destruct z; try reflexivity. lia. Qed.

Lemma padded_fixed k z : (0 <= z < 10 ^ Z.of_nat k)%Z -> (0 < k)%nat -> padded k z = fixed k (Z.to_N z).
Proof.
  intros H P. unfold padded. rewrite sdec_dec by lia. symmetry. apply fixed_dec; [|exact P].
  apply N2Z.inj_lt. rewrite Z2N.id, N2Z.inj_pow, nat_N_Z by lia. apply H.
Qed.

Lemma year_fixed z : (1000 <= z < 10000)%Z -> sdec z = fixed 4 (Z.to_N z).
Proof.
  intros H. rewrite sdec_dec by lia. rewrite fixed_dec; [|change (10 ^ N.of_nat 4) with 10000; lia|lia].
  assert (L : 3 < length_N (dec (Z.to_N z))) by (apply (notation_length_ge 10 _ 3); [lia|change (10 ^ 3) with 1000; lia]).
  unfold length_N in L. replace (4 - length (dec (Z.to_N z)))%nat with 0%nat by lia. reflexivity.
Qed.

(** ---- microseconds ---- *)

Definition usec_wish : wish := Wish None ADefault None false true (Some (6, B "6")) None (Some "d"%char).
Lemma usec_sensible n : sensible (AUlong n) usec_wish.
Proof.
  unfold sensible, usec_wish, digits_of, numeral. cbn [w_fill w_align w_sign w_hash w_zero w_width w_precision w_type number_kind].
  repeat split; try discriminate; try lia; repeat constructor.
Qed.

Lemma usec_field dbl n : n < 2 ^ 64 -> exists i ds, write dbl (B "{:06d}") [AUlong n] = Ok (i ++ ds) /\ fills "0"%char i
  /\ numeral 10 false n ds /\ length_N (i ++ ds) = N.max 6 (length_N ds).
Proof.
  intros H. destruct (integer_field dbl usec_wish (AUlong n) (Z.of_N n) 10 false []) as (ds & out & E & NU & F).
  - cbn [carries]. lia.
  - apply usec_sensible.
  - reflexivity.
  - rewrite N2Z.id in NU || idtac. replace (Z.abs_N (Z.of_N n)) with n in NU by lia.
    destruct F as (l & i & r & -> & _ & FI & _ & L & (-> & ->)). 
    assert (SG : sign_text usec_wish (Z.of_N n) = []).
    { unfold sign_text. replace (Z.of_N n <? 0)%Z with false by (symmetry; apply Z.ltb_ge; lia). reflexivity. }
    rewrite SG in E, L. cbn [usec_wish w_hash app] in E, L. rewrite app_nil_r in E, L.
    exists i, ds. exact (conj E (conj FI (conj NU L))).
Qed.

Lemma fills_is c s : fills c s -> s = repeat c (length s).
Proof. induction 1 as [|x s -> _ IH]; [reflexivity|]. cbn. rewrite <- IH. reflexivity. Qed.

Lemma dec_numeral n : numeral 10 false n (dec n).
Proof. rewrite dec_in_base. apply in_base_numeral; [lia|]. apply check_table; vm_compute; reflexivity. Qed.

Lemma usec_text dbl n : n < 1000000 -> write dbl (B "{:06d}") [AUlong n] = Ok (fixed 6 n).
Proof.
  intros H. destruct (usec_field dbl n ltac:(lia)) as (i & ds & E & FI & NU & L).
  rewrite E. f_equal. rewrite fixed_dec; [|exact H|lia].
  assert (D := numeral_unique 10 false ltac:(lia) _ _ _ NU (dec_numeral n)). subst ds. f_equal.
  rewrite (fills_is _ _ FI). f_equal.
  assert (K : length_N (dec n) <= 6) by (apply (notation_length 10 n 6); [lia|exact H|lia]).
  rewrite length_N_app in L. unfold length_N in *. lia.
Qed.

(** Too many microseconds: no cut, just more digits. *)
Lemma usec_long dbl n : 1000000 <= n < 2 ^ 64 -> write dbl (B "{:06d}") [AUlong n] = Ok (dec n).
Proof.
  intros H. destruct (usec_field dbl n ltac:(lia)) as (i & ds & E & FI & NU & L).
  assert (D := numeral_unique 10 false ltac:(lia) _ _ _ NU (dec_numeral n)). subst ds.
  assert (K : 6 < length_N (dec n)) by (apply (notation_length_ge 10 n 6); [lia|apply H]).
  rewrite length_N_app in L. rewrite E. destruct i as [|x i]; [reflexivity|]. exfalso. unfold length_N in *. cbn [length] in L. lia.
Qed.

(** ---- patterns ---- *)

Section Pattern.
Variables (dbl : spec -> N -> bytes) (lib : clib) (usec : N).

(** [lit] expands to [pt], whatever follows. *)
Definition expands (c : clock) (lit pt : bytes) : Prop := ~ In NUL lit /\
  forall rest, expand lib c None (lit ++ rest) = (s <- expand lib c None rest; Ok (pt ++ s)).

Lemma expands_nil c : expands c [] [].
Proof. split; [exact (fun x => x)|]. intros rest. cbn [app]. destruct (expand lib c None rest); reflexivity. Qed.

Lemma expands_app c l1 p1 l2 p2 : expands c l1 p1 -> expands c l2 p2 -> expands c (l1 ++ l2) (p1 ++ p2).
Proof.
  intros [N1 E1] [N2 E2]. split; [apply in_nul_app; assumption|]. intros rest. rewrite <- app_assoc, E1, E2.
  destruct (expand lib c None rest); cbn [bind]; try reflexivity. rewrite app_assoc. reflexivity.
Qed.

Lemma expands_plain c x : x <> "%"%char -> x <> NUL -> expands c [x] [x].
Proof.
  intros P Z. split; [intros [->|[]]; congruence|]. intros rest. cbn [app expand].
  destruct (Ascii.eqb_spec x "%"); [contradiction|]. reflexivity.
Qed.

Lemma expand_flags c flags : forall d rest, (forall x, In x flags -> In x (B "_-0^#")) ->
  expand lib c (Some (Flags, d)) (flags ++ rest) = expand lib c (Some (Flags, d ++ flags)) rest.
Proof.
  induction flags as [|x flags IH]; intros d rest H; cbn [app]; [rewrite app_nil_r; reflexivity|].
  cbn [expand]. assert (F : advance Flags x = Some Flags).
  { assert (J := H x (or_introl eq_refl)). cbn in J. repeat destruct J as [<-|J]; try reflexivity. contradiction. }
  rewrite F, IH; [|intros y J; apply H; right; exact J]. rewrite <- app_assoc. reflexivity.
Qed.
Lemma digit_cases x : In x (B "0123456789") -> x = "0"%char \/ (advance Flags x = Some Width) /\ advance Width x = Some Width.
Proof. intros J. cbn in J. repeat destruct J as [<-|J]; try contradiction; auto; right; split; reflexivity. Qed.
Lemma expand_width c width : forall st d rest, st = Flags \/ st = Width -> (forall x, In x width -> In x (B "0123456789")) ->
  exists st', (st' = Flags \/ st' = Width) /\ expand lib c (Some (st, d)) (width ++ rest) = expand lib c (Some (st', d ++ width)) rest.
Proof.
  induction width as [|x width IH]; intros st d rest SS H; cbn [app].
  - exists st. rewrite app_nil_r. auto.
  - cbn [expand].
    assert (exists st1, (st1 = Flags \/ st1 = Width) /\ advance st x = Some st1) as (st1 & S1 & A).
    { destruct (digit_cases x (H x (or_introl eq_refl))) as [->|[A1 A2]]; destruct SS as [->| ->]; eexists; split; try reflexivity; try eassumption; auto. }
    rewrite A. destruct (IH st1 (d ++ [x]) rest S1 ltac:(intros y J; apply H; right; exact J)) as (st' & S' & E).
    exists st'. split; [exact S'|]. etransitivity; [exact E|]. rewrite <- app_assoc. reflexivity.
Qed.

Lemma expands_directive c d t : complete d -> ~ In NUL d -> directive lib c d = Ok t -> expands c d t.
Proof.
  intros (flags & width & modifier & letter & -> & HF & HW & HM & HL) Z E. split; [exact Z|]. intros rest.
  assert (LT : forall st, advance st letter = None).
  { intros st. assert (Q : is_flag letter = false /\ is_digit letter = false /\ is_modifier letter = false).
    { clear - HL. revert HL. revert letter.
      assert (C : forall x, implb (negb (existsb (Ascii.eqb x) (B "_-0^#123456789EO"))) (negb (is_flag x) && negb (is_digit x) && negb (is_modifier x)) = true) by per_byte.
      intros letter HL. specialize (C letter). destruct (existsb (Ascii.eqb letter) (B "_-0^#123456789EO")) eqn:X.
      - apply existsb_exists in X as (y & J & ->%Ascii.eqb_eq). contradiction.
      - cbn [negb implb] in C. rewrite !andb_true_iff, !negb_true_iff in C. tauto. }
    destruct Q as (Q1 & Q2 & Q3). destruct st; cbn [advance]; rewrite ?Q1, ?Q2, ?Q3; reflexivity. }
  cbn [app]. rewrite <- !app_assoc. cbn [expand]. rewrite Ascii.eqb_refl. rewrite expand_flags by exact HF.
  destruct (expand_width c width Flags (["%"%char] ++ flags) (modifier ++ [letter] ++ rest) (or_introl eq_refl) HW) as (st & SS & W).
  etransitivity; [exact W|]. clear W.
  assert (M : exists st', expand lib c (Some (st, (["%"%char] ++ flags) ++ width)) (modifier ++ [letter] ++ rest)
              = expand lib c (Some (st', (["%"%char] ++ flags ++ width ++ modifier))) ([letter] ++ rest)).
  { destruct HM as [->|[->| ->]].
    - exists st. cbn [app]. rewrite app_nil_r. reflexivity.
    - exists Letter. cbn [app B expand]. destruct SS as [->| ->]; cbn; rewrite <- !app_assoc; reflexivity.
    - exists Letter. cbn [app B expand]. destruct SS as [->| ->]; cbn; rewrite <- !app_assoc; reflexivity. }
  destruct M as (st' & M). etransitivity; [exact M|]. cbn [app expand]. rewrite LT.
  cbn [app] in E. rewrite <- !app_assoc. rewrite E. reflexivity.
Qed.

Lemma expands_alone c lit pt : expands c lit pt -> expand lib c None lit = Ok pt.
Proof. intros [_ E]. specialize (E []). rewrite app_nil_r in E. rewrite E. cbn [expand bind]. rewrite app_nil_r. reflexivity. Qed.

Lemma strftime_ok c lit pt : expands c lit pt -> length_N pt < 1024 -> strftime lib c 1024 lit = Ok pt.
Proof.
  intros X L. unfold strftime. rewrite c_string_id by apply X. rewrite (expands_alone c lit pt X). cbn [bind].
  apply N.ltb_lt in L. rewrite L. reflexivity.
Qed.

Fixpoint clean (a rest : bytes) : Prop :=
  match a with
  | [] => True
  | x :: a' => (x = "%"%char -> hd NUL (a' ++ rest) <> "f"%char /\ hd NUL (a' ++ rest) <> "s"%char) /\ clean a' rest
  end.
Lemma split_clean a : forall lit rest, clean a rest -> split lit (a ++ rest) = split (lit ++ a) rest.
Proof.
  induction a as [|x a IH]; intros lit rest C; cbn [app]; [rewrite app_nil_r; reflexivity|].
  destruct C as [C1 C2]. rewrite (eq_refl : lit ++ x :: a = lit ++ [x] ++ a), app_assoc, <- IH by exact C2.
  cbn [split]. destruct (a ++ rest) as [|y r] eqn:E; [reflexivity|]. cbn [hd] in C1.
  destruct (Ascii.eqb_spec x "%") as [X|X]; cbn [andb]; [|reflexivity].
  destruct (C1 X) as [Y1 Y2]. destruct (Ascii.eqb_spec y "f"); [contradiction|]. destruct (Ascii.eqb_spec y "s"); [contradiction|]. reflexivity.
Qed.
Lemma clean_plain a rest : ~ In "%"%char a -> clean a rest.
Proof. induction a as [|x a IH]; intros H; cbn [clean]; [exact I|]. split; [intros ->; destruct H; left; reflexivity|]. apply IH. intros J. apply H. right. exact J. Qed.
Lemma clean_app a b rest : clean a (b ++ rest) -> clean b rest -> clean (a ++ b) rest.
Proof. induction a as [|x a IH]; intros CA CB; cbn [app clean]; [exact CB|]. destruct CA as [C1 C2]. rewrite <- app_assoc. split; [exact C1|]. apply IH; assumption. Qed.

Lemma clean_directive d rest : complete d -> d <> B "%f" -> d <> B "%s" ->
  (last d NUL = "%"%char -> hd NUL rest <> "f"%char /\ hd NUL rest <> "s"%char) -> clean d rest.
Proof.
  intros (flags & width & modifier & letter & -> & HF & HW & HM & HL) NF NS LA.
  assert (MID : forall x, In x (flags ++ width ++ modifier) -> In x (B "_-0^#123456789EO")).
  { intros x J. rewrite !in_app_iff in J. destruct J as [J|[J|J]].
    - apply HF in J. cbn in J |- *. tauto.
    - apply HW in J. cbn in J |- *. tauto.
    - destruct HM as [->|[->| ->]]; cbn in J |- *; tauto. }
  change ("%"%char :: flags ++ width ++ modifier ++ [letter]) with (["%"%char] ++ flags ++ width ++ modifier ++ [letter]).
  replace (flags ++ width ++ modifier ++ [letter]) with ((flags ++ width ++ modifier) ++ [letter]) in * by (rewrite <- !app_assoc; reflexivity).
  set (mid := flags ++ width ++ modifier) in *. clearbody mid. clear HF HW HM flags width modifier.
  apply clean_app; [|apply clean_app].
  - split; [|exact I]. intros _. cbn [app]. destruct mid as [|y mid].
    + cbn [app hd]. split; intros ->; [apply NF|apply NS]; reflexivity.
    + cbn [app hd]. assert (J := MID y (or_introl eq_refl)). cbn in J. repeat destruct J as [<-|J]; try (split; discriminate). contradiction.
  - apply clean_plain. intros J. apply MID in J. cbn in J. repeat destruct J as [J|J]; try discriminate. contradiction.
  - split; [|exact I]. intros ->. apply LA. cbn [app]. change ("%"%char :: mid ++ ["%"%char]) with (("%"%char :: mid) ++ ["%"%char]). apply last_last.
Qed.

Lemma epoch_text t : (- 2 ^ 63 <= t < 2 ^ 63)%Z -> exists s, write dbl (B "{}") [ALong t] = Ok s /\ StrSpec.decimal t s.
Proof.
  intros H. destruct (integer_plain dbl (ALong t) t (conj eq_refl H)) as (ds & E & NU).
  eexists. split; [exact E|]. exists ds. split; [exact NU|reflexivity].
Qed.

Lemma pattern_go is : usec < 1000000 -> Forall item_ok is -> no_escape is -> forall c lit pt, expands c lit pt -> (lit = [] -> pt = []) ->
  length_N pt < 1024 -> fits lib c (length_N pt) is ->
  exists out, shows lib usec c is out /\ generate dbl lib c usec (split lit (pattern_text is)) = Ok (pt ++ out).
Proof.
  intros HU. induction is as [|i is IH]; intros OK NE c lit pt X E0 L F.
  - exists []. split; [constructor|]. unfold pattern_text. cbn [flat_map split].
    destruct lit as [|x lit].
    + cbn [generate]. rewrite E0 by reflexivity. reflexivity.
    + cbn [generate]. rewrite (strftime_ok c _ pt X L). reflexivity.
  - apply Forall_cons_iff in OK as [OI OK]. destruct NE as [N1 NE]. unfold pattern_text. cbn [flat_map].
    fold (pattern_text is). destruct i as [x|d| |]; cbn [item_ok item_text fits] in *.
    + destruct OI as [O1 O2]. destruct F as [F1 F2].
      rewrite split_clean by (apply clean_plain; intros [J|[]]; congruence).
      destruct (IH OK NE c (lit ++ [x]) (pt ++ [x])) as (out & SH & G).
      * apply expands_app; [exact X|apply expands_plain; assumption].
      * intros J. apply app_eq_nil in J as [_ J]. discriminate.
      * rewrite length_N_app. exact F1.
      * rewrite length_N_app. exact F2.
      * exists (x :: out). split; [constructor; exact SH|]. rewrite G, <- app_assoc. reflexivity.
    + destruct OI as (O1 & O2 & O3 & O4). destruct F as (t & D & F1 & F2).
      rewrite split_clean.
      2:{ apply clean_directive; try assumption. intros LA. destruct is as [|j is']; [cbn; split; discriminate|].
          destruct j as [y|d2| |]; unfold pattern_text; cbn [flat_map item_text app hd].
          - apply (N1 LA).
          - apply Forall_cons_iff in OK as [(Q & _) _]. destruct Q as (? & ? & ? & ? & -> & _). cbn. split; discriminate.
          - cbn. split; discriminate.
          - cbn. split; discriminate. }
      destruct (IH OK NE c (lit ++ d) (pt ++ t)) as (out & SH & G).
      * apply expands_app; [exact X|apply expands_directive; assumption].
      * intros J. apply app_eq_nil in J as [_ J]. destruct O1 as (? & ? & ? & ? & -> & _). discriminate.
      * rewrite length_N_app. exact F1.
      * rewrite length_N_app. exact F2.
      * exists (t ++ out). split; [constructor; assumption|]. rewrite G, <- app_assoc. reflexivity.
    + destruct (IH OK NE c [] []) as (out & SH & G); [apply expands_nil|reflexivity|cbn; lia|exact F|].
      exists (fixed 6 usec ++ out). split; [constructor; exact SH|].
      change (split lit (B "%f" ++ pattern_text is)) with (TkLiteral lit :: TkUsec :: split [] (pattern_text is)).
      cbn [generate]. rewrite (strftime_ok c lit pt X L). cbn [bind]. rewrite (usec_text dbl usec HU). cbn [bind]. rewrite G. reflexivity.
    + destruct F as [F1 F2]. destruct (mktime lib c) as [t c'] eqn:MK. cbn [fst snd] in F1, F2.
      destruct (IH OK NE c' [] []) as (out & SH & G); [apply expands_nil|reflexivity|cbn; lia|exact F2|].
      destruct (epoch_text t F1) as (s & W & DD).
      exists (s ++ out). split; [econstructor; eassumption|].
      change (split lit (B "%s" ++ pattern_text is)) with (TkLiteral lit :: TkEpoch :: split [] (pattern_text is)).
      cbn [generate]. rewrite (strftime_ok c _ pt X L). cbn [bind]. rewrite MK. rewrite W. cbn [bind]. rewrite G. reflexivity.
Qed.

Lemma pattern_lemma c is : usec < 1000000 -> Forall item_ok is -> no_escape is -> fits lib c 0 is ->
  exists out, shows lib usec c is out /\ generate dbl lib c usec (make_generator (pattern_text is)) = Ok out.
Proof.
  intros HU OK NE F. destruct (pattern_go is HU OK NE c [] [] (expands_nil c) (fun _ => eq_refl)) as (out & SH & G); [reflexivity|exact F|].
  exists out. split; assumption.
Qed.
End Pattern.
