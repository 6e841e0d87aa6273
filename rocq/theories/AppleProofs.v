From Verif Require Import Base Decimal TimeModel TimeSpec TimeProofs FmtModel FmtSpec FmtProofs FmtSubProofs DateModel DateSpec DateProofs DateSubProofs AppleModel AppleSpec.
From Verif Require StrSpec.
Open Scope N_scope.

(** ---- numbers ---- *)

Lemma fill_char z : (0 <= z)%Z -> chr (Z.to_N ((Z.rem z 10 + 48) mod 256)) = digit (Z.to_N z mod 10).
Proof.
  intros H. rewrite Z.rem_mod_nonneg by lia. assert (M := Z.mod_pos_bound z 10 ltac:(lia)).
  rewrite Z.mod_small by lia. assert (E : Z.to_N z mod 10 = Z.to_N (z mod 10)) by (rewrite Z2N.inj_mod by lia; reflexivity).
  rewrite E. unfold digit. destruct (N.ltb_spec (Z.to_N (z mod 10)) 10) as [L|L]; [|lia]. f_equal. lia.
Qed.

Lemma fill_digits_lemma room : forall z stored, (0 <= z < 10 ^ Z.of_nat room)%Z -> (0 < room)%nat ->
  fill_digits room z stored = Ok ((room - length (dec (Z.to_N z)))%nat, dec (Z.to_N z) ++ stored)
  /\ (length (dec (Z.to_N z)) <= room)%nat.
Proof.
  induction room as [|room IH]; intros z stored H P; [lia|]. cbn [fill_digits]. rewrite fill_char by lia.
  rewrite Z.quot_div_nonneg by lia. unfold dec in *. rewrite (notation_unfold 10 (Z.to_N z)) by lia.
  destruct (N.ltb_spec (Z.to_N z) 10) as [L|L].
  - rewrite Z.div_small by lia. rewrite N.mod_small by exact L. cbn [length app Z.eqb]. split; [f_equal; f_equal; lia|lia].
  - assert (D : (0 < z / 10)%Z) by (apply Z.div_str_pos; lia).
    destruct (Z.eqb_spec (z / 10) 0) as [E|_]; [lia|].
    assert (R : (0 <= z / 10 < 10 ^ Z.of_nat room)%Z).
    { split; [lia|]. apply Z.div_lt_upper_bound; [lia|]. rewrite Nat2Z.inj_succ, Z.pow_succ_r in H by lia. lia. }
    destruct (IH (z / 10)%Z (digit (Z.to_N z mod 10) :: stored) R) as [E Q].
    { destruct room; [|lia]. cbn in R. lia. }
    rewrite E. rewrite Z2N.inj_div by lia. change (Z.to_N 10) with 10. rewrite Z2N.inj_div in Q by lia. change (Z.to_N 10) with 10 in Q.
    rewrite app_length. cbn [length]. rewrite <- app_assoc. split; [|lia]. apply f_equal. f_equal. lia.
Qed.

Lemma fill_text k f z : (0 <= z < 10 ^ Z.of_nat k)%Z -> (0 < k)%nat ->
  fill k f z = Ok (repeat f (k - length (dec (Z.to_N z))) ++ dec (Z.to_N z)).
Proof. intros H P. unfold fill. rewrite (proj1 (fill_digits_lemma k z [] H P)). cbn [bind fst snd]. rewrite app_nil_r. reflexivity. Qed.

Lemma fill_fixed k z : (0 <= z < 10 ^ Z.of_nat k)%Z -> (0 < k)%nat -> fill k "0"%char z = Ok (fixed k (Z.to_N z)).
Proof.
  intros H P. rewrite fill_text by assumption. rewrite fixed_dec; [reflexivity| |exact P].
  apply N2Z.inj_lt. rewrite Z2N.id, N2Z.inj_pow, nat_N_Z by lia. apply H.
Qed.
Lemma fill2 z : (0 <= z < 100)%Z -> fill 2 "0"%char z = Ok (fixed 2 (Z.to_N z)).
Proof. intros H. apply fill_fixed; [exact H|lia]. Qed.

Lemma int_ok z : (- 2 ^ 31 <= z < 2 ^ 31)%Z -> int_of z = Ok z.
Proof.
  intros H. unfold int_of. destruct (Z.leb_spec (- 2 ^ 31) z); [|lia]. destruct (Z.ltb_spec z (2 ^ 31)); [|lia]. reflexivity.
Qed.

(** ---- weeks ---- *)

Definition weekdays_of (wday yday w : Z) : nat :=
  length (filter (fun i => (wday - (yday - Z.of_nat i)) mod 7 =? w)%Z (seq 0 (S (Z.to_nat yday)))).
Lemma weekdays_is t w : weekdays t w = weekdays_of (tm_wday t) (tm_yday t) w.
Proof. reflexivity. Qed.

Lemma filter_shift a b n : forall f g, (forall i, (i < n)%nat -> f (a + i)%nat = g (b + i)%nat :> bool) ->
  length (filter f (seq a n)) = length (filter g (seq b n)).
Proof.
  revert a b. induction n as [|n IH]; intros a b f g H; [reflexivity|]. cbn [seq filter].
  assert (E : f a = g b) by (specialize (H 0%nat ltac:(lia)); rewrite !Nat.add_0_r in H; exact H). rewrite E.
  assert (R := IH (S a) (S b) f g ltac:(intros i L; specialize (H (S i) ltac:(lia)); rewrite !Nat.add_succ_r in H; exact H)).
  destruct (g b); cbn [length]; rewrite R; reflexivity.
Qed.

(** A week earlier there is one of each weekday fewer. *)
Lemma weekdays_week wday yday w : (7 <= yday)%Z -> (0 <= w < 7)%Z -> weekdays_of wday yday w = S (weekdays_of wday (yday - 7) w).
Proof.
  intros H W. unfold weekdays_of. replace (S (Z.to_nat yday)) with (7 + S (Z.to_nat (yday - 7)))%nat by lia.
  rewrite seq_app, filter_app, app_length, Nat.add_0_l.
  assert (E : length (filter (fun i => (wday - (yday - Z.of_nat i)) mod 7 =? w)%Z (seq 0 7)) = 1%nat).
  { set (b := ((wday - yday) mod 7)%Z). assert (BB : (0 <= b < 7)%Z) by (apply Z.mod_pos_bound; lia).
    assert (X : forall i, ((wday - (yday - Z.of_nat i)) mod 7 = (b + Z.of_nat i) mod 7)%Z).
    { intros i. unfold b. rewrite Zplus_mod_idemp_l. f_equal. lia. }
    rewrite (filter_ext _ (fun i => (b + Z.of_nat i) mod 7 =? w)%Z) by (intros i; rewrite X; reflexivity).
    clearbody b. clear X.
    assert (C : forallb (fun b => forallb (fun w => Nat.eqb (length (filter (fun i => (Z.of_nat b + Z.of_nat i) mod 7 =? Z.of_nat w)%Z (seq 0 7))) 1) (seq 0 7)) (seq 0 7) = true)
      by (vm_compute; reflexivity).
    rewrite forallb_forall in C. specialize (C (Z.to_nat b) ltac:(apply in_seq; lia)). rewrite forallb_forall in C.
    specialize (C (Z.to_nat w) ltac:(apply in_seq; lia)). apply Nat.eqb_eq in C. rewrite !Z2Nat.id in C by lia. exact C. }
  rewrite E. cbn [Nat.add]. f_equal. apply filter_shift. intros i L. f_equal.
  replace (wday - (yday - Z.of_nat (7 + i)))%Z with (wday - (yday - 7 - Z.of_nat (0 + i)))%Z by lia. reflexivity.
Qed.

Lemma weekdays_small : forall wday yday, (0 <= wday < 7)%Z -> (0 <= yday < 7)%Z ->
  Z.of_nat (weekdays_of wday yday 0) = ((yday - wday + 7) / 7)%Z
  /\ Z.of_nat (weekdays_of wday yday 1) = ((yday - wday + (if wday =? 0 then 1 else 8)) / 7)%Z.
Proof.
  intros wday yday W Y.
  assert (C : forallb (fun w => forallb (fun y => let wday := Z.of_nat w in let yday := Z.of_nat y in
    (Z.of_nat (weekdays_of wday yday 0) =? (yday - wday + 7) / 7)%Z
    && (Z.of_nat (weekdays_of wday yday 1) =? (yday - wday + (if wday =? 0 then 1 else 8)) / 7)%Z) (seq 0 7)) (seq 0 7) = true)
    by (vm_compute; reflexivity).
  rewrite forallb_forall in C. specialize (C (Z.to_nat wday) ltac:(apply in_seq; lia)). rewrite forallb_forall in C.
  specialize (C (Z.to_nat yday) ltac:(apply in_seq; lia)). cbv zeta in C. rewrite !Z2Nat.id in C by lia.
  apply andb_true_iff in C as [C1 C2]. split; apply Z.eqb_eq; assumption.
Qed.

Lemma weekdays_count wday : (0 <= wday < 7)%Z -> forall k yday, (0 <= yday < 7 * Z.of_nat (S k))%Z ->
  Z.of_nat (weekdays_of wday yday 0) = ((yday - wday + 7) / 7)%Z
  /\ Z.of_nat (weekdays_of wday yday 1) = ((yday - wday + (if wday =? 0 then 1 else 8)) / 7)%Z.
Proof.
  intros W. induction k as [|k IH]; intros yday Y; [apply weekdays_small; lia|].
  destruct (Z.ltb_spec yday 7) as [L|L]; [apply weekdays_small; lia|].
  rewrite (weekdays_week wday yday 0), (weekdays_week wday yday 1) by lia. rewrite !Nat2Z.inj_succ. destruct (IH (yday - 7)%Z ltac:(lia)) as [E1 E2]. rewrite E1, E2.
  split.
  - replace (yday - wday + 7)%Z with ((yday - 7 - wday + 7) + 1 * 7)%Z by lia. rewrite Z.div_add by lia. lia.
  - set (o := if (wday =? 0)%Z then 1%Z else 8%Z).
    replace (yday - wday + o)%Z with ((yday - 7 - wday + o) + 1 * 7)%Z by lia. rewrite Z.div_add by lia. lia.
Qed.

Lemma week_text t : proper t ->
  week_sunday t = Ok (fixed 2 (N.of_nat (weekdays t 0))) /\ week_monday t = Ok (fixed 2 (N.of_nat (weekdays t 1))).
Proof.
  intros (_ & _ & _ & _ & _ & _ & W & Y). rewrite !weekdays_is.
  destruct (weekdays_count (tm_wday t) ltac:(lia) 52 (tm_yday t) ltac:(lia)) as [E1 E2].
  unfold week_sunday, week_monday. set (o := if (tm_wday t =? 0)%Z then 1%Z else 8%Z) in *.
  assert (O : (1 <= o <= 8 /\ tm_wday t <= o)%Z).
  { unfold o. destruct (Z.eqb_spec (tm_wday t) 0); lia. }
  clearbody o. rewrite !int_ok by lia. cbn [bind].
  rewrite !Z.quot_div_nonneg by lia. rewrite <- E1, <- E2.
  assert (Z.of_nat (weekdays_of (tm_wday t) (tm_yday t) 0) < 100)%Z by (rewrite E1; apply Z.div_lt_upper_bound; lia).
  assert (Z.of_nat (weekdays_of (tm_wday t) (tm_yday t) 1) < 100)%Z by (rewrite E2; apply Z.div_lt_upper_bound; lia).
  rewrite !fill2 by lia. split; f_equal; f_equal; lia.
Qed.

(** ---- the texts of the directives ---- *)

Lemma year_text t : proper t -> year_full t = Ok (fixed 4 (Z.to_N (tm_year t + 1900))).
Proof.
  intros (_ & _ & _ & _ & _ & Y & _). unfold year_full. rewrite int_ok by lia. cbn [bind]. apply fill_fixed; [|lia].
  change (10 ^ Z.of_nat 4)%Z with 10000%Z. lia.
Qed.
Lemma last_text t : proper t -> year_last t = Ok (fixed 2 (Z.to_N ((tm_year t + 1900) mod 100))).
Proof.
  intros (_ & _ & _ & _ & _ & Y & _). unfold year_last. rewrite Z.rem_mod_nonneg by lia.
  replace (tm_year t + 1900)%Z with (tm_year t + 19 * 100)%Z by lia. rewrite Z_mod_plus_full.
  apply fill2. apply Z.mod_pos_bound. lia.
Qed.
Lemma first_text t : proper t -> year_first t = Ok (fixed 2 (Z.to_N ((tm_year t + 1900) / 100))).
Proof.
  intros (_ & _ & _ & _ & _ & Y & _). unfold year_first. rewrite Z.quot_div_nonneg by lia.
  replace (tm_year t + 1900)%Z with (tm_year t + 19 * 100)%Z by lia. rewrite Z.div_add by lia.
  apply fill2. assert (0 <= tm_year t / 100)%Z by (apply Z.div_pos; lia). assert (tm_year t / 100 < 81)%Z by (apply Z.div_lt_upper_bound; lia). lia.
Qed.
Lemma month_text t : proper t -> month_numeric t = Ok (fixed 2 (Z.to_N (tm_mon t + 1))).
Proof. intros (_ & _ & _ & _ & Y & _). unfold month_numeric. rewrite int_ok by lia. apply fill2. lia. Qed.
Lemma yday_text t : proper t -> year_day t = Ok (fixed 3 (Z.to_N (tm_yday t + 1))).
Proof.
  intros (_ & _ & _ & _ & _ & _ & _ & Y). unfold year_day. rewrite int_ok by lia. apply fill_fixed; [|lia].
  change (10 ^ Z.of_nat 3)%Z with 1000%Z. lia.
Qed.
Lemma day_text t : proper t -> month_day "0" t = Ok (fixed 2 (Z.to_N (tm_mday t))).
Proof. intros (_ & _ & _ & Y & _). apply fill2. lia. Qed.
Lemma hour_text t : proper t -> hour24 t = Ok (fixed 2 (Z.to_N (tm_hour t))).
Proof. intros (_ & _ & Y & _). apply fill2. lia. Qed.
Lemma minute_text t : proper t -> minute t = Ok (fixed 2 (Z.to_N (tm_min t))).
Proof. intros (_ & Y & _). apply fill2. lia. Qed.
Lemma second_text t : proper t -> second t = Ok (fixed 2 (Z.to_N (tm_sec t))).
Proof. intros (Y & _). apply fill2. lia. Qed.
Lemma usecond_text usec : usec < 1000000 -> usecond usec = Ok (fixed 6 usec).
Proof.
  intros H. unfold usecond, i32. rewrite Z.mod_small by lia. destruct (Z.ltb_spec (Z.of_N usec) (2 ^ 31)); [|lia].
  rewrite fill_fixed; [|change (10 ^ Z.of_nat 6)%Z with 1000000%Z; lia|lia]. rewrite N2Z.id. reflexivity.
Qed.

Lemma decimal_sdec z : StrSpec.decimal z (sdec z).
Proof.
  exists (dec (Z.abs_N z)). split; [apply dec_numeral|]. destruct z; reflexivity.
Qed.

Section Lib.
Variables (lib : clib) (usec : N).
Hypothesis HU : usec < 1000000.

Lemma locale_text ls c x : In x (B "bBaAzZp") -> readable lib c x ->
  exists t, localized lib (Context c usec ls) x = Ok t /\ prints lib c usec x t.
Proof.
  intros J (_ & G & Z). unfold localized. cbn [x_clock].
  assert (D : exists t, directive lib c ["%"%char; x] = Ok t).
  { cbn in J. repeat destruct J as [<-|J]; try contradiction; unfold directive; cbn; try (eexists; reflexivity).
    - destruct (c_gmtoff c); [eexists; reflexivity|]. destruct (G eq_refl eq_refl).
    - destruct (c_zone c); [eexists; reflexivity|]. destruct (Z eq_refl eq_refl). }
  destruct D as (t & D). exists t. split; [exact D|]. apply prints_locale; assumption.
Qed.

Lemma both_ok a b s t : a = Ok s -> b = Ok t -> both a b = Ok (s ++ t).
Proof. intros -> ->. reflexivity. Qed.
Lemma put_ok c r s : r = Ok s -> put c r = Ok (c :: s).
Proof. intros ->. reflexivity. Qed.

Lemma call_text c ls d : In d letters -> d <> "s"%char -> readable lib c d ->
  exists k t, known d = Some k /\ call lib k (Context c usec ls) = Ok (t, Context c usec ls) /\ prints lib c usec d t.
Proof.
  intros J NS RD. assert (PR : proper (c_tm c)) by apply RD. destruct (week_text _ PR) as [WS WM].
  assert (LOC : forall x, In x (B "bBaAzZp") -> (d = "z"%char \/ x <> "z"%char) -> (d = "Z"%char \/ x <> "Z"%char) ->
    exists t, localized lib (Context c usec ls) x = Ok t /\ prints lib c usec x t).
  { intros x I Z1 Z2. apply locale_text; [exact I|]. destruct RD as (_ & R2 & R3). split; [exact PR|].
    split; intros ->; [apply R2|apply R3]; destruct Z1, Z2; congruence. }
  assert (T : exists h m s, hour24 (c_tm c) = Ok h /\ minute (c_tm c) = Ok m /\ second (c_tm c) = Ok s
    /\ prints lib c usec "T" (h ++ B ":" ++ m ++ B ":" ++ s)).
  { do 3 eexists. split; [apply hour_text; exact PR|]. split; [apply minute_text; exact PR|]. split; [apply second_text; exact PR|].
    repeat constructor. }
  assert (SAME : forall k r t, known d = Some k -> (forall c', c' = Context c usec ls -> call lib k c' = (s <- r; Ok (s, c'))) -> r = Ok t ->
    prints lib c usec d t -> exists k t, known d = Some k /\ call lib k (Context c usec ls) = Ok (t, Context c usec ls) /\ prints lib c usec d t).
  { intros k r t K C -> P. exists k, t. split; [exact K|]. split; [|exact P]. rewrite (C _ eq_refl). reflexivity. }
  unfold letters in J. cbn in J.
  repeat destruct J as [<-|J]; try contradiction; try congruence;
    try solve [eapply SAME; [reflexivity|intros c' ->; reflexivity| |]; cbn [x_clock x_usec]; [eauto using year_text, last_text, first_text, month_text, yday_text, day_text, hour_text, minute_text, second_text, usecond_text|constructor]].
  - destruct (LOC "b"%char) as (t & L & P); try (right; discriminate); [cbn; tauto|]. eapply SAME; [reflexivity|intros c' ->; reflexivity|exact L|exact P].
  - destruct (LOC "b"%char) as (t & L & P); try (right; discriminate); [cbn; tauto|]. eapply SAME; [reflexivity|intros c' ->; reflexivity|exact L|apply prints_h; exact P].
  - destruct (LOC "B"%char) as (t & L & P); try (right; discriminate); [cbn; tauto|]. eapply SAME; [reflexivity|intros c' ->; reflexivity|exact L|exact P].
  - (* e *)
    assert (Q : (1 <= tm_mday (c_tm c) <= 31)%Z) by apply PR.
    eapply SAME; [reflexivity|intros c' ->; reflexivity|cbn [x_clock]; apply fill_text; [change (10 ^ Z.of_nat 2)%Z with 100%Z; lia|lia]|].
    destruct (Z.ltb_spec (tm_mday (c_tm c)) 10) as [L|L].
    + unfold dec. rewrite notation_unfold by lia. destruct (N.ltb_spec (Z.to_N (tm_mday (c_tm c))) 10); [|lia].
      cbn [length repeat Nat.sub app]. apply prints_e_one; [|assumption]. lia.
    + assert (F := fixed_dec 2 (Z.to_N (tm_mday (c_tm c)))). change (10 ^ N.of_nat 2) with 100 in F.
      specialize (F ltac:(lia) ltac:(lia)).
      assert (G : length (dec (Z.to_N (tm_mday (c_tm c)))) = 2%nat).
      { assert (K : 1 < length_N (dec (Z.to_N (tm_mday (c_tm c))))) by (apply (notation_length_ge 10 _ 1); [lia|change (10 ^ 1) with 10; lia]).
        apply f_equal with (f := @length ascii) in F. rewrite fixed_length, app_length in F. unfold length_N in K. lia. }
      rewrite G in *. cbn [repeat Nat.sub app] in *. rewrite <- F. apply prints_e_two. exact L.
  - destruct (LOC "a"%char) as (t & L & P); try (right; discriminate); [cbn; tauto|]. eapply SAME; [reflexivity|intros c' ->; reflexivity|exact L|exact P].
  - destruct (LOC "A"%char) as (t & L & P); try (right; discriminate); [cbn; tauto|]. eapply SAME; [reflexivity|intros c' ->; reflexivity|exact L|exact P].
  - (* c *)
    destruct (LOC "a"%char) as (a & LA & PA); try (right; discriminate); [cbn; tauto|].
    destruct (LOC "b"%char) as (b & LB & PB); try (right; discriminate); [cbn; tauto|].
    destruct T as (h & m & s & E1 & E2 & E3 & PT).
    eapply SAME; [reflexivity|intros c' ->; reflexivity| |].
    + unfold standard. cbn [x_clock].
      repeat first [apply both_ok | apply put_ok]; try eassumption; [apply day_text|apply year_text]; exact PR.
    + assert (X := prints_c lib c usec a b _ _ _ PA PB (prints_d lib c usec) PT (prints_Y lib c usec)).
      cbn [B app list_ascii_of_string] in *. repeat (rewrite <- app_assoc in X; cbn [app] in X). exact X.
  - (* D *)
    eapply SAME; [reflexivity|intros c' ->; reflexivity| |].
    + unfold date_mdy. cbn [x_clock].
      repeat first [apply both_ok | apply put_ok]; [apply month_text|apply day_text|apply last_text]; exact PR.
    + apply (prints_D lib c usec); constructor.
  - (* F *)
    eapply SAME; [reflexivity|intros c' ->; reflexivity| |].
    + unfold date_iso. cbn [x_clock].
      repeat first [apply both_ok | apply put_ok]; [apply year_text|apply month_text|apply day_text]; exact PR.
    + apply (prints_F lib c usec); constructor.
  - (* T *)
    eapply SAME; [reflexivity|intros c' ->; reflexivity| |].
    + unfold time_iso. cbn [x_clock].
      repeat first [apply both_ok | apply put_ok]; [apply hour_text|apply minute_text|apply second_text]; exact PR.
    + apply (prints_T lib c usec); constructor.
  - destruct (LOC "z"%char) as (t & L & P); try (right; discriminate); try (left; reflexivity); [cbn; tauto|]. eapply SAME; [reflexivity|intros c' ->; reflexivity|exact L|exact P].
  - destruct (LOC "Z"%char) as (t & L & P); try (right; discriminate); try (left; reflexivity); [cbn; tauto|]. eapply SAME; [reflexivity|intros c' ->; reflexivity|exact L|exact P].
  - (* I *)
    assert (Q : (0 <= tm_hour (c_tm c) <= 23)%Z) by apply PR.
    assert (M : (0 <= tm_hour (c_tm c) mod 12 < 12)%Z) by (apply Z.mod_pos_bound; lia).
    assert (DM := Z.div_mod (tm_hour (c_tm c)) 12 ltac:(lia)).
    eapply SAME; [reflexivity|intros c' ->; reflexivity| |].
    + unfold hour12. cbn [x_clock]. rewrite Z.rem_mod_nonneg by lia. apply fill2. destruct (Z.eqb_spec (tm_hour (c_tm c) mod 12) 0); lia.
    + destruct (Z.eqb_spec (tm_hour (c_tm c) mod 12) 0) as [E|E].
      * apply prints_I with (k := (tm_hour (c_tm c) / 12 - 1)%Z); lia.
      * apply prints_I with (k := (tm_hour (c_tm c) / 12)%Z); lia.
  - destruct (LOC "p"%char) as (t & L & P); try (right; discriminate); [cbn; tauto|]. eapply SAME; [reflexivity|intros c' ->; reflexivity|exact L|exact P].
Qed.

(** ---- the parser ---- *)

Definition add (h g : handler) : handler := Handler (h_tokens h ++ h_tokens g) (h_literals h ++ h_literals g) (h_buffer g).
Definition start (buf : bytes) : handler := Handler [] [] buf.

Lemma end_add h : end_partial_literal h = add h (end_partial_literal (start (h_buffer h))).
Proof. destruct h as [ts ls [|x buf]]; unfold add, start; cbn; rewrite ?app_nil_r; reflexivity. Qed.
Lemma add_assoc a b c : add (add a b) c = add a (add b c).
Proof. unfold add. cbn. rewrite !app_assoc. reflexivity. Qed.
Lemma directive_add h d : parse_directive h d = add h (parse_directive (start (h_buffer h)) d).
Proof.
  unfold parse_directive. destruct (Ascii.eqb d "%"); [reflexivity|]. destruct (known d) as [k|]; [|reflexivity].
  unfold push. rewrite (end_add h). unfold add. cbn [h_tokens h_literals h_buffer start]. rewrite !app_assoc. reflexivity.
Qed.

Lemma parse_add_go n : forall h f, (length f <= n)%nat -> parse h f = add h (parse (start (h_buffer h)) f).
Proof.
  induction n as [|n IH]; intros h f L; destruct f as [|x f]; cbn [length] in L; try lia; try apply end_add.
  cbn [parse]. destruct (Ascii.eqb x "%").
  - destruct f as [|d f].
    + rewrite end_add. unfold add, partial_literal. cbn [h_tokens h_literals h_buffer start]. reflexivity.
    + cbn [length] in L. rewrite IH by lia. rewrite (IH (parse_directive (start (h_buffer h)) d)) by lia.
      rewrite (directive_add h d). rewrite add_assoc. reflexivity.
  - rewrite IH by lia. unfold add, partial_literal. cbn [h_tokens h_literals h_buffer start].
    rewrite (IH (Handler [] [] (h_buffer h ++ [x]))) by lia. reflexivity.
Qed.
Lemma parse_add h f : parse h f = add h (parse (start (h_buffer h)) f).
Proof. apply (parse_add_go (length f)). lia. Qed.

(** What a handler prints. *)
Definition says (h : handler) (c : clock) (out : bytes) : Prop := calls lib (h_tokens h) (Context c usec (h_literals h)) = Ok out.

Lemma says_literal ts ls c s out : says (Handler ts ls []) c out -> says (Handler (KLiteral :: ts) (s :: ls) []) c (s ++ out).
Proof. unfold says. intros H. cbn [h_tokens h_literals calls call x_literals x_clock x_usec bind fst snd] in *. rewrite H. reflexivity. Qed.

Lemma says_ended buf c out ts ls : says (Handler ts ls []) c out ->
  says (Handler (h_tokens (end_partial_literal (start buf)) ++ ts) (h_literals (end_partial_literal (start buf)) ++ ls) []) c (buf ++ out).
Proof. intros H. destruct buf as [|x buf]; [exact H|]. cbn. apply (says_literal ts ls c (x :: buf)). exact H. Qed.

Lemma parse_buffer_go n : forall h f, (length f <= n)%nat -> h_buffer (parse h f) = [].
Proof.
  assert (E : forall h, h_buffer (end_partial_literal h) = []) by (intros [ts ls [|x b]]; reflexivity).
  induction n as [|n IH]; intros h f L; destruct f as [|x f]; cbn [length] in L; try lia; try apply E.
  cbn [parse]. destruct (Ascii.eqb x "%"); [destruct f as [|d f]; [apply E|cbn [length] in L; apply IH; lia]|apply IH; lia].
Qed.
Lemma parse_buffer h f : h_buffer (parse h f) = [].
Proof. apply (parse_buffer_go (length f)). lia. Qed.

(** ---- moves ---- *)

Lemma moved_trans a b c : moved a b -> moved b c -> moved a c.
Proof. induction 1 as [|a x y b' is P V M IH]; intros H; [exact H|]. apply moved_one; auto. Qed.
Lemma moved_front p a b : moved a b -> moved (p ++ a) (p ++ b).
Proof.
  induction 1 as [|a x y b' is P V M IH]; [constructor|]. rewrite app_assoc. apply moved_one; [exact P|exact V|]. rewrite <- app_assoc. exact IH.
Qed.
Lemma moved_over y : verbatim y -> forall buf rest, moved (map Plain buf ++ y :: rest) (y :: map Plain buf ++ rest).
Proof.
  intros V. induction buf as [|x buf IH]; intros rest; [constructor|]. cbn [map app].
  eapply moved_trans; [apply (moved_front [Plain x] _ _ (IH rest))|].
  apply (moved_one [] (Plain x) y); [exact I|exact V|constructor].
Qed.
Lemma moved_ordered a b : moved a b -> in_order a -> b = a.
Proof. intros M O. destruct M as [|a x y b' is P V M]; [reflexivity|]. destruct (O a x y b' eq_refl P V). Qed.

Lemma shows_plains c buf : forall is out, shows lib usec c is out -> shows lib usec c (map Plain buf ++ is) (buf ++ out).
Proof. induction buf as [|x buf IH]; intros is out H; [exact H|]. cbn. constructor. apply IH. exact H. Qed.

Lemma pattern_cons i is tail : pattern_text (i :: is) tail = item_text i ++ pattern_text is tail.
Proof. unfold pattern_text. cbn [flat_map]. rewrite app_assoc. reflexivity. Qed.

Lemma known_letters c : ~ In c letters -> known c = None.
Proof.
  intros H. unfold known.
  repeat match goal with |- context [Ascii.eqb c ?x] => destruct (Ascii.eqb_spec c x) as [->|_]; [exfalso; apply H; cbn; tauto|] end.
  reflexivity.
Qed.

Lemma literal_parse s buf f : parse (literal (start buf) s) f =
  Handler (KLiteral :: h_tokens (parse (start buf) f)) (s :: h_literals (parse (start buf) f)) [].
Proof.
  rewrite parse_add. unfold add. cbn [literal h_tokens h_literals h_buffer start app]. rewrite parse_buffer. reflexivity.
Qed.
Lemma handler_eta h : h_buffer h = [] -> h = Handler (h_tokens h) (h_literals h) [].
Proof. destruct h. cbn. intros ->. reflexivity. Qed.

Lemma pattern_lemma_go tail is : Forall item_ok is -> forall buf c, ready lib c is ->
  exists is' out, moved (map Plain buf ++ is ++ tail_items tail) is' /\ shows lib usec c is' out
                  /\ says (parse (start buf) (pattern_text is tail)) c out.
Proof.
  induction is as [|i is IH]; intros OK buf c RD.
  - exists (map Plain buf ++ tail_items tail), (buf ++ if tail then B "%" else []). split; [constructor|]. split.
    + apply shows_plains. destruct tail; repeat constructor.
    + unfold pattern_text. cbn [flat_map app]. destruct tail.
      * cbn [parse B list_ascii_of_string]. unfold partial_literal. cbn [h_tokens h_literals h_buffer start].
        change (Ascii.eqb "%" "%") with true. cbn iota.
        destruct buf as [|x buf]; cbn; [reflexivity|]. unfold says. cbn. rewrite app_nil_r. reflexivity.
      * cbn [parse]. rewrite app_nil_r. destruct buf as [|x buf]; cbn; [reflexivity|]. unfold says. cbn. rewrite app_nil_r. reflexivity.
  - apply Forall_cons_iff in OK as [OI OK]. rewrite pattern_cons.
    assert (VERB : forall s, verbatim i -> (forall is' out, shows lib usec c is' out -> shows lib usec c (i :: is') (s ++ out)) ->
      parse (start buf) (item_text i ++ pattern_text is tail) = parse (literal (start buf) s) (pattern_text is tail) ->
      ready lib c is ->
      exists is' out, moved (map Plain buf ++ (i :: is) ++ tail_items tail) is' /\ shows lib usec c is' out
        /\ says (parse (start buf) (item_text i ++ pattern_text is tail)) c out).
    { intros s V SH E R. destruct (IH OK buf c R) as (is' & out & M & S & T). exists (i :: is'), (s ++ out). split; [|split].
      - cbn [app]. eapply moved_trans; [apply moved_over; exact V|]. apply (moved_front [i]). exact M.
      - apply SH. exact S.
      - rewrite E, literal_parse. apply says_literal. rewrite <- handler_eta by apply parse_buffer. exact T. }
    destruct i as [x| |x|d]; cbn [item_ok ready] in OI, RD.
    + cbn [item_text app parse]. destruct (Ascii.eqb_spec x "%") as [E|_]; [congruence|].
      unfold partial_literal. cbn [h_tokens h_literals h_buffer start].
      destruct (IH OK (buf ++ [x]) c RD) as (is' & out & M & S & T). exists is', out. split; [|split; assumption].
      rewrite map_app, <- app_assoc in M. exact M.
    + apply (VERB (B "%")); [exact I|intros; constructor; assumption|reflexivity|exact RD].
    + apply (VERB ["%"%char; x]); [exact I|intros; apply shows_unknown; assumption| |exact RD].
      cbn [item_text app parse]. change (Ascii.eqb "%" "%") with true. cbn iota. unfold parse_directive.
      destruct (Ascii.eqb_spec x "%") as [E|_]; [destruct (proj2 OI E)|]. rewrite (known_letters x (proj1 OI)). reflexivity.
    + clear VERB. cbn [item_text app parse]. change (Ascii.eqb "%" "%") with true. cbn iota.
      assert (NP : d <> "%"%char) by (intros ->; cbn in OI; repeat destruct OI as [OI|OI]; try discriminate; contradiction).
      unfold parse_directive. destruct (Ascii.eqb_spec d "%") as [E|_]; [congruence|].
      assert (PUSH : forall k, known d = Some k -> parse (push (start buf) k) (pattern_text is tail) =
        Handler (h_tokens (end_partial_literal (start buf)) ++ k :: h_tokens (parse (start []) (pattern_text is tail)))
                (h_literals (end_partial_literal (start buf)) ++ h_literals (parse (start []) (pattern_text is tail))) []).
      { intros k _. rewrite parse_add. unfold push, add. cbn [h_tokens h_literals h_buffer].
        assert (EB : h_buffer (end_partial_literal (start buf)) = []) by (destruct buf; reflexivity).
        rewrite EB, parse_buffer, <- app_assoc. reflexivity. }
      destruct (ascii_dec d "s") as [->|NS].
      * destruct RD as [RD _]. specialize (RD eq_refl). destruct (mktime lib c) as [t c'] eqn:MK. cbn [snd] in RD.
        destruct (IH OK [] c' RD) as (is' & out & M & S & T).
        exists (map Plain buf ++ Directive "s" :: is'), (buf ++ sdec t ++ out). split; [|split].
        -- apply moved_front. apply (moved_front [Directive "s"]). exact M.
        -- apply shows_plains. econstructor; [exact MK|apply decimal_sdec|exact S].
        -- change (known "s") with (Some KEpoch). cbn iota. rewrite (PUSH KEpoch eq_refl). apply says_ended.
           unfold says. cbn [h_tokens h_literals calls call x_clock x_usec x_literals]. rewrite MK. cbn [bind fst snd].
           unfold says in T. rewrite T. reflexivity.
      * destruct RD as [_ RD]. destruct (RD NS) as [R1 R2]. clear RD.
        destruct (IH OK [] c R2) as (is' & out & M & S & T).
        destruct (call_text c (h_literals (parse (start []) (pattern_text is tail))) d OI NS R1) as (k & t & K & C & P).
        exists (map Plain buf ++ Directive d :: is'), (buf ++ t ++ out). split; [|split].
        -- apply moved_front. apply (moved_front [Directive d]). exact M.
        -- apply shows_plains. apply shows_directive; assumption.
        -- rewrite K. rewrite (PUSH k K). apply says_ended.
           unfold says. cbn [h_tokens h_literals calls]. rewrite C. cbn [bind fst snd]. unfold says in T. rewrite T. reflexivity.
Qed.

Lemma moved_lemma c is tail : Forall item_ok is -> ready lib c is ->
  exists is' out, moved (is ++ tail_items tail) is' /\ shows lib usec c is' out /\ generate lib (pattern_text is tail) c usec = Ok out.
Proof. intros OK RD. exact (pattern_lemma_go tail is OK [] c RD). Qed.

Lemma in_order_tail is tail : in_order is -> in_order (is ++ tail_items tail).
Proof.
  intros O. destruct tail; [|rewrite app_nil_r; exact O]. intros a x y b E P V.
  destruct b as [|z b] using rev_ind.
  - replace (a ++ [x; y]) with ((a ++ [x]) ++ [y]) in E by (rewrite <- app_assoc; reflexivity).
    apply app_inj_tail in E as [_ E]. subst y. exact V.
  - replace (a ++ x :: y :: b ++ [z]) with ((a ++ x :: y :: b) ++ [z]) in E by (rewrite <- app_assoc; reflexivity).
    apply app_inj_tail in E as [E _]. exact (O a x y b E P V).
Qed.

Lemma ordered_lemma c is tail : Forall item_ok is -> in_order is -> ready lib c is ->
  exists out, shows lib usec c (is ++ tail_items tail) out /\ generate lib (pattern_text is tail) c usec = Ok out.
Proof.
  intros OK O RD. destruct (moved_lemma c is tail OK RD) as (is' & out & M & S & G).
  rewrite (moved_ordered _ _ M (in_order_tail is tail O)) in S. exists out. split; assumption.
Qed.
End Lib.

(** ---- both generators ---- *)

Lemma decimal_unique z a b : StrSpec.decimal z a -> StrSpec.decimal z b -> a = b.
Proof.
  intros (x & X & ->) (y & Y & ->). f_equal. exact (numeral_unique 10 false ltac:(lia) _ _ _ X Y).
Qed.

Lemma shared_text lib c usec d t t' : In d shared -> d <> "f"%char -> d <> "s"%char -> proper (c_tm c) ->
  prints lib c usec d t -> directive lib c ["%"%char; d] = Ok t' -> t = t'.
Proof.
  intros J NF NS PR P D. destruct PR as (P1 & P2 & P3 & P4 & P5 & P6 & _).
  unfold shared in J. cbn in J.
  repeat destruct J as [<-|J]; try contradiction; try congruence;
    inversion P; subst; try (match goal with H : In _ (B "bBaAzZp") |- _ => cbn in H; repeat destruct H as [H|H]; try discriminate; try contradiction end);
    try congruence; unfold directive in D; cbn -[padded sdec] in D; injection D as <-.
  1: symmetry; apply year_fixed; lia.
  all: symmetry; apply padded_fixed; [change (10 ^ Z.of_nat 2)%Z with 100%Z; lia|lia].
Qed.

Lemma same_shows lib usec is : Forall shared_item is -> forall c out out', ready lib c is ->
  shows lib usec c is out -> DateSpec.shows lib usec c (map other_item is) out' -> out = out'.
Proof.
  induction is as [|i is IH]; intros F c out out' RD S1 S2.
  - inversion S1; subst. inversion S2; subst. reflexivity.
  - apply Forall_cons_iff in F as [FI F]. destruct i as [x| |x|d]; cbn [shared_item ready] in FI, RD.
    + inversion S1; subst. inversion S2; subst. f_equal. eapply IH; eassumption.
    + inversion S1; subst. inversion S2 as [| |cc dd t it o D S| |]; subst. unfold directive in D. cbn in D. injection D as <-.
      cbn [app]. f_equal. eapply IH; eassumption.
    + contradiction.
    + cbn [map other_item] in S2. destruct (Ascii.eqb_spec d "f") as [->|NF].
      * inversion S2; subst. inversion S1 as [| | | |cc dd t it o N P S|]; subst. inversion P; subst.
        -- f_equal. eapply IH; try eassumption. destruct RD as [_ RD]. apply RD. discriminate.
        -- match goal with H : In _ (B "bBaAzZp") |- _ => cbn in H; repeat destruct H as [H|H]; try discriminate; try contradiction end.
      * destruct (Ascii.eqb_spec d "s") as [->|NS].
        -- inversion S2 as [| | | |cc t c' s it o MK D S]; subst. inversion S1 as [| | | |? ? ? ? ? N|cc t2 c2 s2 it2 o2 MK2 D2 S2']; subst; [congruence|].
           rewrite MK in MK2. injection MK2 as <- <-. rewrite (decimal_unique _ _ _ D2 D). f_equal. eapply IH; try eassumption.
           destruct RD as [RD _]. specialize (RD eq_refl). rewrite MK in RD. exact RD.
        -- inversion S2 as [| |cc dd t it o D S| |]; subst. destruct RD as [_ RD]. destruct (RD NS) as [R1 R2].
           inversion S1 as [| | | |cc2 dd2 t2 it2 o2 N P S'|]; subst; [|congruence].
           rewrite (shared_text lib c usec d t2 t FI NF NS (proj1 R1) P D). f_equal. eapply IH; eassumption.
Qed.

Lemma shared_ok i : shared_item i -> item_ok i /\ DateSpec.item_ok (other_item i) /\ DateSpec.item_text (other_item i) = item_text i.
Proof.
  assert (DIR : forall c, In c (B "YmdHMSbBaAzZp%") -> DateSpec.item_ok (DateSpec.Directive ["%"%char; c])).
  { intros c J. cbn [DateSpec.item_ok]. refine (conj _ (conj _ _)).
    - exists [], [], [], c. refine (conj eq_refl (conj _ (conj _ (conj (or_introl eq_refl) _)))); try (intros ? []).
      intros K. cbn in J, K. repeat destruct J as [<-|J]; try contradiction; repeat destruct K as [K|K]; try discriminate; contradiction.
    - intros [K|[K|[]]]; [discriminate|]. cbn in J. repeat destruct J as [<-|J]; try contradiction; discriminate.
    - split; intros K; injection K as ->; cbn in J; repeat destruct J as [J|J]; try discriminate; contradiction. }
  destruct i as [x| |x|d]; cbn [shared_item item_ok other_item item_text]; intros H; try contradiction.
  - split; [apply H|]. split; [exact H|reflexivity].
  - split; [exact I|]. split; [apply DIR; cbn; tauto|reflexivity].
  - split.
    + unfold shared in H. cbn in H. repeat destruct H as [<-|H]; try contradiction; cbn; tauto.
    + destruct (Ascii.eqb_spec d "f") as [->|NF]; [split; [exact I|reflexivity]|].
      destruct (Ascii.eqb_spec d "s") as [->|NS]; [split; [exact I|reflexivity]|].
      split; [|reflexivity]. apply DIR. unfold shared in H. cbn in H. repeat destruct H as [<-|H]; try contradiction; try congruence; cbn; tauto.
Qed.

Lemma same_lemma dbl lib usec c is : usec < 1000000 -> Forall shared_item is -> in_order is -> no_escape (map other_item is) ->
  ready lib c is -> fits lib c 0 (map other_item is) ->
  exists out, generate lib (pattern_text is false) c usec = Ok out
              /\ DateModel.generate dbl lib c usec (make_generator (pattern_text is false)) = Ok out.
Proof.
  intros HU SH O NE RD FT.
  assert (OK : Forall item_ok is) by (eapply Forall_impl; [|exact SH]; intros i K; apply (shared_ok i K)).
  assert (OK2 : Forall DateSpec.item_ok (map other_item is)).
  { apply Forall_map. eapply Forall_impl; [|exact SH]. intros i K. apply (shared_ok i K). }
  assert (TX : DateSpec.pattern_text (map other_item is) = pattern_text is false).
  { unfold DateSpec.pattern_text, pattern_text. rewrite app_nil_r. clear -SH. induction SH as [|i is K _ IH]; [reflexivity|].
    cbn [map flat_map]. rewrite IH. f_equal. apply (shared_ok i K). }
  destruct (ordered_lemma lib usec HU c is false OK O RD) as (out & S1 & G1).
  destruct (DateProofs.pattern_lemma dbl lib usec c _ HU OK2 NE FT) as (out' & S2 & G2).
  rewrite TX in G2. exists out. split; [exact G1|]. cbn [tail_items] in S1. rewrite app_nil_r in S1.
  rewrite (same_shows lib usec is SH c out out' RD S1 S2). exact G2.
Qed.

(** ---- the default pattern ---- *)

Lemma stamp_tokens : parse (Handler [] [] []) time_format =
  Handler [KYear; KLiteral; KMonth; KLiteral; KMonthDay "0"; KLiteral; KHour; KLiteral; KMinute; KLiteral; KSecond; KLiteral; KUsec]
          [B "-"; B "-"; B " "; B ":"; B ":"; B "."] [].
Proof. reflexivity. Qed.

Lemma stamp_bytes lib t g z usec : proper t -> usec < 1000000 ->
  generate lib time_format (Clock t g z) usec = Ok (
    fixed 4 (Z.to_N (tm_year t + 1900)) ++ B "-" ++ fixed 2 (Z.to_N (tm_mon t + 1)) ++ B "-" ++ fixed 2 (Z.to_N (tm_mday t)) ++ B " "
    ++ fixed 2 (Z.to_N (tm_hour t)) ++ B ":" ++ fixed 2 (Z.to_N (tm_min t)) ++ B ":" ++ fixed 2 (Z.to_N (tm_sec t)) ++ B "." ++ fixed 6 usec).
Proof.
  intros P U. unfold generate. rewrite stamp_tokens. cbn [h_tokens h_literals calls call x_clock x_usec x_literals c_tm].
  rewrite year_text by assumption. cbn [bind fst snd call x_clock x_usec x_literals c_tm].
  rewrite month_text by assumption. cbn [bind fst snd call x_clock x_usec x_literals c_tm].
  rewrite day_text by assumption. cbn [bind fst snd call x_clock x_usec x_literals c_tm].
  rewrite hour_text by assumption. cbn [bind fst snd call x_clock x_usec x_literals c_tm].
  rewrite minute_text by assumption. cbn [bind fst snd call x_clock x_usec x_literals c_tm].
  rewrite second_text by assumption. cbn [bind fst snd call x_clock x_usec x_literals c_tm].
  rewrite usecond_text by assumption. cbn [bind fst snd]. rewrite app_nil_r. reflexivity.
Qed.

Lemma stamp_lemma2 lib ns : (0 <= ns < 2 ^ 63)%Z ->
  generate lib time_format (Clock (gmtime (seconds ns)) None None) (usec_of ns) = Ok (stamp_text ns).
Proof.
  intros H. destruct (usec_range_lemma ns H) as [U1 U2]. rewrite seconds_div by lia.
  unfold stamp_text. cbv zeta. set (us := (ns / 1000)%Z) in *. assert (US : (0 <= us < 10000000000000000)%Z).
  { unfold us. split; [apply Z.div_pos; lia|]. apply Z.div_lt_upper_bound; lia. }
  rewrite <- U1. clearbody us. clear U1. set (s := (us / 1000000)%Z). assert (SS : (0 <= s < 10000000000)%Z).
  { unfold s. split; [apply Z.div_pos; lia|]. apply Z.div_lt_upper_bound; lia. }
  clearbody s. assert (KK : (0 <= s / 86400 < 200000)%Z) by (split; [apply Z.div_pos; lia|apply Z.div_lt_upper_bound; lia]).
  assert (Y := civil_year (Z.to_N (s / 86400)) ltac:(lia)). assert (MD := DateSubProofs.month_day (Z.to_N (s / 86400))). cbv zeta in MD.
  assert (WD : (0 <= d_week (civil_day (Z.to_N (s / 86400))) <= 6 /\ 0 <= d_yday (civil_day (Z.to_N (s / 86400))) <= 365)%Z).
  { destruct (civil_day_valid_lemma (Z.to_N (s / 86400))) as (_ & V2 & V3).
    destruct (leap_year (d_year (civil_day (Z.to_N (s / 86400))))); lia. }
  assert (M24 := Z.mod_pos_bound (s / 3600) 24 ltac:(lia)). assert (M60 := Z.mod_pos_bound (s / 60) 60 ltac:(lia)).
  assert (S60 := Z.mod_pos_bound s 60 ltac:(lia)).
  rewrite (gmtime_civil_lemma s) by (unfold year_limit; lia). set (d := civil_day (Z.to_N (s / 86400))) in *. clearbody d.
  rewrite stamp_bytes; [|unfold proper; cbn [tm_year tm_mon tm_mday tm_hour tm_min tm_sec tm_wday tm_yday]; lia|exact U2].
  cbn [tm_year tm_mon tm_mday tm_hour tm_min tm_sec].
  replace (d_year d - 1900 + 1900)%Z with (d_year d) by lia. replace (d_month d - 1 + 1)%Z with (d_month d) by lia. reflexivity.
Qed.
