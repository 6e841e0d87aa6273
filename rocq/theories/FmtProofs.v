(** Proofs about the formatting library. *)
From Verif Require Import Base Decimal FmtModel FmtSpec.
Open Scope N_scope.

Ltac per_byte := intros c; destruct c as [[] [] [] [] [] [] [] []]; vm_compute; reflexivity.

(** ---- numerals of the model are the notations of Decimal ---- *)

Lemma length_N_app {A} (a b : list A) : length_N (a ++ b) = length_N a + length_N b.
Proof. unfold length_N. rewrite app_length. lia. Qed.
Lemma length_N_repeat {A} (x : A) n : length_N (repeat x n) = N.of_nat n.
Proof. unfold length_N. rewrite repeat_length. reflexivity. Qed.

Lemma value_of_app base a b : value_of base (a ++ b) =
  fold_left (fun n c => base * n + (if N_of_ascii c <? 58 then N_of_ascii c - 48 else N_of_ascii c - 87)) b (value_of base a).
Proof. unfold value_of. apply fold_left_app. Qed.

Lemma notation_unfold base n : 2 <= base ->
  notation base n = if n <? base then [digit n] else notation base (n / base) ++ [digit (n mod base)].
Proof.
  intros HB.
  assert (G : forall f n, n < 2 ^ N.of_nat f -> (0 < f)%nat -> forall f', n < 2 ^ N.of_nat f' -> (0 < f')%nat ->
              notation_go base f n [] = notation_go base f' n []).
  { induction f as [|f IH]; intros m Hm P f' Hm' P'; [lia|]. destruct f' as [|f']; [lia|]. cbn [notation_go].
    destruct (N.ltb_spec m base) as [Hl|Hl]; [reflexivity|].
    rewrite notation_go_app, (notation_go_app base f').
    rewrite Nat2N.inj_succ, N.pow_succ_r' in Hm, Hm'.
    assert (Q1 : m / base < 2 ^ N.of_nat f) by (apply N.div_lt_upper_bound; [lia|nia]).
    assert (Q2 : m / base < 2 ^ N.of_nat f') by (apply N.div_lt_upper_bound; [lia|nia]).
    f_equal. apply IH; try assumption.
    - destruct f; [|lia]. change (2 ^ N.of_nat 0) with 1 in Hm. lia.
    - destruct f'; [|lia]. change (2 ^ N.of_nat 0) with 1 in Hm'. lia. }
  unfold notation at 1. cbn [notation_go]. destruct (N.ltb_spec n base) as [Hl|Hl].
  - rewrite N.mod_small by exact Hl. reflexivity.
  - rewrite notation_go_app. f_equal. unfold notation.
    assert (F := notation_fuel n). rewrite Nat2N.inj_succ, N.pow_succ_r' in F.
    assert (L : (0 < N.to_nat (N.log2 n))%nat).
    { enough (1 <= N.log2 n) by lia. change 1 with (N.log2 2). apply N.log2_le_mono. lia. }
    apply G; [|exact L| apply notation_fuel | lia].
    apply N.div_lt_upper_bound; [lia|nia].
Qed.

(** Length and size. *)
Lemma notation_length base n k : 2 <= base -> n < base ^ k -> 0 < k -> length_N (notation base n) <= k.
Proof.
  intros HB. revert n. induction k as [|k IH] using N.peano_ind; intros n H P; [lia|].
  rewrite notation_unfold by exact HB. destruct (N.ltb_spec n base) as [Hl|Hl].
  - unfold length_N. cbn [length]. lia.
  - rewrite length_N_app. rewrite N.pow_succ_r' in H. destruct (N.eq_dec k 0) as [->|Hk].
    + rewrite N.pow_0_r in H. lia.
    + enough (length_N (notation base (n / base)) <= k) by (unfold length_N at 2; cbn [length]; lia).
      apply IH; [apply N.div_lt_upper_bound; lia|lia].
Qed.

Lemma notation_length_ge base n k : 2 <= base -> base ^ k <= n -> k < length_N (notation base n).
Proof.
  intros HB. revert n. induction k as [|k IH] using N.peano_ind; intros n H.
  - assert (E := notation_nonempty base n). unfold length_N. destruct (notation base n); [congruence|cbn [length]; lia].
  - rewrite notation_unfold by exact HB. rewrite N.pow_succ_r' in H.
    assert (P : 0 < base ^ k) by (apply N.neq_0_lt_0, N.pow_nonzero; lia).
    destruct (N.ltb_spec n base) as [Hl|Hl]; [nia|].
    rewrite length_N_app. enough (k < length_N (notation base (n / base))) by (unfold length_N at 2; cbn [length]; lia).
    apply IH. apply N.div_le_lower_bound; [lia|nia].
Qed.

Definition digits_estimate (l : N) : N := (l + 1) * 1233 / 2 ^ 12.
Definition estimate_ok (l : N) : bool :=
  let t := digits_estimate l in
  (2 * 2 ^ l <=? 10 ^ (t + 1)) && ((t =? 0) || (10 ^ (t - 1) <=? 2 ^ l)) && (t <=? 19)
  && (if l <? 32 then t <=? 9 else true).
Lemma estimates : forall l, l < 64 -> estimate_ok l = true.
Proof.
  intros l H. assert (A : forallb estimate_ok (map N.of_nat (seq 0 64)) = true) by (vm_compute; reflexivity).
  rewrite forallb_forall in A. apply A. apply in_map_iff. exists (N.to_nat l). rewrite N2Nat.id. split; [reflexivity|].
  apply in_seq. lia.
Qed.

Lemma size_lor n : N.size (N.lor n 1) = N.log2 n + 1.
Proof.
  rewrite N.size_log2.
  - rewrite N.log2_lor. change (N.log2 1) with 0. lia.
  - intros E. apply N.lor_eq_0_iff in E as [_ E]. discriminate.
Qed.

Lemma count_digits_ok w n : n < 2 ^ bits_of w -> count_digits w n = Some (length_N (dec n)).
Proof.
  intros H. unfold count_digits. cbv zeta. rewrite size_lor. set (l := N.log2 n).
  change ((l + 1) * 1233 / 2 ^ 12) with (digits_estimate l).
  assert (L : l < 64 /\ (w = W32 -> l < 32)).
  { destruct (N.eq_dec n 0) as [->|Hn]; [unfold l; change (N.log2 0) with 0; split; [lia|intros; lia]|].
    unfold l. split; [|intros ->]; apply N.log2_lt_pow2; try lia; [|exact H].
    apply N.lt_le_trans with (1 := H). apply N.pow_le_mono_r; [lia|destruct w; cbn [bits_of]; lia]. }
  destruct L as [L LW]. assert (E := estimates l L). unfold estimate_ok in E. cbv zeta in E.
  set (t := digits_estimate l) in *. rewrite !andb_true_iff, orb_true_iff, !N.leb_le in E.
  destruct E as [[[E1 E2] E3] E4].
  assert (P : power_of_10 w t = Some (if t =? 0 then 0 else 10 ^ t)).
  { unfold power_of_10. destruct (t =? 0); [reflexivity|]. destruct w.
    - specialize (LW eq_refl). apply N.ltb_lt in LW. rewrite LW in E4. rewrite E4. reflexivity.
    - apply N.leb_le in E3. rewrite E3. reflexivity. }
  rewrite P. f_equal.
  assert (U : n < 10 ^ (t + 1)).
  { destruct (N.eq_dec n 0) as [->|Hn]; [apply N.neq_0_lt_0, N.pow_nonzero; lia|].
    destruct (N.log2_spec n) as [_ S2]; [lia|]. fold l in S2. rewrite N.pow_succ_r' in S2. lia. }
  assert (LE := notation_length 10 n (t + 1)). assert (GE := notation_length_ge 10 n).
  fold (dec n) in *. destruct (N.eqb_spec t 0) as [T|T].
  - rewrite T in *. specialize (LE ltac:(lia) U ltac:(lia)).
    assert (0 < length_N (dec n)).
    { unfold dec, length_N. assert (Z := notation_nonempty 10 n). destruct (notation 10 n); [congruence|cbn [length]; lia]. }
    destruct (N.ltb_spec n 0); lia.
  - destruct E2 as [E2|E2]; [discriminate|].
    destruct (N.ltb_spec n (10 ^ t)) as [C|C].
    + assert (LE2 := notation_length 10 n t ltac:(lia) C ltac:(lia)). fold (dec n) in LE2.
      assert (10 ^ (t - 1) <= n).
      { destruct (N.eq_dec n 0) as [Z|Z].
        - exfalso. apply T. unfold t, l. rewrite Z. reflexivity.
        - destruct (N.log2_spec n) as [S1 _]; [lia|]. fold l in S1. lia. }
      specialize (GE (t - 1) ltac:(lia) H0). lia.
    + specialize (GE t ltac:(lia) C). specialize (LE ltac:(lia) U ltac:(lia)). lia.
Qed.

(** The two-digit table. *)
Lemma digits_table : forall i, i < 100 -> digits_at (i * 2) = Some (digit (i / 10)) /\ digits_at (i * 2 + 1) = Some (digit (i mod 10)).
Proof.
  intros i H.
  assert (A : forallb (fun i => match digits_at (i * 2), digits_at (i * 2 + 1) with
     | Some a, Some b => Ascii.eqb a (digit (i / 10)) && Ascii.eqb b (digit (i mod 10)) | _, _ => false end)
     (map N.of_nat (seq 0 100)) = true) by (vm_compute; reflexivity).
  rewrite forallb_forall in A. specialize (A i).
  assert (I : In i (map N.of_nat (seq 0 100))).
  { apply in_map_iff. exists (N.to_nat i). rewrite N2Nat.id. split; [reflexivity|]. apply in_seq. lia. }
  specialize (A I). destruct (digits_at (i * 2)); [|discriminate]. destruct (digits_at (i * 2 + 1)); [|discriminate].
  apply andb_true_iff in A as [A1 A2]. apply Ascii.eqb_eq in A1, A2. subst. split; reflexivity.
Qed.

Lemma decimal_back_ok fuel : forall n, n < 100 ^ N.of_nat fuel -> (0 < fuel)%nat -> decimal_back fuel n = Some (rev (dec n)).
Proof.
  induction fuel as [|fuel IH]; intros n H P; [lia|]. cbn [decimal_back]. unfold dec.
  rewrite notation_unfold by lia. destruct (N.leb_spec 100 n) as [H1|H1].
  - cbv zeta. destruct (digits_table (n mod 100)) as [T1 T2]; [apply N.mod_lt; lia|]. rewrite T1, T2.
    rewrite Nat2N.inj_succ, N.pow_succ_r' in H.
    rewrite IH.
    + destruct (N.ltb_spec n 10); [lia|]. rewrite (notation_unfold 10 (n / 10)) by lia.
      destruct (N.ltb_spec (n / 10) 10) as [C|C].
      * exfalso. assert (10 <= n / 10) by (apply N.div_le_lower_bound; lia). lia.
      * rewrite N.div_div by lia. rewrite !rev_app_distr. cbn [rev app]. change (10 * 10) with 100.
        do 2 f_equal; [f_equal|do 2 f_equal].
        -- rewrite (N.mod_mul_r n 10 10) at 1 by lia. rewrite N.mul_comm, N.mod_add, N.mod_mod by lia. reflexivity.
        -- rewrite (N.mod_mul_r n 10 10) at 1 by lia. rewrite N.mul_comm, N.div_add by lia.
           rewrite (N.div_small (n mod 10)); [lia|apply N.mod_lt; lia].
    + apply N.div_lt_upper_bound; lia.
    + destruct fuel; [|lia]. change (100 ^ N.of_nat 0) with 1 in H. lia.
  - destruct (N.ltb_spec n 10) as [H2|H2].
    + unfold digit. apply N.ltb_lt in H2. rewrite H2. reflexivity.
    + destruct (digits_table n H1) as [T1 T2]. rewrite T1, T2.
      rewrite (notation_unfold 10 (n / 10)) by lia.
      assert (n / 10 < 10) by (apply N.div_lt_upper_bound; lia).
      destruct (N.ltb_spec (n / 10) 10); [|lia]. reflexivity.
Qed.

(** Digits by shifting, for a digit table [dig]. *)
Definition in_base (dig : N -> ascii) (base n : N) : bytes := map (fun c => dig (value_of base [c])) (notation base n).

Lemma in_base_unfold dig base n : 2 <= base <= 16 ->
  in_base dig base n = if n <? base then [dig n] else in_base dig base (n / base) ++ [dig (n mod base)].
Proof.
  intros HB. unfold in_base. rewrite (notation_unfold base n) by lia.
  assert (V : forall d, d < 16 -> value_of base [digit d] = d).
  { intros d Hd. unfold value_of. cbn [fold_left]. rewrite digit_value by exact Hd. lia. }
  destruct (N.ltb_spec n base).
  - cbn [map]. rewrite V by lia. reflexivity.
  - rewrite map_app. cbn [map]. rewrite V; [reflexivity|]. apply N.lt_le_trans with base; [apply N.mod_lt; lia|lia].
Qed.

Lemma count_shifts_ok k fuel : 0 < k <= 4 -> forall n, n < 2 ^ N.of_nat fuel -> (0 < fuel)%nat ->
  count_shifts fuel k n = Some (length_N (notation (2 ^ k) n)).
Proof.
  intros HK. assert (HB : 2 <= 2 ^ k).
  { change 2 with (2 ^ 1) at 1. apply N.pow_le_mono_r; lia. }
  induction fuel as [|fuel IH]; intros n H P; [lia|]. cbn [count_shifts]. cbv zeta. rewrite N.shiftr_div_pow2.
  rewrite notation_unfold by exact HB. destruct (N.eqb_spec (n / 2 ^ k) 0) as [E|E].
  - apply N.div_small_iff in E; [|lia]. apply N.ltb_lt in E. rewrite E. reflexivity.
  - assert (G : 2 ^ k <= n) by (destruct (N.lt_ge_cases n (2 ^ k)) as [C|C]; [rewrite N.div_small in E by exact C; lia|exact C]).
    destruct (N.ltb_spec n (2 ^ k)); [lia|]. rewrite Nat2N.inj_succ, N.pow_succ_r' in H. rewrite IH.
    + cbn [option_map]. f_equal. rewrite length_N_app. unfold length_N at 3. cbn [length]. lia.
    + apply N.div_lt_upper_bound; [lia|nia].
    + destruct fuel; [|lia]. change (2 ^ N.of_nat 0) with 1 in H. lia.
Qed.

Lemma shift_back_ok dig k fuel : 0 < k <= 4 -> forall n, n < 2 ^ N.of_nat fuel -> (0 < fuel)%nat ->
  shift_back fuel dig k n = Some (rev (in_base dig (2 ^ k) n)).
Proof.
  intros HK. assert (HB : 2 <= 2 ^ k <= 16).
  { split; [change 2 with (2 ^ 1) at 1|change 16 with (2 ^ 4)]; apply N.pow_le_mono_r; lia. }
  induction fuel as [|fuel IH]; intros n H P; [lia|]. cbn [shift_back]. cbv zeta. rewrite N.shiftr_div_pow2.
  rewrite in_base_unfold by exact HB. replace (2 ^ k - 1) with (N.ones k) by (rewrite N.ones_equiv; lia).
  rewrite N.land_ones. destruct (N.eqb_spec (n / 2 ^ k) 0) as [E|E].
  - apply N.div_small_iff in E; [|lia]. rewrite N.mod_small by exact E. apply N.ltb_lt in E. rewrite E. reflexivity.
  - assert (G : 2 ^ k <= n) by (destruct (N.lt_ge_cases n (2 ^ k)) as [C|C]; [rewrite N.div_small in E by exact C; lia|exact C]).
    destruct (N.ltb_spec n (2 ^ k)); [lia|]. rewrite Nat2N.inj_succ, N.pow_succ_r' in H. rewrite IH.
    + cbn [option_map]. rewrite rev_app_distr. reflexivity.
    + apply N.div_lt_upper_bound; [lia|nia].
    + destruct fuel; [|lia]. change (2 ^ N.of_nat 0) with 1 in H. lia.
Qed.

Lemma in_base_length dig base n : length_N (in_base dig base n) = length_N (notation base n).
Proof. unfold in_base, length_N. rewrite map_length. reflexivity. Qed.

(** ---- they are the canonical numerals ---- *)

Definition good_table (dig : N -> ascii) (upper : bool) (base : N) : Prop :=
  forall d, d < base -> digit_number (dig d) = Some d /\ (if upper then is_lower (dig d) else is_upper (dig d)) = false
    /\ (dig d = "0"%char -> d = 0).

Lemma read_digits_app base s t : forall acc, read_digits base acc (s ++ t) =
  match read_digits base acc s with Some v => read_digits base v t | None => None end.
Proof.
  induction s as [|c s IH]; intros acc; cbn [read_digits app]; [reflexivity|].
  destruct (digit_number c); [|reflexivity]. destruct (n <? base); [apply IH|reflexivity].
Qed.

Lemma in_base_numeral dig upper base n : 2 <= base <= 16 -> good_table dig upper base -> numeral base upper n (in_base dig base n).
Proof.
  intros HB HT. induction n as [n IH] using (well_founded_induction N.lt_wf_0).
  rewrite in_base_unfold by exact HB. destruct (N.ltb_spec n base) as [Hl|Hl].
  - destruct (HT n Hl) as (T1 & T2 & T3). refine (conj _ (conj _ (conj _ _))).
    + discriminate.
    + cbn [read_digits]. rewrite T1. apply N.ltb_lt in Hl. rewrite Hl. reflexivity.
    + cbn [hd]. intros E. assert (n = 0) by (apply T3; exact E). subst. rewrite E. reflexivity.
    + constructor; [exact T2|constructor].
  - assert (M : n mod base < base) by (apply N.mod_lt; lia).
    destruct (HT _ M) as (T1 & T2 & T3).
    assert (Q : n / base < n) by (apply N.div_lt; lia).
    assert (Q0 : n / base <> 0) by (intros E; apply N.div_small_iff in E; lia).
    destruct (IH _ Q) as (I1 & I2 & I3 & I4). refine (conj _ (conj _ (conj _ _))).
    + destruct (in_base dig base (n / base)); discriminate.
    + rewrite read_digits_app, I2. cbn [read_digits]. rewrite T1. apply N.ltb_lt in M. rewrite M. f_equal.
      rewrite N.mul_comm. symmetry. apply N.div_mod. lia.
    + intros E. exfalso. apply Q0. destruct (in_base dig base (n / base)) as [|c s] eqn:D; [congruence|].
      cbn [hd app] in E. specialize (I3 E). rewrite I3 in I2.
      change (read_digits base 0 (B "0")) with (if 0 <? base then Some (0 * base + 0) else None) in I2.
      destruct (0 <? base); [|discriminate]. injection I2 as I2. lia.
    + apply Forall_app. split; [exact I4|]. constructor; [exact T2|constructor].
Qed.

Lemma dec_in_base n : dec n = in_base digit 10 n.
Proof.
  unfold dec, in_base. rewrite <- (map_id (notation 10 n)) at 1. apply map_ext_in. intros c I.
  assert (F := notation_digits 10 n ltac:(lia)). rewrite Forall_forall in F. destruct (F c I) as (d & Hd & ->).
  unfold value_of. cbn [fold_left]. rewrite digit_value by lia. reflexivity.
Qed.

Lemma check_table (dig : N -> ascii) (upper : bool) base :
  forallb (fun d => match digit_number (dig d) with Some v => v =? d | None => false end
    && negb (if upper then is_lower (dig d) else is_upper (dig d))
    && (negb (Ascii.eqb (dig d) "0") || (d =? 0))) (map N.of_nat (seq 0 (N.to_nat base))) = true ->
  good_table dig upper base.
Proof.
  intros A d Hd. rewrite forallb_forall in A. specialize (A d).
  assert (I : In d (map N.of_nat (seq 0 (N.to_nat base)))).
  { apply in_map_iff. exists (N.to_nat d). rewrite N2Nat.id. split; [reflexivity|]. apply in_seq. lia. }
  specialize (A I). rewrite !andb_true_iff, orb_true_iff, !negb_true_iff in A. destruct A as [[A1 A2] A3].
  refine (conj _ (conj _ _)).
  - destruct (digit_number (dig d)); [|discriminate]. apply N.eqb_eq in A1. congruence.
  - exact A2.
  - intros E. destruct A3 as [A3|A3]; [rewrite E in A3; discriminate|apply N.eqb_eq; exact A3].
Qed.

(** ---- the buffer ---- *)

Lemma put_at L x R c : put (L ++ x :: R) (length L) c = Some (L ++ Some c :: R).
Proof. induction L as [|y L IH]; cbn [put app length]; [reflexivity|]. rewrite IH. reflexivity. Qed.

Lemma repeat_snoc {A} (x : A) n : repeat x (S n) = repeat x n ++ [x].
Proof. induction n as [|n IH]; [reflexivity|]. cbn [repeat app] in *. rewrite <- IH. reflexivity. Qed.

Lemma put_back_ok t : forall L R, put_back (L ++ repeat None (length t) ++ R) (length L + length t) t
  = Some (L ++ stored (rev t) ++ R).
Proof.
  induction t as [|c t IH]; intros L R; cbn [put_back length]; [reflexivity|].
  rewrite Nat.add_succ_r. rewrite repeat_snoc, <- app_assoc. cbn [app]. rewrite app_assoc.
  replace (length L + length t)%nat with (length (L ++ repeat (@None ascii) (length t))) by (rewrite app_length, repeat_length; reflexivity).
  rewrite put_at.
  rewrite app_length, repeat_length, <- app_assoc. rewrite IH. cbn [rev]. unfold stored. rewrite map_app, <- !app_assoc. reflexivity.
Qed.

Lemma all_stored_ok s : all_stored (stored s) = Some s.
Proof. induction s as [|c s IH]; cbn [all_stored stored map]; [reflexivity|]. fold (stored s). rewrite IH. reflexivity. Qed.

Lemma stored_repeat c n : stored (repeat c n) = repeat (Some c) n.
Proof. induction n as [|n IH]; cbn; [reflexivity|]. fold (stored (repeat c n)). rewrite IH. reflexivity. Qed.

Lemma stored_app a b : stored (a ++ b) = stored a ++ stored b.
Proof. apply map_app. Qed.

(** What [prepare_int_buffer] and the digits leave. *)
Definition laid (sp : spec) (prefix s : bytes) : bytes :=
  let size := length_N (prefix ++ s) in
  let p := sp_width sp - size in
  let fill n := repeat (sp_fill sp) (N.to_nat n) in
  match sp_align sp with
  | ALeft => prefix ++ s ++ fill p
  | ACenter => fill (p / 2) ++ prefix ++ s ++ fill (p - p / 2)
  | ANumeric => prefix ++ fill p ++ s
  | ARight | ADefault => fill p ++ prefix ++ s
  end.

Lemma fill_digits_ok sp prefix s : fill_digits (Some (length_N s)) (Some (rev s)) sp prefix = Ok (laid sp prefix s).
Proof.
  unfold fill_digits, prepare_int_buffer, laid. cbv zeta. rewrite length_N_app.
  set (size := length_N prefix + length_N s).
  assert (K : forall L R last, last = length_N L + length_N s ->
     match put_back (stored L ++ blank (length_N s) ++ stored R) (N.to_nat last) (rev s) with
     | Some cs' => match all_stored cs' with Some out => Ok out | None => Undefined end
     | None => Undefined end = Ok (L ++ s ++ R)).
  { intros L R last ->. unfold blank, length_N. rewrite N2Nat.inj_add, !Nat2N.id.
    replace (length s) with (length (rev s)) by apply rev_length.
    replace (length L) with (length (stored L)) by apply map_length.
    rewrite put_back_ok, rev_involutive. unfold stored. rewrite <- !map_app. fold (stored (L ++ s ++ R)).
    rewrite all_stored_ok. reflexivity. }
  assert (Z : forall last, last = size ->
     match put_back (stored prefix ++ blank (length_N s)) (N.to_nat last) (rev s) with
     | Some cs' => match all_stored cs' with Some out => Ok out | None => Undefined end
     | None => Undefined end = Ok (prefix ++ s)).
  { intros last E. assert (K' := K prefix [] last E). change (stored []) with (@nil (option ascii)) in K'.
    rewrite !app_nil_r in K'. exact K'. }
  destruct (N.leb_spec (sp_width sp) size) as [W|W].
  - replace (sp_width sp - size) with 0 by lia. rewrite (Z _ eq_refl). f_equal.
    destruct (sp_align sp); change (0 / 2) with 0; change (0 - 0) with 0; cbn [N.to_nat repeat app]; rewrite ?app_nil_r; reflexivity.
  - set (p := sp_width sp - size) in *.
    assert (K2 : forall L1 L2, length_N L1 + length_N L2 + length_N s = sp_width sp ->
       match put_back (stored L1 ++ stored L2 ++ blank (length_N s)) (N.to_nat (sp_width sp)) (rev s) with
       | Some cs' => match all_stored cs' with Some out => Ok out | None => Undefined end
       | None => Undefined end = Ok (L1 ++ L2 ++ s)).
    { intros L1 L2 E. assert (K' := K (L1 ++ L2) [] (sp_width sp)). change (stored []) with (@nil (option ascii)) in K'.
      rewrite !app_nil_r, stored_app, <- !app_assoc, length_N_app in K'. apply K'. lia. }
    destruct (sp_align sp); unfold filled; rewrite <- ?stored_repeat.
    + apply K. reflexivity.
    + apply K2. rewrite length_N_repeat, N2Nat.id. unfold p, size in *. lia.
    + apply K2. rewrite length_N_repeat, N2Nat.id. unfold p, size in *. lia.
    + assert (K' := K (repeat (sp_fill sp) (N.to_nat (p / 2)) ++ prefix) (repeat (sp_fill sp) (N.to_nat (p - p / 2))) (p / 2 + size)).
      rewrite stored_app, <- !app_assoc in K'. apply K'.
      rewrite length_N_app, length_N_repeat, N2Nat.id. unfold size. lia.
    + apply K2. rewrite length_N_repeat, N2Nat.id. unfold p, size in *. lia.
Qed.

(** ---- integers ---- *)

Lemma fills_repeat c n : fills c (repeat c n).
Proof. unfold fills. apply Forall_forall. intros x I. apply repeat_spec in I. congruence. Qed.

Lemma half_bounds p : p / 2 <= p - p / 2 <= p / 2 + 1.
Proof. assert (E := N.div_mod p 2 ltac:(discriminate)). assert (M := N.mod_lt p 2 ltac:(discriminate)). revert E M. generalize (p / 2), (p mod 2). intros a b E M. lia. Qed.

Lemma laid_field sp mark body : field true (sp_align sp) (sp_fill sp) (sp_width sp) mark body (laid sp mark body).
Proof.
  unfold field, laid. cbv zeta. set (size := length_N (mark ++ body)). set (p := sp_width sp - size).
  assert (Sz : length_N mark + length_N body = size) by (unfold size; rewrite length_N_app; reflexivity).
  pose (f := fun n => repeat (sp_fill sp) (N.to_nat n)). fold (f p). fold (f (p / 2)). fold (f (p - p / 2)).
  assert (F : forall n, fills (sp_fill sp) (f n)) by (intros; apply fills_repeat).
  assert (FL : forall n, length_N (f n) = n) by (intros; unfold f; rewrite length_N_repeat; lia).
  assert (F0 : fills (sp_fill sp) []) by constructor.
  assert (H := half_bounds p).
  destruct (sp_align sp);
    [exists [], [], (f p) | exists (f p), [], [] | exists [], (f p), [] | exists (f (p / 2)), [], (f (p - p / 2)) | exists (f p), [], []];
    (refine (conj _ (conj _ (conj _ (conj _ (conj _ _))))); [cbn [app]; rewrite ?app_nil_r; reflexivity| auto | auto | auto | |]).
  1,3,5,7,9: rewrite !length_N_app, !FL; unfold p in *; lia.
  1,2,3,5: split; reflexivity.
  split; [reflexivity|]. rewrite !FL. exact H.
Qed.

Definition int_range (w : word) (z : Z) : Prop := (- 2 ^ (Z.of_N (bits_of w) - 1) <= z < 2 ^ Z.of_N (bits_of w))%Z.

Definition sign_of (sp : spec) (z : Z) : bytes :=
  if (z <? 0)%Z then B "-" else if sp_sign sp then (if sp_plus sp then B "+" else B " ") else [].

Lemma abs_value_ok w z : int_range w z ->
  Z.to_N (if (z <? 0)%Z then (- z) mod 2 ^ Z.of_N (bits_of w) else z) = Z.abs_N z /\ Z.abs_N z < 2 ^ bits_of w.
Proof.
  unfold int_range. intros R.
  assert (Z.of_N (2 ^ bits_of w) = 2 ^ Z.of_N (bits_of w))%Z by (rewrite N2Z.inj_pow; reflexivity).
  assert (2 ^ Z.of_N (bits_of w) = 2 * 2 ^ (Z.of_N (bits_of w) - 1))%Z.
  { rewrite <- Z.pow_succ_r; [f_equal; lia|destruct w; cbn; lia]. }
  destruct (Z.ltb_spec z 0).
  - rewrite Z.mod_small by lia. split; lia.
  - split; lia.
Qed.

Lemma write_int_ok w z sp base upper pfx : int_range w z -> radix (sp_type sp) = Some (base, upper, pfx) ->
  exists ds, numeral base upper (Z.abs_N z) ds /\
    write_int w z sp = Ok (laid sp (sign_of sp z ++ (if sp_hash sp then pfx else [])) ds).
Proof.
  intros R RX. destruct (abs_value_ok w z R) as [A AR]. unfold write_int. cbv zeta. rewrite A. fold (sign_of sp z).
  assert (A64 : Z.abs_N z < 2 ^ N.of_nat 65).
  { apply N.lt_le_trans with (1 := AR). apply N.pow_le_mono_r; [lia|destruct w; cbn [bits_of]; lia]. }
  assert (A100 : Z.abs_N z < 100 ^ N.of_nat 65).
  { apply N.lt_le_trans with (1 := A64). apply N.pow_le_mono_l. lia. }
  set (n := Z.abs_N z) in *.
  assert (SH : (if sp_hash sp then sign_of sp z ++ pfx else sign_of sp z) = sign_of sp z ++ (if sp_hash sp then pfx else [])).
  { destruct (sp_hash sp); [reflexivity|symmetry; apply app_nil_r]. }
  assert (DECIMAL : good_table digit false 10) by (apply check_table; vm_compute; reflexivity).
  assert (LOWER : good_table lower_hex false 16) by (apply check_table; vm_compute; reflexivity).
  assert (UPPER : good_table upper_hex true 16) by (apply check_table; vm_compute; reflexivity).
  assert (BIN : good_table low_digit false 2) by (apply check_table; vm_compute; reflexivity).
  assert (OCT : good_table low_digit false 8) by (apply check_table; vm_compute; reflexivity).
  assert (SHIFT : forall dig up k, 0 < k <= 4 -> good_table dig up (2 ^ k) ->
    exists ds, numeral (2 ^ k) up n ds /\
      fill_digits (count_shifts 65 k n) (shift_back 65 dig k n) sp (sign_of sp z ++ (if sp_hash sp then pfx else []))
      = Ok (laid sp (sign_of sp z ++ (if sp_hash sp then pfx else [])) ds)).
  { intros dig up k K G. exists (in_base dig (2 ^ k) n). split.
    - apply in_base_numeral; [|exact G].
      split; [change 2 with (2 ^ 1) at 1|change 16 with (2 ^ 4)]; apply N.pow_le_mono_r; lia.
    - rewrite count_shifts_ok by (exact K || exact A64 || lia).
      rewrite shift_back_ok by (exact K || exact A64 || lia).
      rewrite <- (in_base_length dig). apply fill_digits_ok. }
  assert (DEC : exists ds, numeral 10 false n ds /\
      fill_digits (count_digits w n) (decimal_back 65 n) sp (sign_of sp z) = Ok (laid sp (sign_of sp z) ds)).
  { exists (dec n). split.
    - rewrite dec_in_base. apply in_base_numeral; [lia|exact DECIMAL].
    - rewrite count_digits_ok by exact AR. rewrite decimal_back_ok by (exact A100 || lia). apply fill_digits_ok. }
  unfold radix in RX.
  destruct (Ascii.eqb_spec (sp_type sp) NUL) as [E|_]; cbn [orb] in RX.
  { injection RX as <- <- <-. rewrite E. change (N_of_ascii NUL) with 0. cbv iota.
    replace (sign_of sp z ++ (if sp_hash sp then [] else [])) with (sign_of sp z) by (destruct (sp_hash sp); rewrite app_nil_r; reflexivity).
    exact DEC. }
  destruct (Ascii.eqb_spec (sp_type sp) "d") as [E|_].
  { injection RX as <- <- <-. rewrite E. change (N_of_ascii "d") with 100. cbv iota.
    replace (sign_of sp z ++ (if sp_hash sp then [] else [])) with (sign_of sp z) by (destruct (sp_hash sp); rewrite app_nil_r; reflexivity).
    exact DEC. }
  destruct (Ascii.eqb_spec (sp_type sp) "x") as [E|_].
  { injection RX as <- <- <-. rewrite E. change (N_of_ascii "x") with 120. cbv iota.
    destruct (SHIFT lower_hex false 4 ltac:(lia) LOWER) as (ds & NU & Q). exists ds. split; [exact NU|]. refine (eq_trans _ Q). f_equal. exact SH. }
  destruct (Ascii.eqb_spec (sp_type sp) "X") as [E|_].
  { injection RX as <- <- <-. rewrite E. change (N_of_ascii "X") with 88. cbv iota.
    destruct (SHIFT upper_hex true 4 ltac:(lia) UPPER) as (ds & NU & Q). exists ds. split; [exact NU|]. refine (eq_trans _ Q). f_equal. exact SH. }
  destruct (Ascii.eqb_spec (sp_type sp) "b") as [E|_].
  { injection RX as <- <- <-. rewrite E. change (N_of_ascii "b") with 98. cbv iota.
    destruct (SHIFT low_digit false 1 ltac:(lia) BIN) as (ds & NU & Q). exists ds. split; [exact NU|]. refine (eq_trans _ Q). f_equal. exact SH. }
  destruct (Ascii.eqb_spec (sp_type sp) "B") as [E|_].
  { injection RX as <- <- <-. rewrite E. change (N_of_ascii "B") with 66. cbv iota.
    destruct (SHIFT low_digit false 1 ltac:(lia) BIN) as (ds & NU & Q). exists ds. split; [exact NU|]. refine (eq_trans _ Q). f_equal. exact SH. }
  destruct (Ascii.eqb_spec (sp_type sp) "o") as [E|_]; [|discriminate].
  injection RX as <- <- <-. rewrite E. change (N_of_ascii "o") with 111. cbv iota.
  destruct (SHIFT low_digit false 3 ltac:(lia) OCT) as (ds & NU & Q). exists ds. split; [exact NU|]. refine (eq_trans _ Q). f_equal. exact SH.
Qed.

Lemma write_int_unknown w z sp : radix (sp_type sp) = None -> write_int w z sp = Error EUnknownType.
Proof.
  unfold write_int. cbv zeta. intros R. destruct (sp_type sp) as [[] [] [] [] [] [] [] []];
    first [discriminate R | reflexivity].
Qed.

Lemma carries_int dbl a z sp : carries a z -> exists w, format_arg dbl sp a = write_int w z sp /\ int_range w z.
Proof.
  destruct a; cbn [carries format_arg]; try contradiction; intros [<- R]; [exists W32|exists W32|exists W64|exists W64];
    (split; [reflexivity|]); unfold int_range; cbn [bits_of]; change (Z.of_N 32) with 32%Z; change (Z.of_N 64) with 64%Z;
    change (32 - 1)%Z with 31%Z; change (64 - 1)%Z with 63%Z; lia.
Qed.

(** ---- numbers in specifications ---- *)

Lemma decimal_digit c d : digit_number c = Some d -> d < 10 -> is_digit c = true /\ N_of_ascii c - 48 = d.
Proof.
  unfold digit_number, is_digit. cbv zeta. intros H L.
  destruct ((48 <=? N_of_ascii c) && (N_of_ascii c <=? 57)) eqn:E; [injection H as <-; split; reflexivity|].
  destruct ((97 <=? N_of_ascii c) && (N_of_ascii c <=? 102)) eqn:E2.
  { apply andb_true_iff in E2 as [E2 _]. apply N.leb_le in E2. injection H as <-. lia. }
  destruct ((65 <=? N_of_ascii c) && (N_of_ascii c <=? 70)) eqn:E3; [|discriminate].
  apply andb_true_iff in E3 as [E3 _]. apply N.leb_le in E3. injection H as <-. lia.
Qed.

Lemma read_digits_mono base s : 1 <= base -> forall acc v, read_digits base acc s = Some v -> acc <= v.
Proof.
  intros HB. induction s as [|c s IH]; intros acc v H; cbn [read_digits] in H; [injection H as ->; lia|].
  destruct (digit_number c); [|discriminate]. destruct (n <? base); [|discriminate]. apply IH in H. nia.
Qed.

Lemma parse_int_go_ok ds t : is_digit (peek t) = false -> forall acc v, read_digits 10 acc ds = Some v -> v < 2 ^ 32 ->
  parse_int_go acc (ds ++ t) = (v, t).
Proof.
  intros HT. induction ds as [|c ds IH]; intros acc v H L; cbn [read_digits app] in *.
  - injection H as ->. destruct t as [|c t]; [reflexivity|]. cbn [parse_int_go]. cbn [peek hd] in HT. rewrite HT. reflexivity.
  - destruct (digit_number c) as [d|] eqn:E; [|discriminate]. destruct (N.ltb_spec d 10) as [D|]; [|discriminate].
    destruct (decimal_digit c d E D) as [D1 D2]. cbn [parse_int_go]. rewrite D1. cbv zeta. rewrite D2.
    assert (M := read_digits_mono 10 ds ltac:(lia) _ _ H).
    rewrite N.mod_small by lia. destruct (N.ltb_spec (acc * 10 + d) acc); [lia|]. apply IH; assumption.
Qed.

Lemma parse_int_ok n ds t : digits_of n ds -> n < 2 ^ 31 -> is_digit (peek t) = false ->
  parse_int (ds ++ t) = Ok (n, t) /\ is_digit (peek (ds ++ t)) = true.
Proof.
  intros (NE & RD & _) L HT. split.
  - unfold parse_int. rewrite (parse_int_go_ok ds t HT 0 n RD) by lia.
    unfold INT_MAX. destruct (N.ltb_spec (2 ^ 31 - 1) n); [lia|reflexivity].
  - destruct ds as [|c ds]; [congruence|]. cbn [read_digits] in RD. cbn [app peek hd].
    destruct (digit_number c) as [d|] eqn:E; [|discriminate]. destruct (N.ltb_spec d 10) as [D|]; [|discriminate].
    apply (decimal_digit c d E D).
Qed.

(** ---- specifications ---- *)

(** How late in a specification a character can first appear. *)
Definition rank (c : ascii) : N :=
  if letter c || Ascii.eqb c RBRACE then 7
  else if Ascii.eqb c "." then 6
  else if is_digit c && negb (Ascii.eqb c "0") then 5
  else if Ascii.eqb c "0" then 4
  else if Ascii.eqb c "#" then 3
  else if Ascii.eqb c "+" || Ascii.eqb c "-" || Ascii.eqb c " " then 2
  else 0.

Definition rank_facts (c : ascii) : bool :=
  let r := rank c in
  (if 2 <=? r then match align_char c with None => true | _ => false end else true)
  && (if 3 <=? r then negb (Ascii.eqb c "+") && negb (Ascii.eqb c "-") && negb (Ascii.eqb c " ") else true)
  && (if 4 <=? r then negb (Ascii.eqb c "#") else true)
  && (if 5 <=? r then negb (Ascii.eqb c "0") else true)
  && (if 6 <=? r then negb (is_digit c) && negb (Ascii.eqb c LBRACE) else true)
  && (if 7 <=? r then negb (Ascii.eqb c ".") else true)
  && negb ((2 <=? r) && Ascii.eqb c NUL).
Lemma rank_ok : forall c, rank_facts c = true.
Proof. per_byte. Qed.

Ltac ranks c :=
  let H := fresh "RK" in assert (H := rank_ok c); unfold rank_facts in H; cbv zeta in H; rewrite !andb_true_iff in H;
  let a := fresh "RA" in let b := fresh "RB" in let d := fresh "RC" in let e := fresh "RD" in let f := fresh "RE" in
  let g := fresh "RF" in let h := fresh "RG" in destruct H as [[[[[[a b] d] e] f] g] h].

Lemma rank2 c : 2 <= rank c -> align_char c = None.
Proof. intros H. ranks c. apply N.leb_le in H. rewrite H in RA. destruct (align_char c); [discriminate|reflexivity]. Qed.
Lemma rank3 c : 3 <= rank c -> Ascii.eqb c "+" = false /\ Ascii.eqb c "-" = false /\ Ascii.eqb c " " = false.
Proof. intros H. ranks c. apply N.leb_le in H. rewrite H in RB. rewrite !andb_true_iff, !negb_true_iff in RB. tauto. Qed.
Lemma rank4 c : 4 <= rank c -> Ascii.eqb c "#" = false.
Proof. intros H. ranks c. apply N.leb_le in H. rewrite H in RC. apply negb_true_iff. exact RC. Qed.
Lemma rank5 c : 5 <= rank c -> Ascii.eqb c "0" = false.
Proof. intros H. ranks c. apply N.leb_le in H. rewrite H in RD. apply negb_true_iff. exact RD. Qed.
Lemma rank6 c : 6 <= rank c -> is_digit c = false /\ Ascii.eqb c LBRACE = false.
Proof. intros H. ranks c. apply N.leb_le in H. rewrite H in RE. rewrite !andb_true_iff, !negb_true_iff in RE. exact RE. Qed.
Lemma rank7 c : 7 <= rank c -> Ascii.eqb c "." = false.
Proof. intros H. ranks c. apply N.leb_le in H. rewrite H in RF. apply negb_true_iff. exact RF. Qed.

Definition letter_facts (c : ascii) : bool := if letter c then (7 <=? rank c) && negb (Ascii.eqb c RBRACE) && negb (Ascii.eqb c NUL) else true.
Lemma letter_ok : forall c, letter_facts c = true.
Proof. per_byte. Qed.
Lemma letter_rank c : letter c = true -> rank c = 7 /\ Ascii.eqb c RBRACE = false /\ Ascii.eqb c NUL = false.
Proof.
  intros H. assert (L := letter_ok c). unfold letter_facts in L. rewrite H in L.
  rewrite !andb_true_iff, !negb_true_iff in L. destruct L as [[_ L2] L3]. refine (conj _ (conj L2 L3)). unfold rank. rewrite H. reflexivity.
Qed.

Definition digit_facts (c : ascii) : bool :=
  match digit_number c with
  | Some d => if d <? 10 then (4 <=? rank c) && (Ascii.eqb c "0" || (5 <=? rank c)) && negb (Ascii.eqb c NUL)
                               && negb (Ascii.eqb c LBRACE) && negb (Ascii.eqb c RBRACE) else true
  | None => true
  end.
Lemma digit_ok : forall c, digit_facts c = true.
Proof. per_byte. Qed.

(** Digits all have a rank of a digit. *)
Lemma digits_rank ds : forall acc v, read_digits 10 acc ds = Some v -> Forall (fun c => 4 <= rank c /\ c <> NUL /\ c <> LBRACE /\ c <> RBRACE) ds.
Proof.
  induction ds as [|c ds IH]; intros acc v H; [constructor|]. cbn [read_digits] in H.
  destruct (digit_number c) as [d|] eqn:E; [|discriminate]. destruct (d <? 10) eqn:D; [|discriminate].
  assert (F := digit_ok c). unfold digit_facts in F. rewrite E, D in F.
  rewrite !andb_true_iff, !negb_true_iff, N.leb_le in F. destruct F as [[[[F1 _] F2] F3] F4].
  constructor; [|apply (IH _ _ H)]. apply Ascii.eqb_neq in F2, F3, F4. auto.
Qed.

Lemma digits_first n ds : digits_of n ds -> 0 < n -> 5 <= rank (hd NUL ds).
Proof.
  intros (NE & RD & HZ & _) P. destruct ds as [|c ds]; [congruence|]. cbn [hd] in *.
  assert (RD' := RD). cbn [read_digits] in RD'.
  destruct (digit_number c) as [d|] eqn:E; [|discriminate]. destruct (d <? 10) eqn:D; [|discriminate].
  assert (F := digit_ok c). unfold digit_facts in F. rewrite E, D in F.
  rewrite !andb_true_iff, orb_true_iff, !N.leb_le in F. destruct F as [[[[_ [F|F]] _] _] _]; [|exact F].
  apply Ascii.eqb_eq in F. specialize (HZ F). rewrite HZ in RD. change (read_digits 10 0 (B "0")) with (Some 0) in RD.
  injection RD as RD. lia.
Qed.
