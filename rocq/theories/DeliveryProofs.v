(** Lemmas about syslog, the severity filter and the blocking handler. *)
From Verif Require Import Base ConsoleModel DeliveryModel DeliverySpec.

Lemma priority_configured_lemma : forall priorities severity p,
  (0 <= severity < 2 ^ 31)%Z -> nth_error priorities (Z.to_nat severity) = Some p ->
  syslog_priority priorities severity = p.
Proof.
  intros ps s p Hs Hp. unfold syslog_priority.
  rewrite Z.mod_small by (change (2 ^ 31)%Z with 2147483648%Z in Hs; change (2 ^ 64)%Z with 18446744073709551616%Z; lia).
  assert (HL : (Z.to_nat s < length ps)%nat) by (apply nth_error_Some; congruence).
  destruct (N.ltb_spec (Z.to_N s) (N.of_nat (length ps))) as [H|H]; [|lia].
  replace (N.to_nat (Z.to_N s)) with (Z.to_nat s) by lia.
  apply nth_error_nth; exact Hp.
Qed.

Lemma priority_default_lemma : forall priorities severity,
  (- 2 ^ 31 <= severity < 2 ^ 31)%Z -> (Z.of_nat (length priorities) < 2 ^ 63)%Z ->
  (severity < 0 \/ Z.of_nat (length priorities) <= severity)%Z ->
  syslog_priority priorities severity = 3%Z.
Proof.
  intros ps s Hs HL H. unfold syslog_priority.
  change (2 ^ 31)%Z with 2147483648%Z in *. change (2 ^ 63)%Z with 9223372036854775808%Z in *.
  change (2 ^ 64)%Z with 18446744073709551616%Z.
  destruct (N.ltb_spec (Z.to_N (s mod 18446744073709551616)) (N.of_nat (length ps))) as [X|X]; [|reflexivity].
  exfalso. assert (M := Z.mod_pos_bound s 18446744073709551616 eq_refl).
  destruct (Z.lt_ge_cases s 0) as [Hn|Hp].
  - assert (E : (s mod 18446744073709551616 = s + 18446744073709551616)%Z).
    { symmetry. apply (Z.mod_unique s _ (-1)); [left; lia|lia]. }
    lia.
  - rewrite Z.mod_small in X by lia. lia.
Qed.

Lemma to_int_id z : (- 2 ^ 31 <= z < 2 ^ 31)%Z -> to_int z = z.
Proof. intros H. unfold to_int. rewrite Z.mod_small by (change (2^32)%Z with (2 * 2 ^ 31)%Z; lia). lia. Qed.

Lemma config_priorities_lemma : forall values,
  Forall (fun v => - 2 ^ 31 <= v < 2 ^ 31)%Z values -> config_priorities values = values.
Proof.
  induction 1 as [|v vs H _ IH]; [reflexivity|]. unfold config_priorities in *. cbn [map]. rewrite IH, to_int_id by exact H. reflexivity.
Qed.

Lemma config_truncated_lemma : exists values severity v,
  nth_error values (Z.to_nat severity) = Some v /\ syslog_priority (config_priorities values) severity <> v.
Proof. exists [4294967299%Z], 0%Z, 4294967299%Z. split; [reflexivity|]. vm_compute. discriminate. Qed.

Lemma until_nul_id s : no_nul s -> until_nul s = s.
Proof.
  induction s as [|c s IH]; intros H; [reflexivity|]. cbn. destruct (Ascii.eqb_spec c NUL) as [->|].
  - destruct H; left; reflexivity.
  - rewrite IH; [reflexivity|]. intros X; apply H; right; exact X.
Qed.

Lemma until_nul_cut a b : no_nul a -> until_nul (a ++ NUL :: b) = a.
Proof.
  induction a as [|c a IH]; intros H; cbn; [reflexivity|]. destruct (Ascii.eqb_spec c NUL) as [->|].
  - destruct H; left; reflexivity.
  - rewrite IH; [reflexivity|]. intros X; apply H; right; exact X.
Qed.

Lemma text_kept_lemma : forall formatted,
  no_nul formatted -> (Z.of_nat (length formatted) < 2 ^ 31)%Z -> syslog_text formatted = Some formatted.
Proof.
  intros f HN HL. unfold syslog_text. rewrite to_int_id by lia.
  destruct (Z.ltb_spec (Z.of_nat (length f)) 0) as [X|_]; [lia|].
  rewrite Nat2Z.id, firstn_all, until_nul_id by exact HN. reflexivity.
Qed.

Lemma text_cut_lemma : forall a b,
  no_nul a -> (Z.of_nat (length (a ++ NUL :: b)) < 2 ^ 31)%Z -> syslog_text (a ++ NUL :: b) = Some a.
Proof.
  intros a b HN HL. unfold syslog_text. rewrite to_int_id by lia.
  destruct (Z.ltb_spec (Z.of_nat (length (a ++ NUL :: b))) 0) as [X|_]; [lia|].
  rewrite Nat2Z.id, firstn_all, until_nul_cut by exact HN. reflexivity.
Qed.

Lemma text_long_lemma : forall formatted,
  no_nul formatted -> (2 ^ 31 <= Z.of_nat (length formatted) < 2 ^ 32)%Z -> syslog_text formatted = None.
Proof.
  intros f HN HL. unfold syslog_text.
  assert (E : to_int (Z.of_nat (length f)) = (Z.of_nat (length f) - 2 ^ 32)%Z).
  { unfold to_int. replace ((Z.of_nat (length f) + 2 ^ 31) mod 2 ^ 32)%Z with (Z.of_nat (length f) - 2 ^ 31)%Z.
    - change (2 ^ 32)%Z with (2 * 2 ^ 31)%Z; lia.
    - apply (Z.mod_unique _ _ 1); [left|]; change (2 ^ 32)%Z with (2 * 2 ^ 31)%Z in *; lia. }
  rewrite E. destruct (Z.ltb_spec (Z.of_nat (length f) - 2 ^ 32) 0) as [_|X]; [|lia].
  destruct (existsb (Ascii.eqb NUL) f) eqn:EX; [|reflexivity].
  apply existsb_exists in EX as (c & HI & HE). apply Ascii.eqb_eq in HE. subst c. destruct (HN HI).
Qed.

Lemma text_refuted_lemma : exists formatted sent, syslog_text formatted = Some sent /\ sent <> formatted.
Proof. exists (B "a" ++ NUL :: B "b"), (B "a"). split; [reflexivity|discriminate]. Qed.

Lemma filter_exact_lemma : forall threshold severity,
  (severity_filter threshold severity = Deny <-> (severity < threshold)%Z) /\
  (severity_filter threshold severity <> Deny -> severity_filter threshold severity = Neutral).
Proof.
  intros t s. unfold severity_filter. destruct (Z.leb_spec t s); split; try (split; intros; [discriminate|lia]); try congruence.
  split; intros; [lia|reflexivity].
Qed.

Lemma filter_monotone_lemma : forall t1 t2 s1 s2,
  (t1 <= t2)%Z -> (s2 <= s1)%Z -> severity_filter t2 s2 <> Deny -> severity_filter t1 s1 <> Deny.
Proof.
  intros t1 t2 s1 s2 Ht Hs H. unfold severity_filter in *.
  destruct (Z.leb_spec t2 s2); [|congruence]. destruct (Z.leb_spec t1 s1); [discriminate|lia].
Qed.

Lemma emit_all_lemma text sinks : forall i evs threw, emit_all i text sinks = (evs, threw) ->
  exists n, evs = map (fun k => HEmit k text) (seq i n) /\ reached sinks n /\ (threw = true <-> Exists (fun b => b = true) sinks).
Proof.
  induction sinks as [|[|] sinks IH]; intros i evs threw E; cbn in E.
  - inversion E; subst. exists 0%nat. split; [reflexivity|]. split; [left; split; [constructor|reflexivity]|].
    split; [discriminate|intros H; inversion H].
  - inversion E; subst. exists 1%nat. split; [reflexivity|]. split.
    + right. exists [], sinks. split; [reflexivity|]. split; [constructor|reflexivity].
    + split; [intros _; constructor; reflexivity|reflexivity].
  - destruct (emit_all (S i) text sinks) as [evs1 t1] eqn:E1. inversion E; subst evs t1.
    destruct (IH _ _ _ E1) as (n & -> & HR & HT). exists (S n). split; [reflexivity|]. split.
    + destruct HR as [[HF ->]|(ok & rest & -> & HF & ->)].
      * left. split; [constructor; [reflexivity|exact HF]|reflexivity].
      * right. exists (false :: ok), rest. split; [reflexivity|]. split; [constructor; [reflexivity|exact HF]|reflexivity].
    + rewrite HT. split; [intros H; right; exact H|]. intros H; inversion H; [discriminate|assumption].
Qed.

Lemma handle_lemma : forall formatter sinks evs threw, handle formatter sinks = (evs, threw) ->
  match formatter with
  | None => evs = [HFormat] /\ threw = true
  | Some text => exists n, evs = HFormat :: deliveries text n /\ reached sinks n /\
                   (threw = true <-> Exists (fun b => b = true) sinks)
  end.
Proof.
  intros [text|] sinks evs threw E; cbn in E.
  - destruct (emit_all 0 text sinks) as [evs1 t1] eqn:E1. inversion E; subst evs t1.
    destruct (emit_all_lemma text sinks 0 evs1 threw E1) as (n & -> & H1 & H2). exists n. auto.
  - inversion E; subst. auto.
Qed.

Lemma handle_skips_lemma : exists text sinks i evs threw,
  handle (Some text) sinks = (evs, threw) /\ nth_error sinks i = Some false /\ ~ In (HEmit i text) evs.
Proof.
  exists (B "x"), [true; false], 1%nat. eexists _, _. split; [reflexivity|]. split; [reflexivity|].
  intros [H|[H|[]]]; discriminate.
Qed.
