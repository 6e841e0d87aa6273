From Verif Require Import Base Decimal TimeModel TimeSpec TimeProofs FmtModel FmtSpec FmtProofs FmtSubProofs DevModel DevSpec.
From Verif Require FmtSubProofs DateModel DateSpec DateProofs DateSubProofs StrModel ConsoleModel.
Open Scope N_scope.

Lemma then_out a b : then_ (Out a) (Out b) = Out (a ++ b). Proof. reflexivity. Qed.

(** ---- pieces ---- *)

Lemma put_view_ok v s : views v s -> put_view v = Out s.
Proof.
  intros [E D]. unfold put_view. rewrite E. destruct (StrModel.v_data v) as [m|].
  - destruct D as [rest ->]. destruct (N.leb_spec (length_N s) (length_N (s ++ rest))) as [_|L].
    + unfold length_N. rewrite Nat2N.id, firstn_app, firstn_all, Nat.sub_diag. cbn [firstn]. rewrite app_nil_r. reflexivity.
    + unfold length_N in L. rewrite app_length in L. lia.
  - subst s. reflexivity.
Qed.

Definition key_wish := Wish None ALeft None false false (Some (16, B "16")) (Some (16, B "16")) None.
Definition key_spec := asks key_wish.

Lemma firstn_cut {A} n (s t : list A) : (n <= length s)%nat -> firstn n (s ++ t) = firstn n s.
Proof. intros L. rewrite firstn_app. replace (n - length s)%nat with 0%nat by lia. cbn [firstn]. apply app_nil_r. Qed.

Lemma column_long s : (16 <= length s)%nat -> column s = firstn 16 s.
Proof. apply firstn_cut. Qed.
Lemma column_short s : (length s <= 16)%nat -> column s = s ++ repeat " "%char (16 - length s).
Proof.
  intros L. unfold column. rewrite firstn_app, firstn_all2 by exact L. apply f_equal.
  remember (16 - length s)%nat as k. assert (K : (k <= 16)%nat) by lia. clear - K.
  assert (G : forall n m, (n <= m)%nat -> firstn n (repeat " "%char m) = repeat " "%char n).
  { induction n as [|n IH]; intros m H; [reflexivity|]. destruct m as [|m]; [lia|]. cbn [firstn repeat]. rewrite IH by lia. reflexivity. }
  apply G, K.
Qed.
Lemma column_length s : length (column s) = 16%nat.
Proof. unfold column. rewrite firstn_length, app_length, repeat_length. lia. Qed.

Lemma pad_left s sp : sp_align sp = ALeft -> pad_str s sp = s ++ repeat (sp_fill sp) (N.to_nat (sp_width sp - length_N s)).
Proof.
  intros A. unfold pad_str. rewrite A. destruct (N.ltb_spec (length_N s) (sp_width sp)); [reflexivity|].
  replace (N.to_nat (sp_width sp - length_N s)) with 0%nat by lia. symmetry. apply app_nil_r.
Qed.

Lemma pad_column s : (length s <= 16)%nat -> pad_str s key_spec = column s.
Proof.
  intros L. rewrite pad_left by reflexivity. rewrite column_short by exact L. apply f_equal.
  change (sp_fill key_spec) with " "%char. change (sp_width key_spec) with 16. apply f_equal. unfold length_N. lia.
Qed.

Lemma key_argument dbl s : format_arg dbl key_spec (AString (Some (s ++ [NUL])) (length_N s)) = Ok (column s).
Proof.
  destruct s as [|c s]; [vm_compute; reflexivity|]. cbn [format_arg]. unfold write_string.
  change (sp_type key_spec) with NUL. rewrite Ascii.eqb_refl. cbn [negb andb].
  destruct (N.eqb_spec (length_N (c :: s)) 0) as [Z|_]; [unfold length_N in Z; cbn [length] in Z; lia|]. cbn [bind].
  change (sp_precision key_spec) with (Some 16). cbv iota zeta. remember (c :: s) as k.
  destruct (N.ltb_spec 16 (length_N k)) as [L|L]; unfold read, length_N in *; rewrite app_length.
  - destruct (N.ltb_spec (N.of_nat (length k + length [NUL])) 16); [lia|]. cbn [bind].
    change (N.to_nat 16) with 16%nat. rewrite firstn_cut by lia. rewrite pad_column by (rewrite firstn_length; lia).
    apply f_equal. rewrite column_short by (rewrite firstn_length; lia). rewrite firstn_length.
    replace (16 - Nat.min 16 (length k))%nat with 0%nat by lia. cbn [repeat]. rewrite app_nil_r. symmetry. apply column_long. lia.
  - destruct (N.ltb_spec (N.of_nat (length k + length [NUL])) (N.of_nat (length k))); [lia|]. cbn [bind].
    rewrite Nat2N.id, firstn_cut, firstn_all by lia. apply f_equal, pad_column. lia.
Qed.

Lemma key_sensible a : (exists p n, a = AString p n) -> sensible a key_wish.
Proof.
  intros (p & n & ->). unfold sensible, key_wish.
  cbn [w_fill w_align w_sign w_hash w_zero w_width w_precision w_type].
  assert (D : digits_of 16 (B "16")) by (repeat split; try discriminate; repeat constructor).
  repeat split; try discriminate; try lia; try exact D; try apply D; try (intros; discriminate).
Qed.

Lemma put_key_ok dbl k s : views k s -> put_key dbl k = Out (B "    " ++ column s ++ B ": ").
Proof.
  intros V. unfold put_key. rewrite (put_view_ok k s V).
  change (B "    {:<16.16}: ") with (format_text [Text (B "    "); Next (Some key_wish); Text (B ": ")]).
  rewrite write_pieces.
  - cbn [pairing in_turn]. fold key_spec. rewrite key_argument. cbn [FmtSpec.in_turn]. reflexivity.
  - cbn. lia.
  - cbn [pairing]. apply Forall_cons; [|apply Forall_cons; [|apply Forall_cons; [|apply Forall_nil]]].
    + intros J. cbn in J. repeat destruct J as [J|J]; try discriminate. contradiction.
    + apply key_sensible. eexists _, _. reflexivity.
    + intros J. cbn in J. repeat destruct J as [J|J]; try discriminate. contradiction.
Qed.

Lemma put_value_ok streamed tty v s : value_text (streamed (Stream tty false false)) v s ->
  put_value streamed (Stream tty false false) v = Out s.
Proof. intros H. destruct H; try reflexivity. cbn [put_value]. apply put_view_ok. assumption. Qed.

Lemma stamp_same dbl lib z ns : DateModel.z_gmtime_r z (DateModel.seconds ns) = gmtime (DateModel.seconds ns) ->
  DateModel.json_stamp dbl lib z (B "%Y-%m-%d %H:%M:%S.%f") ns = DateModel.string_stamp dbl lib z (B "%Y-%m-%d %H:%M:%S.%f") true ns.
Proof.
  intros E. unfold DateModel.json_stamp, DateModel.string_stamp, DateModel.string_clock.
  fold DateSubProofs.time_format. rewrite DateSubProofs.time_format_tokens, E.
  cbn [DateModel.generate]. unfold DateModel.strftime. rewrite FmtSubProofs.c_string_id.
  2:{ intros J. cbn in J. repeat destruct J as [J|J]; try discriminate. contradiction. }
  rewrite !DateSubProofs.clock_text. reflexivity.
Qed.

Lemma put_time_ok dbl lib z ns : keeps_calendar z -> (0 <= ns < 2 ^ 63)%Z -> put_time dbl lib z ns = Out (DateSpec.stamp_text ns).
Proof.
  intros C R. unfold put_time. rewrite stamp_same.
  - rewrite DateSubProofs.stamp_lemma by exact R. reflexivity.
  - rewrite DateSubProofs.seconds_div by lia. set (t := (ns / 1000 / 1000000)%Z). assert (T : (0 <= t < year_limit)%Z).
    { unfold t, year_limit. split; [apply Z.div_pos; [apply Z.div_pos|]; lia|]. apply Z.div_lt_upper_bound; [lia|]. apply Z.div_lt_upper_bound; lia. }
    rewrite (C t T), (gmtime_civil_lemma t T). reflexivity.
Qed.

(** ---- the whole ---- *)

Definition col (tty : bool) (c : ConsoleModel.termcolor) : bytes := if tty then ConsoleModel.print_color c else [].
Definition sev_color (s : Z) : ConsoleModel.termcolor :=
  (if s =? 1 then ConsoleModel.green else if s =? 2 then ConsoleModel.yellow else if s =? 3 then ConsoleModel.red else ConsoleModel.gray)%Z.
Definition shown_entry (tty : bool) (e : bytes * bytes) : bytes :=
  [NL] ++ col tty ConsoleModel.gray ++ (B "    " ++ column (fst e) ++ B ": ") ++ col tty ConsoleModel.reset ++ snd e.
Definition shown (tty : bool) (k : content) : bytes :=
  col tty ConsoleModel.gray ++ DateSpec.stamp_text (k_nanoseconds k) ++ B " " ++ (col tty (sev_color (k_severity k)) ++ [letter (k_severity k)])
  ++ (B " " ++ dec (k_tid k) ++ B "/" ++ dec (k_pid k)) ++ (col tty ConsoleModel.reset ++ col tty ConsoleModel.gray) ++ B " - "
  ++ col tty ConsoleModel.reset ++ k_message k ++ col tty ConsoleModel.reset ++ flat_map (shown_entry tty) (k_entries k) ++ [] ++ [NL].

Lemma put_severity_ok st s : put_severity st s = Out (col (st_tty st) (sev_color s) ++ [letter s]).
Proof.
  unfold put_severity, sev_color, letter, col, colorize.
  destruct s as [|p|p]; [reflexivity| |reflexivity]. destruct p as [[p|p|]|[p|p|]|]; reflexivity.
Qed.

Lemma put_attributes_ok dbl streamed tty l es :
  Forall2 (fun a e => views (fst a) (fst e) /\ value_text (streamed (Stream tty false false)) (snd a) (snd e)) l es ->
  put_all (put_attribute dbl streamed (Stream tty false false)) l = Out (flat_map (shown_entry tty) es).
Proof.
  induction 1 as [|a e l es [K V] _ IH]; [reflexivity|]. cbn [put_all flat_map]. rewrite IH. unfold put_attribute.
  rewrite (put_key_ok dbl _ _ K), (put_value_ok _ _ _ _ V). reflexivity.
Qed.

Lemma put_all_concat {A} (put : A -> written) ls : put_all (put_all put) ls = put_all put (concat ls).
Proof.
  assert (T : forall a b c, then_ (then_ a b) c = then_ a (then_ b c)).
  { intros [a|a|] [b|b|] [c|c|]; cbn; rewrite ?app_assoc; reflexivity. }
  assert (U : forall a, then_ (Out []) a = a) by (intros [a|a|]; reflexivity).
  assert (G : forall l m, put_all put (l ++ m) = then_ (put_all put l) (put_all put m)).
  { induction l as [|x l IH]; intros m; cbn [app put_all]; [symmetry; apply U|]. rewrite IH. symmetry. apply T. }
  induction ls as [|l ls IH]; [reflexivity|]. cbn [put_all concat]. rewrite IH. symmetry. apply G.
Qed.

Lemma handle_shown dbl streamed lib z tty r k : keeps_calendar z -> (0 <= k_nanoseconds k < 2 ^ 63)%Z ->
  holds (streamed (Stream tty false false)) r k -> handle dbl streamed lib z (Stream tty false false) r = Out (shown tty k).
Proof.
  intros C R (M & S0 & T & I & P & E). unfold handle, tokens. cbn [put_all].
  rewrite T, S0, I, P, put_time_ok, put_severity_ok, (put_view_ok _ _ M), put_all_concat, (put_attributes_ok dbl streamed tty _ _ E) by assumption.
  unfold shown, colorize, put_unsigned, col. cbn [st_tty st_hex]. rewrite !then_out.
  apply f_equal. rewrite <- !app_assoc. reflexivity.
Qed.

Lemma shown_line k : shown false k = line k.
Proof.
  assert (E : forall es, flat_map (shown_entry false) es = flat_map entry es).
  { intros es. apply flat_map_ext. intros e. unfold shown_entry, entry, col. cbn [app]. rewrite <- !app_assoc. reflexivity. }
  unfold shown, line, col. cbn [app]. rewrite <- !app_assoc, E. reflexivity.
Qed.

Lemma text_lemma dbl streamed lib z r k : keeps_calendar z -> (0 <= k_nanoseconds k < 2 ^ 63)%Z ->
  holds (streamed (Stream false false false)) r k -> handle dbl streamed lib z (Stream false false false) r = Out (line k).
Proof. intros C R H. rewrite (handle_shown _ _ _ _ _ _ k) by assumption. rewrite shown_line. reflexivity. Qed.

(** ---- reading back ---- *)

Lemma app_cut {A} (a b x y : list A) : length a = length b -> a ++ x = b ++ y -> a = b /\ x = y.
Proof.
  revert b. induction a as [|c a IH]; intros [|d b] L E; try discriminate; [auto|].
  injection E as -> E. injection L as L. destruct (IH b L E) as [-> ->]. auto.
Qed.

Lemma first_cut {A} (c : A) a b x y : ~ In c a -> ~ In c b -> a ++ c :: x = b ++ c :: y -> a = b /\ x = y.
Proof.
  revert b. induction a as [|p a IH]; intros [|q b] NA NB E; cbn [app] in E.
  - injection E as ->. auto.
  - injection E as <- E. destruct NB. left. reflexivity.
  - injection E as -> E. destruct NA. left. reflexivity.
  - injection E as -> E. destruct (IH b) as [-> ->]; auto; intros J; [apply NA|apply NB]; right; exact J.
Qed.

Lemma digit_not d c : d < 10 -> In c (B "/ " ++ [NL; chr 27]) -> digit d <> c.
Proof.
  intros L J. unfold digit. destruct (N.ltb_spec d 10) as [_|]; [|lia]. intros E. apply (f_equal N_of_ascii) in E.
  unfold chr in E. rewrite N_ascii_embedding in E by lia.
  cbn in J. repeat destruct J as [<-|J]; try contradiction; vm_compute (N_of_ascii _) in E; lia.
Qed.
Lemma dec_without n c : In c (B "/ " ++ [NL; chr 27]) -> ~ In c (dec n).
Proof.
  intros J I. assert (F := notation_digits 10 n ltac:(lia)). rewrite Forall_forall in F. destruct (F c I) as (d & L & E).
  apply (digit_not d c L J). congruence.
Qed.
Lemma fixed_without k : forall n c, In c (B "/ " ++ [NL; chr 27]) -> ~ In c (DateSpec.fixed k n).
Proof.
  induction k as [|k IH]; intros n c J I; cbn [DateSpec.fixed] in I; [exact I|]. apply in_app_or in I as [I|[I|[]]].
  - exact (IH _ _ J I).
  - apply (digit_not (n mod 10) c); [apply N.mod_lt; lia|exact J|exact I].
Qed.

Lemma dec_inj a b : dec a = dec b -> a = b.
Proof. apply notation_inj. lia. Qed.

Lemma stamp_length ns : length (DateSpec.stamp_text ns) = 26%nat.
Proof. unfold DateSpec.stamp_text. cbv zeta. rewrite !app_length, !DateProofs.fixed_length. reflexivity. Qed.

Lemma stamp_inj n m : (0 <= n < 2 ^ 63)%Z -> (0 <= m < 2 ^ 63)%Z -> DateSpec.stamp_text n = DateSpec.stamp_text m -> (n / 1000 = m / 1000)%Z.
Proof.
  intros Hn Hm E. set (l := DateModel.Clib (fun _ _ => []) (fun c => (0%Z, c))).
  set (z := DateModel.Zone {| timezone := 0%Z; dst := 0%Z |} [] gmtime (fun t => DateModel.Clock (gmtime t) None None)).
  destruct (DateSubProofs.order_lemma (fun _ _ => []) l z n m _ _ Hn Hm (DateSubProofs.stamp_lemma _ _ _ _ Hn) (DateSubProofs.stamp_lemma _ _ _ _ Hm)) as [_ [Q _]].
  apply Q, E.
Qed.

Lemma spaces_prefix (a b : bytes) i j : (length a <= length b)%nat -> a ++ repeat " "%char i = b ++ repeat " "%char j ->
  last b NUL <> " "%char -> a = b.
Proof.
  revert b. induction a as [|x a IH]; intros b L E NB.
  - destruct b as [|y b]; [reflexivity|]. exfalso. apply NB. cbn [app] in E.
    assert (F : Forall (eq " "%char) (y :: b)).
    { apply Forall_forall. intros c J. symmetry. apply (repeat_spec i " "%char c). rewrite E. apply (in_or_app (y :: b)). left. exact J. }
    assert (J : In (last (y :: b) NUL) (y :: b)).
    { rewrite (app_removelast_last NUL (l := y :: b)) at 2 by discriminate. apply in_or_app. right. left. reflexivity. }
    rewrite Forall_forall in F. symmetry. apply F, J.
  - destruct b as [|y b]; [cbn in L; lia|]. cbn [app] in E. injection E as -> E. f_equal. apply IH; [cbn in L; lia|exact E|].
    destruct b as [|z b]; [|exact NB]. cbn. discriminate.
Qed.

Lemma column_inj (a b : bytes) : (length a <= 16)%nat -> (length b <= 16)%nat -> last a NUL <> " "%char -> last b NUL <> " "%char ->
  column a = column b -> a = b.
Proof.
  intros LA LB NA NB E. rewrite !column_short in E by assumption.
  destruct (Nat.le_ge_cases (length a) (length b)) as [L|L].
  - exact (spaces_prefix _ _ _ _ L E NB).
  - symmetry. symmetry in E. exact (spaces_prefix _ _ _ _ L E NA).
Qed.

Lemma entries_begin es : exists t, flat_map entry es ++ [NL] = NL :: t.
Proof. destruct es as [|e es]; eexists; reflexivity. Qed.

Definition rest_of (es : list (bytes * bytes)) : bytes :=
  match es with [] => [] | e :: es' => B "    " ++ column (fst e) ++ B ": " ++ snd e ++ flat_map entry es' ++ [NL] end.
Lemma entries_rest es : flat_map entry es ++ [NL] = NL :: rest_of es.
Proof. destruct es as [|e es]; [reflexivity|]. cbn [flat_map rest_of]. unfold entry at 1. cbn [app]. rewrite <- !app_assoc. reflexivity. Qed.

Definition fine_entry (e : bytes * bytes) : Prop :=
  ~ In NL (fst e) /\ (length (fst e) <= 16)%nat /\ last (fst e) NUL <> " "%char /\ ~ In NL (snd e).
Lemma entries_inj es : forall fs, Forall fine_entry es -> Forall fine_entry fs -> rest_of es = rest_of fs -> es = fs.
Proof.
  induction es as [|[k v] es IH]; intros [|[k' v'] fs] FE FF E; try discriminate; [reflexivity|].
  inversion FE as [|? ? (A1 & A2 & A3 & A4) FE']. inversion FF as [|? ? (B1 & B2 & B3 & B4) FF']. subst. cbn [fst snd] in *.
  cbn [rest_of fst snd] in E. apply app_cut in E as [_ E]; [|reflexivity].
  apply app_cut in E as [EK E]; [|rewrite !column_length; reflexivity]. apply app_cut in E as [_ E]; [|reflexivity].
  rewrite !entries_rest in E. apply first_cut in E as [-> E]; [|assumption|assumption].
  apply column_inj in EK; try assumption. subst k'. f_equal. apply IH; assumption.
Qed.

Lemma inj_lemma a b : (0 <= k_nanoseconds a < 2 ^ 63)%Z -> (0 <= k_nanoseconds b < 2 ^ 63)%Z -> one_line a -> one_line b ->
  line a = line b -> same_content a b.
Proof.
  intros RA RB [MA EA] [MB EB] E. unfold line in E.
  apply app_cut in E as [ET E]; [|rewrite !stamp_length; reflexivity].
  apply app_cut in E as [_ E]; [|reflexivity]. apply app_cut in E as [EL E]; [|reflexivity]. injection EL as EL.
  apply app_cut in E as [_ E]; [|reflexivity].
  apply first_cut in E as [EI E]; [|apply dec_without; cbn; auto..].
  apply first_cut in E as [EP E]; [|apply dec_without; cbn; auto..].
  change ([] ++ ?x) with x in E. injection E as E.
  rewrite !entries_rest in E. apply first_cut in E as [EM E]; [|assumption|assumption].
  apply entries_inj in E; [|exact EA|exact EB].
  refine (conj (stamp_inj _ _ RA RB ET) (conj EL (conj (dec_inj _ _ EI) (conj (dec_inj _ _ EP) (conj EM E))))).
Qed.

(** ---- the terminal ---- *)

Lemma display_plain s : forall y t, ~ In (chr 27) s ->
  display Ground y (s ++ t) = let '(c, m, y') := display Ground y t in (in_style y s ++ c, m, y').
Proof.
  induction s as [|x s IH]; intros y t N; cbn [app display in_style map].
  - destruct (display Ground y t) as [[c m] y']. reflexivity.
  - destruct (Ascii.eqb_spec x (chr 27)) as [->|_]; [destruct N; left; reflexivity|].
    rewrite IH by (intros J; apply N; right; exact J). destruct (display Ground y t) as [[c m] y']. reflexivity.
Qed.

Lemma display_gray y t : display Ground y (ConsoleModel.print_color ConsoleModel.gray ++ t) = display Ground (Style true (y_color y)) t.
Proof. reflexivity. Qed.
Lemma display_reset y t : display Ground y (ConsoleModel.print_color ConsoleModel.reset ++ t) = display Ground normal t.
Proof. reflexivity. Qed.
Lemma display_severity s t : display Ground (Style true None) (ConsoleModel.print_color (sev_color s) ++ t) = display Ground (severity_style s) t.
Proof.
  unfold sev_color, severity_style. destruct (s =? 1)%Z; [reflexivity|]. destruct (s =? 2)%Z; [reflexivity|]. destruct (s =? 3)%Z; reflexivity.
Qed.

Lemma without_app (c : ascii) a b : ~ In c a -> ~ In c b -> ~ In c (a ++ b).
Proof. intros NA NB J. apply in_app_or in J as [J|J]; auto. Qed.
Ltac not_in := intros J; cbn in J; repeat destruct J as [J|J]; try discriminate; contradiction.

Lemma column_without s : ~ In (chr 27) s -> ~ In (chr 27) (column s).
Proof.
  intros N J. unfold column in J. assert (K : In (chr 27) (s ++ repeat " "%char 16)).
  { rewrite <- (firstn_skipn 16). apply in_or_app. left. exact J. }
  apply in_app_or in K as [K|K]; [exact (N K)|]. apply repeat_spec in K. discriminate.
Qed.

Lemma display_entries es : forall t, Forall (fun e => ~ In (chr 27) (fst e) /\ ~ In (chr 27) (snd e)) es ->
  display Ground normal (flat_map (shown_entry true) es ++ t) =
    let '(c, m, y) := display Ground normal t in (flat_map entry_cells es ++ c, m, y).
Proof.
  induction es as [|[k v] es IH]; intros t F; cbn [flat_map].
  - cbn [app]. destruct (display Ground normal t) as [[c m] y]. reflexivity.
  - inversion F as [|? ? [NK NV] F']. subst. cbn [fst snd] in *. unfold shown_entry at 1, entry_cells at 1, col. cbn [fst snd].
    rewrite <- !app_assoc. rewrite display_plain by not_in. rewrite display_gray. cbn [y_color normal].
    rewrite (app_assoc (B "    ")), (app_assoc (B "    " ++ column k)). rewrite display_plain.
    2:{ apply without_app; [apply without_app; [not_in|apply column_without, NK]|not_in]. }
    rewrite display_reset, display_plain by exact NV. rewrite IH by exact F'.
    destruct (display Ground normal t) as [[c m] y]. rewrite <- !app_assoc. reflexivity.
Qed.

Lemma stamp_without ns : ~ In (chr 27) (DateSpec.stamp_text ns).
Proof.
  unfold DateSpec.stamp_text. cbv zeta. assert (F : forall k n, ~ In (chr 27) (DateSpec.fixed k n)) by (intros; apply fixed_without; cbn; auto).
  repeat (apply without_app; [first [apply F | not_in]|]). apply F.
Qed.

Lemma display_shown k : no_escape k -> display Ground normal (shown true k) = (cells k, Ground, normal).
Proof.
  intros [NM NE]. unfold shown, col, cells. rewrite <- !app_assoc. rewrite display_gray. cbn [y_color normal].
  rewrite (app_assoc (DateSpec.stamp_text _)), display_plain.
  2:{ apply without_app; [apply stamp_without|not_in]. }
  rewrite display_severity.
  rewrite (app_assoc [letter _]), (app_assoc _ (dec (k_tid k))), (app_assoc _ (B "/")), (app_assoc _ (dec (k_pid k))), display_plain.
  2:{ assert (F : forall n, ~ In (chr 27) (dec n)) by (intros; apply dec_without; cbn; auto).
      apply without_app; [apply without_app; [apply without_app; [apply without_app|]|]|]; try apply F; try not_in.
      unfold letter. repeat destruct (_ =? _)%Z; not_in. }
  rewrite display_reset, display_gray, display_plain by not_in. rewrite display_reset, display_plain by exact NM.
  rewrite display_reset, display_entries by exact NE. change ([] ++ [NL]) with [NL]. cbn [display].
  change (Ascii.eqb NL (chr 27)) with false. cbv iota. rewrite <- !app_assoc. reflexivity.
Qed.

Lemma terminal_lemma dbl streamed lib z r k : keeps_calendar z -> (0 <= k_nanoseconds k < 2 ^ 63)%Z -> no_escape k ->
  holds (streamed (Stream true false false)) r k ->
  exists out, handle dbl streamed lib z (Stream true false false) r = Out out /\ display Ground normal out = (cells k, Ground, normal).
Proof. intros C R N H. exists (shown true k). split; [apply handle_shown; assumption|apply display_shown, N]. Qed.

Lemma cells_text k : map fst (cells k) = line k.
Proof.
  assert (I : forall y s, map fst (in_style y s) = s) by (intros y s; unfold in_style; rewrite map_map; apply map_id).
  assert (E : forall es, map fst (flat_map entry_cells es) = flat_map entry es).
  { induction es as [|e es IH]; [reflexivity|]. cbn [flat_map]. rewrite map_app, IH. apply f_equal2; [|reflexivity].
    unfold entry_cells, entry. rewrite !map_app, !I. rewrite <- !app_assoc. reflexivity. }
  unfold cells, line. rewrite !map_app, !I, E, <- !app_assoc. reflexivity.
Qed.

(** ---- how it ends ---- *)

(** Outcomes without their bytes. *)
Inductive ending := Normal | Exception | Wrong.
Definition ends (w : written) : ending := match w with Out _ => Normal | Thrown _ => Exception | Undef => Wrong end.
Definition and_then (a b : ending) : ending := match a with Normal => b | x => x end.
Lemma ends_then a b : ends (then_ a b) = and_then (ends a) (ends b) .
Proof. destruct a, b; reflexivity. Qed.

Definition effect_ending (f : effect) : ending := match f with Writes _ => Normal | Throws => Exception | Logs => Wrong end.
Fixpoint endings (l : list effect) : ending := match l with [] => Normal | f :: l' => and_then (effect_ending f) (endings l') end.
Lemma endings_app a b : endings (a ++ b) = and_then (endings a) (endings b).
Proof. induction a as [|f a IH]; cbn [app endings]; [reflexivity|]. rewrite IH. destruct (effect_ending f); reflexivity. Qed.

Lemma good_view_ends v : good_view v -> ends (put_view v) = Normal.
Proof. intros [s V]. rewrite (put_view_ok v s V). reflexivity. Qed.

Lemma time_ends dbl lib z ns : ends (put_time dbl lib z ns) = Normal.
Proof.
  unfold put_time, DateModel.json_stamp. fold DateSubProofs.time_format. rewrite DateSubProofs.time_format_tokens.
  cbn [DateModel.generate]. unfold DateModel.strftime. rewrite FmtSubProofs.c_string_id.
  2:{ intros J. cbn in J. repeat destruct J as [J|J]; try discriminate. contradiction. }
  rewrite DateSubProofs.clock_text. cbn [FmtModel.bind].
  destruct (DateProofs.usec_field dbl (DateModel.usec_of ns)) as (i & ds & E & _).
  - unfold DateModel.usec_of, u64. assert (B0 := Z.mod_pos_bound (Z.rem (Z.quot ns 1000) 1000000) (2 ^ 64) ltac:(lia)).
    clear - B0. remember (_ mod _)%Z as q. clear Heqq. lia.
  - rewrite E. reflexivity.
Qed.

Lemma attributes_end dbl streamed st l :
  (forall a, In a l -> good_view (fst a) /\ match snd a with DString v => good_view v | _ => True end) ->
  ends (put_all (put_attribute dbl streamed st) l) = endings (flat_map (fun a => match snd a with DFun f => [f] | _ => [] end) l).
Proof.
  induction l as [|[k v] l IH]; intros G; [reflexivity|]. cbn [put_all flat_map]. rewrite ends_then, endings_app, IH by (intros a J; apply G; right; exact J).
  apply f_equal2; [|reflexivity]. destruct (G (k, v) (or_introl eq_refl)) as [[s V] GV]. cbn [fst snd] in *.
  unfold put_attribute. rewrite !ends_then. cbn [fst snd]. rewrite (put_key_ok dbl k s V). unfold colorize. cbn [ends and_then].
  destruct v as [| b | x | n | bits | w | f]; cbn [put_value]; try reflexivity; [apply good_view_ends, GV|]. destruct f; reflexivity.
Qed.

Lemma handle_ends dbl streamed lib z st r : good_views r -> ends (handle dbl streamed lib z st r) = endings (effects r).
Proof.
  intros [GM GA]. unfold handle, tokens. cbn [put_all]. rewrite !ends_then.
  rewrite time_ends, put_severity_ok, (good_view_ends _ GM), put_all_concat, (attributes_end dbl streamed st _ GA).
  unfold colorize, put_unsigned. cbn [ends and_then then_]. fold (effects r). destruct (endings (effects r)); reflexivity.
Qed.

Lemma endings_normal l : endings l = Normal <-> Forall (fun f => exists s, f = Writes s) l.
Proof.
  induction l as [|f l IH]; cbn [endings]; [split; [constructor|reflexivity]|]. split.
  - destruct f; cbn [effect_ending and_then]; try discriminate. intros E. constructor; [eexists; reflexivity|]. apply IH, E.
  - intros F. inversion F as [|? ? [s ->] F']. subst. cbn [effect_ending and_then]. apply IH, F'.
Qed.

Lemma normal_lemma dbl streamed lib z st r : good_views r ->
  (exists out, handle dbl streamed lib z st r = Out out) <-> Forall (fun f => exists s, f = Writes s) (effects r).
Proof.
  intros G. rewrite <- endings_normal, <- (handle_ends dbl streamed lib z st r G).
  destruct (handle dbl streamed lib z st r); cbn [ends]; split; intros H; try discriminate; try (destruct H; discriminate); eauto.
Qed.

(** The text of what was written before an exception is the text of the record without what follows. *)
Lemma thrown_lemma dbl streamed lib z st r : good_views r ->
  (exists out, handle dbl streamed lib z st r = Thrown out) <->
  exists before after, effects r = before ++ Throws :: after /\ Forall (fun f => exists s, f = Writes s) before.
Proof.
  intros G. assert (E := handle_ends dbl streamed lib z st r G).
  transitivity (endings (effects r) = Exception).
  - rewrite <- E. destruct (handle dbl streamed lib z st r); cbn [ends]; split; intros H; try discriminate; try (destruct H; discriminate); eauto.
  - generalize (effects r) as l. clear. induction l as [|f l IH]; cbn [endings].
    + split; [discriminate|]. intros (b & a & X & _). destruct b; discriminate.
    + destruct f as [s| |]; cbn [effect_ending and_then].
      * rewrite IH. split.
        -- intros (b & a & -> & F). exists (Writes s :: b), a. split; [reflexivity|]. constructor; eauto.
        -- intros (b & a & X & F). destruct b as [|g b]; [discriminate|]. injection X as <- ->. inversion F. exists b, a. auto.
      * split; [|reflexivity]. intros _. exists [], l. split; [reflexivity|constructor].
      * split; [discriminate|]. intros (b & a & X & F). destruct b as [|g b]; [discriminate|]. injection X as <- ->. inversion F as [|? ? [s Q] ?]. discriminate.
Qed.
