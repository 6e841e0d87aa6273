From Verif Require Import Base Decimal FmtModel FmtSpec FmtProofs FmtSubProofs DateProofs MetaFormatModel MetaFormatProofs MembufModel MembufSpec MembufProofs
  SysErrModel SysErrSpec.
From Verif Require StrSpec AppleProofs.
Open Scope N_scope.

(** ---- appended texts ---- *)

Definition appends (l : list bytes) : list op := map (fun s => OAppend (Other s)) l.

Lemma appends_effects l : forall c c', effects (appends l) c c' -> c' = c ++ stored (concat l).
Proof.
  induction l as [|s l IH]; intros c c' E; cbn [appends map concat] in *.
  - inversion E. unfold stored. cbn [map]. rewrite app_nil_r. reflexivity.
  - inversion E as [|? ? ? d ? E1 E2]. subst. inversion E1; subst. apply IH in E2. rewrite E2. unfold stored. rewrite map_app, <- app_assoc. reflexivity.
Qed.
Lemma clear_effects l c c' : effects (OClear :: appends l) c c' -> c' = stored (concat l).
Proof. intros E. inversion E as [|? ? ? d ? E1 E2]. subst. inversion E1; subst. apply appends_effects in E2. exact E2. Qed.
Lemma appends_proper l : Forall (fun s => length_N s < 2 ^ 63) l -> Forall proper_op (appends l).
Proof. intros F. induction F; constructor; assumption. Qed.
Lemma appends_external l : Forall external (appends l).
Proof. induction l; constructor; [exact I|assumption]. Qed.
Lemma appends_peak l : forall n, peak (appends l) n <= n + length_N (concat l).
Proof.
  induction l as [|s l IH]; intros n; cbn [appends map peak concat needs leaves elements].
  - lia.
  - rewrite length_N_app. specialize (IH (n + length_N s)). unfold appends in IH. lia.
Qed.
Lemma stored_length s : length_N (stored s) = length_N s.
Proof. unfold length_N, stored. rewrite map_length. reflexivity. Qed.

(** ---- without a description ---- *)

Lemma error_length : length_N (B "error ") = 6. Proof. reflexivity. Qed.
Lemma sep_length : length_N (B ": ") = 2. Proof. reflexivity. Qed.

Lemma int_text z : (- 2 ^ 31 <= z < 2 ^ 31)%Z -> write_decimal W32 z = Ok (sdec z).
Proof.
  intros H. rewrite write_decimal_plain by (unfold int_range; cbn [bits_of]; lia). destruct z as [|p|p]; reflexivity.
Qed.
Lemma sdec_length z : length_N (sdec z) = (if (z <? 0)%Z then 1 else 0) + length_N (dec (Z.abs_N z)).
Proof. destruct z as [|p|p]; [reflexivity|reflexivity|]. unfold length_N. cbn [sdec length Z.abs_N]. change (Z.neg p <? 0)%Z with true. cbn iota. lia. Qed.
Lemma dec_ten n : 10 ^ 9 <= n -> n < 2 ^ 32 -> length_N (dec n) = 10.
Proof.
  intros H1 H2. assert (A := notation_length_ge 10 n 9 ltac:(lia) H1).
  assert (B := notation_length 10 n 10 ltac:(lia) ltac:(apply N.lt_le_trans with (1 := H2); vm_compute; discriminate) ltac:(lia)). unfold dec. lia.
Qed.
Lemma dec_le n k : 0 < k -> n < 10 ^ k -> length_N (dec n) <= k.
Proof. intros K H. exact (notation_length 10 n k ltac:(lia) H K). Qed.

Definition width (code : Z) : N := if (code <? 0)%Z then 10 else length_N (sdec code).

Lemma code_digits code : (- 10 ^ 9 < code < 2 ^ 31)%Z ->
  count_digits W32 (Z.to_N (code mod 2 ^ 32)) = Some (width code) /\ length_N (sdec code) <= width code /\ width code <= 10.
Proof.
  intros H. unfold width. assert (SL := sdec_length code). destruct (Z.ltb_spec code 0) as [L|L].
  - assert (M : (code mod 2 ^ 32 = code + 2 ^ 32)%Z) by (symmetry; apply Z.mod_unique_pos with (q := (-1)%Z); lia).
    rewrite M. split; [|split; [|lia]].
    + rewrite count_digits_ok by (cbn [bits_of]; lia). rewrite dec_ten by lia. reflexivity.
    + rewrite SL. assert (length_N (dec (Z.abs_N code)) <= 9) by (apply dec_le; lia). lia.
  - rewrite Z.mod_small by lia. rewrite count_digits_ok by (cbn [bits_of]; lia). rewrite sdec_dec by lia. split; [reflexivity|]. split; [lia|].
    apply dec_le; lia.
Qed.

Section Limit.
Variable limit : N.
Hypothesis HL : limit < 2 ^ 63.

Lemma inv_run_done (m : N) ops b c : mem_inv b -> contents b = Some c -> Forall proper_op ops -> Forall external ops ->
  peak ops (b_size b) <= m -> (m + m / 2 <= limit \/ m <= inline_size) -> exists b', run (grow limit) ops b = Done b'.
Proof.
  intros V C P X PK Q.
  apply (run_done (grow limit) mem_inv mem_base mem_update mem_size mem_array (mem_grow limit HL) m ops) with (c := c); try assumption.
  intros b1 n V1 L1 L2 b2. destruct Q as [Q|Q]; [apply (mem_no_throw limit HL b1 n m); assumption|].
  destruct V1 as (_ & _ & _ & _ & V1). lia.
Qed.

Lemma code_lemma out c code message : mem_inv out -> contents out = Some c -> (- 10 ^ 9 < code < 2 ^ 31)%Z -> length_N message < 2 ^ 63 ->
  exists b s, format_error_code limit out code message = Done b /\ mem_inv b /\ contents b = Some (stored s) /\ bare code message s /\ length_N s <= 500.
Proof.
  intros V C R LM. destruct (code_digits code R) as (CD & LW & W10). unfold format_error_code. rewrite CD. unfold put_int. rewrite int_text by lia.
  cbv zeta. change (3 + 7 - 2) with 8.
  assert (W : wrap64 (inline_size + two64 - (8 + width code)) = 492 - width code).
  { unfold wrap64, inline_size. replace (500 + two64 - (8 + width code)) with (492 - width code + 1 * two64) by (unfold two64; lia).
    rewrite N.mod_add by (unfold two64; lia). apply N.mod_small. unfold two64. lia. }
  rewrite W. set (l := (if length_N message <=? 492 - width code then [message; B ": "] else []) ++ [B "error "; sdec code]).
  assert (EO : OClear :: (if length_N message <=? 492 - width code then put_text message ++ put_text (B ": ") else []) ++ put_text (B "error ") ++ put_text (sdec code) = OClear :: appends l).
  { unfold l. destruct (length_N message <=? 492 - width code); reflexivity. }
  rewrite EO.
  assert (LS : length_N (concat l) <= 500).
  { unfold l. destruct (N.leb_spec (length_N message) (492 - width code)); cbn [app concat]; rewrite ?length_N_app, ?error_length, ?sep_length; change (length_N []) with 0; lia. }
  assert (P : Forall proper_op (OClear :: appends l)).
  { constructor; [exact I|]. apply appends_proper. unfold l. apply Forall_app. split.
    - destruct (length_N message <=? 492 - width code); constructor; [assumption|]. constructor; [rewrite sep_length; lia|constructor].
    - constructor; [rewrite error_length; lia|]. constructor; [lia|constructor]. }
  assert (X : Forall external (OClear :: appends l)) by (constructor; [exact I|apply appends_external]).
  assert (PK : peak (OClear :: appends l) (b_size out) <= 500).
  { cbn [peak needs leaves]. assert (A := appends_peak l 0). lia. }
  destruct (inv_run_done 500 _ out c V C P X PK) as [b RD]; [right; unfold inline_size; lia|].
  assert (M := mem_run limit HL _ out V c C P X). rewrite RD in *. destruct M as (VB & c' & EF & CB). apply clear_effects in EF. subst c'.
  destruct (contents_inv mem_inv mem_base b _ VB CB) as [_ LB]. rewrite stored_length in LB.
  cbn [next]. rewrite <- LB. unfold inline_size. rewrite (proj2 (N.leb_le _ _) LS). exists b, (concat l). split; [reflexivity|]. split; [exact VB|]. split; [exact CB|].
  split; [|exact LS]. exists (sdec code). split; [apply AppleProofs.decimal_sdec|]. fold (width code). unfold l.
  destruct (N.leb_spec (length_N message) (492 - width code)), (N.leb_spec (length_N message + 8 + width code) 500); try lia; cbn [app concat]; rewrite ?app_nil_r; reflexivity.
Qed.

(** ---- the loop ---- *)

Lemma resize_step b n : mem_inv b -> n < 2 ^ 64 ->
  match resize (grow limit) b n with
  | Done b' => mem_inv b' /\ b_size b' = n
  | Thrown b' => limit < n + n / 2
  | Bad => False
  end.
Proof.
  intros V Hn. assert (R := room (grow limit) mem_inv (mem_grow limit HL) b n (b_capacity b <? n) V Hn ltac:(apply N.ltb_lt)). unfold resize.
  destruct (if b_capacity b <? n then grow limit b n else Done b) as [b'|b'|] eqn:E; cbn [next].
  - destruct R as (V' & _ & _ & R & _). split; [apply mem_size; assumption|reflexivity].
  - destruct (N.ltb_spec (b_capacity b) n) as [L|L]; [|discriminate].
    destruct (N.ltb_spec limit (n + n / 2)) as [Q|Q]; [exact Q|exfalso]. apply (mem_no_throw limit HL b n n V L ltac:(lia) Q b' E).
  - exact R.
Qed.

Lemma attempts_any env : forall fuel k scratch, mem_inv scratch -> b_size scratch = 500 * 2 ^ k -> N.of_nat fuel + k = 64 ->
  match attempts fuel limit env scratch with
  | Text s => exists size, 0 < size /\ safe_strerror env size = (0%Z, s)
  | NoText => True
  | _ => False
  end.
Proof.
  induction fuel as [|fuel IH]; intros k scratch V SZ FK; cbn [attempts].
  - exfalso. replace k with 64 in SZ by lia. destruct V as (_ & V1 & V2 & _). lia.
  - destruct (safe_strerror env (b_size scratch)) as [r s] eqn:E. destruct (Z.eqb_spec r 0) as [->|R0].
    + exists (b_size scratch). split; [|exact E]. assert (0 < 2 ^ k) by (apply N.neq_0_lt_0, N.pow_nonzero; lia). lia.
    + destruct (negb (r =? ERANGE)%Z); [exact I|].
      assert (V2 := V). destruct V2 as (_ & V1 & V2 & _).
      assert (W : wrap64 (b_size scratch * 2) = b_size scratch * 2) by (unfold wrap64, two64; apply N.mod_small; lia). rewrite W.
      assert (R := resize_step scratch (b_size scratch * 2) V ltac:(lia)). destruct (resize (grow limit) scratch (b_size scratch * 2)) as [b'|b'|].
      * destruct R as [V' S']. apply (IH (k + 1) b' V'); [|lia]. rewrite S', SZ, N.add_1_r, N.pow_succ_r'. lia.
      * exact I.
      * exact R.
Qed.

Lemma answer_ok text env size : (gnu text env \/ xsi text env) -> 0 < size ->
  safe_strerror env size = (0%Z, text) \/ (exists s, safe_strerror env size = (ERANGE, s) /\ size <= length_N text + 1).
Proof.
  intros [G|X] H; unfold safe_strerror.
  - destruct (G size H) as [-> | ->]; [left; reflexivity|].
    destruct (N.leb_spec (size - 1) (length_N text)) as [L|L].
    + right. rewrite len_firstn by exact L. rewrite N.eqb_refl. eexists. split; [reflexivity|lia].
    + left. rewrite firstn_all2 by (unfold length_N in L; lia). destruct (N.eqb_spec (length_N text) (size - 1)); [lia|reflexivity].
  - specialize (X size H). destruct (N.ltb_spec (length_N text) size) as [L|L].
    + destruct X as [e ->]. left. reflexivity.
    + destruct X as (e & s & [-> | ->]); right; exists s; (split; [reflexivity|lia]).
Qed.

Lemma attempts_text text env : (gnu text env \/ xsi text env) -> 3 * (length_N text + 1) <= limit ->
  forall fuel k scratch, mem_inv scratch -> b_size scratch = 500 * 2 ^ k -> N.of_nat fuel + k = 64 -> attempts fuel limit env scratch = Text text.
Proof.
  intros HE HM. induction fuel as [|fuel IH]; intros k scratch V SZ FK; cbn [attempts].
  - exfalso. replace k with 64 in SZ by lia. destruct V as (_ & V1 & V2 & _). lia.
  - assert (P : 0 < b_size scratch) by (assert (0 < 2 ^ k) by (apply N.neq_0_lt_0, N.pow_nonzero; lia); lia).
    destruct (answer_ok text env (b_size scratch) HE P) as [-> | (s & -> & L)]; [reflexivity|]. cbn [Z.eqb ERANGE]. cbn [negb Z.eqb Pos.eqb].
    assert (V2 := V). destruct V2 as (_ & V1 & V2 & _).
    assert (W : wrap64 (b_size scratch * 2) = b_size scratch * 2) by (unfold wrap64, two64; apply N.mod_small; lia). rewrite W.
    assert (R := resize_step scratch (b_size scratch * 2) V ltac:(lia)).
    assert (HD : b_size scratch * 2 / 2 = b_size scratch) by (apply N.div_mul; lia).
    destruct (resize (grow limit) scratch (b_size scratch * 2)) as [b'|b'|].
    + destruct R as [V' S']. apply (IH (k + 1) b' V'); [|lia]. rewrite S', SZ, N.add_1_r, N.pow_succ_r'. lia.
    + rewrite HD in R. lia.
    + contradiction.
Qed.

Lemma scratch_ok : exists scratch, resize (grow limit) fresh inline_size = Done scratch /\ mem_inv scratch /\ b_size scratch = 500 * 2 ^ 0.
Proof.
  eexists. split; [reflexivity|]. split; [apply mem_size; [apply fresh_inv|reflexivity]|reflexivity].
Qed.

Lemma describe_lemma text env code message : (gnu text env \/ xsi text env) -> 3 * (length_N message + length_N text + 500) <= limit ->
  exists b, format_system_error limit env fresh code message = Some (Done b) /\ contents b = Some (stored (message ++ B ": " ++ text)).
Proof.
  intros HE HM. unfold format_system_error. destruct scratch_ok as (sc & -> & V & SZ).
  rewrite (attempts_text text env HE ltac:(lia) 64 0 sc V SZ ltac:(lia)).
  change (put_text message ++ put_text (B ": ") ++ put_text text) with (appends [message; B ": "; text]).
  assert (P : Forall proper_op (appends [message; B ": "; text])).
  { apply appends_proper. repeat constructor; lia. }
  assert (X := appends_external [message; B ": "; text]).
  assert (PK := appends_peak [message; B ": "; text] 0). cbn [concat] in PK. rewrite !length_N_app, sep_length in PK. change (length_N []) with 0 in PK.
  assert (Q : peak (appends [message; B ": "; text]) 0 + peak (appends [message; B ": "; text]) 0 / 2 <= limit).
  { set (p := peak _ _) in *. assert (p / 2 <= p) by (apply N.div_le_upper_bound; lia). lia. }
  destruct (done_lemma limit HL _ P X Q) as [b RD]. rewrite RD. exists b. split; [reflexivity|].
  assert (M := mem_run limit HL _ fresh fresh_inv [] fresh_contents P X). rewrite RD in M. destruct M as (_ & c & EF & C).
  apply appends_effects in EF. subst c. rewrite C. cbn [concat app]. rewrite app_nil_r. reflexivity.
Qed.

Lemma any_lemma env code message : (- 10 ^ 9 < code < 2 ^ 31)%Z -> length_N message < 2 ^ 63 ->
  (forall size s, safe_strerror env size = (0%Z, s) -> length_N s < 2 ^ 63) ->
  exists b out, format_system_error limit env fresh code message = Some (Done b) /\ contents b = Some (stored out)
    /\ ((exists size s, 0 < size /\ safe_strerror env size = (0%Z, s) /\ out = message ++ B ": " ++ s) \/ bare code message out).
Proof.
  intros R LM LA. unfold format_system_error. destruct scratch_ok as (sc & -> & V & SZ).
  assert (A := attempts_any env 64 0 sc V SZ ltac:(lia)). destruct (attempts 64 limit env sc) as [s| | |]; try contradiction.
  - destruct A as (size & HS & A).
    change (put_text message ++ put_text (B ": ") ++ put_text s) with (appends [message; B ": "; s]).
    assert (P : Forall proper_op (appends [message; B ": "; s])).
    { apply appends_proper. constructor; [exact LM|]. constructor; [rewrite sep_length; lia|]. constructor; [exact (LA size s A)|constructor]. }
    assert (X := appends_external [message; B ": "; s]).
    assert (M := mem_run limit HL _ fresh fresh_inv [] fresh_contents P X).
    destruct (run (grow limit) (appends [message; B ": "; s]) fresh) as [b|b|]; [| |contradiction].
    + destruct M as (_ & c & EF & C). apply appends_effects in EF. subst c. exists b, (message ++ B ": " ++ s). split; [reflexivity|].
      split; [rewrite C; cbn [concat app]; rewrite app_nil_r; reflexivity|]. left. exists size, s. tauto.
    + destruct M as (VB & done & o & rest & c & _ & _ & C & _). destruct (code_lemma b c code message VB C R LM) as (b' & out & E & _ & CB & BR & _).
      exists b', out. rewrite E. split; [reflexivity|]. split; [exact CB|right; exact BR].
  - destruct (code_lemma fresh [] code message fresh_inv fresh_contents R LM) as (b' & out & E & _ & CB & BR & _).
    exists b', out. rewrite E. split; [reflexivity|]. split; [exact CB|right; exact BR].
Qed.

Lemma report_lemma text env code message : (gnu text env \/ xsi text env) -> 3 * (length_N message + length_N text + 500) <= limit ->
  report_system_error limit env code message = Some (stored (message ++ B ": " ++ text ++ [NL])).
Proof.
  intros HE HM. destruct (describe_lemma text env code message HE HM) as (b & E & C). unfold report_system_error. rewrite E, C. unfold stored. rewrite !map_app. cbn [map].
  rewrite <- !app_assoc. reflexivity.
Qed.

Lemma code_reach ops out code message : Forall proper_op ops -> Forall external ops -> run (grow limit) ops fresh = Done out ->
  (- 10 ^ 9 < code < 2 ^ 31)%Z -> length_N message < 2 ^ 63 ->
  exists b s, format_error_code limit out code message = Done b /\ contents b = Some (stored s) /\ bare code message s /\ length_N s <= 500.
Proof.
  intros P X R RC LM. assert (M := mem_run limit HL ops fresh fresh_inv [] fresh_contents P X). rewrite R in M. destruct M as (V & c & _ & C).
  destruct (code_lemma out c code message V C RC LM) as (b & s & A1 & _ & A2 & A3 & A4). exists b, s. tauto.
Qed.
End Limit.
