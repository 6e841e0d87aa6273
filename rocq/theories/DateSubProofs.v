From Verif Require Import Base Decimal TimeModel TimeSpec TimeProofs FmtModel FmtSpec FmtProofs FmtSubProofs DateModel DateSpec DateProofs.
From Verif Require StrModel StrSpec StrProofs StrSubProofs.
Open Scope N_scope.

(** ---- the default pattern ---- *)

Definition day_before (a b : day) : Prop :=
  (d_year a < d_year b \/ d_year a = d_year b /\ (d_month a < d_month b \/ d_month a = d_month b /\ d_day a < d_day b))%Z.
Lemma day_before_trans a b c : day_before a b -> day_before b c -> day_before a c.
Proof. unfold day_before. lia. Qed.
Lemma next_day_later d : day_before d (next_day d).
Proof.
  unfold day_before, next_day. destruct (d_day d <? _)%Z; cbn; [lia|]. destruct (Z.ltb_spec (d_month d) 12); cbn; lia.
Qed.
Lemma civil_day_succ n : civil_day (N.succ n) = next_day (civil_day n).
Proof. unfold civil_day. apply N.iter_succ. Qed.
Lemma civil_day_later n m : n < m -> day_before (civil_day n) (civil_day m).
Proof.
  revert n. induction m as [|m IH] using N.peano_ind; intros n H; [lia|]. rewrite civil_day_succ.
  destruct (N.eq_dec n m) as [->|NE]; [apply next_day_later|].
  apply day_before_trans with (civil_day m); [apply IH; lia|apply next_day_later].
Qed.
Lemma civil_year n : n < 200000 -> (1970 <= d_year (civil_day n) <= 2517)%Z.
Proof.
  intros H. assert (E0 : d_year (civil_day 0) = 1970%Z) by reflexivity.
  assert (E1 : d_year (civil_day 200000) = 2517%Z) by (vm_compute; reflexivity).
  assert (A := civil_day_later n 200000 H). unfold day_before in A.
  destruct (N.eq_dec n 0) as [->|Z0]; [lia|]. assert (A0 := civil_day_later 0 n ltac:(lia)). unfold day_before in A0. lia.
Qed.

Lemma month_day n : let d := civil_day n in (1 <= d_month d <= 12 /\ 1 <= d_day d <= 31)%Z.
Proof.
  destruct (civil_day_valid_lemma n) as ((A & C) & _). cbv zeta. split; [exact A|].
  assert (days_in_month (d_year (civil_day n)) (d_month (civil_day n)) <= 31)%Z; [|lia].
  unfold days_in_month. repeat destruct (_ =? _)%Z; cbn; try destruct (leap_year _); lia.
Qed.

Lemma seconds_div ns : (0 <= ns)%Z -> seconds ns = (ns / 1000 / 1000000)%Z.
Proof. intros H. unfold seconds. rewrite Z.quot_div_nonneg by lia. rewrite Z.div_div by lia. reflexivity. Qed.
Lemma usec_mod ns : (0 <= ns)%Z -> usec_of ns = Z.to_N ((ns / 1000) mod 1000000).
Proof.
  intros H. unfold usec_of. rewrite Z.quot_div_nonneg by lia. assert (P : (0 <= ns / 1000)%Z) by (apply Z.div_pos; lia).
  rewrite Z.rem_mod_nonneg by lia. assert (M := Z.mod_pos_bound (ns / 1000) 1000000 ltac:(lia)).
  unfold u64. rewrite Z.mod_small by lia. reflexivity.
Qed.

Definition time_format : bytes := B "%Y-%m-%d %H:%M:%S.%f".
Lemma time_format_tokens : make_generator time_format = [TkLiteral (B "%Y-%m-%d %H:%M:%S."); TkUsec].
Proof. reflexivity. Qed.

Lemma clock_text lib t g z : expand lib (Clock t g z) None (B "%Y-%m-%d %H:%M:%S.") =
  Ok (sdec (tm_year t + 1900)%Z ++ "-"%char :: padded 2 (tm_mon t + 1)%Z ++ "-"%char :: padded 2 (tm_mday t) ++ " "%char ::
      padded 2 (tm_hour t) ++ ":"%char :: padded 2 (tm_min t) ++ ":"%char :: padded 2 (tm_sec t) ++ ["."%char]).
Proof. reflexivity. Qed.

Lemma stamp_lemma dbl lib z ns : (0 <= ns < 2 ^ 63)%Z -> string_stamp dbl lib z time_format true ns = Ok (stamp_text ns).
Proof.
  intros H. unfold string_stamp, string_clock, stamp_text. cbv zeta. rewrite time_format_tokens, seconds_div, usec_mod by lia.
  set (us := (ns / 1000)%Z). assert (US : (0 <= us < 10000000000000000)%Z).
  { unfold us. split; [apply Z.div_pos; lia|]. apply Z.div_lt_upper_bound; lia. }
  clearbody us. clear H ns. set (s := (us / 1000000)%Z). assert (SS : (0 <= s < 10000000000)%Z).
  { unfold s. split; [apply Z.div_pos; lia|]. apply Z.div_lt_upper_bound; lia. }
  assert (UM := Z.mod_pos_bound us 1000000 ltac:(lia)). clearbody s.
  assert (KK : (0 <= s / 86400 < 200000)%Z) by (split; [apply Z.div_pos; lia|apply Z.div_lt_upper_bound; lia]).
  rewrite (gmtime_civil_lemma s) by (unfold year_limit; lia).
  assert (Y := civil_year (Z.to_N (s / 86400)) ltac:(lia)). assert (MD := month_day (Z.to_N (s / 86400))). cbv zeta in MD.
  set (d := civil_day (Z.to_N (s / 86400))) in *. clearbody d.
  assert (M24 := Z.mod_pos_bound (s / 3600) 24 ltac:(lia)). assert (M60 := Z.mod_pos_bound (s / 60) 60 ltac:(lia)).
  assert (S60 := Z.mod_pos_bound s 60 ltac:(lia)).
  cbn [generate]. rewrite usec_text by lia. unfold strftime. rewrite c_string_id.
  2:{ intros J. cbn in J. repeat destruct J as [J|J]; try discriminate. contradiction. }
  rewrite clock_text. cbn [tm_year tm_mon tm_mday tm_hour tm_min tm_sec bind].
  replace (d_year d - 1900 + 1900)%Z with (d_year d) by lia. replace (d_month d - 1 + 1)%Z with (d_month d) by lia.
  rewrite year_fixed by lia. rewrite !padded_fixed by (try change (10 ^ Z.of_nat 2)%Z with 100%Z; lia).
  match goal with |- context [length_N ?l <? 1024] => assert (L : length_N l <? 1024 = true) end.
  { apply N.ltb_lt. unfold length_N. repeat (rewrite ?app_length, ?fixed_length; cbn [length]). lia. }
  rewrite L. cbn [bind]. rewrite app_nil_r. apply f_equal. cbn [B app list_ascii_of_string].
  repeat (rewrite <- app_assoc; cbn [app]). reflexivity.
Qed.

(** ---- order ---- *)

Lemma sorts_irrefl s : ~ sorts_before s s.
Proof. induction s as [|c s IH]; intros H; inversion H; subst; [lia|auto]. Qed.
Lemma sorts_asym s : forall t, sorts_before s t -> ~ sorts_before t s.
Proof.
  induction s as [|c s IH]; intros t H1 H2; inversion H1; subst; inversion H2; subst; try lia. eapply IH; eassumption.
Qed.
Lemma sorts_common a s t : sorts_before s t -> sorts_before (a ++ s) (a ++ t).
Proof. intros H. induction a as [|c a IH]; cbn; [exact H|apply sorts_later; exact IH]. Qed.
Lemma sorts_first a b s t : length a = length b -> sorts_before a b -> sorts_before (a ++ s) (b ++ t).
Proof.
  intros L H. revert s t L. induction H as [c t0|c d s0 t0 LT|c s0 t0 H IH]; intros s t L; cbn.
  - discriminate.
  - apply sorts_here. exact LT.
  - apply sorts_later. apply IH. cbn in L. lia.
Qed.
Lemma fixed_sorts k : forall n m, n < m -> m < 10 ^ N.of_nat k -> sorts_before (fixed k n) (fixed k m).
Proof.
  induction k as [|k IH]; intros n m H L; [change (10 ^ N.of_nat 0) with 1 in L; lia|].
  rewrite Nat2N.inj_succ, N.pow_succ_r' in L. cbn [fixed].
  assert (D := N.div_mod n 10 ltac:(lia)). assert (D' := N.div_mod m 10 ltac:(lia)).
  assert (R := N.mod_lt n 10 ltac:(lia)). assert (R' := N.mod_lt m 10 ltac:(lia)).
  destruct (N.lt_ge_cases (n / 10) (m / 10)) as [Q|Q].
  - apply sorts_first; [rewrite !fixed_length; reflexivity|]. apply IH; [exact Q|]. apply N.div_lt_upper_bound; lia.
  - assert (E : n / 10 = m / 10) by (apply N.le_antisymm; [apply N.div_le_mono; lia|exact Q]). rewrite E. apply sorts_common.
    assert (LT : n mod 10 < m mod 10) by (rewrite E in D; clear - D D' H; generalize dependent (n mod 10); generalize dependent (m mod 10); generalize dependent (m / 10); intros; lia). apply sorts_here. unfold digit.
    destruct (N.ltb_spec (n mod 10) 10); [|lia]. destruct (N.ltb_spec (m mod 10) 10); [|lia].
    unfold chr. rewrite !N_ascii_embedding by lia. lia.
Qed.

(** Fields with separators behind them. *)
Fixpoint flat (l : list (nat * bytes)) (ns : list N) : bytes :=
  match l, ns with (k, sep) :: l, n :: ns => fixed k n ++ sep ++ flat l ns | _, _ => [] end.
Fixpoint lower (a b : list N) : Prop :=
  match a, b with x :: a, y :: b => x < y \/ x = y /\ lower a b | _, _ => False end.
Lemma flat_sorts l : forall a b, length a = length l -> length b = length l ->
  Forall2 (fun p n => n < 10 ^ N.of_nat (fst p)) l b -> lower a b -> sorts_before (flat l a) (flat l b).
Proof.
  induction l as [|[k sep] l IH]; intros a b LA LB F H; destruct a as [|x a]; destruct b as [|y b]; try discriminate; [destruct H|].
  cbn [flat]. inversion F as [|? ? ? ? F1 F2]; subst. destruct H as [H|[-> H]].
  - apply sorts_first; [rewrite !fixed_length; reflexivity|]. apply fixed_sorts; assumption.
  - apply sorts_common, sorts_common. apply IH; cbn in LA, LB; try lia; assumption.
Qed.

Definition layout : list (nat * bytes) := [(4%nat, B "-"); (2%nat, B "-"); (2%nat, B " "); (2%nat, B ":"); (2%nat, B ":"); (2%nat, B "."); (6%nat, [])].
Definition values (us : Z) : list N :=
  let s := (us / 1000000)%Z in let d := civil_day (Z.to_N (s / 86400)) in
  map Z.to_N [d_year d; d_month d; d_day d; (s / 3600) mod 24; (s / 60) mod 60; s mod 60; us mod 1000000]%Z.
Lemma stamp_flat ns : stamp_text ns = flat layout (values (ns / 1000)).
Proof. unfold stamp_text, values, layout. cbn [map flat]. rewrite !app_nil_r. reflexivity. Qed.

Lemma clock_parts us : (0 <= us)%Z -> let s := (us / 1000000)%Z in
  us = (86400000000 * (s / 86400) + 3600000000 * ((s / 3600) mod 24) + 60000000 * ((s / 60) mod 60) + 1000000 * (s mod 60) + us mod 1000000)%Z
  /\ (0 <= s / 86400)%Z.
Proof.
  intros H s. assert (S0 : (0 <= s)%Z) by (apply Z.div_pos; lia). split; [|apply Z.div_pos; lia].
  assert (E := Z.div_mod us 1000000 ltac:(lia)). fold s in E.
  assert (E1 := Z.div_mod s 60 ltac:(lia)). assert (E2 := Z.div_mod (s / 60) 60 ltac:(lia)). rewrite Z.div_div in E2 by lia.
  assert (E3 := Z.div_mod (s / 3600) 24 ltac:(lia)). rewrite Z.div_div in E3 by lia.
  change (60 * 60)%Z with 3600%Z in E2. change (3600 * 24)%Z with 86400%Z in E3.
  clearbody s. lia.
Qed.

Lemma stamp_sorts n m : (0 <= n)%Z -> (m < 2 ^ 63)%Z -> (n / 1000 < m / 1000)%Z -> sorts_before (stamp_text n) (stamp_text m).
Proof.
  intros H0 H1 H. rewrite !stamp_flat.
  assert (US : (0 <= n / 1000 /\ m / 1000 < 10000000000000000)%Z) by (split; [apply Z.div_pos; lia|apply Z.div_lt_upper_bound; lia]).
  generalize dependent (m / 1000)%Z. generalize dependent (n / 1000)%Z. clear. intros u v LT [U0 V1].
  destruct (clock_parts u U0) as [EU KU]. destruct (clock_parts v ltac:(lia)) as [EV KV].
  assert (KK : (v / 1000000 / 86400 < 200000)%Z).
  { rewrite Z.div_div by lia. apply Z.div_lt_upper_bound; lia. }
  assert (YU := civil_year (Z.to_N (v / 1000000 / 86400)) ltac:(lia)). assert (MU := month_day (Z.to_N (v / 1000000 / 86400))). cbv zeta in MU.
  apply flat_sorts; [reflexivity|reflexivity| |].
  - unfold layout, values. cbn [map].
    assert (M1 := Z.mod_pos_bound (v / 1000000 / 3600) 24 ltac:(lia)). assert (M2 := Z.mod_pos_bound (v / 1000000 / 60) 60 ltac:(lia)).
    assert (M3 := Z.mod_pos_bound (v / 1000000) 60 ltac:(lia)). assert (M4 := Z.mod_pos_bound v 1000000 ltac:(lia)).
    repeat constructor; cbn [fst]; change (10 ^ N.of_nat 4) with 10000; change (10 ^ N.of_nat 2) with 100; change (10 ^ N.of_nat 6) with 1000000; lia.
  - assert (YV : (0 <= d_year (civil_day (Z.to_N (u / 1000000 / 86400))))%Z /\ (0 <= d_month (civil_day (Z.to_N (u / 1000000 / 86400))))%Z
                 /\ (0 <= d_day (civil_day (Z.to_N (u / 1000000 / 86400))))%Z).
    { assert (K : (u / 1000000 / 86400 <= v / 1000000 / 86400)%Z) by (rewrite !Z.div_div by lia; apply Z.div_le_mono; lia).
      assert (Y := civil_year (Z.to_N (u / 1000000 / 86400)) ltac:(lia)). assert (M := month_day (Z.to_N (u / 1000000 / 86400))). cbv zeta in M. lia. }
    unfold values. cbn [map lower]. cbv zeta in EU, EV.
    assert (A1 := Z.mod_pos_bound (v / 1000000 / 3600) 24 ltac:(lia)). assert (A2 := Z.mod_pos_bound (v / 1000000 / 60) 60 ltac:(lia)).
    assert (A3 := Z.mod_pos_bound (v / 1000000) 60 ltac:(lia)). assert (A4 := Z.mod_pos_bound v 1000000 ltac:(lia)).
    assert (B1 := Z.mod_pos_bound (u / 1000000 / 3600) 24 ltac:(lia)). assert (B2 := Z.mod_pos_bound (u / 1000000 / 60) 60 ltac:(lia)).
    assert (B3 := Z.mod_pos_bound (u / 1000000) 60 ltac:(lia)). assert (B4 := Z.mod_pos_bound u 1000000 ltac:(lia)).
    destruct (Z.lt_ge_cases (u / 1000000 / 86400) (v / 1000000 / 86400)) as [K|K].
    + assert (DB := civil_day_later (Z.to_N (u / 1000000 / 86400)) (Z.to_N (v / 1000000 / 86400)) ltac:(lia)). unfold day_before in DB.
      destruct DB as [DB|[DY [DB|[DM DB]]]]; [left| |].
      * clear - DB YV YU. lia.
      * right. rewrite DY. split; [reflexivity|]. left. clear - DB YV MU. lia.
      * right. rewrite DY. split; [reflexivity|]. right. rewrite DM. split; [reflexivity|]. left. clear - DB YV MU. lia.
    + assert (K' : (u / 1000000 / 86400 = v / 1000000 / 86400)%Z) by lia. rewrite <- K'. rewrite K' in EU.
      do 3 (right; split; [reflexivity|]). lia.
Qed.

Lemma order_lemma dbl lib z n m s t : (0 <= n < 2 ^ 63)%Z -> (0 <= m < 2 ^ 63)%Z ->
  string_stamp dbl lib z time_format true n = Ok s -> string_stamp dbl lib z time_format true m = Ok t ->
  (sorts_before s t <-> (n / 1000 < m / 1000)%Z) /\ (s = t <-> (n / 1000 = m / 1000)%Z).
Proof.
  intros Hn Hm ES ET. rewrite stamp_lemma in ES, ET by assumption. injection ES as <-. injection ET as <-.
  assert (E : (n / 1000 = m / 1000)%Z -> stamp_text n = stamp_text m) by (intros X; rewrite !stamp_flat, X; reflexivity).
  assert (A : (n / 1000 < m / 1000)%Z -> sorts_before (stamp_text n) (stamp_text m)) by (apply stamp_sorts; lia).
  assert (C : (m / 1000 < n / 1000)%Z -> sorts_before (stamp_text m) (stamp_text n)) by (apply stamp_sorts; lia).
  destruct (Z.lt_trichotomy (n / 1000) (m / 1000)) as [X|[X|X]].
  - split; [split; auto|]. split; [|lia]. intros Q. specialize (A X). rewrite Q in A. destruct (sorts_irrefl _ A).
  - specialize (E X). split; [split; [|lia]|split; auto]. rewrite E. intros Q. destruct (sorts_irrefl _ Q).
  - specialize (C X). split; [split; [|lia]|split; [|lia]].
    + intros Q. destruct (sorts_asym _ _ Q C).
    + intros Q. rewrite Q in C. destruct (sorts_irrefl _ C).
Qed.

(** ---- defined or not ---- *)

Lemma directive_defined lib c d : (c_gmtoff c <> None \/ last d NUL <> "z"%char) -> (c_zone c <> None \/ last d NUL <> "Z"%char) ->
  exists t, directive lib c d = Ok t.
Proof.
  intros HG HZ. unfold directive.
  repeat (match goal with |- context [if bytes_eqb ?a ?b then _ else _] => destruct (bytes_eqb a b); [eexists; reflexivity|] end).
  destruct (Ascii.eqb_spec (last d NUL) "z") as [E|E].
  - destruct HG as [HG|HG]; [|contradiction]. destruct (c_gmtoff c); [eexists; reflexivity|contradiction].
  - destruct (Ascii.eqb_spec (last d NUL) "Z") as [E'|E']; [|eexists; reflexivity].
    destruct HZ as [HZ|HZ]; [|contradiction]. destruct (c_zone c); [eexists; reflexivity|contradiction].
Qed.

Lemma expand_defined lib c s : (c_gmtoff c <> None \/ ~ In "z"%char s) -> (c_zone c <> None \/ ~ In "Z"%char s) ->
  forall open, exists t, expand lib c open s = Ok t.
Proof.
  induction s as [|x s IH]; intros HG HZ open; cbn [expand]; [eexists; reflexivity|].
  assert (HG' : c_gmtoff c <> None \/ ~ In "z"%char s) by (destruct HG as [HG|HG]; [left; exact HG|right; intros J; apply HG; right; exact J]).
  assert (HZ' : c_zone c <> None \/ ~ In "Z"%char s) by (destruct HZ as [HZ|HZ]; [left; exact HZ|right; intros J; apply HZ; right; exact J]).
  specialize (IH HG' HZ'). destruct open as [[st d]|].
  - destruct (advance st x) as [st'|]; [apply IH|].
    destruct (directive_defined lib c (d ++ [x])) as (t & ->).
    + rewrite last_last. destruct HG as [HG|HG]; [left; exact HG|right; intros ->; apply HG; left; reflexivity].
    + rewrite last_last. destruct HZ as [HZ|HZ]; [left; exact HZ|right; intros ->; apply HZ; left; reflexivity].
    + destruct (IH None) as (r & ->). eexists. reflexivity.
  - destruct (Ascii.eqb x "%"); [apply IH|]. destruct (IH None) as (r & ->). eexists. reflexivity.
Qed.

Lemma c_string_in x s : In x (c_string s) -> In x s.
Proof. induction s as [|y s IH]; cbn [c_string]; [auto|]. destruct (Ascii.eqb y NUL); [intros []|]. intros [->|J]; [left; reflexivity|right; auto]. Qed.

Definition token_bytes (t : token) : bytes := match t with TkLiteral s => s | _ => [] end.
Lemma split_bytes x p : forall lit t, In t (split lit p) -> In x (token_bytes t) -> In x lit \/ In x p.
Proof.
  assert (G : forall n p, (length p <= n)%nat -> forall lit t, In t (split lit p) -> In x (token_bytes t) -> In x lit \/ In x p).
  { intros n. induction n as [|n IH]; intros q L lit t J X; destruct q as [|c [|d q]]; cbn [length] in L; try lia.
    - cbn in J. destruct lit; [destruct J|]. destruct J as [<-|[]]. left. exact X.
    - cbn in J. destruct lit; [destruct J|]. destruct J as [<-|[]]. left. exact X.
    - cbn [split] in J. destruct (lit ++ [c]) as [|y l] eqn:E; [destruct lit; discriminate|]. destruct J as [<-|[]]. cbn [token_bytes] in X.
      rewrite <- E in X. apply in_app_or in X. destruct X as [X|X]; auto.
    - cbn [split] in J. destruct (Ascii.eqb c "%" && Ascii.eqb d "f").
      { destruct J as [<-|[<-|J]]; [left; exact X|destruct X|]. destruct (IH q ltac:(cbn in L; lia) [] t J X) as [[]|R]. right. right. right. exact R. }
      destruct (Ascii.eqb c "%" && Ascii.eqb d "s").
      { destruct J as [<-|[<-|J]]; [left; exact X|destruct X|]. destruct (IH q ltac:(cbn in L; lia) [] t J X) as [[]|R]. right. right. right. exact R. }
      destruct (IH (d :: q) ltac:(cbn; cbn in L; lia) (lit ++ [c]) t J X) as [R|R]; [|right; right; exact R].
      apply in_app_or in R. destruct R as [R|[->|[]]]; [left; exact R|right; left; reflexivity]. }
  intros lit t. apply (G (length p) p (le_n _)).
Qed.

Lemma generate_defined dbl lib usec ts : usec < 2 ^ 64 -> (forall c, - 2 ^ 63 <= fst (mktime lib c) < 2 ^ 63)%Z ->
  forall c, (c_gmtoff c <> None /\ c_zone c <> None /\ (forall c, c_gmtoff (snd (mktime lib c)) <> None /\ c_zone (snd (mktime lib c)) <> None)
    \/ (forall t, In t ts -> ~ In "z"%char (token_bytes t) /\ ~ In "Z"%char (token_bytes t))) ->
  exists out, generate dbl lib c usec ts = Ok out.
Proof.
  intros HU HM. induction ts as [|t ts IH]; intros c H; [eexists; reflexivity|].
  destruct t as [s| |]; cbn [generate].
  - unfold strftime. destruct (expand_defined lib c (c_string s)) with (open := @None (stage * bytes)) as (e & ->).
    + destruct H as [(G & _)|H]; [left; exact G|right; intros J; apply c_string_in in J; exact (proj1 (H (TkLiteral s) (or_introl eq_refl)) J)].
    + destruct H as [(_ & G & _)|H]; [left; exact G|right; intros J; apply c_string_in in J; exact (proj2 (H (TkLiteral s) (or_introl eq_refl)) J)].
    + cbn [bind]. destruct (IH c) as (r & ->); [|eexists; reflexivity].
      destruct H as [H|H]; [left; exact H|right; intros u J; apply H; right; exact J].
  - specialize (HM c). destruct (mktime lib c) as [t c'] eqn:MK. cbn [fst] in HM.
    destruct (epoch_text dbl t HM) as (w & -> & _). cbn [bind].
    destruct (IH c') as (r & ->); [|eexists; reflexivity].
    destruct H as [(G & Z1 & H)|H]; [left|right; intros u J; apply H; right; exact J].
    specialize (H c) as HC. rewrite MK in HC. cbn [snd] in HC. tauto.
  - destruct (usec_field dbl usec HU) as (i & ds & -> & _). cbn [bind].
    destruct (IH c) as (r & ->); [|eexists; reflexivity].
    destruct H as [H|H]; [left; exact H|right; intros u J; apply H; right; exact J].
Qed.

Lemma usec_range ns : usec_of ns < 2 ^ 64.
Proof. unfold usec_of, u64. assert (M := Z.mod_pos_bound (Z.rem (Z.quot ns 1000) 1000000) (2 ^ 64) ltac:(lia)). lia. Qed.

Lemma string_defined dbl lib z pattern ns : (forall c, - 2 ^ 63 <= fst (mktime lib c) < 2 ^ 63)%Z ->
  ~ In "z"%char pattern -> ~ In "Z"%char pattern -> exists out, string_stamp dbl lib z pattern true ns = Ok out.
Proof.
  intros HM HZ HZ'. apply generate_defined; [apply usec_range|exact HM|]. right. intros t J.
  split; intros X; destruct (split_bytes _ _ _ _ J X) as [[]|Q]; contradiction.
Qed.

Lemma others_defined dbl lib z pattern ns : (forall c, - 2 ^ 63 <= fst (mktime lib c) < 2 ^ 63)%Z -> mktime_sets lib ->
  (exists out, string_stamp dbl lib z pattern false ns = Ok out)
  /\ (exists out, tskv_stamp dbl lib z pattern true ns = Ok out) /\ (exists out, json_stamp dbl lib z pattern ns = Ok out).
Proof.
  intros HM HS. refine (conj _ (conj _ _)); (apply generate_defined; [apply usec_range|exact HM|]); left; refine (conj _ (conj _ HS)); discriminate.
Qed.

(** ---- the same text everywhere ---- *)

Lemma directive_blind lib t g g' z z' d : zone_blind lib -> last d NUL <> "z"%char -> last d NUL <> "Z"%char ->
  directive lib (Clock t g z) d = directive lib (Clock t g' z') d.
Proof.
  intros HB N1 N2. unfold directive. cbn [c_tm c_gmtoff c_zone].
  apply Ascii.eqb_neq in N1 as E1. apply Ascii.eqb_neq in N2 as E2. rewrite E1, E2. rewrite (HB t g g' z z' d N1 N2). reflexivity.
Qed.
Lemma expand_blind lib t g g' z z' s : zone_blind lib -> ~ In "z"%char s -> ~ In "Z"%char s ->
  forall open, expand lib (Clock t g z) open s = expand lib (Clock t g' z') open s.
Proof.
  intros HB. induction s as [|x s IH]; intros N1 N2 open; [reflexivity|].
  specialize (IH (fun J => N1 (or_intror J)) (fun J => N2 (or_intror J))). cbn [expand]. destruct open as [[st d]|].
  - destruct (advance st x); [apply IH|]. rewrite (directive_blind lib t g g' z z'); [|exact HB| |]; rewrite ?last_last.
    + rewrite IH. reflexivity.
    + intros ->. apply N1. left. reflexivity.
    + intros ->. apply N2. left. reflexivity.
  - destruct (Ascii.eqb x "%"); [apply IH|]. rewrite IH. reflexivity.
Qed.
Lemma generate_blind dbl lib t g g' z z' usec ts : zone_blind lib -> mktime_blind lib ->
  (forall u, In u ts -> ~ In "z"%char (token_bytes u) /\ ~ In "Z"%char (token_bytes u)) ->
  generate dbl lib (Clock t g z) usec ts = generate dbl lib (Clock t g' z') usec ts.
Proof.
  intros HB HM. induction ts as [|u ts IH]; intros H; [reflexivity|].
  specialize (IH (fun v J => H v (or_intror J))). destruct u as [s| |]; cbn [generate].
  - unfold strftime. destruct (H (TkLiteral s) (or_introl eq_refl)) as [N1 N2]. cbn [token_bytes] in N1, N2.
    rewrite (expand_blind lib t g g' z z') by (try exact HB; intros J; apply c_string_in in J; contradiction). rewrite IH. reflexivity.
  - rewrite (HM t g g' z z'). reflexivity.
  - rewrite IH. reflexivity.
Qed.
Lemma same_lemma dbl lib z pattern ns : zone_blind lib -> mktime_blind lib -> ~ In "z"%char pattern -> ~ In "Z"%char pattern ->
  z_gmtime_r z (seconds ns) = gmtime (seconds ns) ->
  tskv_stamp dbl lib z pattern true ns = string_stamp dbl lib z pattern true ns /\ json_stamp dbl lib z pattern ns = string_stamp dbl lib z pattern true ns.
Proof.
  intros HB HM N1 N2 G. unfold tskv_stamp, json_stamp, string_stamp, tskv_clock, string_clock. rewrite G.
  split; (apply generate_blind; [exact HB|exact HM|]); intros t J; split; intros X; destruct (split_bytes _ _ _ _ J X) as [[]|Q]; contradiction.
Qed.

(** ---- seconds since the epoch ---- *)

Lemma strftime_nil lib c : strftime lib c 1024 [] = Ok [].
Proof. reflexivity. Qed.
Lemma epoch_tokens dbl lib c usec t c' s : mktime lib c = (t, c') -> write dbl (B "{}") [ALong t] = Ok s ->
  generate dbl lib c usec [TkLiteral []; TkEpoch] = Ok (s ++ []).
Proof. intros M W. cbn [generate]. rewrite strftime_nil, M, W. reflexivity. Qed.
Lemma epoch_generator : make_generator (B "%s") = [TkLiteral []; TkEpoch].
Proof. reflexivity. Qed.
Lemma zone_seconds o lib t g z : in_zone o lib -> fst (mktime lib (Clock t g z)) = (posix_seconds (fields_of t) - o)%Z.
Proof. intros H. exact (H (Clock t g z)). Qed.
Lemma epoch_clock o lib t : in_zone o lib -> (0 <= t < year_limit)%Z -> fst (mktime lib (Clock (gmtime t) None None)) = (t - o)%Z.
Proof. intros H R. rewrite (zone_seconds o) by exact H. rewrite gmtime_posix_lemma by exact R. reflexivity. Qed.
Lemma epoch_lemma dbl lib z o ns : in_zone o lib -> (0 <= ns < 2 ^ 63)%Z -> (- 86400 <= o <= 86400)%Z ->
  exists out, string_stamp dbl lib z (B "%s") true ns = Ok out /\ StrSpec.decimal (ns / 1000000000 - o)%Z out.
Proof.
  intros HZ H HO. unfold string_stamp, string_clock. rewrite epoch_generator.
  assert (SN : seconds ns = (ns / 1000000000)%Z) by (apply Z.quot_div_nonneg; lia).
  assert (BD : (0 <= ns / 1000000000 < 9300000000)%Z) by (split; [apply Z.div_pos; lia|apply Z.div_lt_upper_bound; lia]).
  rewrite SN. assert (E := epoch_clock o lib (ns / 1000000000) HZ ltac:(unfold year_limit; lia)).
  remember (ns / 1000000000)%Z as t eqn:ET. clear ET SN. remember (gmtime t) as g eqn:EG. clear EG.
  destruct (mktime lib (Clock g None None)) as [u c'] eqn:MK. cbn [fst] in E. subst u.
  destruct (epoch_text dbl (t - o)%Z) as (s & W & D); [lia|].
  exists s. split; [|exact D]. rewrite (epoch_tokens dbl lib _ _ _ _ s MK W). rewrite app_nil_r. reflexivity.
Qed.

(** ---- through the string formatter ---- *)

Lemma formatted_lemma ld nd dbl double_of sevmap lib z r : (0 <= StrModel.r_nanoseconds r < 2 ^ 63)%Z ->
  (forall p utc out, string_stamp dbl lib z p utc (StrModel.r_nanoseconds r) = Ok out -> StrModel.r_stamp r p utc = out) ->
  StrSpec.formats ld nd dbl double_of sevmap (B "{timestamp}") r (stamp_text (StrModel.r_nanoseconds r)).
Proof.
  intros H HS. assert (E : StrModel.r_stamp r time_format true = stamp_text (StrModel.r_nanoseconds r)) by (apply HS; apply stamp_lemma; exact H).
  rewrite <- E. apply StrSubProofs.time_rows; [left; reflexivity|]. intros Q. exfalso. change StrSpec.time_format with time_format in Q. rewrite E in Q.
  rewrite stamp_flat in Q. apply (f_equal (@length ascii)) in Q. unfold layout, values in Q. cbn [map flat] in Q. rewrite app_length, fixed_length in Q. discriminate.
Qed.

(** ---- microseconds ---- *)

Lemma six_tokens dbl lib c usec s : write dbl (B "{:06d}") [AUlong usec] = Ok s -> generate dbl lib c usec [TkLiteral []; TkUsec] = Ok (s ++ []).
Proof. intros W. cbn [generate]. rewrite strftime_nil, W. reflexivity. Qed.
Lemma six_generator : make_generator (B "%f") = [TkLiteral []; TkUsec].
Proof. reflexivity. Qed.
Lemma six_lemma dbl lib c usec : usec < 1000000 ->
  exists out, generate dbl lib c usec (make_generator (B "%f")) = Ok out /\ length out = 6%nat /\ read_digits 10 0 out = Some usec.
Proof.
  intros H. exists (fixed 6 usec). split.
  - rewrite six_generator, (six_tokens dbl lib c usec (fixed 6 usec)) by (apply usec_text; exact H). rewrite app_nil_r. reflexivity.
  - split; [apply fixed_length|apply fixed_read; exact H].
Qed.
Lemma usec_range_lemma ns : (0 <= ns < 2 ^ 63)%Z -> usec_of ns = Z.to_N ((ns / 1000) mod 1000000) /\ usec_of ns < 1000000.
Proof. intros H. rewrite usec_mod by lia. split; [reflexivity|]. assert (M := Z.mod_pos_bound (ns / 1000) 1000000 ltac:(lia)). lia. Qed.
