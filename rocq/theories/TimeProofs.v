(** gmtime computes the civil calendar. *)
From Verif Require Import Base TimeModel TimeSpec.
From Coq Require Import ZifyBool.
Open Scope Z_scope.

(** The date part of the code without machine-word reductions. *)
Definition plain_day (days0 : Z) : day :=
  let days := days0 - 59 + 719527 in
  let year0 := ((days + 2) * 400) / 146097 in
  let yday0 := days - (365 * year0 + year0 / 4 - year0 / 100 + year0 / 400) in
  let leap := if leap_year year0 then 1 else 0 in
  let yday1 := if yday0 <? 0 then 365 + leap + yday0 else yday0 in
  let year1 := if yday0 <? 0 then year0 - 1 else year0 in
  let mon0 := (yday1 + 31) * 10 / 306 in
  let mday := yday1 - (367 * mon0 / 12 - 30) + 1 in
  if 306 <=? yday1 then Day (year1 + 1) (mon0 - 10) mday ((4 + days0) mod 7) (yday1 - 306)
  else Day year1 (mon0 + 2) mday ((4 + days0) mod 7) (yday1 + (59 + leap)).

(** ** March-based years

    Year [y] of the algorithm runs from March 1 of year [y] to the last day of February of [y + 1]. *)
Definition base (y : Z) : Z := 365 * y + y / 4 - y / 100 + y / 400.
Definition leapz (y : Z) : Z := if leap_year y then 1 else 0.

Lemma leap_div y : leapz y = y / 4 - (y - 1) / 4 - (y / 100 - (y - 1) / 100) + (y / 400 - (y - 1) / 400).
Proof.
  unfold leapz, leap_year.
  assert (D : forall m, 0 < m -> y / m - (y - 1) / m = if y mod m =? 0 then 1 else 0).
  { intros m Hm. pose proof (Z.div_mod y m ltac:(lia)). pose proof (Z.mod_pos_bound y m Hm).
    destruct (y mod m =? 0) eqn:E.
    - assert (Ey : y - 1 = (y / m - 1) * m + (m - 1)) by nia.
      assert ((y - 1) / m = y / m - 1) by (symmetry; apply (Z.div_unique_pos (y - 1) m (y / m - 1) (m - 1)); lia). lia.
    - assert ((y - 1) / m = y / m) by (symmetry; apply (Z.div_unique_pos (y - 1) m (y / m) (y mod m - 1)); lia). lia. }
  rewrite (D 4), (D 100), (D 400) by lia.
  assert (H100 : y mod 400 = 0 -> y mod 100 = 0).
  { intros H. apply Z.mod_divide in H; [|lia]. apply Z.mod_divide; [lia|]. destruct H as [q ->]. exists (4 * q). lia. }
  assert (H4 : y mod 100 = 0 -> y mod 4 = 0).
  { intros H. apply Z.mod_divide in H; [|lia]. apply Z.mod_divide; [lia|]. destruct H as [q ->]. exists (25 * q). lia. }
  destruct (y mod 4 =? 0) eqn:E4, (y mod 100 =? 0) eqn:E100, (y mod 400 =? 0) eqn:E400; cbn; lia.
Qed.

Lemma base_succ y : base (y + 1) = base y + 365 + leapz (y + 1).
Proof. rewrite leap_div. unfold base. replace (y + 1 - 1) with y by lia. lia. Qed.

Lemma base_bounds y : 146097 * y - 699 <= 400 * base y <= 146097 * y + 396.
Proof.
  unfold base.
  assert (D : forall m, 0 < m -> m * (y / m) <= y < m * (y / m) + m).
  { intros m Hm. pose proof (Z.div_mod y m ltac:(lia)). pose proof (Z.mod_pos_bound y m Hm). lia. }
  pose proof (D 4 ltac:(lia)). pose proof (D 100 ltac:(lia)). pose proof (D 400 ltac:(lia)). lia.
Qed.

(** Year and day-of-year as recovered by the code. *)
Definition march_split (days : Z) : Z * Z :=
  let year0 := ((days + 2) * 400) / 146097 in
  let yday0 := days - base year0 in
  if yday0 <? 0 then (year0 - 1, 365 + leapz year0 + yday0) else (year0, yday0).

Lemma march_year0 y yd : 0 <= yd < 365 + leapz (y + 1) ->
  ((base y + yd + 2) * 400) / 146097 = y \/ ((base y + yd + 2) * 400) / 146097 = y + 1.
Proof.
  intros H. pose proof (base_bounds y). assert (leapz (y + 1) <= 1) by (unfold leapz; destruct (leap_year _); lia).
  assert (y <= ((base y + yd + 2) * 400) / 146097) by (apply Z.div_le_lower_bound; lia).
  assert (((base y + yd + 2) * 400) / 146097 < y + 2) by (apply Z.div_lt_upper_bound; lia). lia.
Qed.

Lemma march_split_ok y yd : 0 <= yd < 365 + leapz (y + 1) -> march_split (base y + yd) = (y, yd).
Proof.
  intros H. unfold march_split. destruct (march_year0 y yd H) as [-> | ->].
  - replace (base y + yd - base y) with yd by lia. destruct (yd <? 0) eqn:E; [lia|reflexivity].
  - rewrite base_succ. destruct (base y + yd - (base y + 365 + leapz (y + 1)) <? 0) eqn:E; [|lia]. f_equal; lia.
Qed.

Lemma march_exists_nat n : forall y, 0 <= y ->
  exists y' yd, base y + Z.of_nat n = base y' + yd /\ 0 <= yd < 365 + leapz (y' + 1) /\ y <= y'.
Proof.
  induction n as [|n IH]; intros y Hy.
  - exists y, 0. assert (0 <= leapz (y + 1)) by (unfold leapz; destruct (leap_year _); lia). lia.
  - destruct (IH y Hy) as (y' & yd & E & Hyd & Hle).
    destruct (Z.eq_dec (yd + 1) (365 + leapz (y' + 1))) as [El|Nl].
    + exists (y' + 1), 0. rewrite base_succ. assert (0 <= leapz (y' + 1 + 1)) by (unfold leapz; destruct (leap_year _); lia). lia.
    + exists y', (yd + 1). lia.
Qed.

Lemma march_exists days : base 0 <= days ->
  exists y yd, days = base y + yd /\ 0 <= yd < 365 + leapz (y + 1) /\ 0 <= y.
Proof.
  intros H. destruct (march_exists_nat (Z.to_nat (days - base 0)) 0 ltac:(lia)) as (y & yd & E & Hyd & Hle).
  exists y, yd. rewrite Z2Nat.id in E by lia. lia.
Qed.

(** Month and day from the day of the March-based year. *)
Definition mon_of (yd : Z) : Z := (yd + 31) * 10 / 306.
Definition mday_of (yd : Z) : Z := yd - (367 * mon_of yd / 12 - 30) + 1.
Definition of_march (y yd w : Z) : day :=
  if 306 <=? yd then Day (y + 1) (mon_of yd - 10) (mday_of yd) w (yd - 306)
  else Day y (mon_of yd + 2) (mday_of yd) w (yd + (59 + leapz y)).

Lemma plain_day_march k y yd : k - 59 + 719527 = base y + yd -> 0 <= yd < 365 + leapz (y + 1) ->
  plain_day k = of_march y yd ((4 + k) mod 7).
Proof.
  intros E H. unfold plain_day. rewrite E. fold (leapz ((base y + yd + 2) * 400 / 146097)).
  pose proof (march_split_ok y yd H) as Hs. unfold march_split in Hs.
  destruct (march_year0 y yd H) as [Ey | Ey]; rewrite Ey in *.
  - fold (base y). replace (base y + yd - base y) with yd by lia. destruct (yd <? 0) eqn:E0; [lia|]. reflexivity.
  - fold (base (y + 1)). set (z := base y + yd - base (y + 1)) in *.
    destruct (z <? 0) eqn:E0; inversion Hs as [[E1 E2]]; [|lia].
    rewrite E2. unfold of_march. rewrite ?E1. replace (y + 1 - 1) with y by lia.
    assert (363 <= yd). { pose proof (base_bounds y). pose proof (base_bounds (y + 1)).
      assert (Hlow : (y + 1) * 146097 <= (base y + yd + 2) * 400).
      { rewrite <- Ey at 1. rewrite Z.mul_comm. apply Z.mul_div_le. lia. }
      assert (0 <= leapz (y + 1) <= 1) by (unfold leapz; destruct (leap_year _); lia).
      subst z. lia. }
    replace (y + 1 - 1) with y by lia.
    destruct (306 <=? yd) eqn:E6; [reflexivity|lia].
Qed.

(** Day-to-day check over one March-based year; [lp] tells whether its February has 29 days. *)
Definition month_len (lp : bool) (m : Z) : Z :=
  if m =? 2 then (if lp then 29 else 28)
  else if (m =? 4) || (m =? 6) || (m =? 9) || (m =? 11) then 30 else 31.

Definition cal (yd : Z) : Z * Z * Z :=   (* years after y, month, day *)
  if 306 <=? yd then (1, mon_of yd - 10, mday_of yd) else (0, mon_of yd + 2, mday_of yd).

Definition cal_next (lp : bool) (c : Z * Z * Z) : Z * Z * Z :=
  let '(o, m, d) := c in
  if d <? month_len lp m then (o, m, d + 1) else if m <? 12 then (o, m + 1, 1) else (o + 1, 1, 1).

Definition cal_eqb (a b : Z * Z * Z) : bool :=
  let '(x, y, z) := a in let '(x', y', z') := b in (x =? x') && (y =? y') && (z =? z').

Definition step_check (n : nat) : bool :=
  let yd := Z.of_nat n in
  cal_eqb (cal (yd + 1)) (cal_next true (cal yd)) && cal_eqb (cal (yd + 1)) (cal_next false (cal yd)).

Lemma step_checked : forallb step_check (seq 0 364) = true.
Proof. vm_compute. reflexivity. Qed.

(** In the calendar year where the March-based year starts the month is never February. *)
Definition feb_check (n : nat) : bool :=
  let '(o, m, d) := cal (Z.of_nat n) in negb (o =? 0) || negb (m =? 2).

Lemma feb_checked : forallb feb_check (seq 0 366) = true.
Proof. vm_compute. reflexivity. Qed.

Lemma cal_eqb_eq a b : cal_eqb a b = true -> a = b.
Proof. destruct a as [[x y] z], b as [[x' y'] z']. cbn. intros H. repeat (apply andb_true_iff in H as [H ?]). repeat f_equal; lia. Qed.

Lemma cal_step lp yd : 0 <= yd < 364 -> cal (yd + 1) = cal_next lp (cal yd).
Proof.
  intros H.
  assert (Hin : In (Z.to_nat yd) (seq 0 364)) by (apply in_seq; lia).
  pose proof (proj1 (forallb_forall _ _) step_checked _ Hin) as C. unfold step_check in C.
  rewrite Z2Nat.id in C by lia. apply andb_true_iff in C as [C1 C2].
  destruct lp; apply cal_eqb_eq; assumption.
Qed.

Lemma cal_vals : cal 364 = (1, 2, 28) /\ cal 365 = (1, 2, 29) /\ cal 0 = (0, 3, 1) /\ cal 305 = (0, 12, 31).
Proof. vm_compute. auto. Qed.

Lemma of_march_cal y yd w : let '(o, m, d) := cal yd in
  d_year (of_march y yd w) = y + o /\ d_month (of_march y yd w) = m /\ d_day (of_march y yd w) = d /\
  d_week (of_march y yd w) = w /\ d_yday (of_march y yd w) = (if 306 <=? yd then yd - 306 else yd + (59 + leapz y)).
Proof. unfold cal, of_march. destruct (306 <=? yd); cbn; repeat split; lia. Qed.

Lemma cal_feb yd : 0 <= yd <= 365 -> let '(o, m, d) := cal yd in (o = 0 \/ o = 1) /\ (m = 2 -> o = 1).
Proof.
  intros H.
  assert (Hin : In (Z.to_nat yd) (seq 0 366)) by (apply in_seq; lia).
  pose proof (proj1 (forallb_forall _ _) feb_checked _ Hin) as C. unfold feb_check in C.
  rewrite Z2Nat.id in C by lia.
  unfold cal in *. destruct (306 <=? yd); [lia|]. split; [lia|]. intros E. rewrite E in C. discriminate.
Qed.

Lemma days_in_month_len y m : days_in_month y m = month_len (leap_year y) m.
Proof. reflexivity. Qed.

Lemma next_day_cal lp d : (d_month d = 2 -> lp = leap_year (d_year d)) ->
  forall o m dd, cal_next lp (0, d_month d, d_day d) = (o, m, dd) ->
  d_year (next_day d) = d_year d + o /\ d_month (next_day d) = m /\ d_day (next_day d) = dd /\
  d_week (next_day d) = (d_week d + 1) mod 7 /\ d_yday (next_day d) = if o =? 0 then d_yday d + 1 else 0.
Proof.
  intros Hlp o m dd E. unfold cal_next in E. unfold next_day. rewrite days_in_month_len.
  assert (El : month_len (leap_year (d_year d)) (d_month d) = month_len lp (d_month d)).
  { unfold month_len. destruct (d_month d =? 2) eqn:E2; [|reflexivity]. rewrite Hlp by lia. reflexivity. }
  rewrite El. destruct (d_day d <? month_len lp (d_month d)); [inversion E; subst; cbn; repeat split; lia|].
  destruct (d_month d <? 12); inversion E; subst; cbn; repeat split; lia.
Qed.

Lemma cal_next_shift lp o m d : cal_next lp (o, m, d) = let '(o', m', d') := cal_next lp (0, m, d) in (o + o', m', d').
Proof. unfold cal_next. destruct (d <? month_len lp m); [f_equal; f_equal; lia|]. destruct (m <? 12); repeat f_equal; lia. Qed.

Lemma day_ext a b : d_year a = d_year b -> d_month a = d_month b -> d_day a = d_day b -> d_week a = d_week b ->
  d_yday a = d_yday b -> a = b.
Proof. destruct a, b; cbn; intros; subst; reflexivity. Qed.

(** Within a March-based year. *)
Lemma of_march_next y yd w : 0 <= yd -> yd + 1 < 365 + leapz (y + 1) ->
  of_march y (yd + 1) ((w + 1) mod 7) = next_day (of_march y yd w).
Proof.
  intros H0 H1. assert (Hl : 0 <= leapz (y + 1) <= 1) by (unfold leapz; destruct (leap_year _); lia).
  assert (Hstep : cal (yd + 1) = cal_next (leap_year (y + 1)) (cal yd)).
  { destruct (Z.eq_dec yd 364) as [->|Hne]; [|apply cal_step; lia].
    assert (El : leap_year (y + 1) = true) by (unfold leapz in H1; destruct (leap_year (y + 1)); [reflexivity|lia]).
    rewrite El. vm_compute. reflexivity. }
  pose proof (of_march_cal y yd w) as Ha. pose proof (of_march_cal y (yd + 1) ((w + 1) mod 7)) as Hb.
  pose proof (cal_feb yd ltac:(lia)) as Hf. rewrite Hstep in Hb.
  assert (Hoff : fst (fst (cal (yd + 1))) = if 305 <=? yd then 1 else 0).
  { unfold cal. destruct (306 <=? yd + 1) eqn:E1, (305 <=? yd) eqn:E2; cbn; lia. }
  assert (Hoff0 : fst (fst (cal yd)) = if 306 <=? yd then 1 else 0) by (unfold cal; destruct (306 <=? yd); reflexivity).
  rewrite Hstep in Hoff.
  destruct (cal yd) as [[o m] d] eqn:Ec. rewrite cal_next_shift in Hb, Hoff.
  destruct (cal_next (leap_year (y + 1)) (0, m, d)) as [[o' m'] d'] eqn:En. cbn [fst] in Hoff, Hoff0.
  destruct Ha as (A1 & A2 & A3 & A4 & A5). destruct Hb as (B1 & B2 & B3 & B4 & B5). destruct Hf as [Hf1 Hf2].
  rewrite <- A2, <- A3 in En.
  assert (Hlp : d_month (of_march y yd w) = 2 -> leap_year (y + 1) = leap_year (d_year (of_march y yd w))).
  { intros E. rewrite A1. rewrite (Hf2 ltac:(congruence)). reflexivity. }
  destruct (next_day_cal _ _ Hlp _ _ _ En) as (C1 & C2 & C3 & C4 & C5).
  apply day_ext; try congruence.
  - rewrite B1, C1, A1. lia.
  - rewrite B5, C5, A5.
    destruct (306 <=? yd + 1) eqn:E1, (306 <=? yd) eqn:E2, (305 <=? yd) eqn:E3, (o' =? 0) eqn:E4; lia.
Qed.

(** From the last day of February to March 1. *)
Lemma of_march_last y yd w : yd + 1 = 365 + leapz (y + 1) ->
  of_march (y + 1) 0 ((w + 1) mod 7) = next_day (of_march y yd w).
Proof.
  intros H. destruct cal_vals as (V1 & V2 & V3 & V4).
  pose proof (of_march_cal (y + 1) 0 ((w + 1) mod 7)) as Hb. rewrite V3 in Hb.
  pose proof (of_march_cal y yd w) as Ha.
  assert (Hf : forall d, d_year d = y + 1 -> d_month d = 2 -> d_day d = 28 + leapz (y + 1) -> d_week d = w ->
     d_yday d = 58 + leapz (y + 1) -> of_march (y + 1) 0 ((w + 1) mod 7) = next_day d).
  { intros d E1 E2 E3 E4 E5. destruct Hb as (B1 & B2 & B3 & B4 & B5).
    assert (En : cal_next (leap_year (y + 1)) (0, d_month d, d_day d) = (0, 3, 1)).
    { rewrite E2, E3. unfold cal_next, leapz. destruct (leap_year (y + 1)); reflexivity. }
    destruct (next_day_cal (leap_year (y + 1)) d ltac:(intros; congruence) _ _ _ En) as (C1 & C2 & C3 & C4 & C5).
    apply day_ext.
    - rewrite B1, C1, E1. lia.
    - congruence.
    - congruence.
    - rewrite B4, C4, E4. reflexivity.
    - rewrite B5, C5, E5. change (306 <=? 0) with false. change (0 =? 0) with true. cbv iota. lia. }
  unfold leapz in *. destruct (leap_year (y + 1)) eqn:El.
  - assert (yd = 365) by lia; subst yd. rewrite V2 in Ha. destruct Ha as (A1 & A2 & A3 & A4 & A5). apply Hf; auto.
  - assert (yd = 364) by lia; subst yd. rewrite V1 in Ha. destruct Ha as (A1 & A2 & A3 & A4 & A5). apply Hf; auto.
Qed.

Lemma plain_day_succ k : 0 <= k -> plain_day (k + 1) = next_day (plain_day k).
Proof.
  intros Hk. destruct (march_exists (k - 59 + 719527)) as (y & yd & E & Hyd & Hy); [assert (base 0 = 0) by reflexivity; lia|].
  rewrite (plain_day_march k y yd E Hyd).
  assert (Hw : (4 + (k + 1)) mod 7 = ((4 + k) mod 7 + 1) mod 7).
  { rewrite Zplus_mod_idemp_l. f_equal. lia. }
  destruct (Z.eq_dec (yd + 1) (365 + leapz (y + 1))) as [El|Nl].
  - rewrite <- of_march_last by exact El. rewrite (plain_day_march (k + 1) (y + 1) 0).
    + rewrite Hw. reflexivity.
    + rewrite base_succ. lia.
    + assert (0 <= leapz (y + 1 + 1)) by (unfold leapz; destruct (leap_year _); lia). lia.
  - rewrite <- of_march_next by lia. rewrite (plain_day_march (k + 1) y (yd + 1)); [rewrite Hw; reflexivity|lia|lia].
Qed.

Lemma plain_day_civil n : plain_day (Z.of_N n) = civil_day n.
Proof.
  induction n as [|n IH] using N.peano_ind; [vm_compute; reflexivity|].
  rewrite N2Z.inj_succ. unfold Z.succ. rewrite plain_day_succ by lia. rewrite IH.
  unfold civil_day. rewrite N.iter_succ. reflexivity.
Qed.

(** Range of the intermediate day-of-year. *)
Lemma yday_range days : 0 <= days ->
  let y := ((days + 2) * 400) / 146097 in
  let yd := days - (365 * y + y / 4 - y / 100 + y / 400) in
  -2 <= yd <= 366.
Proof.
  intros H y yd.
  assert (Hy : 146097 * y <= (days + 2) * 400 < 146097 * y + 146097).
  { subst y. pose proof (Z.div_mod ((days + 2) * 400) 146097 ltac:(lia)).
    pose proof (Z.mod_pos_bound ((days + 2) * 400) 146097 ltac:(lia)). lia. }
  assert (H4 : 4 * (y / 4) <= y < 4 * (y / 4) + 4) by
    (pose proof (Z.div_mod y 4 ltac:(lia)); pose proof (Z.mod_pos_bound y 4 ltac:(lia)); lia).
  assert (H100 : 100 * (y / 100) <= y < 100 * (y / 100) + 100) by
    (pose proof (Z.div_mod y 100 ltac:(lia)); pose proof (Z.mod_pos_bound y 100 ltac:(lia)); lia).
  assert (H400 : 400 * (y / 400) <= y < 400 * (y / 400) + 400) by
    (pose proof (Z.div_mod y 400 ltac:(lia)); pose proof (Z.mod_pos_bound y 400 ltac:(lia)); lia).
  subst yd. lia.
Qed.

Lemma u64_id x : 0 <= x < 2 ^ 64 -> u64 x = x.
Proof. intros H. unfold u64. apply Z.mod_small. exact H. Qed.

Lemma i32_id x : - 2 ^ 31 <= x < 2 ^ 31 -> i32 x = x.
Proof.
  intros H. unfold i32. cbv zeta.
  change (2 ^ 31) with 2147483648 in *. change (2 ^ 32) with 4294967296.
  destruct (Z_lt_le_dec x 0) as [Hn|Hp].
  - assert (Em : x + 4294967296 = x mod 4294967296)
      by (apply (Z.mod_unique x 4294967296 (-1) (x + 4294967296)); [left; lia|lia]).
    rewrite <- Em.
    destruct (x + 4294967296 <? 2147483648) eqn:E; lia.
  - rewrite Z.mod_small by lia. destruct (x <? 2147483648) eqn:E; lia.
Qed.

Lemma i32_mod x y : x mod 2 ^ 32 = y mod 2 ^ 32 -> i32 x = i32 y.
Proof. unfold i32. intros ->. reflexivity. Qed.

Lemma i32_u64 x : i32 (u64 x) = i32 x.
Proof.
  apply i32_mod. unfold u64. change (2 ^ 64) with (2 ^ 32 * 2 ^ 32).
  rewrite Z.rem_mul_r by lia. rewrite Z.mul_comm. rewrite Z.mod_add by lia. rewrite Z.mod_mod by lia. reflexivity.
Qed.

Lemma u64_add_l a b : u64 (u64 a + b) = u64 (a + b).
Proof. unfold u64. apply Zplus_mod_idemp_l. Qed.
Lemma u64_add_r a b : u64 (a + u64 b) = u64 (a + b).
Proof. unfold u64. apply Zplus_mod_idemp_r. Qed.
Lemma u64_sub_r a b : u64 (a - u64 b) = u64 (a - b).
Proof. unfold u64. apply Zminus_mod_idemp_r. Qed.
Lemma u64_sub_l a b : u64 (u64 a - b) = u64 (a - b).
Proof. unfold u64. apply Zminus_mod_idemp_l. Qed.


(** [gmtime] with every intermediate value named. *)
Lemma gmtime_steps t n0 days0 wday n1 n2 days year0 yday0 leap yday1 year1 mon0 mday year2 mon1 yday2 :
  n0 = u64 t -> days0 = n0 / 86400 -> wday = u64 (4 + days0) mod 7 -> n1 = n0 mod 86400 -> n2 = n1 mod 3600 ->
  days = u64 (u64 (days0 - (31 + 28)) + 719527) ->
  year0 = u64 (u64 (days + 2) * 400) / (365 * 400 + 100 - 4 + 1) ->
  yday0 = i32 (u64 (days - u64 (365 * year0 + year0 / 4 - year0 / 100 + year0 / 400))) ->
  leap = (if leap_year year0 then 1 else 0) ->
  yday1 = (if yday0 <? 0 then i32 (u64 (365 + leap + u64 yday0)) else yday0) ->
  year1 = (if yday0 <? 0 then u64 (year0 - 1) else year0) ->
  mon0 = u64 (Z.quot ((yday1 + 31) * 10) 306) ->
  mday = u64 (u64 yday1 - u64 (u64 (367 * mon0) / 12 - 30) + 1) ->
  (year2, mon1, yday2) = (if 306 <=? yday1 then (u64 (year1 + 1), u64 (mon0 - 10), yday1 - 306)
                          else (year1, u64 (mon0 + 2), yday1 + (31 + 28 + leap))) ->
  gmtime t = {| tm_sec := i32 (n2 mod 60); tm_min := i32 (n2 / 60); tm_hour := i32 (n1 / 3600); tm_mday := i32 mday;
     tm_mon := i32 (u64 (mon1 - 1)); tm_year := i32 (u64 (year2 - 1900)); tm_yday := yday2;
     tm_wday := i32 wday; tm_isdst := 0 |}.
Proof.
  intros E1 E2 E3 E4 E5 E6 E7 E8 E9 E10 E11 E12 E13 E14.
  unfold gmtime.
  rewrite <- E1; cbv beta zeta; rewrite <- E2, <- E4. rewrite <- E5, <- E3. rewrite <- E6. rewrite <- E7. rewrite <- E8.
  fold (leap_year year0). rewrite <- E9. rewrite <- E10, <- E11. rewrite <- E12. rewrite <- E13. rewrite <- E14. reflexivity.
Qed.

Lemma mon_of_range yd : 0 <= yd <= 366 ->
  1 <= mon_of yd <= 12 /\ (306 <= yd -> 11 <= mon_of yd) /\
  30 <= 367 * mon_of yd / 12 <= 367 /\ 367 * mon_of yd / 12 - 30 <= yd.
Proof.
  intros H.
  assert (C : forallb (fun n => let yd := Z.of_nat n in
     (1 <=? mon_of yd) && (mon_of yd <=? 12) && (negb (306 <=? yd) || (11 <=? mon_of yd)) &&
     (30 <=? 367 * mon_of yd / 12) && (367 * mon_of yd / 12 <=? 367) && (367 * mon_of yd / 12 - 30 <=? yd)) (seq 0 367) = true)
    by (vm_compute; reflexivity).
  pose proof (proj1 (forallb_forall _ _) C (Z.to_nat yd) ltac:(apply in_seq; lia)) as D. cbv beta zeta in D.
  rewrite Z2Nat.id in D by lia. clear C.
  set (m := mon_of yd) in *. set (g := 367 * m / 12) in *. clearbody m g. lia.
Qed.

Lemma pow31 : 2 ^ 31 = 2147483648. Proof. reflexivity. Qed.
Lemma pow64 : 2 ^ 64 = 18446744073709551616. Proof. reflexivity. Qed.

(** The code with every machine-word reduction removed, for a non-negative [time_t]. *)
Lemma gmtime_plain t : 0 <= t < 2 ^ 63 ->
  let d := plain_day (t / 86400) in
  gmtime t = {| tm_sec := t mod 86400 mod 3600 mod 60; tm_min := t mod 86400 mod 3600 / 60;
                tm_hour := t mod 86400 / 3600;
                tm_mday := d_day d; tm_mon := d_month d - 1; tm_year := i32 (d_year d - 1900);
                tm_wday := d_week d; tm_yday := d_yday d; tm_isdst := 0 |}.
Proof.
  intros Ht. cbv zeta.
  assert (E63 : 2 ^ 63 = 9223372036854775808) by reflexivity. rewrite E63 in Ht. clear E63.
  pose proof pow64 as E64. pose proof pow31 as E31.
  assert (Hk : 0 <= t / 86400 < 106751991167301)
    by (split; [apply Z.div_pos; lia | apply Z.div_lt_upper_bound; lia]).
  set (k := t / 86400) in *.
  destruct (march_exists (k - 59 + 719527)) as (y & yd & E & Hyd & Hy0); [assert (base 0 = 0) by reflexivity; lia|].
  rewrite (plain_day_march k y yd E Hyd).
  assert (Hlp : forall z, 0 <= leapz z <= 1) by (intros z; unfold leapz; destruct (leap_year z); lia).
  pose proof (base_bounds y) as Hb. pose proof (Hlp (y + 1)) as Hl.
  assert (Hy : 1 <= y < 300000000000) by lia.
  set (days := base y + yd) in *. set (year0 := (days + 2) * 400 / 146097).
  assert (Hyear : year0 = y \/ year0 = y + 1) by (apply march_year0; exact Hyd).
  pose proof (march_split_ok y yd Hyd) as Hs. unfold march_split in Hs. fold days in Hs. fold year0 in Hs.
  set (yday0 := days - base year0) in *.
  assert (Hyd0 : -400 <= yday0 <= 400).
  { subst yday0 days. destruct Hyear as [-> | ->]; [lia|rewrite base_succ; lia]. }
  assert (Hlow : yday0 < 0 -> 363 <= yd).
  { intros Hn. assert (Hq : year0 * 146097 <= (days + 2) * 400)
      by (subst year0; rewrite Z.mul_comm; apply Z.mul_div_le; lia).
    pose proof (base_bounds year0). pose proof (Hlp year0). 
    destruct (yday0 <? 0) eqn:E0; [|lia]. inversion Hs as [[Ea Eb]]. subst yday0. lia. }
  pose proof (mon_of_range yd ltac:(lia)) as (Hm1 & Hm2 & Hm3 & Hm4).
  assert (Hg : yd - (367 * mon_of yd / 12 - 30) + 1 <= 400) by lia.
  assert (Hn1 : 0 <= t mod 86400 < 86400) by (apply Z.mod_pos_bound; lia).
  assert (Hn2 : 0 <= t mod 86400 mod 3600 < 3600) by (apply Z.mod_pos_bound; lia).
  assert (Hsec : 0 <= t mod 86400 mod 3600 mod 60 < 60) by (apply Z.mod_pos_bound; lia).
  assert (Hmin : 0 <= t mod 86400 mod 3600 / 60 < 60)
    by (split; [apply Z.div_pos; lia|apply Z.div_lt_upper_bound; lia]).
  assert (Hh : 0 <= t mod 86400 / 3600 < 24)
    by (split; [apply Z.div_pos; lia|apply Z.div_lt_upper_bound; lia]).
  assert (Hw : 0 <= (4 + k) mod 7 < 7) by (apply Z.mod_pos_bound; lia).
  rewrite (gmtime_steps t t k ((4 + k) mod 7) (t mod 86400) (t mod 86400 mod 3600) days year0 yday0 (leapz year0) yd y
             (mon_of yd) (mday_of yd) (if 306 <=? yd then y + 1 else y)
             (if 306 <=? yd then mon_of yd - 10 else mon_of yd + 2)
             (if 306 <=? yd then yd - 306 else yd + (59 + leapz y))).
  - rewrite !i32_u64. rewrite (i32_id _) by (rewrite E31; lia). rewrite (i32_id (_ / 60)) by lia.
    rewrite (i32_id (_ / 3600)) by lia. rewrite (i32_id (_ mod 7)) by lia.
    rewrite (i32_id (mday_of yd)) by (unfold mday_of; lia).
    unfold of_march. destruct (306 <=? yd) eqn:E6; cbn [d_year d_month d_day d_week d_yday];
      rewrite (i32_id (_ - 1)) by lia; reflexivity.
  - symmetry. apply u64_id. lia.
  - reflexivity.
  - rewrite u64_id by lia. reflexivity.
  - reflexivity.
  - reflexivity.
  - rewrite u64_add_l. rewrite u64_id by lia. lia.
  - rewrite (u64_id (days + 2)) by (subst days; lia). rewrite u64_id by (subst days; lia). reflexivity.
  - rewrite u64_sub_r, i32_u64. rewrite i32_id by (fold (base year0); fold yday0; lia). reflexivity.
  - reflexivity.
  - rewrite u64_add_r, i32_u64. pose proof (Hlp year0). rewrite (i32_id (365 + _ + _)) by lia.
    destruct (yday0 <? 0); inversion Hs; reflexivity.
  - rewrite u64_id by lia. destruct (yday0 <? 0); inversion Hs; reflexivity.
  - rewrite Z.quot_div_nonneg by lia. fold (mon_of yd). symmetry. apply u64_id. lia.
  - rewrite (u64_id (367 * mon_of yd)) by lia. rewrite (u64_id yd) by lia.
    rewrite (u64_id (_ / 12 - 30)) by lia. rewrite u64_id by lia. reflexivity.
  - destruct (306 <=? yd) eqn:E6.
    + rewrite !u64_id by lia. reflexivity.
    + rewrite u64_id by lia. repeat f_equal.
      destruct (yday0 <? 0) eqn:E0; [lia|]. inversion Hs. reflexivity.
Qed.

Lemma base_mono a b : a <= b -> base a <= base b.
Proof.
  intros H. replace b with (a + Z.of_nat (Z.to_nat (b - a))) by lia. induction (Z.to_nat (b - a)) as [|n IH].
  - replace (a + Z.of_nat 0) with a by lia. lia.
  - replace (a + Z.of_nat (S n)) with (a + Z.of_nat n + 1) by lia. rewrite base_succ.
    assert (0 <= leapz (a + Z.of_nat n + 1)) by (unfold leapz; destruct (leap_year _); lia). lia.
Qed.

Lemma civil_plain k : 0 <= k -> civil_day (Z.to_N k) = plain_day k.
Proof. intros H. rewrite <- plain_day_civil. rewrite Z2N.id by lia. reflexivity. Qed.

Lemma plain_day_year k : 0 <= k < 784352270737 -> 1970 <= d_year (plain_day k) <= 2147485547.
Proof.
  intros Hk. destruct (march_exists (k - 59 + 719527)) as (y & yd & E & Hyd & Hy0); [assert (base 0 = 0) by reflexivity; lia|].
  rewrite (plain_day_march k y yd E Hyd).
  assert (Hb : base 2147485547 + 306 - 719468 = 784352270737) by (vm_compute; reflexivity).
  assert (Hb0 : base 1969 + 306 - 719468 = 0) by (vm_compute; reflexivity).
  assert (Hlp : forall z, 0 <= leapz z <= 1) by (intros z; unfold leapz; destruct (leap_year z); lia).
  pose proof (Hlp (y + 1)).
  assert (y <= 2147485547).
  { destruct (Z_le_gt_dec y 2147485547); [assumption|exfalso].
    pose proof (base_mono (2147485547 + 1) y ltac:(lia)) as Hm. rewrite base_succ in Hm.
    pose proof (Hlp (2147485547 + 1)). lia. }
  assert (1969 <= y).
  { destruct (Z_le_gt_dec 1969 y); [assumption|exfalso].
    pose proof (base_mono (y + 1) 1969 ltac:(lia)) as Hm. rewrite base_succ in Hm. lia. }
  unfold of_march. destruct (306 <=? yd) eqn:E6; cbn [d_year].
  - split; [lia|]. destruct (Z.eq_dec y 2147485547) as [->|]; lia.
  - split; [|lia]. destruct (Z.eq_dec y 1969) as [->|]; lia.
Qed.

Lemma time_of_day t : t mod 86400 mod 3600 mod 60 = t mod 60 /\ t mod 86400 mod 3600 / 60 = (t / 60) mod 60 /\
  t mod 86400 / 3600 = (t / 3600) mod 24.
Proof.
  replace 86400 with (3600 * 24) by reflexivity.
  rewrite (Z.rem_mul_r t 3600 24) by lia.
  assert (E : (t mod 3600 + 3600 * ((t / 3600) mod 24)) mod 3600 = t mod 3600).
  { rewrite Z.mul_comm, Z.mod_add by lia. apply Z.mod_mod. lia. }
  rewrite E. replace 3600 with (60 * 60) by reflexivity.
  rewrite (Z.rem_mul_r t 60 60) by lia.
  pose proof (Z.mod_pos_bound t 60 ltac:(lia)). pose proof (Z.mod_pos_bound (t / 60) 60 ltac:(lia)).
  pose proof (Z.mod_pos_bound (t / (60 * 60)) 24 ltac:(lia)).
  repeat split.
  - rewrite Z.mul_comm, Z.mod_add by lia. apply Z.mod_mod. lia.
  - symmetry. apply (Z.div_unique_pos _ 60 _ (t mod 60)); lia.
  - symmetry. apply (Z.div_unique_pos _ (60 * 60) _ (t mod 60 + 60 * ((t / 60) mod 60))); lia.
Qed.

(** [gmtime] below the limit. *)
Lemma gmtime_civil_lemma t : 0 <= t < year_limit ->
  let d := civil_day (Z.to_N (t / 86400)) in
  gmtime t = {| tm_sec := t mod 60; tm_min := (t / 60) mod 60; tm_hour := (t / 3600) mod 24;
                tm_mday := d_day d; tm_mon := d_month d - 1; tm_year := d_year d - 1900;
                tm_wday := d_week d; tm_yday := d_yday d; tm_isdst := 0 |}.
Proof.
  intros Ht. cbv zeta. unfold year_limit in Ht.
  assert (0 <= t / 86400 < 784352270737) by (split; [apply Z.div_pos; lia|apply Z.div_lt_upper_bound; lia]).
  rewrite civil_plain by lia.
  rewrite gmtime_plain by (change (2 ^ 63) with 9223372036854775808; lia). cbv zeta.
  destruct (time_of_day t) as (-> & -> & ->).
  pose proof (plain_day_year (t / 86400) ltac:(lia)).
  rewrite i32_id by (rewrite pow31; lia). reflexivity.
Qed.

(** Days from January 1 of year 1. *)
Definition serial (d : day) : Z :=
  365 * (d_year d - 1) + (d_year d - 1) / 4 - (d_year d - 1) / 100 + (d_year d - 1) / 400 + d_yday d.

Lemma serial_plain k : 0 <= k -> serial (plain_day k) = k + 719162.
Proof.
  intros Hk. destruct (march_exists (k - 59 + 719527)) as (y & yd & E & Hyd & Hy0); [assert (base 0 = 0) by reflexivity; lia|].
  rewrite (plain_day_march k y yd E Hyd). unfold of_march, serial.
  destruct (306 <=? yd) eqn:E6; cbn [d_year d_yday].
  - replace (y + 1 - 1) with y by lia. fold (base y). lia.
  - fold (base (y - 1)). pose proof (base_succ (y - 1)) as Hs. replace (y - 1 + 1) with y in Hs by lia. lia.
Qed.

Definition fields_of (x : tm) : fields :=
  {| f_sec := tm_sec x; f_min := tm_min x; f_hour := tm_hour x; f_yday := tm_yday x; f_year := tm_year x |}.

Lemma div_shift a c m : 0 < m -> (a + c * m) / m = a / m + c.
Proof. intros. apply Z.div_add. lia. Qed.

Lemma posix_serial x : posix_seconds (fields_of x) =
  tm_sec x + tm_min x * 60 + tm_hour x * 3600 + 86400 * (serial (Day (tm_year x + 1900) 0 0 0 (tm_yday x)) - 719162).
Proof.
  unfold posix_seconds, serial. cbn [fields_of f_sec f_min f_hour f_yday f_year d_year d_yday].
  set (y := tm_year x).
  replace (y + 1900 - 1) with (y - 69 + 492 * 4) at 2 by lia.
  replace (y + 1900 - 1) with (y - 1 + 19 * 100) at 2 by lia.
  replace (y + 1900 - 1) with (y + 299 + 4 * 400) at 2 by lia.
  rewrite !div_shift by lia. lia.
Qed.

Lemma gmtime_posix_lemma t : 0 <= t < year_limit -> posix_seconds (fields_of (gmtime t)) = t.
Proof.
  intros Ht. rewrite posix_serial. rewrite gmtime_civil_lemma by exact Ht. cbv zeta.
  cbn [tm_sec tm_min tm_hour tm_year tm_yday].
  assert (0 <= t / 86400) by (apply Z.div_pos; lia).
  rewrite civil_plain by lia. set (d := plain_day (t / 86400)).
  assert (Hs : serial (Day (d_year d - 1900 + 1900) 0 0 0 (d_yday d)) = serial d).
  { unfold serial. cbn [d_year d_yday]. replace (d_year d - 1900 + 1900) with (d_year d) by lia. reflexivity. }
  rewrite Hs. subst d. rewrite serial_plain by lia.
  destruct (time_of_day t) as (<- & <- & <-).
  pose proof (Z.div_mod t 86400 ltac:(lia)). pose proof (Z.div_mod (t mod 86400) 3600 ltac:(lia)).
  pose proof (Z.div_mod (t mod 86400 mod 3600) 60 ltac:(lia)). lia.
Qed.

Lemma gmtime_injective_lemma t u : 0 <= t < year_limit -> 0 <= u < year_limit -> gmtime t = gmtime u -> t = u.
Proof. intros Ht Hu E. rewrite <- (gmtime_posix_lemma t Ht), <- (gmtime_posix_lemma u Hu), E. reflexivity. Qed.

(** Every field is in the range the C library documents. *)
Lemma of_march_ranges y yd w : 0 <= yd < 365 + leapz (y + 1) ->
  1 <= d_month (of_march y yd w) <= 12 /\
  1 <= d_day (of_march y yd w) <= days_in_month (d_year (of_march y yd w)) (d_month (of_march y yd w)) /\
  0 <= d_yday (of_march y yd w) < 365 + leapz (d_year (of_march y yd w)).
Proof.
  intros H. assert (Hlp : forall z, 0 <= leapz z <= 1) by (intros z; unfold leapz; destruct (leap_year z); lia).
  assert (C : forallb (fun n => let '(o, m, d) := cal (Z.of_nat n) in
     (1 <=? m) && (m <=? 12) && (1 <=? d) && ((d <=? month_len false m) || ((Z.of_nat n =? 365) && (d =? 29) && (m =? 2)))) (seq 0 366) = true)
    by (vm_compute; reflexivity).
  pose proof (Hlp (y + 1)). pose proof (Hlp y).
  pose proof (proj1 (forallb_forall _ _) C (Z.to_nat yd) ltac:(apply in_seq; lia)) as D. cbv beta in D. clear C.
  rewrite Z2Nat.id in D by lia.
  pose proof (of_march_cal y yd w) as A. unfold cal in *. destruct (306 <=? yd) eqn:E6;
  destruct A as (A1 & A2 & A3 & A4 & A5); rewrite A1, A2, A3, A5, days_in_month_len.
  - set (m := mon_of yd - 10) in *. set (d := mday_of yd) in *. clearbody m d.
    repeat split; try lia.
    assert (Hml : month_len false m <= month_len (leap_year (y + 1)) m).
    { unfold month_len. destruct (m =? 2); [destruct (leap_year (y + 1)); lia|lia]. }
    destruct (Z.eq_dec yd 365) as [->|Hne]; [|lia].
    assert (El : leap_year (y + 1) = true) by (unfold leapz in H; destruct (leap_year (y + 1)); [reflexivity|lia]).
    rewrite El in *. destruct (m =? 2) eqn:E2; [unfold month_len in *; rewrite E2 in * | ]; lia.
  - set (m := mon_of yd + 2) in *. set (d := mday_of yd) in *. clearbody m d.
    replace (y + 0) with y by lia.
    assert (Hml : month_len false m <= month_len (leap_year y) m).
    { unfold month_len. destruct (m =? 2); [destruct (leap_year y); lia|lia]. }
    repeat split; lia.
Qed.

Lemma civil_day_valid_lemma n : let d := civil_day n in
  valid_day d /\ 0 <= d_yday d < 365 + (if leap_year (d_year d) then 1 else 0) /\ 0 <= d_week d < 7.
Proof.
  cbv zeta. rewrite <- (N2Z.id n). rewrite civil_plain by lia. set (k := Z.of_N n).
  destruct (march_exists (k - 59 + 719527)) as (y & yd & E & Hyd & Hy0); [assert (base 0 = 0) by reflexivity; lia|].
  rewrite (plain_day_march k y yd E Hyd).
  destruct (of_march_ranges y yd ((4 + k) mod 7) Hyd) as (H1 & H2 & H3).
  split; [split; assumption|]. split; [exact H3|].
  assert (Ew : d_week (of_march y yd ((4 + k) mod 7)) = (4 + k) mod 7) by (unfold of_march; destruct (306 <=? yd); reflexivity).
  rewrite Ew. apply Z.mod_pos_bound. lia.
Qed.

Lemma gmtime_year_overflow_lemma : exists t, 0 <= t < 2 ^ 63 /\
  tm_year (gmtime t) <> d_year (civil_day (Z.to_N (t / 86400))) - 1900.
Proof.
  exists year_limit. split; [unfold year_limit; change (2 ^ 63) with 9223372036854775808; lia|].
  rewrite civil_plain by (vm_compute; discriminate). vm_compute. discriminate.
Qed.

(** Negative times. *)
Lemma gmtime_sec t : tm_sec (gmtime t) = u64 t mod 60.
Proof.
  assert (E : tm_sec (gmtime t) = i32 (u64 t mod 86400 mod 3600 mod 60)).
  { unfold gmtime. cbv zeta. match goal with |- context [if ?b then (?x, ?y, ?z) else _] => destruct b end; reflexivity. }
  rewrite E. destruct (time_of_day (u64 t)) as (-> & _ & _).
  pose proof (Z.mod_pos_bound (u64 t) 60 ltac:(lia)). apply i32_id. rewrite pow31. lia.
Qed.

Lemma gmtime_negative_lemma t : - 2 ^ 63 <= t < 0 -> tm_sec (gmtime t) = (t + 16) mod 60.
Proof.
  intros H. rewrite gmtime_sec. unfold u64.
  assert (E : t mod 2 ^ 64 = t + 2 ^ 64).
  { symmetry. apply (Z.mod_unique t (2 ^ 64) (-1) (t + 2 ^ 64)); [left|]; change (2 ^ 63) with 9223372036854775808 in H; rewrite pow64; lia. }
  rewrite E, pow64. replace (t + 18446744073709551616) with (t + 16 + 307445734561825860 * 60) by lia.
  apply Z.mod_add. lia.
Qed.

Lemma gmtime_negative_wrong_lemma t : - 2 ^ 63 <= t < 0 -> tm_sec (gmtime t) <> t mod 60.
Proof.
  intros H E. rewrite gmtime_negative_lemma in E by exact H.
  pose proof (Z.div_mod t 60 ltac:(lia)). pose proof (Z.div_mod (t + 16) 60 ltac:(lia)). lia.
Qed.

Lemma localtime_offset_lemma g env t :
  posix_seconds (fields_of (g (t - timezone env))) = t - timezone env ->
  (posix_seconds (fields_of (l_tm (localtime g env t))) - tm_gmtoff (localtime g env t) = t <-> timezone env = 0).
Proof. intros H. cbn [localtime l_tm tm_gmtoff]. rewrite H. lia. Qed.

Lemma localtime_dst_lemma g env t :
  posix_seconds (fields_of (g (t - timezone env))) = t - timezone env ->
  (posix_seconds (fields_of (l_tm (localtime g env t))) = t - timezone env + dst env <-> dst env = 0).
Proof. intros H. cbn [localtime l_tm]. rewrite H. lia. Qed.
