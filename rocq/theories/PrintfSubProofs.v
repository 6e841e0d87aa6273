(** Proofs about the printf functions: what conversions print. *)
From Verif Require Import Base Decimal FmtModel FmtSpec FmtProofs FmtSubProofs PrintfModel PrintfSpec PrintfProofs.
Open Scope N_scope.

(** ---- the arguments ---- *)

(** How the library takes a dot alone: no precision. *)
Definition read_precision (c : conversion) (w : wanted) : option N :=
  match c_precision c with Some NoAmount => None | _ => precise w end.
Definition base_spec (c : conversion) (w : wanted) : spec :=
  Spec (wide w) (if flag "0" c then "0"%char else " "%char) (if left_side w then ALeft else ARight)
       (flag "+" c || flag " " c) (flag "+" c) false (flag "#" c) (read_precision c w) NUL.

Lemma number_value a : match number_of a with Some z => exists bits, int_value a = Some (z, bits) /\ (bits = 32 \/ bits = 64) | None => int_value a = None end.
Proof. destruct a as [z|n|z|n|[]|z|bits|p|p size]; cbn [number_of int_value]; try reflexivity; eexists; split; try reflexivity; auto. Qed.

Lemma an_int_range z : an_int z = true -> (- 2 ^ 31 < z < 2 ^ 31)%Z.
Proof. unfold an_int. intros H. apply andb_true_iff in H. destruct H as [A C]. apply Z.ltb_lt in A, C. lia. Qed.

Lemma width_of_ok sp a z : number_of a = Some z -> an_int z = true ->
  width_of sp a = Ok (with_width (if (z <? 0)%Z then with_align sp ALeft else sp) (Z.abs_N z)).
Proof.
  intros N0 R. apply an_int_range in R. assert (V := number_value a). rewrite N0 in V. destruct V as (bits & V & BB). unfold width_of. rewrite V. cbv zeta.
  assert (E : Z.to_N (if (z <? 0)%Z then (- z) mod 2 ^ Z.of_N bits else z) = Z.abs_N z).
  { destruct (Z.ltb_spec z 0); [|lia]. rewrite Z.mod_small; [lia|]. destruct BB as [-> | ->]; [change (Z.of_N 32) with 32%Z|change (Z.of_N 64) with 64%Z]; lia. }
  rewrite E. destruct (N.ltb_spec INT_MAX (Z.abs_N z)) as [H|_]; [unfold INT_MAX in H; lia|reflexivity].
Qed.

Lemma precision_of_ok sp a z : number_of a = Some z -> an_int z = true ->
  precision_of sp a = Ok (with_precision sp (if (z <? 0)%Z then None else Some (Z.to_N z))).
Proof.
  intros N0 R. apply an_int_range in R. assert (V := number_value a). rewrite N0 in V. destruct V as (bits & V & BB). unfold precision_of. rewrite V.
  destruct (Z.leb_spec (- 2 ^ 31) z); [|lia]. destruct (Z.leb_spec z (2 ^ 31 - 1)); [|lia]. reflexivity.
Qed.

Lemma get_arg_at args i a rest : skipn (N.to_nat i) args = a :: rest -> get_arg args (Some i) (B "*") None = Ok (a, Some (i + 1)).
Proof. intros H. unfold get_arg, do_get_arg. destruct (skipn_nth args i a rest H) as [-> _]. reflexivity. Qed.
Lemma skipn_next {A} (l : list A) i a rest : skipn (N.to_nat i) l = a :: rest -> skipn (N.to_nat (i + 1)) l = rest.
Proof.
  intros H. rewrite N2Nat.inj_add. change (N.to_nat 1) with 1%nat. rewrite Nat.add_comm, <- skipn_twice, H. reflexivity.
Qed.

Lemma conv_args_wants c args w : c_position c = None -> wants c args = Some w ->
  exists ix, conv_args args (Some 0) c =
    (let (a2, type) := normalize (lengthen (c_length c) (c_letter c) (subject w)) (c_letter c) in
     Ok (with_type (adjust (base_spec c w) (subject w)) type, a2, ix)).
Proof.
  intros P W. unfold conv_args. rewrite P. cbn [option_map]. unfold wants in W.
  destruct (take_width c args) as [[[l wd] args1]|] eqn:TW; [|discriminate].
  destruct (take_precision c args1) as [[p [|a [|? ?]]]|] eqn:TP; try discriminate. injection W as <-. cbn [subject].
  assert (A : exists i, width_step args (Some 0) (flagged first_spec (c_flags c)) (c_width c) =
      Ok (Spec wd (if flag "0" c then "0"%char else " "%char) (if l then ALeft else ARight) (flag "+" c || flag " " c) (flag "+" c) false (flag "#" c) None NUL, Some i)
      /\ skipn (N.to_nat i) args = args1).
  { unfold take_width in TW. unfold width_step. destruct (c_width c) as [|n ds|].
    - injection TW as <- <- <-. exists 0. split; [|reflexivity]. unfold flagged, flag, has. cbn. rewrite !orb_false_r. reflexivity.
    - injection TW as <- <- <-. exists 0. split; [|reflexivity]. unfold flagged, flag, has. cbn. rewrite !orb_false_r. reflexivity.
    - destruct args as [|b args']; [discriminate|]. destruct (number_of b) as [z|] eqn:Z; [|discriminate]. destruct (an_int z) eqn:AZ; [|discriminate].
      injection TW as <- <- <-. exists 1. split; [|reflexivity]. rewrite (get_arg_at _ 0 b args' eq_refl). cbn [bind fst snd].
      rewrite (width_of_ok _ b z Z AZ). cbn [bind]. change (0 + 1) with 1. unfold flagged, flag, has. f_equal. f_equal. cbn.
      destruct (z <? 0)%Z; cbn; rewrite ?orb_false_r, ?orb_true_r; reflexivity. }
  destruct A as (i & -> & SK). cbn [bind fst snd].
  set (sp1 := Spec wd _ _ _ _ _ _ _ _).
  assert (A : exists j, precision_step args (Some i) sp1 (c_precision c) = Ok (base_spec c (Wanted l wd p a), Some j) /\ skipn (N.to_nat j) args = [a]).
  { unfold take_precision in TP. unfold precision_step, base_spec, read_precision. destruct (c_precision c) as [[|n ds|]|].
    - injection TP as <- ->. exists i. split; [reflexivity|exact SK].
    - injection TP as <- ->. exists i. split; [reflexivity|exact SK].
    - destruct args1 as [|b args']; [discriminate|]. destruct (number_of b) as [z|] eqn:Z; [|discriminate]. destruct (an_int z) eqn:AZ; [|discriminate].
      injection TP as <- ->. exists (i + 1). split; [|exact (skipn_next args i b _ SK)]. rewrite (get_arg_at _ i b _ SK). cbn [bind fst snd].
      rewrite (precision_of_ok _ b z Z AZ). reflexivity.
    - injection TP as <- ->. exists i. split; [reflexivity|exact SK]. }
  destruct A as (j & -> & SK2). cbn [bind fst snd]. rewrite (get_arg_at _ j a [] SK2). cbn [bind fst snd]. exists (Some (j + 1)).
  destruct (normalize _ _). reflexivity.
Qed.

Lemma alone_wants dbl c args w : well_formed c -> c_position c = None -> wants c args = Some w ->
  sprintf dbl (conversion_text c) args =
    (let (a2, type) := normalize (lengthen (c_length c) (c_letter c) (subject w)) (c_letter c) in
     print_text dbl (with_type (adjust (base_spec c w) (subject w)) type) a2).
Proof.
  intros WF P W. rewrite alone_ok by exact WF. destruct (conv_args_wants c args w P W) as (ix & ->). destruct (normalize _ _). reflexivity.
Qed.

(** ---- integers ---- *)

Lemma int_parts_ok w z sp base upper pfx : int_range w z -> radix (sp_type sp) = Some (base, upper, pfx) ->
  exists ds, numeral base upper (Z.abs_N z) ds /\
    int_parts w z sp = Ok (Some (length_N ds), Some (rev ds), sign_of sp z ++ (if sp_hash sp then pfx else [])).
Proof.
  intros R RX. destruct (abs_value_ok w z R) as [A AR]. unfold int_parts. cbv zeta. rewrite A. fold (sign_of sp z).
  assert (A64 : Z.abs_N z < 2 ^ N.of_nat 65).
  { apply N.lt_le_trans with (1 := AR). apply N.pow_le_mono_r; [lia|destruct w; cbn [bits_of]; lia]. }
  assert (A100 : Z.abs_N z < 100 ^ N.of_nat 65).
  { apply N.lt_le_trans with (1 := A64). apply N.pow_le_mono_l. lia. }
  set (n := Z.abs_N z) in *.
  assert (SH : (if sp_hash sp then sign_of sp z ++ pfx else sign_of sp z) = sign_of sp z ++ (if sp_hash sp then pfx else [])).
  { destruct (sp_hash sp); [reflexivity|symmetry; apply app_nil_r]. }
  assert (DECIMAL : good_table Decimal.digit false 10) by (apply check_table; vm_compute; reflexivity).
  assert (LOWER : good_table lower_hex false 16) by (apply check_table; vm_compute; reflexivity).
  assert (UPPER : good_table upper_hex true 16) by (apply check_table; vm_compute; reflexivity).
  assert (BIN : good_table low_digit false 2) by (apply check_table; vm_compute; reflexivity).
  assert (OCT : good_table low_digit false 8) by (apply check_table; vm_compute; reflexivity).
  assert (SHIFT : forall dig up k, 0 < k <= 4 -> good_table dig up (2 ^ k) ->
    exists ds, numeral (2 ^ k) up n ds /\
      @Ok (option N * option bytes * bytes) (count_shifts 65 k n, shift_back 65 dig k n, if sp_hash sp then sign_of sp z ++ pfx else sign_of sp z)
      = Ok (Some (length_N ds), Some (rev ds), sign_of sp z ++ (if sp_hash sp then pfx else []))).
  { intros dig up k K G. exists (in_base dig (2 ^ k) n). split.
    - apply in_base_numeral; [|exact G].
      split; [change 2 with (2 ^ 1) at 1|change 16 with (2 ^ 4)]; apply N.pow_le_mono_r; lia.
    - rewrite count_shifts_ok by (exact K || exact A64 || lia).
      rewrite shift_back_ok by (exact K || exact A64 || lia).
      rewrite <- (in_base_length dig), SH. reflexivity. }
  assert (DEC : pfx = [] -> exists ds, numeral 10 false n ds /\
      @Ok (option N * option bytes * bytes) (count_digits w n, decimal_back 65 n, sign_of sp z)
      = Ok (Some (length_N ds), Some (rev ds), sign_of sp z ++ (if sp_hash sp then pfx else []))).
  { intros E. rewrite <- SH, E. exists (dec n). split.
    - rewrite dec_in_base. apply in_base_numeral; [lia|exact DECIMAL].
    - rewrite count_digits_ok by exact AR. rewrite decimal_back_ok by (exact A100 || lia). destruct (sp_hash sp); rewrite ?app_nil_r; reflexivity. }
  unfold radix in RX.
  destruct (Ascii.eqb_spec (sp_type sp) NUL) as [E|_]; cbn [orb] in RX.
  { injection RX as <- <- <-. rewrite E. change (N_of_ascii NUL) with 0. cbv iota. apply DEC. reflexivity. }
  destruct (Ascii.eqb_spec (sp_type sp) "d") as [E|_].
  { injection RX as <- <- <-. rewrite E. change (N_of_ascii "d") with 100. cbv iota. apply DEC. reflexivity. }
  destruct (Ascii.eqb_spec (sp_type sp) "x") as [E|_].
  { injection RX as <- <- <-. rewrite E. change (N_of_ascii "x") with 120. cbv iota. exact (SHIFT lower_hex false 4 ltac:(lia) LOWER). }
  destruct (Ascii.eqb_spec (sp_type sp) "X") as [E|_].
  { injection RX as <- <- <-. rewrite E. change (N_of_ascii "X") with 88. cbv iota. exact (SHIFT upper_hex true 4 ltac:(lia) UPPER). }
  destruct (Ascii.eqb_spec (sp_type sp) "b") as [E|_].
  { injection RX as <- <- <-. rewrite E. change (N_of_ascii "b") with 98. cbv iota. exact (SHIFT low_digit false 1 ltac:(lia) BIN). }
  destruct (Ascii.eqb_spec (sp_type sp) "B") as [E|_].
  { injection RX as <- <- <-. rewrite E. change (N_of_ascii "B") with 66. cbv iota. exact (SHIFT low_digit false 1 ltac:(lia) BIN). }
  destruct (Ascii.eqb_spec (sp_type sp) "o") as [E|_]; [|discriminate].
  injection RX as <- <- <-. rewrite E. change (N_of_ascii "o") with 111. cbv iota. exact (SHIFT low_digit false 3 ltac:(lia) OCT).
Qed.

(** What is printed. *)
Definition int_laid (sp : spec) (prefix ds : bytes) : bytes :=
  match sp_precision sp with
  | Some q =>
      if length_N ds <? q then
        let number := drop_zero prefix ++ zeros (q - length_N ds) ++ ds in
        let fill := repeat (sp_fill sp) (N.to_nat (sp_width sp - length_N number)) in
        match sp_align sp with ALeft => number ++ fill | _ => fill ++ number end
      else laid sp prefix ds
  | None => laid sp prefix ds
  end.

Lemma int_text_ok sp prefix ds : int_text (Some (length_N ds)) (Some (rev ds)) sp prefix = Ok (int_laid sp prefix ds).
Proof.
  unfold int_text, int_laid. destruct (sp_precision sp) as [q|]; [|apply fill_digits_ok].
  destruct (N.ltb_spec (length_N ds) q) as [Q|Q]; [|apply fill_digits_ok]. cbv zeta.
  rewrite fill_digits_ok. cbn [bind].
  set (prefix' := drop_zero prefix).
  assert (E : laid (Spec (length_N prefix' + q) "0" ANumeric false false false false None NUL) prefix' ds = prefix' ++ zeros (q - length_N ds) ++ ds).
  { unfold laid, zeros. cbn [sp_align sp_width sp_fill]. cbv zeta. rewrite length_N_app. do 4 f_equal. lia. }
  rewrite E. assert (L : length_N (prefix' ++ zeros (q - length_N ds) ++ ds) = length_N prefix' + q).
  { rewrite !length_N_app. unfold zeros. rewrite length_N_repeat. lia. }
  rewrite L. destruct (N.leb_spec (sp_width sp) (length_N prefix' + q)) as [W|W].
  - replace (sp_width sp - (length_N prefix' + q)) with 0 by lia. cbn [N.to_nat repeat app]. rewrite app_nil_r. destruct (sp_align sp); reflexivity.
  - reflexivity.
Qed.

Lemma write_int_text_ok w z sp base upper pfx : int_range w z -> radix (sp_type sp) = Some (base, upper, pfx) ->
  exists ds, numeral base upper (Z.abs_N z) ds /\
    write_int_text w z sp = Ok (int_laid sp (sign_of sp z ++ (if sp_hash sp then pfx else [])) ds).
Proof.
  intros R X. destruct (int_parts_ok w z sp base upper pfx R X) as (ds & N0 & E). exists ds. split; [exact N0|].
  unfold write_int_text. rewrite E. cbn [bind]. apply int_text_ok.
Qed.

Lemma signed_as bits z v : 0 < bits -> as_type bits true z v -> signed bits z = v.
Proof.
  intros B0 ((k & E) & R). unfold signed. cbv zeta. set (m := (2 ^ Z.of_N bits)%Z) in *.
  assert (M : (0 < m)%Z) by (apply Z.pow_pos_nonneg; lia).
  assert (A : (z mod m = v mod m)%Z) by (rewrite E; apply Z_mod_plus_full). rewrite A.
  destruct (Z_le_gt_dec 0 v).
  - rewrite Z.mod_small by lia. destruct (Z.ltb_spec (2 * v) m); [reflexivity|lia].
  - replace (v mod m)%Z with (v + m)%Z; [destruct (Z.ltb_spec (2 * (v + m)) m); lia|].
    rewrite <- (Z_mod_plus_full v 1 m). rewrite Z.mul_1_l. symmetry. apply Z.mod_small. lia.
Qed.
Lemma unsigned_as bits z v : as_type bits false z v -> (z mod 2 ^ Z.of_N bits = v)%Z.
Proof.
  intros ((k & E) & R). rewrite E, Z_mod_plus_full. apply Z.mod_small. exact R.
Qed.

Lemma valid_number a z : valid a -> number_of a = Some z -> (z < 0)%Z \/ exists bits, int_value a = Some (z, bits) /\ (0 <= z < 2 ^ Z.of_N bits)%Z.
Proof.
  intros V E. destruct (Z_lt_ge_dec z 0) as [|P]; [left; lia|right].
  destruct a as [x|n|x|n|b|x|?|?|? ?]; cbn [number_of valid int_value] in *; try discriminate; injection E as <-; eexists; (split; [reflexivity|]);
    try (change (Z.of_N 32) with 32%Z); try (change (Z.of_N 64) with 64%Z); try lia.
  destruct b; lia.
Qed.

(** The argument that is printed, and its type. *)
Lemma lengthen_ok l type a z bits v : In l lengths -> valid a -> number_of a = Some z -> bits_named l = Some bits -> as_type bits (for_signed type) z v ->
  (bits = 64 -> (z < 0)%Z -> a = ALong z) ->
  lengthen l type a =
    (if bits =? 64 then if for_signed type then ALong v else AUlong (Z.to_N v)
     else if for_signed type then AInt v else AUint (Z.to_N v))
  /\ (bits = 8 \/ bits = 16 \/ bits = 32 \/ bits = 64).
Proof.
  intros I V NO BN AT NEG. assert (NV := number_value a). rewrite NO in NV. destruct NV as (ab & IV & _).
  assert (NARROW : forall n, (n = 8 \/ n = 16 \/ n = 32) -> bits = n -> forall m, match m with LChar => n = 8 | LShort => n = 16 | LInt => n = 32 | LWide => False end ->
     convert m type a = (if for_signed type then AInt v else AUint (Z.to_N v))).
  { intros n N0 -> m Hm. unfold convert. rewrite IV. fold (for_signed type).
    destruct (for_signed type).
    - rewrite <- (signed_as n z v) by (exact AT || lia). destruct m; try contradiction; subst n; reflexivity.
    - rewrite <- (unsigned_as n z v) by exact AT. destruct m; try contradiction; subst n; reflexivity. }
  assert (WIDE : bits = 64 -> convert LWide type a = (if for_signed type then ALong v else AUlong (Z.to_N v))).
  { intros ->. unfold convert. rewrite IV. fold (for_signed type). cbv zeta.
    assert (U : exists j, (z mod 2 ^ Z.of_N ab = z + j * 2 ^ 64)%Z /\ (0 <= z mod 2 ^ Z.of_N ab < 2 ^ 64)%Z).
    { destruct (valid_number a z V NO) as [Z0|(b & IV' & R)].
      - specialize (NEG eq_refl Z0). subst a. cbn [int_value] in IV. injection IV as <-. change (Z.of_N 64) with 64%Z.
        exists (- (z / 2 ^ 64))%Z. assert (D := Z.div_mod z (2 ^ 64) ltac:(lia)). assert (D2 := Z.mod_pos_bound z (2 ^ 64) ltac:(lia)). lia.
      - rewrite IV in IV'. injection IV' as <-. exists 0%Z. rewrite Z.mod_small by exact R. split; [lia|]. split; [lia|].
        assert (ab <= 64); [|apply Z.lt_le_trans with (1 := proj2 R); apply Z.pow_le_mono_r; lia].
        destruct a; cbn [int_value] in IV; try discriminate; injection IV as _ <-; lia. }
    destruct U as (j & U & UR).
    destruct (for_signed type).
    - f_equal. apply signed_as; [lia|]. destruct AT as ((k & E) & R). split; [|exact R]. exists (k + j)%Z. change (Z.of_N 64) with 64%Z in *. lia.
    - f_equal. f_equal. destruct AT as ((k & E) & R). change (Z.of_N 64) with 64%Z in *.
      assert (EQ : (z mod 2 ^ Z.of_N ab = v + (k + j) * 2 ^ 64)%Z) by lia. assert (k + j = 0)%Z by nia. nia. }
  unfold lengths in I. unfold lengthen, bits_named in *.
  repeat (destruct I as [<-|I]); [..|contradiction]; cbn in BN; try discriminate; injection BN as <-;
    (split; [|auto]);
    lazymatch goal with
    | |- context [8 =? 64] => exact (NARROW 8 ltac:(auto) eq_refl LChar eq_refl)
    | |- context [16 =? 64] => exact (NARROW 16 ltac:(auto) eq_refl LShort eq_refl)
    | |- context [32 =? 64] => exact (NARROW 32 ltac:(auto) eq_refl LInt eq_refl)
    | |- context [64 =? 64] => exact (WIDE eq_refl)
    end.
Qed.

Lemma int_laid_plain sp prefix ds : match sp_precision sp with Some q => q <= length_N ds | None => True end ->
  int_laid sp prefix ds = laid sp prefix ds.
Proof.
  unfold int_laid. destruct (sp_precision sp) as [q|]; [|reflexivity]. intros H. destruct (N.ltb_spec (length_N ds) q); [lia|reflexivity].
Qed.
Lemma int_laid_precise sp prefix ds q : sp_precision sp = Some q -> length_N ds < q -> sp_align sp = ALeft \/ sp_align sp = ARight ->
  int_laid sp prefix ds = laid sp (drop_zero prefix) (zeros (q - length_N ds) ++ ds).
Proof.
  intros P L A. unfold int_laid. rewrite P. destruct (N.ltb_spec (length_N ds) q); [|lia]. cbv zeta. unfold laid. cbv zeta.
  destruct A as [-> | ->]; [rewrite <- !app_assoc|]; reflexivity.
Qed.
Lemma repeat_move {A} (a : A) n l : a :: repeat a n ++ l = repeat a n ++ a :: l.
Proof. induction n as [|n IH]; cbn [repeat app]; [reflexivity|]. rewrite IH. reflexivity. Qed.
Lemma laid_zero sp ds : sp_align sp = ALeft \/ sp_align sp = ARight \/ (sp_align sp = ANumeric /\ sp_fill sp = "0"%char) ->
  laid sp (B "0") ds = laid sp [] ("0"%char :: ds).
Proof.
  unfold laid. cbv zeta. intros [-> | [-> |[-> ->]]]; cbn [B list_ascii_of_string app]; try reflexivity. apply repeat_move.
Qed.

Lemma numeral_zero base upper ds v : numeral base upper v ds -> 2 <= base <= 16 -> (Ascii.eqb (hd NUL ds) "0" = (v =? 0)).
Proof.
  intros N0 B0. assert (H := N0). destruct H as (NE & RD & Z0 & CS).
  destruct (N.eqb_spec v 0) as [-> | NZ].
  - assert (E : ds = B "0"); [|rewrite E; reflexivity].
    apply (numeral_unique base upper B0 ds (B "0") 0); [exact N0|].
    split; [discriminate|]. split; [|split; [reflexivity|constructor; [destruct upper; reflexivity|constructor]]].
    cbn [read_digits B list_ascii_of_string]. change (digit_number "0") with (Some 0). cbv iota. destruct (N.ltb_spec 0 base); [f_equal; lia|lia].
  - destruct (Ascii.eqb_spec (hd NUL ds) "0") as [E|]; [|reflexivity]. specialize (Z0 E). subst ds. exfalso. apply NZ.
    cbn [read_digits B list_ascii_of_string] in RD. change (digit_number "0") with (Some 0) in RD. cbv iota in RD. destruct (0 <? base); [|discriminate]. injection RD as <-. lia.
Qed.

Definition printed_type (l : ascii) : ascii := if Ascii.eqb l "i" || Ascii.eqb l "u" then "d"%char else l.
Definition printed_spec (c : conversion) (w : wanted) : spec := with_type (adjust (base_spec c w) (subject w)) (printed_type (c_letter c)).

Lemma base_letters l b : base_of l = Some b -> (l = "d" \/ l = "i" \/ l = "u" \/ l = "o" \/ l = "x" \/ l = "X")%char.
Proof.
  unfold base_of. destruct (Ascii.eqb_spec l "d"); [auto 9|]. destruct (Ascii.eqb_spec l "i"); [auto 9|]. destruct (Ascii.eqb_spec l "u"); [auto 9|].
  destruct (Ascii.eqb_spec l "o"); [auto 9|]. destruct (Ascii.eqb_spec l "x"); [auto 9|]. destruct (Ascii.eqb_spec l "X"); [auto 9|]. cbn [orb]. intros H; discriminate H.
Qed.

Lemma print_int_ok dbl c w z bits v b : well_formed c -> valid (subject w) -> number_of (subject w) = Some z -> bits_named (c_length c) = Some bits ->
  base_of (c_letter c) = Some b -> as_type bits (for_signed (c_letter c)) z v ->
  (bits_named (c_length c) = Some 64 -> (z < 0)%Z -> subject w = ALong z) ->
  exists wd, int_range wd v /\
   (let (a2, type) := normalize (lengthen (c_length c) (c_letter c) (subject w)) (c_letter c) in
    print_text dbl (with_type (adjust (base_spec c w) (subject w)) type) a2) = write_int_text wd v (printed_spec c w).
Proof.
  intros WF V NO BN BO AT NEG. destruct WF as (_ & _ & _ & _ & I & _).
  destruct (lengthen_ok (c_length c) (c_letter c) (subject w) z bits v I V NO BN AT) as [-> BB].
  { intros ->. exact (NEG BN). }
  assert (NC : Ascii.eqb (c_letter c) "c" = false).
  { apply base_letters in BO. destruct BO as [-> |[-> |[-> |[-> |[-> | ->]]]]]; reflexivity. }
  assert (TY : forall a, is_integer a = true -> normalize a (c_letter c) = (a, printed_type (c_letter c))).
  { intros a IA. unfold normalize, printed_type. rewrite IA, NC. destruct (Ascii.eqb (c_letter c) "i" || Ascii.eqb (c_letter c) "u"); reflexivity. }
  destruct AT as [_ R]. unfold printed_spec.
  destruct BB as [-> |[-> |[-> | ->]]]; cbn [N.eqb Pos.eqb]; destruct (for_signed (c_letter c)); rewrite TY by reflexivity; cbn [print_text];
    rewrite ?Z2N.id by lia;
    [exists W32|exists W32|exists W32|exists W32|exists W32|exists W32|exists W64|exists W64]; (split; [|reflexivity]);
    unfold int_range; cbn [bits_of];
    try (change (Z.of_N 8) with 8%Z in R); try (change (Z.of_N 16) with 16%Z in R); try (change (Z.of_N 32) with 32%Z in *); try (change (Z.of_N 64) with 64%Z in *); lia.
Qed.

Lemma integer_ok dbl c args w z bits v : well_formed c -> c_position c = None -> wants c args = Some w ->
  valid (subject w) -> number_of (subject w) = Some z -> bits_named (c_length c) = Some bits ->
  base_of (c_letter c) <> None -> as_type bits (for_signed (c_letter c)) z v -> ordinary c w z v ->
  exists out, sprintf dbl (conversion_text c) args = Ok out /\ integer_text c w v out.
Proof.
  intros WF P W V NO BN BO AT (O0 & OD & OP & OU & OH & OW).
  destruct (base_of (c_letter c)) as [[base upper]|] eqn:BE; [clear BO|congruence].
  rewrite (alone_wants dbl c args w WF P W). destruct (print_int_ok dbl c w z bits v _ WF V NO BN BE AT OW) as (wd & R & ->).
  set (sp := printed_spec c w).
  assert (NUM : is_numeric (subject w) = true) by (destruct (subject w); try discriminate NO; reflexivity).
  assert (IV : exists ab, int_value (subject w) = Some (z, ab)).
  { assert (NV := number_value (subject w)). rewrite NO in NV. destruct NV as (ab & NV & _). exists ab. exact NV. }
  destruct IV as (ab & IV).
  assert (PR : sp_precision sp = precise w).
  { unfold sp, printed_spec. cbn [with_type sp_precision]. rewrite adjust_precision. cbn [base_spec sp_precision]. unfold read_precision.
    destruct (c_precision c) as [[]|]; congruence. }
  assert (FI : sp_fill sp = if zero_padded c w then "0"%char else " "%char).
  { unfold sp, printed_spec, adjust, zero_padded. rewrite IV, NUM. cbn [with_type sp_fill]. unfold base_spec. cbn [sp_hash sp_fill with_hash].
    destruct (flag "0" c) eqn:F0.
    - destruct (O0 eq_refl) as [-> ->]. destruct (flag "#" c && (z =? 0)%Z); reflexivity.
    - destruct (flag "#" c && (z =? 0)%Z); reflexivity. }
  assert (AL : sp_align sp = if left_side w then ALeft else if zero_padded c w then ANumeric else ARight).
  { unfold sp, printed_spec, adjust, zero_padded. rewrite IV, NUM. cbn [with_type sp_align]. unfold base_spec. cbn [sp_hash sp_fill with_hash].
    destruct (flag "0" c) eqn:F0.
    - destruct (O0 eq_refl) as [-> ->]. destruct (flag "#" c && (z =? 0)%Z); reflexivity.
    - destruct (flag "#" c && (z =? 0)%Z); cbn; destruct (left_side w); reflexivity. }
  assert (WI : sp_width sp = wide w).
  { unfold sp, printed_spec, adjust. rewrite IV, NUM. unfold base_spec. cbn [sp_hash sp_fill with_hash].
    destruct (flag "#" c && (z =? 0)%Z), (flag "0" c); reflexivity. }
  assert (HA : sp_hash sp = flag "#" c && negb (z =? 0)%Z).
  { unfold sp, printed_spec, adjust. rewrite IV, NUM. unfold base_spec. cbn [sp_hash sp_fill with_hash].
    destruct (flag "#" c), (z =? 0)%Z, (flag "0" c); reflexivity. }
  assert (SG : sign_of sp v = sign_for c v).
  { unfold sign_of, sign_for. destruct (v <? 0)%Z; [reflexivity|].
    assert (S1 : sp_sign sp = flag "+" c || flag " " c).
    { unfold sp, printed_spec, adjust. rewrite IV, NUM. unfold base_spec. cbn [sp_hash sp_fill with_hash].
      destruct (flag "#" c && (z =? 0)%Z), (flag "0" c); reflexivity. }
    assert (S2 : sp_plus sp = flag "+" c).
    { unfold sp, printed_spec, adjust. rewrite IV, NUM. unfold base_spec. cbn [sp_hash sp_fill with_hash].
      destruct (flag "#" c && (z =? 0)%Z), (flag "0" c); reflexivity. }
    rewrite S1, S2. destruct (for_signed (c_letter c)).
    - destruct (flag "+" c), (flag " " c); reflexivity.
    - destruct (OU eq_refl) as [-> ->]. reflexivity. }
  assert (HV : flag "#" c && negb (v =? 0)%Z = flag "#" c && negb (z =? 0)%Z \/ (v = 0%Z -> False) /\ z = 0%Z).
  { destruct (flag "#" c) eqn:F; [|left; reflexivity]. cbn [andb].
    destruct (Z.eqb_spec v 0) as [E|E], (Z.eqb_spec z 0) as [E'|E']; cbn [negb]; auto. }
  assert (ZV : z = 0%Z -> v = 0%Z).
  { intros ->. destruct AT as ((k & E) & RV). set (m := (2 ^ Z.of_N bits)%Z) in *.
    assert (M : (0 < m)%Z) by (apply Z.pow_pos_nonneg; lia). destruct (for_signed (c_letter c)); assert (k = 0 \/ k <= -1 \/ 1 <= k)%Z by lia; nia. }
  destruct HV as [HV|[C1 C2]]; [|destruct (C1 (ZV C2))].
  assert (TP : sp_type sp = printed_type (c_letter c)) by reflexivity.
  assert (BASE : 2 <= base <= 16).
  { unfold base_of in BE. repeat match type of BE with (if ?x then _ else _) = _ => destruct x end; try discriminate; injection BE as <- <-; lia. }
  assert (RX : exists pfx, radix (sp_type sp) = Some (base, upper, pfx) /\
     (if flag "#" c && negb (v =? 0)%Z then pfx else []) = mark_for c v ++ (if flag "#" c && negb (v =? 0)%Z && Ascii.eqb (c_letter c) "o" then B "0" else [])).
  { rewrite TP. unfold mark_for. destruct (base_letters _ _ BE) as [L|[L|[L|[L|[L|L]]]]]; rewrite L in BE |- *; cbn in BE; injection BE as <- <-;
      eexists; (split; [reflexivity|]); destruct (flag "#" c && negb (v =? 0)%Z); reflexivity. }
  destruct RX as (pfx & RX & PF).
  destruct (write_int_text_ok wd v sp base upper pfx R RX) as (ds & NU & ->). eexists. split; [reflexivity|].
  exists base, upper, ds. split; [exact BE|]. split; [exact NU|].
  rewrite HA, SG, <- HV. match goal with |- context [int_laid sp (_ ++ ?t) ds] =>
    replace t with (mark_for c v ++ (if flag "#" c && negb (v =? 0)%Z && Ascii.eqb (c_letter c) "o" then B "0" else [])) by (symmetry; exact PF) end.
  rewrite <- AL, <- FI, <- WI.
  set (mark := sign_for c v ++ mark_for c v). rewrite app_assoc. fold mark.
  assert (NZ : Ascii.eqb (hd NUL ds) "0" = (v =? 0)%Z).
  { rewrite (numeral_zero base upper ds _ NU BASE). destruct (N.eqb_spec (Z.abs_N v) 0), (Z.eqb_spec v 0); try reflexivity; lia. }
  assert (D0 : match precise w with Some 0 => if (v =? 0)%Z then [] else ds | _ => ds end = ds).
  { destruct (precise w) as [[|]|]; try reflexivity. destruct (Z.eqb_spec v 0) as [E|]; [destruct (OP eq_refl E)|reflexivity]. }
  unfold digits_for. cbv zeta. rewrite D0.
  assert (DIRECT : precise w <> None -> sp_align sp = ALeft \/ sp_align sp = ARight).
  { intros PN. rewrite AL. destruct (left_side w); [auto|]. unfold zero_padded. destruct (precise w); [|congruence]. rewrite !andb_false_r. auto. }
  assert (DZ : drop_zero mark = mark).
  { unfold mark, mark_for, sign_for. destruct (v <? 0)%Z, (for_signed (c_letter c)), (flag "+" c), (flag " " c), (flag "#" c && negb (v =? 0)%Z), (Ascii.eqb (c_letter c) "x"), (Ascii.eqb (c_letter c) "X"); reflexivity. }
  destruct (flag "#" c && negb (v =? 0)%Z && Ascii.eqb (c_letter c) "o") eqn:OCT.
  - apply andb_true_iff in OCT. destruct OCT as [O1 LO]. apply andb_true_iff in O1. destruct O1 as [O1 O2]. apply negb_true_iff in O2.
    assert (M0 : mark = []).
    { unfold mark, mark_for, sign_for. rewrite O1, O2. apply Ascii.eqb_eq in LO. rewrite LO. cbn.
      destruct AT as [_ RV]. rewrite LO in RV. cbn in RV. destruct (Z.ltb_spec v 0); [lia|reflexivity]. }
    rewrite M0, O1, LO. cbn [app andb].
    destruct (precise w) as [q|] eqn:PE.
    + destruct (N.ltb_spec (length_N ds) q) as [Q|Q].
      * rewrite (int_laid_precise sp _ ds q PR Q (DIRECT ltac:(discriminate))). change (drop_zero (B "0")) with (@nil ascii).
        assert (H0 : hd NUL (zeros (q - length_N ds) ++ ds) = "0"%char).
        { unfold zeros. destruct (N.to_nat (q - length_N ds)) eqn:E; [lia|reflexivity]. }
        rewrite H0. cbn [Ascii.eqb]. apply laid_field.
      * rewrite int_laid_plain by (rewrite PR; exact Q). replace (q - length_N ds) with 0 by lia. cbn [zeros N.to_nat repeat app].
        rewrite NZ, O2. cbn [negb]. rewrite laid_zero by (destruct (DIRECT ltac:(discriminate)); auto). apply laid_field.
    + rewrite int_laid_plain by (rewrite PR; exact I). rewrite NZ, O2. cbn [negb].
      rewrite laid_zero; [apply laid_field|]. rewrite AL, FI. destruct (left_side w); [auto|]. destruct (zero_padded c w); auto.
  - rewrite app_nil_r.
    assert (BODY : forall q, precise w = Some q -> int_laid sp mark ds = laid sp mark (zeros (q - length_N ds) ++ ds)).
    { intros q PE. rewrite PE in PR. destruct (N.ltb_spec (length_N ds) q) as [Q|Q].
      - rewrite (int_laid_precise sp mark ds q PR Q (DIRECT ltac:(congruence))), DZ. reflexivity.
      - rewrite int_laid_plain by (rewrite PR; exact Q). replace (q - length_N ds) with 0 by lia. reflexivity. }
    assert (HD : flag "#" c && Ascii.eqb (c_letter c) "o" = true ->
       forall q, Ascii.eqb (hd NUL (zeros q ++ ds)) "0" = true).
    { intros E q. apply andb_true_iff in E. destruct E as [E1 E2]. rewrite E1, E2 in OCT. cbn [andb] in OCT. rewrite andb_true_r in OCT. apply negb_false_iff in OCT.
      unfold zeros. destruct (N.to_nat q); [cbn [repeat app]; rewrite NZ; exact OCT|reflexivity]. }
    destruct (precise w) as [q|] eqn:PE.
    + rewrite (BODY q eq_refl). destruct (flag "#" c && Ascii.eqb (c_letter c) "o") eqn:E; cbn [andb]; [rewrite (HD eq_refl)|]; cbn [negb]; apply laid_field.
    + rewrite int_laid_plain by (rewrite PR; exact I).
      destruct (flag "#" c && Ascii.eqb (c_letter c) "o") eqn:E; cbn [andb]; [|apply laid_field].
      assert (H := HD eq_refl 0). cbn [zeros N.to_nat repeat app] in H. rewrite H. cbn [negb]. apply laid_field.
Qed.

(** ---- strings and characters ---- *)

Lemma read_prefix s rest n : n <= length_N s -> read (s ++ rest) n = Ok (firstn (N.to_nat n) s).
Proof.
  intros H. unfold read. destruct (N.ltb_spec (length_N (s ++ rest)) n) as [L|L]; [rewrite length_N_app in L; lia|].
  rewrite firstn_app. unfold length_N in H. replace (N.to_nat n - length s)%nat with 0%nat by lia. rewrite app_nil_r. reflexivity.
Qed.

Definition shortened (q : option N) (s : bytes) : bytes := match q with Some q => firstn (N.to_nat q) s | None => s end.
Lemma shortened_read q s : firstn (N.to_nat (match q with Some q => if q <? length_N s then q else length_N s | None => length_N s end)) s = shortened q s.
Proof.
  assert (ALL : firstn (N.to_nat (length_N s)) s = s) by (unfold length_N; rewrite Nat2N.id; apply firstn_all).
  unfold shortened. destruct q as [q|]; [|exact ALL]. destruct (N.ltb_spec q (length_N s)); [reflexivity|]. rewrite ALL. symmetry. apply firstn_all2. unfold length_N in *. lia.
Qed.

Lemma write_string_ok a s sp : text_of a s -> sp_type sp = "s"%char ->
  match a with ACString p => write_string p 0 sp | AString p size => write_string p size sp | _ => Undefined end = Ok (pad_str (shortened (sp_precision sp) s) sp).
Proof.
  intros T S0.
  assert (RD : forall rest n, n = length_N s -> (x <- read (s ++ rest) (match sp_precision sp with Some q => if q <? n then q else n | None => n end); Ok (pad_str x sp)) = Ok (pad_str (shortened (sp_precision sp) s) sp)).
  { intros rest n ->. rewrite read_prefix; [cbn [bind]; rewrite shortened_read; reflexivity|].
    destruct (sp_precision sp) as [q|]; [|lia]. destruct (N.ltb_spec q (length_N s)); lia. }
  assert (EMPTY : s = [] -> forall m, hd " "%char m = NUL -> write_string (Some m) 0 sp = Ok (pad_str (shortened (sp_precision sp) s) sp)).
  { intros -> m H. unfold write_string. rewrite S0. cbn [Ascii.eqb negb andb Bool.eqb]. destruct m as [|c m']; [discriminate|]. cbn [hd] in H. subst c.
    change (0 =? 0) with true. cbv iota. cbn [Ascii.eqb NUL bind Bool.eqb]. exact (RD (NUL :: m') 0 eq_refl). }
  destruct a as [ | | | | | | |[m|]|[m|] size]; cbn [text_of] in T; try contradiction.
  - destruct T as (NN & rest & ->). destruct s as [|c s'] eqn:ES; [apply EMPTY; [reflexivity|reflexivity]|].
    unfold write_string. rewrite S0. cbn [Ascii.eqb negb andb Bool.eqb]. change (0 =? 0) with true. cbv iota. cbn [app].
    destruct (Ascii.eqb_spec c NUL) as [->|NC]; [exfalso; apply NN; left; reflexivity|].
    change (c :: s' ++ NUL :: rest) with ((c :: s') ++ NUL :: rest). rewrite strlen_ok by exact NN. cbn [bind]. exact (RD (NUL :: rest) _ eq_refl).
  - destruct T as (L & rest & EM & H). destruct (N.eqb_spec size 0) as [Z0|NZ].
    + assert (E : s = []) by (destruct s; [reflexivity|rewrite length_N_cons in L; lia] || (destruct s; [reflexivity|unfold length_N in L; cbn [length] in L; lia])).
      rewrite Z0. apply EMPTY; [exact E|exact (H E)].
    + unfold write_string. rewrite S0. cbn [Ascii.eqb negb andb Bool.eqb]. destruct (N.eqb_spec size 0); [contradiction|]. cbn [bind]. rewrite EM. apply RD. symmetry. exact L.
Qed.

Lemma string_ok dbl c args w s : well_formed c -> c_position c = None -> wants c args = Some w ->
  c_letter c = "s"%char -> text_of (subject w) s -> c_precision c <> Some NoAmount ->
  exists out, sprintf dbl (conversion_text c) args = Ok out /\ string_text w s out.
Proof.
  intros WF P W L T OD. rewrite (alone_wants dbl c args w WF P W).
  assert (NV : int_value (subject w) = None) by (destruct (subject w); cbn [text_of] in T; try contradiction; reflexivity).
  assert (LE : lengthen (c_length c) (c_letter c) (subject w) = subject w).
  { unfold lengthen, convert. rewrite NV. destruct (bytes_eqb (c_length c) (B "L")); reflexivity. }
  rewrite LE. assert (NI : is_integer (subject w) = false) by (destruct (subject w); cbn [text_of] in T; try contradiction; reflexivity).
  unfold normalize. rewrite NI.
  set (sp := with_type (adjust (base_spec c w) (subject w)) (c_letter c)).
  assert (PT : print_text dbl sp (subject w) = match subject w with ACString p => write_string p 0 sp | AString p size => write_string p size sp | _ => Undefined end)
    by (destruct (subject w); cbn [text_of] in T; try contradiction; reflexivity).
  rewrite PT, (write_string_ok (subject w) s sp T L). eexists. split; [reflexivity|].
  assert (NU : is_numeric (subject w) = false) by (destruct (subject w); cbn [text_of] in T; try contradiction; reflexivity).
  assert (SP : sp = Spec (wide w) " " (if left_side w then ALeft else ARight) (flag "+" c || flag " " c) (flag "+" c) false (flag "#" c) (precise w) "s").
  { unfold sp, adjust, base_spec. rewrite NV, NU, L. cbn [sp_hash sp_fill]. rewrite andb_false_r. cbn [sp_fill].
    assert (RP : read_precision c w = precise w) by (unfold read_precision; destruct (c_precision c) as [[]|]; congruence).
    rewrite RP. destruct (flag "0" c); reflexivity. }
  assert (F := pad_field (shortened (precise w) s) sp). rewrite SP in F |- *. exact F.
Qed.

Lemma signed_mod bits z m : (0 < m)%Z -> (2 ^ Z.of_N bits mod m = 0)%Z -> (signed bits z mod m = z mod m)%Z.
Proof.
  intros M D. apply Z_div_exact_full_2 in D; [|lia]. set (k := (2 ^ Z.of_N bits / m)%Z) in *. unfold signed. cbv zeta.
  set (p := (2 ^ Z.of_N bits)%Z) in *. assert (P : (0 < p)%Z) by (apply Z.pow_pos_nonneg; lia).
  assert (E := Z.div_mod z p ltac:(lia)). set (r := (z mod p)%Z) in *. set (d := (z / p)%Z) in *.
  assert (Z1 : (z = r + (k * d) * m)%Z) by (rewrite E; rewrite D; ring). rewrite Z1, Z_mod_plus_full.
  destruct (2 * r <? p)%Z; [reflexivity|]. replace (r - p)%Z with (r + (- k) * m)%Z by (rewrite D; ring). apply Z_mod_plus_full.
Qed.

Lemma char_ok dbl c args w z : well_formed c -> c_position c = None -> wants c args = Some w ->
  c_letter c = "c"%char -> c_length c = [] -> number_of (subject w) = Some z -> flag "0" c = false ->
  exists out, sprintf dbl (conversion_text c) args = Ok out /\ char_text w (Z.to_N (z mod 256)) out.
Proof.
  intros WF P W L LN NO F0. rewrite (alone_wants dbl c args w WF P W).
  assert (NV := number_value (subject w)). rewrite NO in NV. destruct NV as (ab & IV & _).
  assert (LE : lengthen (c_length c) (c_letter c) (subject w) = AUint (Z.to_N (z mod 2 ^ 32))).
  { rewrite LN, L. unfold lengthen, convert. rewrite IV. reflexivity. }
  rewrite LE. unfold normalize. cbn [is_integer]. rewrite L. cbn [Ascii.eqb Bool.eqb orb]. cbn [to_char int_value].
  cbn [print_text]. unfold write_char_text. cbn [with_type sp_type Ascii.eqb Bool.eqb negb andb NUL bind app]. eexists. split; [reflexivity|].
  assert (V : (signed 8 (Z.of_N (Z.to_N (z mod 2 ^ 32))) mod 256 = z mod 256)%Z).
  { assert (R := Z.mod_pos_bound z (2 ^ 32) ltac:(lia)). rewrite Z2N.id by lia. rewrite signed_mod by (lia || reflexivity).
    assert (E := Z.div_mod z (2 ^ 32) ltac:(lia)). set (r := (z mod 2 ^ 32)%Z) in *. set (d := (z / 2 ^ 32)%Z) in *.
    replace z with (r + (d * 2 ^ 24) * 256)%Z by lia. symmetry. apply Z_mod_plus_full. }
  unfold char_of. rewrite V. set (x := chr (Z.to_N (z mod 256))). cbv zeta.
  assert (AL : sp_align (with_type (adjust (base_spec c w) (subject w)) "c") = (if left_side w then ALeft else ARight) /\ sp_width (with_type (adjust (base_spec c w) (subject w)) "c") = wide w).
  { unfold adjust, base_spec. rewrite F0, IV. cbn [sp_hash sp_fill with_hash]. destruct (flag "#" c && (z =? 0)%Z); split; reflexivity. }
  destruct AL as [-> ->]. unfold char_text, field. fold x.
  destruct (left_side w).
  - exists [], [], (repeat " "%char (N.to_nat (wide w - 1))). cbn [app]. split; [reflexivity|]. split; [constructor|]. split; [constructor|]. split; [apply fills_repeat|].
    split; [|auto]. change (x :: repeat " "%char (N.to_nat (wide w - 1))) with ([x] ++ repeat " "%char (N.to_nat (wide w - 1))). rewrite length_N_app, length_N_repeat. change (length_N [x]) with 1. lia.
  - exists (repeat " "%char (N.to_nat (wide w - 1))), [], []. cbn [app]. split; [reflexivity|]. split; [apply fills_repeat|]. split; [constructor|]. split; [constructor|].
    split; [|auto]. rewrite length_N_app, length_N_repeat. change (length_N [x]) with 1. lia.
Qed.
