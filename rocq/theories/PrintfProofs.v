(** Proofs about the printf functions: how format strings are read, and how the output is put together. *)
From Verif Require Import Base FmtModel FmtSpec FmtProofs FmtSubProofs PrintfModel PrintfSpec.
Open Scope N_scope.

(** ---- reading ---- *)

Definition has (f : ascii) (fs : bytes) : bool := existsb (Ascii.eqb f) fs.
Definition flagged (sp : spec) (fs : bytes) : spec :=
  Spec (sp_width sp) (if has "0" fs then "0"%char else sp_fill sp) (if has "-" fs then ALeft else sp_align sp)
       (has "+" fs || has " " fs || sp_sign sp) (has "+" fs || sp_plus sp) (sp_minus sp) (has "#" fs || sp_hash sp)
       (sp_precision sp) (sp_type sp).

Lemma flagged_nil sp : flagged sp [] = sp.
Proof. destruct sp. reflexivity. Qed.

Lemma flag_cases : forall c, flag_char c = true -> (c = "-" \/ c = "+" \/ c = " " \/ c = "#" \/ c = "0")%char.
Proof. intros c; destruct c as [[] [] [] [] [] [] [] []]; intros H; vm_compute in H; try discriminate H; auto. Qed.

Lemma flagged_cons sp f fs : flagged (flagged sp [f]) fs = flagged sp (f :: fs).
Proof.
  destruct sp as [w0 f0 a0 s0 p0 m0 h0 q0 t0]. unfold flagged, has. cbn [existsb sp_width sp_fill sp_align sp_sign sp_plus sp_minus sp_hash sp_precision sp_type].
  rewrite !orb_false_r. f_equal.
  - destruct (Ascii.eqb "0" f), (existsb (Ascii.eqb "0") fs); reflexivity.
  - destruct (Ascii.eqb "-" f), (existsb (Ascii.eqb "-") fs); reflexivity.
  - destruct (Ascii.eqb "+" f), (existsb (Ascii.eqb "+") fs), (Ascii.eqb " " f), (existsb (Ascii.eqb " ") fs); reflexivity.
  - destruct (Ascii.eqb "+" f), (existsb (Ascii.eqb "+") fs); reflexivity.
  - destruct (Ascii.eqb "#" f), (existsb (Ascii.eqb "#") fs); reflexivity.
Qed.

Lemma parse_flags_stop sp s : flag_char (peek s) = false -> parse_flags sp s = (sp, s).
Proof.
  destruct s as [|c s]; [reflexivity|]. cbn [peek hd parse_flags]. intros H.
  destruct (Ascii.eqb_spec c "-") as [->|_]; [discriminate H|].
  destruct (Ascii.eqb_spec c "+") as [->|_]; [discriminate H|].
  destruct (Ascii.eqb_spec c "0") as [->|_]; [discriminate H|].
  destruct (Ascii.eqb_spec c " ") as [->|_]; [discriminate H|].
  destruct (Ascii.eqb_spec c "#") as [->|_]; [discriminate H|]. reflexivity.
Qed.

Lemma parse_flags_ok fs t : Forall (fun x => flag_char x = true) fs -> flag_char (peek t) = false ->
  forall sp, parse_flags sp (fs ++ t) = (flagged sp fs, t).
Proof.
  intros F T. induction F as [|f fs Hf F IH]; intros sp; cbn [app].
  - rewrite flagged_nil. apply parse_flags_stop. exact T.
  - rewrite <- flagged_cons. destruct (flag_cases f Hf) as [-> | [-> | [-> | [-> | ->]]]]; cbn [parse_flags];
      rewrite ?eqb_refl; cbn [Ascii.eqb Bool.eqb]; rewrite IH; do 2 f_equal; destruct sp; reflexivity.
Qed.

Lemma parse_int_written n ds t : written n ds -> is_digit (peek t) = false -> parse_int (ds ++ t) = Ok (n, t).
Proof.
  intros (_ & R & L) T. unfold parse_int. rewrite (parse_int_go_ok ds t T 0 n R) by lia.
  destruct (N.ltb_spec INT_MAX n) as [H|_]; [unfold INT_MAX in H; lia|reflexivity].
Qed.

(** What may follow flags and a width: a letter or a dot. *)
Definition letter_class : forall c, letter c = true ->
  is_digit c = false /\ flag_char c = false /\ Ascii.eqb c "*" = false /\ Ascii.eqb c "$" = false /\ Ascii.eqb c "." = false
  /\ c <> NUL /\ c <> "%"%char.
Proof. intros c; destruct c as [[] [] [] [] [] [] [] []]; intros H; vm_compute in H; try discriminate H; repeat split; discriminate. Qed.
Definition stops (c : ascii) : Prop :=
  is_digit c = false /\ flag_char c = false /\ Ascii.eqb c "*" = false /\ Ascii.eqb c "$" = false.
Lemma letter_stops c : letter c = true -> stops c.
Proof. intros H. destruct (letter_class c H) as (A & B & C & D & _). repeat split; assumption. Qed.
Lemma dot_stops : stops ".".
Proof. repeat split. Qed.

Lemma digit_class : forall c, is_digit c = true -> flag_char c = true -> c = "0"%char.
Proof. intros c; destruct c as [[] [] [] [] [] [] [] []]; intros H G; vm_compute in H, G; try discriminate H; try discriminate G; reflexivity. Qed.
Lemma flag_not : forall c, flag_char c = true -> Ascii.eqb c "$" = false /\ Ascii.eqb c "*" = false /\ c <> NUL /\ c <> "%"%char.
Proof. intros c; destruct c as [[] [] [] [] [] [] [] []]; intros H; vm_compute in H; try discriminate H; repeat split; discriminate. Qed.

Lemma written_digit n ds : written n ds -> exists d ds', ds = d :: ds' /\ is_digit d = true.
Proof.
  intros (N0 & R & _). destruct ds as [|d ds]; [contradiction|]. exists d, ds. split; [reflexivity|].
  cbn [read_digits] in R. destruct (digit_number d) as [x|] eqn:E; [|discriminate].
  destruct (N.ltb_spec x 10) as [H|_]; [|discriminate]. destruct (decimal_digit d x E H) as [G _]. exact G.
Qed.

Lemma digit_positive : forall c, c <> "0"%char -> match digit_number c with Some d => 0 <? d | None => true end = true.
Proof. intros c; destruct c as [[] [] [] [] [] [] [] []]; intros H; vm_compute; try reflexivity; exfalso; apply H; reflexivity. Qed.
Lemma written_positive n ds : written n ds -> hd NUL ds <> "0"%char -> 0 < n.
Proof.
  intros (N0 & R & _) Z. destruct ds as [|d ds]; [contradiction|]. cbn [hd] in Z. assert (P := digit_positive d Z).
  cbn [read_digits] in R. destruct (digit_number d) as [x|] eqn:E; [|discriminate].
  destruct (x <? 10); [|discriminate]. apply read_digits_mono in R; [|lia]. apply N.ltb_lt in P. lia.
Qed.

(** The width, once flags have been read. *)
Definition width_step (args : list arg) (ix : index) (sp : spec) (w : amount) : result (spec * index) :=
  match w with
  | NoAmount => Ok (sp, ix)
  | Given n _ => Ok (with_width sp n, ix)
  | Asterisk => ai <- get_arg args ix (B "*") None; sp2 <- width_of sp (fst ai); Ok (sp2, snd ai)
  end.

Lemma get_arg_any args ix s n : s <> [] -> get_arg args ix s n = get_arg args ix (B "*") n.
Proof. intros H. destruct s; [contradiction|]. reflexivity. Qed.

Definition good_width (w : amount) : Prop := match w with Given n ds => written n ds /\ hd NUL ds <> "0"%char | _ => True end.

Lemma parse_width_ok args ix sp fs w t : Forall (fun x => flag_char x = true) fs -> good_width w -> stops (peek t) -> (w = Asterisk -> t <> []) ->
  parse_width args ix sp (fs ++ amount_text w ++ t) = (r <- width_step args ix (flagged sp fs) w; Ok (fst r, snd r, t)).
Proof.
  intros F G (T1 & T2 & T3 & T4) TN. unfold parse_width. destruct w as [|n ds|]; cbn [amount_text width_step].
  - cbn [app]. rewrite parse_flags_ok by assumption. rewrite T1. destruct t as [|c t]; [reflexivity|]. cbn [peek hd] in T3. rewrite T3. reflexivity.
  - destruct G as [W Z]. destruct (written_digit n ds W) as (d & ds' & -> & D).
    assert (P : flag_char (peek ((d :: ds') ++ t)) = false).
    { cbn [app peek hd]. destruct (flag_char d) eqn:E; [|reflexivity]. exfalso. apply Z. cbn [hd]. apply digit_class; assumption. }
    rewrite parse_flags_ok by assumption.
    change (peek ((d :: ds') ++ t)) with d. rewrite D. rewrite (parse_int_written n) by assumption. reflexivity.
  - rewrite parse_flags_ok by (assumption || reflexivity).
    change (peek (B "*" ++ t)) with "*"%char. change (is_digit "*") with false. cbv iota. change (B "*" ++ t) with ("*"%char :: t). cbv iota.
    rewrite (get_arg_any args ix t) by exact (TN eq_refl). change (Ascii.eqb "*" "*") with true. cbv iota.
    destruct (get_arg args ix (B "*") None) as [[a ix']| |]; [|reflexivity|reflexivity]. cbn [bind fst snd].
    destruct (width_of (flagged sp fs) a); reflexivity.
Qed.

Lemma zeros_read k ds n : read_digits 10 0 ds = Some n -> read_digits 10 0 (repeat "0"%char k ++ ds) = Some n.
Proof. intros R. induction k as [|k IH]; [exact R|]. cbn [repeat app read_digits]. change (digit_number "0") with (Some 0). change (0 <? 10) with true. cbv iota. exact IH. Qed.

Lemma split_zeros fs : exists k fs', fs = repeat "0"%char k ++ fs' /\ hd NUL fs' <> "0"%char.
Proof.
  induction fs as [|f fs (k & fs' & -> & H)]; [exists 0%nat, []; split; [reflexivity|discriminate]|].
  destruct (Ascii.eqb_spec f "0") as [->|N0].
  - exists (S k), fs'. split; [reflexivity|exact H].
  - exists 0%nat, (f :: repeat "0"%char k ++ fs'). split; [reflexivity|exact N0].
Qed.

Lemma flagged_zeros sp k fs : flagged sp (repeat "0"%char (S k) ++ fs) = flagged (with_fill sp "0") fs.
Proof.
  destruct sp as [w0 f0 a0 s0 p0 m0 h0 q0 t0]. unfold flagged, with_fill, has.
  cbn [sp_width sp_fill sp_align sp_sign sp_plus sp_minus sp_hash sp_precision sp_type].
  assert (E : forall x, Ascii.eqb x "0" = false -> existsb (Ascii.eqb x) (repeat "0"%char (S k) ++ fs) = existsb (Ascii.eqb x) fs).
  { intros x X. rewrite existsb_app. replace (existsb (Ascii.eqb x) (repeat "0"%char (S k))) with false; [reflexivity|].
    symmetry. generalize (S k). intros j. induction j as [|j IH]; [reflexivity|]. cbn [repeat existsb]. rewrite X. exact IH. }
  rewrite (E "-"%char), (E "+"%char), (E " "%char), (E "#"%char) by reflexivity. f_equal.
  destruct (existsb (Ascii.eqb "0") fs); cbn [repeat app existsb]; reflexivity.
Qed.

Lemma header_none args ix sp fs w t : Forall (fun x => flag_char x = true) fs -> good_width w -> stops (peek t) -> (w = Asterisk -> t <> []) ->
  parse_header args ix sp (fs ++ amount_text w ++ t) = (r <- width_step args ix (flagged sp fs) w; Ok (None, fst r, snd r, t)).
Proof.
  intros F G ST TN.
  assert (PLAIN : forall sp fs, Forall (fun x => flag_char x = true) fs ->
    (r <- parse_width args ix sp (fs ++ amount_text w ++ t); let '(sp2, ix2, s2) := r : spec * index * bytes in Ok (None : option N, sp2, ix2, s2))
    = (r <- width_step args ix (flagged sp fs) w; Ok (None, fst r, snd r, t))).
  { intros sp' fs' F'. rewrite parse_width_ok by assumption. destruct (width_step args ix (flagged sp' fs') w) as [[a b]| |]; reflexivity. }
  unfold parse_header. destruct (split_zeros fs) as (k & fs' & E & Z). subst fs.
  assert (F' : Forall (fun x => flag_char x = true) fs') by (apply Forall_app in F; apply F).
  destruct k as [|k].
  - change (repeat "0"%char 0 ++ fs') with fs' in *. destruct fs' as [|f fs'].
    + cbn [app]. rewrite flagged_nil. destruct w as [|n ds|]; cbn [amount_text].
      * cbn [app]. destruct ST as (T1 & ST'). rewrite T1. rewrite <- (app_nil_l t) at 1. change [] with (@nil ascii ++ amount_text NoAmount) at 1.
        rewrite <- app_assoc. rewrite PLAIN by constructor. rewrite flagged_nil. reflexivity.
      * destruct G as [W Z']. destruct (written_digit n ds W) as (d & ds' & E & D).
        assert (Pos := written_positive n ds W Z').
        replace (peek (ds ++ t)) with d by (rewrite E; reflexivity). rewrite D. rewrite (parse_int_written n) by (assumption || apply ST). cbn [bind].
        destruct ST as (_ & _ & _ & T4). rewrite T4. rewrite E in Z'. cbn [hd] in Z'.
        destruct (Ascii.eqb_spec d "0") as [->|_]; [contradiction|].
        destruct (N.eqb_spec n 0); [lia|]. reflexivity.
      * change (peek (B "*" ++ t)) with "*"%char. change (is_digit "*") with false. cbv iota.
        change (B "*" ++ t) with ([] ++ amount_text Asterisk ++ t). rewrite PLAIN by constructor. rewrite flagged_nil. reflexivity.
    + assert (D : is_digit f = false).
      { destruct (is_digit f) eqn:D; [|reflexivity]. exfalso. apply Z. cbn [hd]. apply digit_class; [exact D|].
        inversion F'; assumption. }
      change (peek ((f :: fs') ++ amount_text w ++ t)) with f. rewrite D. apply PLAIN. exact F'.
  - change (peek ((repeat "0"%char (S k) ++ fs') ++ amount_text w ++ t)) with "0"%char. change (is_digit "0") with true. cbv iota.
    change (Ascii.eqb "0" "0") with true. cbv iota. rewrite flagged_zeros.
    assert (ZZ : written 0 (repeat "0"%char (S k))).
    { split; [discriminate|]. split; [|reflexivity]. rewrite <- (app_nil_r (repeat _ _)). apply zeros_read. reflexivity. }
    rewrite <- app_assoc.
    assert (OTHER : is_digit (peek (fs' ++ amount_text w ++ t)) = false -> Ascii.eqb (peek (fs' ++ amount_text w ++ t)) "$" = false ->
      (ns <- parse_int (repeat "0"%char (S k) ++ fs' ++ amount_text w ++ t);
       (let (value, s1) := ns : N * bytes in
        if Ascii.eqb (peek s1) "$" then r <- parse_width args ix sp (tl s1); (let '(sp2, ix2, s2) := r : spec * index * bytes in Ok (Some value, sp2, ix2, s2))
        else if value =? 0 then r <- parse_width args ix (with_fill sp "0") s1; (let '(sp2, ix2, s2) := r : spec * index * bytes in Ok (None, sp2, ix2, s2))
        else Ok (None, with_width (with_fill sp "0") value, ix, s1)))
      = (r <- width_step args ix (flagged (with_fill sp "0") fs') w; Ok (None, fst r, snd r, t))).
    { intros D0 D1. rewrite (parse_int_written 0 _ _ ZZ D0). cbn [bind]. rewrite D1. change (0 =? 0) with true. cbv iota. apply PLAIN. exact F'. }
    destruct fs' as [|f fs'].
    + destruct w as [|n ds|].
      * apply OTHER; cbn [app amount_text]; apply ST.
      * clear OTHER. cbn [app amount_text]. destruct G as [W Z']. assert (Pos := written_positive n ds W Z').
        assert (W2 : written n (repeat "0"%char (S k) ++ ds)).
        { destruct W as (W0 & W1 & W2). split; [discriminate|]. split; [|exact W2]. apply zeros_read. exact W1. }
        rewrite app_assoc. rewrite (parse_int_written n _ t W2) by apply ST. cbn [bind]. destruct ST as (_ & _ & _ & T4). rewrite T4.
        destruct (N.eqb_spec n 0); [lia|]. rewrite flagged_nil. reflexivity.
      * apply OTHER; reflexivity.
    + assert (Hf : flag_char f = true) by (inversion F'; assumption). cbn [app peek hd] in OTHER. apply OTHER.
      * destruct (is_digit f) eqn:D; [|reflexivity]. exfalso. apply Z. cbn [hd]. apply digit_class; assumption.
      * apply flag_not. exact Hf.
Qed.

Lemma header_some args ix sp n pds fs w t : written n pds -> Forall (fun x => flag_char x = true) fs -> good_width w -> stops (peek t) -> (w = Asterisk -> t <> []) ->
  parse_header args ix sp ((pds ++ B "$") ++ fs ++ amount_text w ++ t) = (r <- width_step args ix (flagged sp fs) w; Ok (Some n, fst r, snd r, t)).
Proof.
  intros W F G ST TN. unfold parse_header. destruct (written_digit n pds W) as (d & ds' & E & D).
  replace (peek _) with d by (rewrite E; reflexivity). rewrite D. rewrite <- app_assoc. rewrite (parse_int_written n) by (assumption || reflexivity).
  cbn [bind B list_ascii_of_string app peek hd tl]. change (Ascii.eqb "$" "$") with true. cbv iota.
  rewrite parse_width_ok by assumption. destruct (width_step args ix (flagged sp fs) w) as [[a b]| |]; reflexivity.
Qed.

Definition precision_step (args : list arg) (ix : index) (sp : spec) (p : option amount) : result (spec * index) :=
  match p with
  | None | Some NoAmount => Ok (sp, ix)
  | Some (Given n _) => Ok (with_precision sp (Some n), ix)
  | Some Asterisk => ai <- get_arg args ix (B "*") None; sp2 <- precision_of sp (fst ai); Ok (sp2, snd ai)
  end.

Definition precision_text (p : option amount) : bytes := match p with Some a => "."%char :: amount_text a | None => [] end.

Lemma parse_precision_ok args ix sp p u : match p with Some (Given n ds) => written n ds | _ => True end ->
  letter (peek u) = true \/ (u = [] /\ p <> Some Asterisk) ->
  parse_precision args ix sp (precision_text p ++ u) = (r <- precision_step args ix sp p; Ok (fst r, snd r, u)).
Proof.
  intros G L. assert (LC : is_digit (peek u) = false /\ Ascii.eqb (peek u) "*" = false /\ Ascii.eqb (peek u) "." = false).
  { destruct L as [L|[-> _]]; [destruct (letter_class _ L) as (L1 & L2 & L3 & L4 & L5 & L6 & _)|]; auto. }
  destruct LC as (L1 & L3 & L5).
  assert (UN : p = Some Asterisk -> u <> []).
  { intros -> ->. destruct L as [L|[_ L]]; [discriminate L|congruence]. }
  destruct p as [[|n ds|]|]; cbn [precision_text amount_text].
  - cbn [app]. unfold parse_precision. change (Ascii.eqb "." ".") with true. cbv iota. rewrite L1.
    destruct u as [|c u]; [reflexivity|]. cbn [peek hd] in L3. rewrite L3. reflexivity.
  - unfold parse_precision. cbn [app]. change (Ascii.eqb "." ".") with true. cbv iota.
    destruct (written_digit n ds G) as (d & ds' & E & D).
    replace (peek (ds ++ u)) with d by (rewrite E; reflexivity). rewrite D. rewrite (parse_int_written n) by assumption. reflexivity.
  - unfold parse_precision. cbn [app]. change (Ascii.eqb "." ".") with true. cbv iota.
    change (peek (B "*" ++ u)) with "*"%char. change (is_digit "*") with false. cbv iota. change (B "*" ++ u) with ("*"%char :: u). cbv iota.
    rewrite (get_arg_any args ix u) by exact (UN eq_refl). change (Ascii.eqb "*" "*") with true. cbv iota. cbn [precision_step].
    destruct (get_arg args ix (B "*") None) as [[a ix']| |]; [|reflexivity|reflexivity]. cbn [bind fst snd].
    destruct (precision_of sp a); reflexivity.
  - cbn [app]. unfold parse_precision. destruct u as [|c u]; [reflexivity|]. cbn [peek hd] in L5. rewrite L5. reflexivity.
Qed.

Definition lengthen (l : bytes) (type : ascii) (a : arg) : arg :=
  if bytes_eqb l (B "L") then a
  else convert (if bytes_eqb l (B "hh") then LChar else if bytes_eqb l (B "h") then LShort else if bytes_eqb l (B "") then LInt else LWide) type a.

Lemma parse_length_ok a l c rest : In l lengths -> existsb (Ascii.eqb c) (B "hlLjzt") = false ->
  parse_length a (l ++ c :: rest) = (lengthen l c a, c :: rest).
Proof.
  intros I X. cbn [B list_ascii_of_string existsb] in X. rewrite orb_false_r in X.
  apply orb_false_iff in X; destruct X as [Xh X]. apply orb_false_iff in X; destruct X as [Xl X].
  apply orb_false_iff in X; destruct X as [XL X]. apply orb_false_iff in X; destruct X as [Xj X].
  apply orb_false_iff in X; destruct X as [Xz Xt].
  unfold lengths in I. repeat (destruct I as [<-|I]); [..|contradiction];
    cbn [B list_ascii_of_string app parse_length peek hd tl]; rewrite ?Xh, ?Xl, ?XL, ?Xj, ?Xz, ?Xt; reflexivity.
Qed.

Definition conv_args (args : list arg) (ix : index) (c : conversion) : result (spec * arg * index) :=
  r1 <- width_step args ix (flagged first_spec (c_flags c)) (c_width c);
  r2 <- precision_step args (snd r1) (fst r1) (c_precision c);
  ai <- get_arg args (snd r2) (B "*") (option_map fst (c_position c));
  let sp3 := adjust (fst r2) (fst ai) in
  let (a2, type) := normalize (lengthen (c_length c) (c_letter c) (fst ai)) (c_letter c) in
  Ok (with_type sp3 type, a2, snd ai).

Lemma length_starts c rest : well_formed c -> letter (peek (c_length c ++ c_letter c :: rest)) = true.
Proof.
  intros (_ & _ & _ & _ & I & L & _). unfold lengths in I. repeat (destruct I as [<-|I]); [..|contradiction]; try reflexivity. exact L.
Qed.

Section WithDoubles.
Variable dbl : spec -> N -> bytes.

Lemma conversion_ok args ix c rest o : well_formed c ->
  format_conversion dbl args ix (tl (conversion_text c) ++ rest) o
  = (r <- conv_args args ix c; let '(sp, a, ix') := r : spec * arg * index in o' <- print_arg dbl sp a o; Ok (o', ix', rest)).
Proof.
  intros W. assert (LS := length_starts c rest W). assert (W' := W). destruct W as (WP & WF & WW & WQ & WL & WT & WX).
  unfold format_conversion, conv_args.
  set (u := c_length c ++ c_letter c :: rest) in *.
  assert (UN : u <> []) by (unfold u; destruct (c_length c); discriminate).
  set (t := precision_text (c_precision c) ++ u).
  assert (TS : stops (peek t)).
  { unfold t. destruct (c_precision c); cbn [precision_text app peek hd]; [apply dot_stops|apply letter_stops; exact LS]. }
  assert (TN : t <> []) by (unfold t; destruct (c_precision c); [discriminate|exact UN]).
  assert (TX : tail_text c ++ rest = c_flags c ++ amount_text (c_width c) ++ t).
  { unfold tail_text, t, u, precision_text. rewrite <- !app_assoc. reflexivity. }
  assert (H : parse_header args ix first_spec (tl (conversion_text c) ++ rest)
    = (r <- width_step args ix (flagged first_spec (c_flags c)) (c_width c); Ok (option_map fst (c_position c), fst r, snd r, t))).
  { unfold conversion_text. cbn [tl]. rewrite <- app_assoc, TX. destruct (c_position c) as [[n ds]|]; cbn [option_map fst].
    - apply header_some; try assumption; [apply WP|intros _; exact TN].
    - apply header_none; try assumption. intros _; exact TN. }
  rewrite H. destruct (width_step args ix (flagged first_spec (c_flags c)) (c_width c)) as [[sp1 ix1]| |]; [|reflexivity|reflexivity].
  cbn [bind fst snd]. unfold t. rewrite parse_precision_ok by (assumption || left; assumption).
  destruct (precision_step args ix1 sp1 (c_precision c)) as [[sp2 ix2]| |]; [|reflexivity|reflexivity]. cbn [bind fst snd].
  rewrite (get_arg_any args ix2 u) by exact UN.
  destruct (get_arg args ix2 (B "*") (option_map fst (c_position c))) as [[a ix3]| |]; [|reflexivity|reflexivity]. cbn [bind fst snd].
  unfold u. rewrite parse_length_ok by assumption.
  destruct (normalize (lengthen (c_length c) (c_letter c) a) (c_letter c)) as [a2 ty]. cbn [bind]. reflexivity.
Qed.
End WithDoubles.

(** ---- arguments in turn ---- *)

Definition shift {A} (k : N) (r : result (A * index)) : result (A * index) :=
  match r with
  | Ok (x, Some i) => Ok (x, Some (k + i))
  | Ok (x, None) => Ok (x, None)
  | Error e => Error e
  | Undefined => Undefined
  end.

Lemma get_arg_shift args k j m s : (N.to_nat j < m)%nat ->
  get_arg args (Some (k + j)) s None = shift k (get_arg (firstn m (skipn (N.to_nat k) args)) (Some j) s None).
Proof.
  intros J. unfold get_arg, do_get_arg. rewrite N2Nat.inj_add.
  assert (E : nth_error (firstn m (skipn (N.to_nat k) args)) (N.to_nat j) = nth_error args (N.to_nat k + N.to_nat j)).
  { revert J. generalize (N.to_nat j), (N.to_nat k). clear. intros j k J. revert args m j J. induction k as [|k IH]; intros args m j J.
    - cbn [skipn Nat.add]. revert args j J. induction m as [|m IH]; intros args j J; [lia|].
      destruct args as [|a args]; cbn [firstn]; [destruct j; reflexivity|]. destruct j as [|j]; [reflexivity|]. cbn [nth_error]. apply IH. lia.
    - destruct args as [|a args]; cbn [skipn Nat.add nth_error]; [rewrite firstn_nil; destruct j; reflexivity|]. apply IH. exact J. }
  rewrite E. destruct (nth_error args (N.to_nat k + N.to_nat j)); cbn [shift]; [f_equal; f_equal; f_equal; lia|reflexivity].
Qed.

Lemma get_arg_next args i s a ix : get_arg args (Some i) s None = Ok (a, ix) -> ix = Some (i + 1).
Proof. unfold get_arg. destruct (do_get_arg args i); [|discriminate..]. intros H. injection H as _ <-. reflexivity. Qed.

Lemma conv_args_shift args k c : c_position c = None ->
  conv_args args (Some k) c = shift k (conv_args (firstn (needs c) (skipn (N.to_nat k) args)) (Some 0) c).
Proof.
  intros P. unfold conv_args. rewrite P. cbn [option_map].
  set (own := firstn (needs c) (skipn (N.to_nat k) args)).
  set (sp := flagged first_spec (c_flags c)).
  assert (LAST : forall i sp', (N.to_nat i < needs c)%nat ->
     (ai <- get_arg args (Some (k + i)) (B "*") None;
      (let sp3 := adjust sp' (fst ai) in
       let (a2, type) := normalize (lengthen (c_length c) (c_letter c) (fst ai)) (c_letter c) in Ok (with_type sp3 type, a2, snd ai)))
     = shift k (ai <- get_arg own (Some i) (B "*") None;
      (let sp3 := adjust sp' (fst ai) in
       let (a2, type) := normalize (lengthen (c_length c) (c_letter c) (fst ai)) (c_letter c) in Ok (with_type sp3 type, a2, snd ai)))).
  { intros i sp' I. rewrite (get_arg_shift args k i (needs c)) by exact I. fold own.
    destruct (get_arg own (Some i) (B "*") None) as [[a ix]| |] eqn:E; [|reflexivity|reflexivity].
    apply get_arg_next in E. subst ix. cbn [shift bind fst snd].
    destruct (normalize (lengthen (c_length c) (c_letter c) a) (c_letter c)). reflexivity. }
  assert (PREC : forall i sp', (N.to_nat i + (match c_precision c with Some Asterisk => 1 | _ => 0 end) < needs c)%nat ->
     (r2 <- precision_step args (Some (k + i)) sp' (c_precision c);
      ai <- get_arg args (snd r2) (B "*") None;
      (let sp3 := adjust (fst r2) (fst ai) in
       let (a2, type) := normalize (lengthen (c_length c) (c_letter c) (fst ai)) (c_letter c) in Ok (with_type sp3 type, a2, snd ai)))
     = shift k (r2 <- precision_step own (Some i) sp' (c_precision c);
      ai <- get_arg own (snd r2) (B "*") None;
      (let sp3 := adjust (fst r2) (fst ai) in
       let (a2, type) := normalize (lengthen (c_length c) (c_letter c) (fst ai)) (c_letter c) in Ok (with_type sp3 type, a2, snd ai)))).
  { intros i sp' I. destruct (c_precision c) as [[|n ds|]|]; cbn [precision_step bind fst snd]; try (apply LAST; lia).
    rewrite (get_arg_shift args k i (needs c)) by lia. fold own.
    destruct (get_arg own (Some i) (B "*") None) as [[a ix]| |] eqn:E; [|reflexivity|reflexivity].
    apply get_arg_next in E. subst ix. cbn [shift bind fst snd].
    destruct (precision_of sp' a) as [sp''| |]; [|reflexivity|reflexivity]. cbn [bind fst snd]. apply LAST. lia. }
  assert (ND : needs c = S (stars c)) by reflexivity. unfold stars in ND.
  rewrite <- (N.add_0_r k) at 1.
  destruct (c_width c) as [|n ds|]; cbn [width_step bind fst snd]; try (apply PREC; cbn; lia).
  rewrite (get_arg_shift args k 0 (needs c)) by (cbn; lia). fold own.
  destruct (get_arg own (Some 0) (B "*") None) as [[a ix]| |] eqn:E; [|reflexivity|reflexivity].
  apply get_arg_next in E. subst ix. cbn [shift bind fst snd].
  destruct (width_of sp a) as [sp'| |]; [|reflexivity|reflexivity]. cbn [bind fst snd]. apply PREC. cbn. lia.
Qed.

(** The index after a conversion. *)
Lemma conv_args_next args i c sp a ix : c_position c = None -> conv_args args (Some i) c = Ok (sp, a, ix) -> ix = Some (i + N.of_nat (needs c)).
Proof.
  intros P. unfold conv_args. rewrite P. cbn [option_map]. unfold needs, stars.
  assert (LAST : forall j sp', 
     (ai <- get_arg args (Some j) (B "*") None;
      (let sp3 := adjust sp' (fst ai) in
       let (a2, type) := normalize (lengthen (c_length c) (c_letter c) (fst ai)) (c_letter c) in Ok (with_type sp3 type, a2, snd ai)))
     = Ok (sp, a, ix) -> ix = Some (j + 1)).
  { intros j sp'. destruct (get_arg args (Some j) (B "*") None) as [[b ix']| |] eqn:E; [|discriminate..].
    apply get_arg_next in E. subst ix'. cbn [bind fst snd]. destruct (normalize _ _). intros H. injection H as _ _ <-. reflexivity. }
  assert (PREC : forall j sp',
     (r2 <- precision_step args (Some j) sp' (c_precision c);
      ai <- get_arg args (snd r2) (B "*") None;
      (let sp3 := adjust (fst r2) (fst ai) in
       let (a2, type) := normalize (lengthen (c_length c) (c_letter c) (fst ai)) (c_letter c) in Ok (with_type sp3 type, a2, snd ai)))
     = Ok (sp, a, ix) -> ix = Some (j + N.of_nat (match c_precision c with Some Asterisk => 1 | _ => 0 end) + 1)).
  { intros j sp'. destruct (c_precision c) as [[|n ds|]|]; cbn [precision_step bind fst snd]; intros H; try (apply LAST in H; rewrite H; apply f_equal; lia).
    destruct (get_arg args (Some j) (B "*") None) as [[b ix']| |] eqn:E; [|discriminate..]. apply get_arg_next in E. subst ix'. cbn [bind fst snd] in H.
    destruct (precision_of sp' b); [|discriminate..]. cbn [bind fst snd] in H. apply LAST in H. rewrite H. apply f_equal. lia. }
  destruct (c_width c) as [|n ds|]; cbn [width_step bind fst snd]; intros H; try (apply PREC in H; rewrite H; apply f_equal; lia).
  destruct (get_arg args (Some i) (B "*") None) as [[b ix']| |] eqn:E; [|discriminate..]. apply get_arg_next in E. subst ix'. cbn [bind fst snd] in H.
  destruct (width_of _ b); [|discriminate..]. cbn [bind fst snd] in H. apply PREC in H. rewrite H. apply f_equal. lia.
Qed.

(** ---- printing: the text does not depend on what has been printed, except that the buffer may move ---- *)

Lemma put_length cs : forall i c cs', put cs i c = Some cs' -> length cs' = length cs.
Proof.
  induction cs as [|x cs IH]; intros i c cs' H; cbn [put] in H; [discriminate|].
  destruct i as [|i]; [injection H as <-; reflexivity|]. destruct (put cs i c) as [cs''|] eqn:E; [|discriminate].
  cbn [option_map] in H. injection H as <-. cbn [length]. f_equal. eapply IH. exact E.
Qed.
Lemma put_back_length s : forall cs l cs', put_back cs l s = Some cs' -> length cs' = length cs.
Proof.
  induction s as [|c s IH]; intros cs l cs' H; cbn [put_back] in H; [congruence|].
  destruct l as [|i]; [discriminate|]. destruct (put cs i c) as [cs''|] eqn:E; [|discriminate].
  apply IH in H. apply put_length in E. congruence.
Qed.
Lemma all_stored_length cs : forall t, all_stored cs = Some t -> length t = length cs.
Proof.
  induction cs as [|[c|] cs IH]; intros t H; cbn [all_stored] in H; [injection H as <-; reflexivity| |discriminate].
  destruct (all_stored cs) as [t'|]; [|discriminate]. cbn [option_map] in H. injection H as <-. cbn [length]. f_equal. apply IH. reflexivity.
Qed.
Lemma fill_digits_length nd back sp prefix t : fill_digits (Some nd) back sp prefix = Ok t ->
  length_N t = N.max (sp_width sp) (length_N prefix + nd).
Proof.
  unfold fill_digits. destruct back as [s|]; [|discriminate].
  assert (L : length_N (fst (prepare_int_buffer nd sp prefix)) = N.max (sp_width sp) (length_N prefix + nd)).
  { unfold prepare_int_buffer. cbv zeta.
    assert (K : forall n, length_N (blank n) = n) by (intros; unfold blank; rewrite length_N_repeat; lia).
    assert (K2 : forall c n, length_N (filled c n) = n) by (intros; unfold filled; rewrite length_N_repeat; lia).
    assert (K3 : forall s, length_N (stored s) = length_N s) by (intros; unfold stored, length_N; rewrite map_length; reflexivity).
    assert (Hf := half_bounds (sp_width sp - (length_N prefix + nd))).
    set (h := (sp_width sp - (length_N prefix + nd)) / 2) in *. clearbody h.
    destruct (N.leb_spec (sp_width sp) (length_N prefix + nd)); [|destruct (sp_align sp)]; cbn [fst]; rewrite !length_N_app, ?K, ?K2, ?K3; lia. }
  destruct (prepare_int_buffer nd sp prefix) as [cs l]. cbn [fst] in L.
  destruct (put_back cs (N.to_nat l) s) as [cs'|] eqn:E1; [|discriminate]. destruct (all_stored cs') as [t'|] eqn:E2; [|discriminate].
  intros H. injection H as <-. apply put_back_length in E1. apply all_stored_length in E2. unfold length_N in *. rewrite E2, E1. exact L.
Qed.

Definition int_text (nd : option N) (back : option bytes) (sp : spec) (prefix : bytes) : result bytes :=
  match nd, sp_precision sp with
  | Some n, Some q =>
      if n <? q then
        let prefix' := drop_zero prefix in
        let number_size := length_N prefix' + q in
        number <- fill_digits nd back (Spec number_size "0" ANumeric false false false false None NUL) prefix';
        if sp_width sp <=? number_size then Ok number
        else
          let fill := repeat (sp_fill sp) (N.to_nat (sp_width sp - number_size)) in
          Ok (match sp_align sp with ALeft => number ++ fill | _ => fill ++ number end)
      else fill_digits nd back sp prefix
  | _, _ => fill_digits nd back sp prefix
  end.
Definition write_int_text (w : word) (value : Z) (sp : spec) : result bytes :=
  p <- int_parts w value sp; let '(nd, back, prefix) := p : option N * option bytes * bytes in int_text nd back sp prefix.
Definition char_of (value : Z) (sp : spec) : bytes :=
  let c := chr (Z.to_N (value mod 256)) in
  let fill := repeat " "%char (N.to_nat (sp_width sp - 1)) in
  match sp_align sp with ALeft => c :: fill | _ => fill ++ [c] end.
Definition write_char_text (value : Z) (sp : spec) : result bytes :=
  t <- (if negb (Ascii.eqb (sp_type sp) NUL) && negb (Ascii.eqb (sp_type sp) "c") then write_int_text W32 value sp else Ok []);
  Ok (t ++ char_of value sp).
Definition print_text (dbl : spec -> N -> bytes) (sp : spec) (a : arg) : result bytes :=
  match a with
  | AInt z => write_int_text W32 z sp
  | AUint n => write_int_text W32 (Z.of_N n) sp
  | ALong z => write_int_text W64 z sp
  | AUlong n => write_int_text W64 (Z.of_N n) sp
  | ABool b => if negb (Ascii.eqb (sp_type sp) NUL) then write_int_text W32 (if b then 1 else 0)%Z sp else write_bool b sp
  | AChar z => write_char_text z sp
  | ADouble bits => if is_float_type (sp_type sp) then Ok (dbl sp bits) else Error EUnknownType
  | ACString p => write_string p 0 sp
  | AString p size => write_string p size sp
  end.

(** The specifications with which the buffer may move under a pointer. *)
Definition moves (sp : spec) : bool :=
  match sp_align sp, sp_precision sp with ALeft, Some _ => true | _, _ => false end.

Lemma grown_ge c n : c <= grown c n /\ n <= grown c n.
Proof. unfold grown. destruct (N.ltb_spec c n); lia. Qed.
Lemma grown_same c n : n <= c -> grown c n = c.
Proof. unfold grown. destruct (N.ltb_spec c n); lia. Qed.

(** [t] is appended. *)
Definition appended (o : out) (t : bytes) (r : result out) : Prop :=
  exists cap, 500 <= cap /\ r = Ok (Out (o_text o ++ t) cap).
Definition still (sp : spec) (o : out) (t : bytes) : Prop :=
  moves sp = false \/ length_N (o_text o) + length_N t <= 500 \/ o_text o = [].

Definition printed (sp : spec) (o : out) (expected : result bytes) (r : result out) : Prop :=
  match expected with
  | Ok t => still sp o t -> appended o t r
  | Error e => r = Error e
  | Undefined => r = Undefined
  end.

Lemma add_appended o t : 500 <= o_capacity o -> appended o t (Ok (add o t)).
Proof. intros C. eexists. split; [|reflexivity]. destruct (grown_ge (o_capacity o) (length_N (o_text o) + length_N t)). cbn. lia. Qed.

Lemma fill_int_printed nd back sp prefix o : 500 <= o_capacity o ->
  printed sp o (int_text nd back sp prefix) (fill_int nd back sp prefix o).
Proof.
  intros C. unfold fill_int, int_text.
  assert (PLAIN : printed sp o (fill_digits nd back sp prefix) (t <- fill_digits nd back sp prefix; Ok (add o t))).
  { destruct (fill_digits nd back sp prefix) as [t| |]; cbn [bind printed]; [|reflexivity|reflexivity]. intros _. apply add_appended. exact C. }
  destruct nd as [n|]; [|exact PLAIN]. destruct (sp_precision sp) as [q|] eqn:PQ; [|exact PLAIN].
  destruct (N.ltb_spec n q) as [Q|Q]; [|exact PLAIN]. cbv zeta.
  set (prefix' := drop_zero prefix). set (ns := length_N prefix' + q).
  destruct (fill_digits (Some n) back (Spec ns "0" ANumeric false false false false None NUL) prefix') as [number| |] eqn:E;
    cbn [bind]; [|reflexivity|reflexivity].
  assert (L := fill_digits_length _ _ _ _ _ E). cbn [sp_width] in L. assert (L' : length_N number = ns) by (unfold ns in *; lia). clear L E.
  destruct (N.leb_spec (sp_width sp) ns) as [W|W]; [intros _; apply add_appended; exact C|].
  set (fill := repeat (sp_fill sp) (N.to_nat (sp_width sp - ns))).
  assert (LF : length_N fill = sp_width sp - ns) by (unfold fill; rewrite length_N_repeat; lia).
  clearbody fill prefix' ns.
  assert (RIGHT : printed sp o (Ok (fill ++ number)) (Ok (add (add (reserve o (sp_width sp)) fill) number))).
  { intros _. destruct (add_appended (add (reserve o (sp_width sp)) fill) number) as (cap & C1 & C2).
    { cbn [add reserve o_capacity o_text]. destruct (grown_ge (o_capacity o) (sp_width sp)).
      destruct (grown_ge (grown (o_capacity o) (sp_width sp)) (length_N (o_text o) + length_N fill)). lia. }
    exists cap. split; [exact C1|]. rewrite C2. cbn [add reserve o_text]. rewrite <- app_assoc. reflexivity. }
  destruct (sp_align sp) eqn:AL; try exact RIGHT.
  intros S. cbn [add reserve o_capacity o_text]. rewrite length_N_app.
  set (cap1 := grown (o_capacity o) (sp_width sp)). set (cap2 := grown cap1 (length_N (o_text o) + length_N number)).
  assert (G1 := grown_ge (o_capacity o) (sp_width sp)). fold cap1 in G1.
  assert (SAME : grown cap2 (length_N (o_text o) + length_N number + length_N fill) = cap2).
  { apply grown_same. unfold cap2. assert (G2 := grown_ge cap1 (length_N (o_text o) + length_N number)).
    destruct S as [S|[S|S]].
    - unfold moves in S. rewrite AL, PQ in S. discriminate.
    - rewrite length_N_app in S. lia.
    - rewrite S in *. change (length_N (@nil ascii)) with 0 in *. lia. }
  rewrite SAME, N.eqb_refl. exists cap2. split.
  - unfold cap2. assert (G2 := grown_ge cap1 (length_N (o_text o) + length_N number)). lia.
  - f_equal. unfold add at 1. cbn [add reserve o_capacity o_text]. fold cap1 cap2. rewrite !length_N_app, SAME, app_assoc. reflexivity.
Qed.

Lemma write_int_printed w z sp o : 500 <= o_capacity o -> printed sp o (write_int_text w z sp) (write_int w z sp o).
Proof.
  intros C. unfold write_int_text, write_int. destruct (int_parts w z sp) as [[[nd back] prefix]| |]; cbn [bind]; [|reflexivity|reflexivity].
  apply fill_int_printed. exact C.
Qed.

Lemma plain_printed sp o r : 500 <= o_capacity o -> printed sp o r (t <- r; Ok (add o t)).
Proof. intros C. destruct r as [t| |]; cbn [bind printed]; [|reflexivity|reflexivity]. intros _. apply add_appended. exact C. Qed.

Lemma still_part sp o a b : still sp o (a ++ b) -> still sp o a.
Proof. intros [S|[S|S]]; [left; exact S| |right; right; exact S]. right. left. rewrite length_N_app in S. lia. Qed.

Lemma print_arg_printed dbl sp a o : 500 <= o_capacity o -> printed sp o (print_text dbl sp a) (print_arg dbl sp a o).
Proof.
  intros C. destruct a as [z|n|z|n|b|z|bits|p|p size]; cbn [print_text print_arg]; try (apply write_int_printed; exact C); try (apply plain_printed; exact C).
  - destruct (negb (Ascii.eqb (sp_type sp) NUL)); [apply write_int_printed; exact C|apply plain_printed; exact C].
  - unfold write_char_text, PrintfModel.write_char. fold (char_of z sp).
    destruct (negb (Ascii.eqb (sp_type sp) NUL) && negb (Ascii.eqb (sp_type sp) "c")).
    + assert (W := write_int_printed W32 z sp o C). destruct (write_int_text W32 z sp) as [t| |]; cbn [printed bind] in W |- *; [|rewrite W; reflexivity..].
      intros S. destruct (W (still_part _ _ _ _ S)) as (cap & C1 & ->). cbn [bind].
      destruct (add_appended (Out (o_text o ++ t) cap) (char_of z sp) C1) as (cap' & C2 & E).
      exists cap'. split; [exact C2|]. cbv zeta. fold (char_of z sp). rewrite E. cbn [o_text]. rewrite <- app_assoc. reflexivity.
    + cbn [bind printed app]. intros _. apply add_appended. exact C.
  - destruct (is_float_type (sp_type sp)); [|reflexivity]. intros _. unfold add_double.
    destruct (_ =? 2047); [apply add_appended; exact C|]. cbv zeta.
    set (o1 := if (2 ^ 63 <=? bits) || sp_sign sp then reserve o (length_N (o_text o) + N.max (sp_width sp) 1) else o).
    assert (C1 : 500 <= o_capacity o1 /\ o_text o1 = o_text o).
    { unfold o1. destruct ((2 ^ 63 <=? bits) || sp_sign sp); [|split; [exact C|reflexivity]]. split; [|reflexivity]. cbn [reserve o_capacity].
      destruct (grown_ge (o_capacity o) (length_N (o_text o) + N.max (sp_width sp) 1)). lia. }
    clearbody o1. set (o2 := if _ <? _ then o1 else _).
    assert (C2 : 500 <= o_capacity o2 /\ o_text o2 = o_text o).
    { unfold o2. destruct (_ <? _); [exact C1|]. split; [|apply C1]. cbn [reserve o_capacity].
      destruct (grown_ge (o_capacity o1) (length_N (o_text o) + length_N (dbl sp bits) + 1)). lia. }
    clearbody o2. destruct C2 as [C2 T2]. destruct (add_appended o2 (dbl sp bits) C2) as (cap & C3 & E). exists cap. split; [exact C3|]. rewrite E, T2. reflexivity.
Qed.

(** ---- the specification of a conversion ---- *)

Lemma adjust_align sp a : sp_align sp <> ALeft -> sp_align (adjust sp a) <> ALeft.
Proof.
  intros H. unfold adjust. cbv zeta. destruct (sp_hash sp && _); cbn [with_hash sp_fill];
    (destruct (Ascii.eqb _ "0"); [destruct (is_numeric a)|]); cbn; try exact H; discriminate.
Qed.
Lemma adjust_precision sp a : sp_precision (adjust sp a) = sp_precision sp.
Proof.
  unfold adjust. cbv zeta. destruct (sp_hash sp && _); cbn [with_hash sp_fill];
    (destruct (Ascii.eqb _ "0"); [destruct (is_numeric a)|]); reflexivity.
Qed.

Lemma width_step_precision args ix sp w r : width_step args ix sp w = Ok r -> sp_precision (fst r) = sp_precision sp.
Proof.
  destruct w as [|n ds|]; cbn [width_step]; try (intros H; injection H as <-; reflexivity).
  destruct (get_arg args ix (B "*") None) as [[a ix']| |]; [|discriminate..]. cbn [bind fst snd]. unfold width_of.
  destruct (int_value a) as [[v b]|]; [|discriminate]. destruct (INT_MAX <? _); [discriminate|]. cbn [bind]. intros H. injection H as <-.
  destruct (v <? 0)%Z; reflexivity.
Qed.
Lemma width_step_align args ix sp w r : width_step args ix sp w = Ok r -> match w with Asterisk => False | _ => True end -> sp_align (fst r) = sp_align sp.
Proof. destruct w as [|n ds|]; cbn [width_step]; try (intros H; injection H as <-; reflexivity). contradiction. Qed.
Lemma precision_step_align args ix sp p r : precision_step args ix sp p = Ok r -> sp_align (fst r) = sp_align sp.
Proof.
  destruct p as [[|n ds|]|]; cbn [precision_step]; try (intros H; injection H as <-; reflexivity).
  destruct (get_arg args ix (B "*") None) as [[a ix']| |]; [|discriminate..]. cbn [bind fst snd]. unfold precision_of.
  destruct (int_value a) as [[v b]|]; [|discriminate]. destruct (_ && _)%Z; [|discriminate]. cbn [bind]. intros H. injection H as <-. reflexivity.
Qed.

Lemma conv_args_still args ix c sp a ix' : left_precise c = false -> conv_args args ix c = Ok (sp, a, ix') -> moves sp = false.
Proof.
  intros LP. unfold conv_args.
  destruct (width_step args ix (flagged first_spec (c_flags c)) (c_width c)) as [r1| |] eqn:E1; [|discriminate..]. cbn [bind].
  destruct (precision_step args (snd r1) (fst r1) (c_precision c)) as [r2| |] eqn:E2; [|discriminate..]. cbn [bind].
  destruct (get_arg args (snd r2) (B "*") (option_map fst (c_position c))) as [[a0 ix0]| |]; [|discriminate..]. cbn [bind fst snd].
  destruct (normalize _ _) as [a2 ty]. intros H. injection H as <- _ _.
  unfold moves. cbn [with_type sp_align sp_precision]. unfold left_precise in LP. destruct (c_precision c) as [p|].
  - apply orb_false_iff in LP. destruct LP as [L1 L2].
    assert (A1 := width_step_align _ _ _ _ _ E1). assert (A2 := precision_step_align _ _ _ _ _ E2).
    assert (A : sp_align (fst r2) <> ALeft).
    { rewrite A2, A1 by (destruct (c_width c); [exact I..|discriminate L2]). cbn [flagged sp_align first_spec with_align].
      unfold flag in L1. unfold has. rewrite L1. discriminate. }
    apply (adjust_align _ a0) in A. destruct (sp_align (adjust (fst r2) a0)); [contradiction|reflexivity..].
  - rewrite adjust_precision. cbn [precision_step] in E2. injection E2 as <-. cbn [fst]. rewrite (width_step_precision _ _ _ _ _ E1).
    cbn. destruct (sp_align _); reflexivity.
Qed.

(** ---- format strings ---- *)

Lemma conversion_first c rest : well_formed c -> Ascii.eqb (peek (tl (conversion_text c) ++ rest)) "%" = false.
Proof.
  intros W. assert (LS := length_starts c rest W). destruct W as (WP & WF & WW & WQ & WL & WT & WX).
  assert (D : forall n ds s, written n ds -> Ascii.eqb (peek (ds ++ s)) "%" = false).
  { intros n ds s H. destruct (written_digit n ds H) as (d & ds' & -> & D). cbn [app peek hd].
    destruct (Ascii.eqb_spec d "%") as [->|_]; [discriminate D|reflexivity]. }
  unfold conversion_text. cbn [tl]. rewrite <- app_assoc. destruct (c_position c) as [[n ds]|]; [rewrite <- app_assoc; apply (D n); apply WP|].
  cbn [app]. unfold tail_text. rewrite <- !app_assoc. destruct (c_flags c) as [|f fs].
  - cbn [app]. destruct (c_width c) as [|n ds|]; cbn [amount_text]; [|apply (D n); apply WW|reflexivity]. cbn [app].
    destruct (c_precision c); [reflexivity|]. cbn [app].
    destruct (Ascii.eqb_spec (peek (c_length c ++ c_letter c :: rest)) "%") as [E|_]; [|reflexivity].
    rewrite E in LS. discriminate LS.
  - cbn [app peek hd]. inversion WF as [|? ? Hf _]. destruct (flag_not f Hf) as (_ & _ & _ & N0). destruct (Ascii.eqb_spec f "%"); [contradiction|reflexivity].
Qed.

Lemma in_app_not (x : ascii) a b : ~ In x a -> ~ In x b -> ~ In x (a ++ b).
Proof. intros A C H. apply in_app_or in H. destruct H; auto. Qed.
Lemma digits_not_nul ds : forall acc v, read_digits 10 acc ds = Some v -> ~ In NUL ds.
Proof.
  induction ds as [|c ds IH]; intros acc v R; [intros []|]. cbn [read_digits] in R.
  destruct (digit_number c) as [d|] eqn:E; [|discriminate]. destruct (d <? 10); [|discriminate].
  intros [->|I]; [discriminate E|]. exact (IH _ _ R I).
Qed.
Lemma conversion_no_nul c : well_formed c -> ~ In NUL (conversion_text c).
Proof.
  intros (WP & WF & WW & WQ & WL & WT & WX). unfold conversion_text, tail_text.
  assert (A : forall a, match a with Given n ds => written n ds | _ => True end -> ~ In NUL (amount_text a)).
  { intros [|n ds|] H; cbn [amount_text]; [intros []| |intros [H0|[]]; discriminate H0]. destruct H as (_ & R & _). eapply digits_not_nul. exact R. }
  intros [H|H]; [discriminate H|]. revert H. apply in_app_not; [|apply in_app_not; [|apply in_app_not; [|apply in_app_not; [|apply in_app_not]]]].
  - destruct (c_position c) as [[n ds]|]; [|intros []]. apply in_app_not; [|intros [H|[]]; discriminate H]. destruct WP as [(_ & R & _) _]. eapply digits_not_nul. exact R.
  - intros I. rewrite Forall_forall in WF. specialize (WF _ I). discriminate WF.
  - apply A. destruct (c_width c); [exact I|apply WW|exact I].
  - destruct (c_precision c) as [a|]; [|intros []]. intros [H|H]; [discriminate H|]. revert H. apply A. destruct a; [exact I|exact WQ|exact I].
  - unfold lengths in WL. repeat (destruct WL as [<-|WL]); [..|contradiction]; cbn; intuition discriminate.
  - intros [H|[]]. rewrite H in WT. discriminate WT.
Qed.

Lemma skipn_twice {A} (l : list A) b : forall a, skipn a (skipn b l) = skipn (a + b) l.
Proof.
  revert l. induction b as [|b IH]; intros l a; [rewrite Nat.add_0_r; reflexivity|]. rewrite Nat.add_succ_r.
  destruct l as [|x l]; [rewrite !skipn_nil; reflexivity|]. cbn [skipn]. apply IH.
Qed.

Section Run.
Variable dbl : spec -> N -> bytes.

Lemma go_conversion fuel args ix lit c rest o : well_formed c ->
  format_go dbl args (S fuel) ix lit (conversion_text c ++ rest) o
  = (r <- conv_args args ix c; let '(sp, a, ix') := r : spec * arg * index in
     o' <- print_arg dbl sp a (write_literal o lit); format_go dbl args fuel ix' [] rest o').
Proof.
  intros W. assert (F := conversion_first c rest W). assert (K := fun o => conversion_ok dbl args ix c rest o W).
  change (conversion_text c ++ rest) with ("%"%char :: tl (conversion_text c) ++ rest). cbn [format_go].
  change (negb (Ascii.eqb "%" "%")) with false. cbv iota. rewrite F, K.
  destruct (conv_args args ix c) as [[[sp a] ix']| |]; [|reflexivity|reflexivity]. cbn [bind].
  destruct (print_arg dbl sp a (write_literal o lit)); reflexivity.
Qed.

Lemma alone_ok c args : well_formed c ->
  sprintf dbl (conversion_text c) args = (r <- conv_args args (Some 0) c; let '(sp, a, _) := r : spec * arg * index in print_text dbl sp a).
Proof.
  intros W. unfold sprintf. rewrite c_string_id by (apply conversion_no_nul; exact W).
  replace (format_go dbl args (S (length (conversion_text c))) (Some 0) [] (conversion_text c) start)
    with (format_go dbl args (S (length (conversion_text c))) (Some 0) [] (conversion_text c ++ []) start) by (rewrite app_nil_r; reflexivity).
  rewrite go_conversion by exact W. destruct (conv_args args (Some 0) c) as [[[sp a] ix]| |]; [|reflexivity|reflexivity]. cbn [bind].
  assert (P := print_arg_printed dbl sp a start). cbn [write_literal]. specialize (P ltac:(cbn; lia)).
  destruct (print_text dbl sp a) as [t| |]; cbn [printed] in P; [|rewrite P; reflexivity..].
  destruct (P ltac:(right; right; reflexivity)) as (cap & _ & ->). cbn [bind].
  change (conversion_text c) with ("%"%char :: tl (conversion_text c)). reflexivity.
Qed.

Lemma literal_app o a : 500 <= o_capacity o -> exists cap, 500 <= cap /\ write_literal o a = Out (o_text o ++ a) cap.
Proof.
  intros C. destruct a as [|x a]; cbn [write_literal].
  - exists (o_capacity o). split; [exact C|]. rewrite app_nil_r. destruct o. reflexivity.
  - eexists. split; [|reflexivity]. destruct (grown_ge (o_capacity o) (length_N (o_text o) + length_N (x :: a))). lia.
Qed.

Lemma run_literal args ix s : forall fuel lit rest o, (length (flat_map percent_text s ++ rest) < fuel)%nat -> 500 <= o_capacity o ->
  exists fuel' lit' o', (length rest < fuel')%nat /\ 500 <= o_capacity o' /\ o_text o' ++ lit' = o_text o ++ lit ++ s
    /\ format_go dbl args fuel ix lit (flat_map percent_text s ++ rest) o = format_go dbl args fuel' ix lit' rest o'.
Proof.
  induction s as [|c s IH]; intros fuel lit rest o L C.
  - exists fuel, lit, o. cbn [flat_map app] in *. rewrite app_nil_r. auto.
  - destruct fuel as [|fuel]; [lia|]. cbn [flat_map] in *. rewrite <- app_assoc in *. unfold percent_text at 1. unfold percent_text at 1 in L.
    destruct (Ascii.eqb_spec c "%") as [->|N0].
    + cbn [B list_ascii_of_string app] in *. cbn [format_go]. change (negb (Ascii.eqb "%" "%")) with false. cbn [peek hd tl]. change (Ascii.eqb "%" "%") with true. cbv iota.
      destruct (literal_app o (lit ++ ["%"%char]) C) as (cap & C1 & ->).
      destruct (IH fuel [] rest (Out (o_text o ++ lit ++ ["%"%char]) cap)) as (f' & l' & o' & F1 & F2 & F3 & F4); [cbn [length] in L; lia|exact C1|].
      exists f', l', o'. split; [exact F1|]. split; [exact F2|]. split; [|exact F4]. rewrite F3. cbn [o_text app]. rewrite <- !app_assoc. reflexivity.
    + cbn [app] in *. cbn [format_go]. destruct (Ascii.eqb_spec c "%"); [contradiction|]. cbn [negb].
      destruct (IH fuel (lit ++ [c]) rest o) as (f' & l' & o' & F1 & F2 & F3 & F4); [cbn [length] in L; lia|exact C|].
      exists f', l', o'. split; [exact F1|]. split; [exact F2|]. split; [|exact F4]. rewrite F3. rewrite <- app_assoc. reflexivity.
Qed.

Definition alone (c : conversion) (args : list arg) : result bytes := sprintf dbl (conversion_text c) args.

Lemma run_pieces args ps : forall k fuel lit o, Forall good_piece ps -> (length (format_text ps) < fuel)%nat -> 500 <= o_capacity o ->
  (existsb piece_left_precise ps = false
   \/ exists out, in_turn alone (share ps (skipn (N.to_nat k) args)) = Ok out /\ length_N (o_text o ++ lit) + length_N out <= 500) ->
  match in_turn alone (share ps (skipn (N.to_nat k) args)) with
  | Ok out => exists cap, format_go dbl args fuel (Some k) lit (format_text ps) o = Ok (Out ((o_text o ++ lit) ++ out) cap)
  | Error e => format_go dbl args fuel (Some k) lit (format_text ps) o = Error e
  | Undefined => format_go dbl args fuel (Some k) lit (format_text ps) o = Undefined
  end.
Proof.
  induction ps as [|p ps IH]; intros k fuel lit o G L C S.
  - cbn [share in_turn format_text flat_map]. destruct fuel as [|fuel]; [cbn in L; lia|]. cbn [format_go].
    destruct (literal_app o lit C) as (cap & _ & ->). exists cap. rewrite app_nil_r. reflexivity.
  - inversion G as [|? ? GP GS]. subst. cbn [format_text flat_map] in *. fold (format_text ps) in *.
    destruct p as [s|c].
    + cbn [piece_text share in_turn] in *.
      destruct (run_literal args (Some k) s fuel lit (format_text ps) o L C) as (f' & l' & o' & F1 & F2 & F3 & F4). rewrite F4.
      assert (S' : existsb piece_left_precise ps = false
        \/ exists out, in_turn alone (share ps (skipn (N.to_nat k) args)) = Ok out /\ length_N (o_text o' ++ l') + length_N out <= 500).
      { destruct S as [S|(out & S1 & S2)]; [left; exact S|]. right.
        destruct (in_turn alone (share ps (skipn (N.to_nat k) args))) as [out'| |]; [|discriminate..]. injection S1 as <-. exists out'. split; [reflexivity|].
        rewrite F3. rewrite !length_N_app in *. lia. }
      assert (R := IH k f' l' o' GS F1 F2 S').
      destruct (in_turn alone (share ps (skipn (N.to_nat k) args))) as [out| |]; [|exact R..].
      destruct R as (cap & ->). exists cap. rewrite F3, <- !app_assoc. reflexivity.
    + destruct GP as [W P]. cbn [piece_text share in_turn] in *. destruct fuel as [|fuel]; [lia|].
      rewrite go_conversion by exact W. rewrite (conv_args_shift args k c P).
      set (own := firstn (needs c) (skipn (N.to_nat k) args)) in *. rewrite skipn_twice in *.
      assert (AL := alone_ok c own W). unfold alone at 1. unfold alone at 1 in S. rewrite AL in *.
      destruct (conv_args own (Some 0) c) as [[[sp a] ix]| |] eqn:E; cbn [bind shift] in *; [|reflexivity|reflexivity].
      rewrite (conv_args_next _ _ _ _ _ _ P E). cbn [bind]. rewrite N.add_0_l.
      destruct (literal_app o lit C) as (cap & C1 & E1). rewrite E1.
      assert (PR := print_arg_printed dbl sp a (Out (o_text o ++ lit) cap) C1).
      destruct (print_text dbl sp a) as [t| |]; cbn [printed] in PR; [|rewrite PR; reflexivity..].
      assert (ST : still sp (Out (o_text o ++ lit) cap) t).
      { destruct S as [S|(out & S1 & S2)].
        - left. cbn [existsb piece_left_precise] in S. apply orb_false_iff in S. eapply conv_args_still; [apply S|exact E].
        - right. left. cbn [o_text]. destruct (in_turn alone _); [|discriminate..]. injection S1 as <-. rewrite !length_N_app in *. lia. }
      destruct (PR ST) as (cap2 & C2 & ->). cbn [bind].
      replace (needs c + N.to_nat k)%nat with (N.to_nat (k + N.of_nat (needs c))) in * by lia.
      assert (S' : existsb piece_left_precise ps = false
        \/ exists out, in_turn alone (share ps (skipn (N.to_nat (k + N.of_nat (needs c))) args)) = Ok out
             /\ length_N (o_text (Out ((o_text o ++ lit) ++ t) cap2) ++ []) + length_N out <= 500).
      { destruct S as [S|(out & S1 & S2)]; [left; cbn [existsb] in S; apply orb_false_iff in S; apply S|]. right.
        destruct (in_turn alone _) as [out'| |]; [|discriminate..]. injection S1 as <-. exists out'. split; [reflexivity|].
        cbn [o_text]. rewrite app_nil_r. rewrite !length_N_app in *. lia. }
      assert (FL : (length (format_text ps) < fuel)%nat).
      { rewrite app_length in L. unfold conversion_text in L. cbn [length] in L. lia. }
      assert (R := IH (k + N.of_nat (needs c)) fuel [] (Out ((o_text o ++ lit) ++ t) cap2) GS FL C2 S').
      cbn [o_text] in R |- *. rewrite app_nil_r in R.
      destruct (in_turn alone (share ps (skipn (N.to_nat (k + N.of_nat (needs c))) args))) as [out| |]; [|exact R..].
      destruct R as (cap3 & ->). exists cap3. rewrite <- !app_assoc. reflexivity.
Qed.

Lemma percent_no_nul s : ~ In NUL s -> ~ In NUL (flat_map percent_text s).
Proof.
  intros H I. apply in_flat_map in I. destruct I as (c & C1 & C2). unfold percent_text in C2.
  destruct (Ascii.eqb_spec c "%") as [->|_]; [destruct C2 as [E|[E|[]]]; discriminate E|]. destruct C2 as [->|[]]. contradiction.
Qed.
Lemma format_no_nul ps : Forall good_piece ps -> ~ In NUL (format_text ps).
Proof.
  induction ps as [|p ps IH]; intros G; [intros []|]. inversion G as [|? ? GP GS]. subst. cbn [format_text flat_map]. apply in_app_not; [|apply IH; exact GS].
  destruct p as [s|c]; cbn [piece_text]; [apply percent_no_nul; exact GP|apply conversion_no_nul; apply GP].
Qed.

Lemma sprintf_pieces ps args : Forall good_piece ps ->
  (existsb piece_left_precise ps = false \/ exists out, in_turn alone (share ps args) = Ok out /\ length_N out <= 500) ->
  sprintf dbl (format_text ps) args = in_turn alone (share ps args).
Proof.
  intros G S. unfold sprintf. rewrite c_string_id by (apply format_no_nul; exact G).
  assert (R := run_pieces args ps 0 (Datatypes.S (length (format_text ps))) [] start G ltac:(lia) ltac:(cbn; lia)).
  cbn [start o_text app] in R. change (N.to_nat 0) with 0%nat in R. cbn [skipn] in R. change (length_N (@nil ascii)) with 0 in R.
  specialize (R S). destruct (in_turn alone (share ps args)) as [out| |]; [destruct R as (cap & ->)|rewrite R..]; reflexivity.
Qed.
End Run.
