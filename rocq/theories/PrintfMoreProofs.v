(** Proofs about the printf functions: positions, memory and refusals. *)
From Verif Require Import Base Decimal FmtModel FmtSpec FmtProofs FmtSubProofs PrintfModel PrintfSpec PrintfProofs PrintfSubProofs.
Open Scope N_scope.

(** ---- format strings in pieces, with any positions ---- *)

Fixpoint after_literal (lit : bytes) (o : out) (s : bytes) : bytes * out :=
  match s with
  | [] => (lit, o)
  | c :: s' => if Ascii.eqb c "%" then after_literal [] (write_literal o (lit ++ [c])) s' else after_literal (lit ++ [c]) o s'
  end.

Section Steps.
Variable dbl : spec -> N -> bytes.

Fixpoint steps (args : list arg) (ix : index) (lit : bytes) (o : out) (ps : list piece) : result (index * bytes * out) :=
  match ps with
  | [] => Ok (ix, lit, o)
  | Literal s :: ps' => let (lit', o') := after_literal lit o s in steps args ix lit' o' ps'
  | Convert c :: ps' =>
      r <- conv_args args ix c; let '(sp, a, ix') := r : spec * arg * index in
      o' <- print_arg dbl sp a (write_literal o lit); steps args ix' [] o' ps'
  end.

Lemma literal_steps args ix s rest : forall fuel lit o, (length (flat_map percent_text s ++ rest) < fuel)%nat ->
  exists fuel', (length rest < fuel')%nat /\
    format_go dbl args fuel ix lit (flat_map percent_text s ++ rest) o
    = format_go dbl args fuel' ix (fst (after_literal lit o s)) rest (snd (after_literal lit o s)).
Proof.
  induction s as [|c s IH]; intros fuel lit o L.
  - exists fuel. split; [exact L|reflexivity].
  - destruct fuel as [|fuel]; [lia|]. cbn [flat_map] in *. rewrite <- app_assoc in *. unfold percent_text at 1. unfold percent_text at 1 in L. cbn [after_literal].
    destruct (Ascii.eqb_spec c "%") as [->|N0].
    + cbn [B list_ascii_of_string app] in *. cbn [format_go]. change (negb (Ascii.eqb "%" "%")) with false. cbn [peek hd tl]. change (Ascii.eqb "%" "%") with true. cbv iota.
      apply IH. cbn [length] in L. lia.
    + cbn [app] in *. cbn [format_go]. destruct (Ascii.eqb_spec c "%"); [contradiction|]. cbn [negb]. apply IH. cbn [length] in L. lia.
Qed.

Definition clean_piece (p : piece) : Prop := match p with Literal s => ~ In NUL s | Convert c => well_formed c end.
Lemma good_clean ps : Forall good_piece ps -> Forall clean_piece ps.
Proof. intros H. eapply Forall_impl; [|exact H]. intros [s|c]; cbn; tauto. Qed.
Lemma placed_clean ps : Forall placed_piece ps -> Forall clean_piece ps.
Proof. intros H. eapply Forall_impl; [|exact H]. intros [s|c]; cbn; tauto. Qed.

Lemma go_steps args rest ps : Forall clean_piece ps -> forall fuel ix lit o, (length (format_text ps ++ rest) < fuel)%nat ->
  match steps args ix lit o ps with
  | Ok (ix', lit', o') => exists fuel', (length rest < fuel')%nat /\ format_go dbl args fuel ix lit (format_text ps ++ rest) o = format_go dbl args fuel' ix' lit' rest o'
  | Error e => format_go dbl args fuel ix lit (format_text ps ++ rest) o = Error e
  | Undefined => format_go dbl args fuel ix lit (format_text ps ++ rest) o = Undefined
  end.
Proof.
  induction ps as [|p ps IH]; intros G fuel ix lit o L.
  - exists fuel. split; [exact L|reflexivity].
  - inversion G as [|? ? GP GS]. subst. cbn [format_text flat_map] in *. fold (format_text ps) in *. rewrite <- app_assoc in *. destruct p as [s|c].
    + cbn [piece_text steps] in *. destruct (literal_steps args ix s (format_text ps ++ rest) fuel lit o L) as (fuel' & L' & ->).
      destruct (after_literal lit o s) as [lit' o']. cbn [fst snd]. exact (IH GS fuel' ix lit' o' L').
    + cbn [piece_text steps] in *. cbn [clean_piece] in GP. destruct fuel as [|fuel]; [lia|]. rewrite go_conversion by exact GP.
      destruct (conv_args args ix c) as [[[sp a] ix']| |]; [|reflexivity|reflexivity]. cbn [bind].
      destruct (print_arg dbl sp a (write_literal o lit)) as [o'| |]; [|reflexivity|reflexivity]. cbn [bind].
      apply (IH GS). rewrite app_length in L. unfold conversion_text in L. cbn [length] in L. lia.
Qed.

Lemma clean_no_nul ps : Forall clean_piece ps -> ~ In NUL (format_text ps).
Proof.
  induction ps as [|p ps IH]; intros G; [intros []|]. inversion G as [|? ? GP GS]. subst. cbn [format_text flat_map]. apply in_app_not; [|apply IH; exact GS].
  destruct p as [s|c]; cbn [piece_text]; [apply percent_no_nul; exact GP|apply conversion_no_nul; apply GP].
Qed.
Lemma c_string_app a b : ~ In NUL a -> c_string (a ++ b) = a ++ c_string b.
Proof.
  induction a as [|c a IH]; intros H; [reflexivity|]. cbn [app c_string]. destruct (Ascii.eqb_spec c NUL) as [->|_]; [exfalso; apply H; left; reflexivity|].
  rewrite IH; [reflexivity|]. intros I. apply H. right. exact I.
Qed.

Lemma sprintf_steps args ps : Forall clean_piece ps ->
  sprintf dbl (format_text ps) args = (r <- steps args (Some 0) [] start ps; let '(_, lit, o) := r : index * bytes * out in Ok (o_text (write_literal o lit))).
Proof.
  intros G. unfold sprintf. rewrite c_string_id by (apply clean_no_nul; exact G).
  assert (R := go_steps args [] ps G (Datatypes.S (length (format_text ps))) (Some 0) [] start). rewrite app_nil_r in R. specialize (R ltac:(lia)).
  destruct (steps args (Some 0) [] start ps) as [[[ix lit] o]| |]; [|rewrite R; reflexivity..].
  destruct R as (fuel' & L & ->). destruct fuel' as [|fuel']; [lia|]. reflexivity.
Qed.

(** Behind pieces that can be printed. *)
Lemma sprintf_behind args ps rest out0 : Forall clean_piece ps -> sprintf dbl (format_text ps) args = Ok out0 ->
  exists ix lit o fuel, steps args (Some 0) [] start ps = Ok (ix, lit, o) /\ (length (c_string rest) < fuel)%nat /\
    sprintf dbl (format_text ps ++ rest) args = (o' <- format_go dbl args fuel ix lit (c_string rest) o; Ok (o_text o')).
Proof.
  intros G E. rewrite (sprintf_steps args ps G) in E. unfold sprintf. rewrite c_string_app by (apply clean_no_nul; exact G).
  assert (R := go_steps args (c_string rest) ps G (Datatypes.S (length (format_text ps ++ c_string rest))) (Some 0) [] start ltac:(lia)).
  destruct (steps args (Some 0) [] start ps) as [[[ix lit] o]| |]; [|discriminate..].
  destruct R as (fuel' & L & ->). exists ix, lit, o, fuel'. auto.
Qed.

(** ---- positions ---- *)

Lemma stars_none c : stars c = 0%nat -> c_width c <> Asterisk /\ c_precision c <> Some Asterisk.
Proof. unfold stars. destruct (c_width c), (c_precision c) as [[]|]; cbn; intros; split; congruence. Qed.

Definition own_spec (c : conversion) : spec :=
  let sp := flagged first_spec (c_flags c) in
  let sp := match c_width c with Given n _ => with_width sp n | _ => sp end in
  match c_precision c with Some (Given n _) => with_precision sp (Some n) | _ => sp end.

Lemma conv_args_plain args ix c : stars c = 0%nat ->
  conv_args args ix c = (ai <- get_arg args ix (B "*") (option_map fst (c_position c));
    let (a2, type) := normalize (lengthen (c_length c) (c_letter c) (fst ai)) (c_letter c) in
    Ok (with_type (adjust (own_spec c) (fst ai)) type, a2, snd ai)).
Proof.
  intros S0. destruct (stars_none c S0) as [S1 S2]. unfold conv_args, own_spec, width_step, precision_step.
  destruct (c_width c), (c_precision c) as [[]|]; try congruence; reflexivity.
Qed.

Definition arg_at (args : list arg) (i : nat) (a : arg) : Prop := nth_error args i = Some a.

Lemma steps_positions args args' ps : Forall placed_piece ps ->
  forall k ix lit o, (ix = None \/ ix = Some 0) -> Forall2 (arg_at args) (places ps) (skipn (N.to_nat k) args') ->
  match steps args ix lit o ps, steps args' (Some k) lit o (map unplaced_piece ps) with
  | Ok (_, l1, o1), Ok (_, l2, o2) => l1 = l2 /\ o1 = o2
  | Error e1, Error e2 => e1 = e2
  | Undefined, Undefined => True
  | _, _ => False
  end.
Proof.
  induction ps as [|p ps IH]; intros G k ix lit o I F; [split; reflexivity|].
  inversion G as [|? ? GP GS]. subst. destruct p as [s|c]; cbn [map unplaced_piece steps places] in *.
  - destruct (after_literal lit o s) as [lit' o']. exact (IH GS k ix lit' o' I F).
  - destruct GP as (W & P & S0). rewrite (conv_args_plain args ix c S0).
    rewrite (conv_args_plain args' (Some k) (unplaced c) S0). cbn [c_position unplaced option_map].
    destruct (c_position c) as [[n ds]|] eqn:CP; [|congruence]. cbn [option_map fst].
    assert (N0 : 0 < n) by (destruct W as (WP & _); rewrite CP in WP; apply WP).
    inversion F as [|i a is rest A FR EI SK]. subst i is.
    assert (G1 : get_arg args ix (B "*") (Some n) = Ok (a, None)).
    { unfold get_arg. unfold arg_at, place in A. rewrite CP in A. unfold do_get_arg. rewrite A.
      destruct I as [-> | ->]; destruct (N.eqb_spec n 0); try lia; reflexivity. }
    rewrite G1, (get_arg_at args' k a rest (eq_sym SK)). cbn [bind fst snd]. cbn [unplaced c_length c_letter].
    change (own_spec (unplaced c)) with (own_spec c).
    destruct (normalize (lengthen (c_length c) (c_letter c) a) (c_letter c)) as [a2 type]. cbn [bind].
    destruct (print_arg dbl _ a2 (write_literal o lit)) as [o'| |]; cbn [bind]; [|reflexivity|exact Logic.I].
    apply (IH GS); [left; reflexivity|]. rewrite (skipn_next args' k a rest (eq_sym SK)). exact FR.
Qed.

Lemma unplaced_good ps : Forall placed_piece ps -> Forall good_piece (map unplaced_piece ps).
Proof.
  induction 1 as [|p ps H _ IH]; constructor; [|exact IH]. destruct p as [s|c]; cbn [unplaced_piece good_piece placed_piece] in *; [exact H|].
  destruct H as (W & _). split; [|reflexivity]. destruct W as (_ & W). split; [exact Logic.I|exact W].
Qed.

Lemma positions_ok ps args args' : Forall placed_piece ps -> Forall2 (arg_at args) (places ps) args' ->
  sprintf dbl (format_text ps) args = sprintf dbl (format_text (map unplaced_piece ps)) args'.
Proof.
  intros G F. rewrite (sprintf_steps args ps (placed_clean ps G)), (sprintf_steps args' _ (good_clean _ (unplaced_good ps G))).
  assert (S := steps_positions args args' ps G 0 (Some 0) [] start (or_intror eq_refl) F).
  destruct (steps args (Some 0) [] start ps) as [[[i1 l1] o1]| |], (steps args' (Some 0) [] start (map unplaced_piece ps)) as [[[i2 l2] o2]| |]; try contradiction; cbn [bind].
  - destruct S as [-> ->]. reflexivity.
  - subst. reflexivity.
  - reflexivity.
Qed.

Lemma steps_auto args ps : Forall good_piece ps -> forall k lit o ix lit' o', steps args (Some k) lit o ps = Ok (ix, lit', o') -> ix = Some (k + N.of_nat (all_needs ps)).
Proof.
  induction 1 as [|p ps H _ IH]; intros k lit o ix lit' o' E.
  - injection E as <- _ _. f_equal. cbn. lia.
  - destruct p as [s|c]; cbn [steps all_needs good_piece] in *.
    + destruct (after_literal lit o s) as [l1 o1]. exact (IH _ _ _ _ _ _ E).
    + destruct H as [W P]. destruct (conv_args args (Some k) c) as [[[sp a] ix1]| |] eqn:CA; [|discriminate..]. cbn [bind] in E.
      rewrite (conv_args_next _ _ _ _ _ _ P CA) in E. destruct (print_arg dbl sp a (write_literal o lit)); [|discriminate..]. cbn [bind] in E.
      rewrite (IH _ _ _ _ _ _ E). f_equal. lia.
Qed.
Lemma steps_manual args ps : Forall placed_piece ps -> forall ix lit o ix' lit' o', steps args ix lit o ps = Ok (ix', lit', o') ->
  ix' = if existsb is_conversion ps then None else ix.
Proof.
  induction 1 as [|p ps H _ IH]; intros ix lit o ix' lit' o' E.
  - injection E as <- _ _. reflexivity.
  - destruct p as [s|c]; cbn [steps placed_piece existsb is_conversion orb] in *.
    + destruct (after_literal lit o s) as [l1 o1]. exact (IH _ _ _ _ _ _ E).
    + destruct H as (W & P & S0). rewrite (conv_args_plain args ix c S0) in E. destruct (c_position c) as [[n ds]|]; [|congruence]. cbn [option_map fst] in E.
      destruct (get_arg args ix (B "*") (Some n)) as [[a ix1]| |] eqn:GA; [|discriminate..]. cbn [bind fst snd] in E.
      assert (I1 : ix1 = None).
      { unfold get_arg in GA. destruct ix as [[|]|]; try discriminate; destruct (n =? 0); try discriminate; destruct (do_get_arg args (n - 1)); try discriminate; injection GA as _ <-; reflexivity. }
      destruct (normalize (lengthen (c_length c) (c_letter c) a) (c_letter c)) as [a2 type]. cbn [bind] in E.
      destruct (print_arg dbl _ a2 (write_literal o lit)); [|discriminate..]. cbn [bind] in E. specialize (IH _ _ _ _ _ _ E). rewrite I1 in IH. rewrite IH.
      destruct (existsb is_conversion ps); reflexivity.
Qed.
Lemma all_needs_some ps : existsb is_conversion ps = true -> (0 < all_needs ps)%nat.
Proof. induction ps as [|[s|c] ps IH]; cbn [existsb is_conversion orb all_needs]; intros H; [discriminate|exact (IH H)|unfold needs; lia]. Qed.

Lemma manual_after_auto ps c rest args out0 : Forall good_piece ps -> existsb is_conversion ps = true -> sprintf dbl (format_text ps) args = Ok out0 ->
  well_formed c -> c_position c <> None -> stars c = 0%nat ->
  sprintf dbl (format_text ps ++ conversion_text c ++ rest) args = Error EManualFromAuto.
Proof.
  intros G C E W P S0.
  destruct (sprintf_behind args ps (conversion_text c ++ rest) out0 (good_clean ps G) E) as (ix & lit & o & fuel & ST & L & ->).
  rewrite c_string_app in * by (apply conversion_no_nul; exact W). destruct fuel as [|fuel]; [lia|]. rewrite go_conversion by exact W.
  assert (NA := steps_auto args ps G 0 [] start ix lit o ST). assert (AN := all_needs_some ps C). rewrite N.add_0_l in NA.
  rewrite (conv_args_plain args ix c S0). destruct (c_position c) as [[n ds]|]; [|congruence]. cbn [option_map fst]. rewrite NA.
  destruct (all_needs ps) as [|k]; [lia|]. reflexivity.
Qed.

Lemma auto_after_manual ps c rest args out0 : Forall placed_piece ps -> existsb is_conversion ps = true -> sprintf dbl (format_text ps) args = Ok out0 ->
  well_formed c -> c_position c = None ->
  sprintf dbl (format_text ps ++ conversion_text c ++ rest) args = Error EAutoFromManual.
Proof.
  intros G C E W P.
  destruct (sprintf_behind args ps (conversion_text c ++ rest) out0 (placed_clean ps G) E) as (ix & lit & o & fuel & ST & L & ->).
  rewrite c_string_app in * by (apply conversion_no_nul; exact W). destruct fuel as [|fuel]; [lia|]. rewrite go_conversion by exact W.
  rewrite (steps_manual args ps G _ _ _ _ _ _ ST), C. unfold conv_args. rewrite P. cbn [option_map].
  unfold width_step. destruct (c_width c); cbn [bind fst snd get_arg]; try reflexivity;
    unfold precision_step; destruct (c_precision c) as [[]|]; reflexivity.
Qed.
End Steps.

(** ---- memory ---- *)

Definition part (a b : bytes) : Prop := (length a <= length b)%nat /\ incl a b.
Lemma part_refl s : part s s.
Proof. split; [lia|apply incl_refl]. Qed.
Lemma part_trans a b c : part a b -> part b c -> part a c.
Proof. intros [A1 A2] [B1 B2]. split; [lia|]. eapply incl_tran; eassumption. Qed.
Lemma part_cons x s : part s (x :: s).
Proof. split; [cbn; lia|]. intros y I. right. exact I. Qed.
Lemma part_tl s : part (tl s) s.
Proof. destruct s; [apply part_refl|apply part_cons]. Qed.
Lemma part_not x a b : part a b -> ~ In x b -> ~ In x a.
Proof. intros [_ I] H J. apply H, I, J. Qed.

Lemma parse_int_go_part s : forall v, part (snd (parse_int_go v s)) s.
Proof.
  induction s as [|c s IH]; intros v; [apply part_refl|]. cbn [parse_int_go]. destruct (is_digit c); [|apply part_refl]. cbv zeta.
  destruct (_ <? v); [apply part_cons|]. eapply part_trans; [apply IH|apply part_cons].
Qed.
Lemma parse_int_part s : match parse_int s with Ok (_, s') => part s' s | Error _ => True | Undefined => False end.
Proof.
  unfold parse_int. assert (P := parse_int_go_part s 0). destruct (parse_int_go 0 s) as [v s']. destruct (INT_MAX <? v); [exact I|exact P].
Qed.
Lemma parse_flags_part s : forall sp, part (snd (parse_flags sp s)) s
  /\ sp_precision (fst (parse_flags sp s)) = sp_precision sp
  /\ (~ In "-"%char s -> sp_align (fst (parse_flags sp s)) = sp_align sp).
Proof.
  induction s as [|c s IH]; intros sp; [split; [apply part_refl|auto]|]. cbn [parse_flags].
  destruct (Ascii.eqb_spec c "-") as [->|]; [|destruct (Ascii.eqb c "+"); [|destruct (Ascii.eqb c "0"); [|destruct (Ascii.eqb c " "); [|destruct (Ascii.eqb c "#")]]]];
    try (split; [apply part_refl|split; reflexivity || intros; reflexivity]);
    match goal with |- context [parse_flags ?x s] => destruct (IH x) as (P1 & P2 & P3) end;
    (split; [eapply part_trans; [exact P1|apply part_cons]|]); (split; [exact P2|]); intros H;
    first [exfalso; apply H; left; reflexivity|apply P3; intros J; apply H; right; exact J].
Qed.

Lemma get_arg_in args ix s n : match get_arg args ix s n with Ok (a, _) => In a args | Error _ => True | Undefined => False end.
Proof.
  unfold get_arg, do_get_arg. destruct n as [n|].
  - destruct ix as [[|]|]; try exact I; destruct (n =? 0); try exact I; destruct (nth_error args _) eqn:E; try exact I; eapply nth_error_In; exact E.
  - destruct ix as [i|]; [|exact I]. destruct (nth_error args _) eqn:E; [|exact I]. eapply nth_error_In; exact E.
Qed.
Lemma width_of_defined sp a : match width_of sp a with Ok sp' => sp_precision sp' = sp_precision sp | Error _ => True | Undefined => False end.
Proof.
  unfold width_of. destruct (int_value a) as [[v b]|]; [|exact I]. cbv zeta. destruct (INT_MAX <? _); [exact I|]. destruct (v <? 0)%Z; reflexivity.
Qed.
Lemma precision_of_defined sp a : match precision_of sp a with Ok sp' => sp_align sp' = sp_align sp | Error _ => True | Undefined => False end.
Proof. unfold precision_of. destruct (int_value a) as [[v b]|]; [|exact I]. destruct (_ && _); [reflexivity|exact I]. Qed.

Lemma parse_width_part args ix sp s : match parse_width args ix sp s with
  | Ok (sp', _, s') => part s' s /\ sp_precision sp' = sp_precision sp /\ (~ In "-"%char s -> ~ In "*"%char s -> sp_align sp' = sp_align sp)
  | Error _ => True | Undefined => False end.
Proof.
  unfold parse_width. destruct (parse_flags_part s sp) as (P1 & P2 & P3). destruct (parse_flags sp s) as [sp1 s1]. cbn [fst snd] in *.
  destruct (is_digit (peek s1)).
  - assert (Q := parse_int_part s1). destruct (parse_int s1) as [[v s2]| |]; [|exact I|exact Q]. cbn [bind fst snd].
    split; [eapply part_trans; eassumption|]. split; [exact P2|]. intros H _. exact (P3 H).
  - destruct s1 as [|c s2]; [split; [exact P1|split; [exact P2|intros H _; exact (P3 H)]]|].
    destruct (Ascii.eqb_spec c "*") as [->|]; [|split; [exact P1|split; [exact P2|intros H _; exact (P3 H)]]].
    assert (GI := get_arg_in args ix s2 None). destruct (get_arg args ix s2 None) as [[a ix']| |]; [|exact I|exact GI]. cbn [bind fst snd].
    assert (WD := width_of_defined sp1 a). destruct (width_of sp1 a) as [sp2| |]; [|exact I|exact WD]. cbn [bind].
    split; [eapply part_trans; [apply part_cons|exact P1]|]. split; [congruence|]. intros _ H. exfalso. apply H. apply (proj2 P1). left. reflexivity.
Qed.

Lemma parse_header_part args ix s : match parse_header args ix first_spec s with
  | Ok (_, sp', _, s') => part s' s /\ sp_precision sp' = None /\ (~ In "-"%char s -> ~ In "*"%char s -> sp_align sp' <> ALeft)
  | Error _ => True | Undefined => False end.
Proof.
  unfold parse_header.
  assert (K : forall ix sp s1, part s1 s -> sp_precision sp = None -> sp_align sp <> ALeft ->
     match parse_width args ix sp s1 with
     | Ok (sp', _, s') => part s' s /\ sp_precision sp' = None /\ (~ In "-"%char s -> ~ In "*"%char s -> sp_align sp' <> ALeft)
     | Error _ => True | Undefined => False end).
  { intros jx sp s1 P A C. assert (Q := parse_width_part args jx sp s1). destruct (parse_width args jx sp s1) as [[[sp' ix'] s']| |]; [|exact I|exact Q].
    destruct Q as (Q1 & Q2 & Q3). split; [eapply part_trans; eassumption|]. split; [congruence|].
    intros H1 H2. rewrite (Q3 (part_not _ _ _ P H1) (part_not _ _ _ P H2)). exact C. }
  destruct (is_digit (peek s)).
  - assert (Q := parse_int_part s). destruct (parse_int s) as [[v s1]| |]; [|exact I|exact Q]. cbn [bind].
    destruct (Ascii.eqb (peek s1) "$").
    + assert (K1 := K ix first_spec (tl s1) (part_trans _ _ _ (part_tl s1) Q) eq_refl ltac:(discriminate)).
      destruct (parse_width args ix first_spec (tl s1)) as [[[sp' ix'] s']| |]; exact K1.
    + cbv zeta. set (sp1 := if Ascii.eqb (peek s) "0" then with_fill first_spec "0" else first_spec).
      assert (A1 : sp_precision sp1 = None) by (unfold sp1; destruct (Ascii.eqb (peek s) "0"); reflexivity).
      assert (A2 : sp_align sp1 <> ALeft) by (unfold sp1; destruct (Ascii.eqb (peek s) "0"); discriminate).
      destruct (v =? 0).
      * assert (K1 := K ix sp1 s1 Q A1 A2). destruct (parse_width args ix sp1 s1) as [[[sp' ix'] s']| |]; exact K1.
      * split; [exact Q|]. split; [exact A1|]. intros _ _. exact A2.
  - assert (K1 := K ix first_spec s (part_refl s) eq_refl ltac:(discriminate)).
    destruct (parse_width args ix first_spec s) as [[[sp' ix'] s']| |]; exact K1.
Qed.

Lemma parse_precision_part args ix sp s : match parse_precision args ix sp s with
  | Ok (sp', _, s') => part s' s /\ sp_align sp' = sp_align sp /\ (~ In "."%char s -> sp_precision sp' = sp_precision sp)
  | Error _ => True | Undefined => False end.
Proof.
  unfold parse_precision. destruct s as [|c s1]; [split; [apply part_refl|auto]|].
  destruct (Ascii.eqb_spec c ".") as [->|]; [|split; [apply part_refl|auto]].
  assert (ABS : forall P : Prop, ~ In "."%char ("."%char :: s1) -> P) by (intros P H; exfalso; apply H; left; reflexivity).
  destruct (is_digit (peek s1)).
  - assert (Q := parse_int_part s1). destruct (parse_int s1) as [[v s2]| |]; [|exact I|exact Q]. cbn [bind fst snd].
    split; [eapply part_trans; [exact Q|apply part_cons]|]. split; [reflexivity|]. apply ABS.
  - destruct s1 as [|c' s2]; [split; [apply part_cons|split; [reflexivity|apply ABS]]|].
    destruct (Ascii.eqb c' "*"); [|split; [apply part_cons|split; [reflexivity|apply ABS]]].
    assert (GI := get_arg_in args ix s2 None). destruct (get_arg args ix s2 None) as [[a ix']| |]; [|exact I|exact GI]. cbn [bind fst snd].
    assert (WD := precision_of_defined sp a). destruct (precision_of sp a) as [sp2| |]; [|exact I|exact WD]. cbn [bind].
    split; [eapply part_trans; [apply part_cons|apply part_cons]|]. split; [exact WD|apply ABS].
Qed.

Lemma parse_length_part a s : part (snd (parse_length a s)) s.
Proof.
  unfold parse_length. destruct s as [|c s1]; [apply part_refl|].
  assert (T : part (tl s1) (c :: s1)) by (eapply part_trans; [apply part_tl|apply part_cons]). assert (T1 := part_cons c s1).
  destruct (Ascii.eqb c "h"); [destruct (Ascii.eqb (peek s1) "h"); assumption|].
  destruct (Ascii.eqb c "l"); [destruct (Ascii.eqb (peek s1) "l"); assumption|].
  destruct (Ascii.eqb c "j" || Ascii.eqb c "z" || Ascii.eqb c "t"); [exact T1|]. destruct (Ascii.eqb c "L"); [exact T1|apply part_refl].
Qed.

Lemma signed_range bits z : 0 < bits -> (- 2 ^ (Z.of_N bits - 1) <= signed bits z < 2 ^ (Z.of_N bits - 1))%Z.
Proof.
  intros B0. unfold signed. cbv zeta. replace (2 ^ Z.of_N bits)%Z with (2 * 2 ^ (Z.of_N bits - 1))%Z.
  - set (h := (2 ^ (Z.of_N bits - 1))%Z). assert (H : (0 < h)%Z) by (apply Z.pow_pos_nonneg; lia).
    assert (R := Z.mod_pos_bound z (2 * h) ltac:(lia)). destruct (Z.ltb_spec (2 * (z mod (2 * h))) (2 * h)); lia.
  - rewrite <- Z.pow_succ_r by lia. f_equal. lia.
Qed.

Lemma convert_valid l type a : valid a -> valid (convert l type a).
Proof.
  intros V. unfold convert. destruct (int_value a) as [[z bits]|] eqn:IV; [|exact V]. cbv zeta.
  assert (BB : bits <= 64) by (destruct a; cbn [int_value] in IV; try discriminate; injection IV as _ <-; lia).
  destruct (Ascii.eqb type "d" || Ascii.eqb type "i"); destruct l; cbn [valid];
    try (assert (R := signed_range 8 z ltac:(lia)); change (Z.of_N 8 - 1)%Z with 7%Z in R; lia);
    try (assert (R := signed_range 16 z ltac:(lia)); change (Z.of_N 16 - 1)%Z with 15%Z in R; lia);
    try (assert (R := signed_range 32 z ltac:(lia)); change (Z.of_N 32 - 1)%Z with 31%Z in R; lia);
    try (assert (R := signed_range 64 (z mod 2 ^ Z.of_N bits) ltac:(lia)); change (Z.of_N 64 - 1)%Z with 63%Z in R; lia);
    try (change (Z.of_N 8) with 8%Z; assert (R := Z.mod_pos_bound z (2 ^ 8) ltac:(lia)); lia);
    try (change (Z.of_N 16) with 16%Z; assert (R := Z.mod_pos_bound z (2 ^ 16) ltac:(lia)); lia);
    try (change (Z.of_N 32) with 32%Z; assert (R := Z.mod_pos_bound z (2 ^ 32) ltac:(lia)); lia).
  assert (P : (0 < 2 ^ Z.of_N bits <= 2 ^ 64)%Z) by (split; [apply Z.pow_pos_nonneg; lia|apply Z.pow_le_mono_r; lia]).
  set (m := (2 ^ Z.of_N bits)%Z) in *. assert (R := Z.mod_pos_bound z m ltac:(lia)). lia.
Qed.
Lemma parse_length_valid a s : valid a -> valid (fst (parse_length a s)).
Proof.
  intros V. assert (C := fun l t => convert_valid l t a V). unfold parse_length. destruct s as [|c s1]; [apply C|].
  destruct (Ascii.eqb c "h"); [destruct (Ascii.eqb (peek s1) "h"); apply C|].
  destruct (Ascii.eqb c "l"); [destruct (Ascii.eqb (peek s1) "l"); apply C|].
  destruct (Ascii.eqb c "j" || Ascii.eqb c "z" || Ascii.eqb c "t"); [apply C|]. destruct (Ascii.eqb c "L"); [exact V|apply C].
Qed.
Lemma normalize_valid a type : valid a -> valid (fst (normalize a type)).
Proof.
  intros V. unfold normalize. destruct (is_integer a); [|exact V]. destruct (Ascii.eqb type "i" || Ascii.eqb type "u"); [exact V|].
  destruct (Ascii.eqb type "c"); [|exact V]. cbn [fst]. unfold to_char. destruct (int_value a) as [[z b]|]; [|exact V]. cbn [valid].
  assert (R := signed_range 8 z ltac:(lia)). change (Z.of_N 8 - 1)%Z with 7%Z in R. lia.
Qed.

Lemma unknown_type : forall c, match radix c with
  | Some _ => True
  | None => forall (A : Type) (a b d e f g h : A), match N_of_ascii c with 0 | 100 => a | 120 => b | 88 => d | 98 => e | 66 => f | 111 => g | _ => h end = h
  end.
Proof. intros c. destruct c as [[] [] [] [] [] [] [] []]; cbv; try exact I; reflexivity. Qed.

Lemma write_int_text_defined w z sp : int_range w z ->
  match radix (sp_type sp) with Some _ => exists t, write_int_text w z sp = Ok t | None => write_int_text w z sp = Error EUnknownType end.
Proof.
  intros R. destruct (radix (sp_type sp)) as [[[base upper] pfx]|] eqn:RX.
  - destruct (write_int_text_ok w z sp base upper pfx R RX) as (ds & _ & ->). eexists. reflexivity.
  - assert (U := unknown_type (sp_type sp)). rewrite RX in U. unfold write_int_text, int_parts. cbv zeta. rewrite U. reflexivity.
Qed.

Lemma write_string_defined p size sp : valid (AString p size) -> write_string p size sp <> Undefined.
Proof.
  cbn [valid]. intros V. unfold write_string. destruct (_ && _); [discriminate|].
  destruct p as [m|].
  - destruct (N.eqb_spec size 0) as [->|NZ].
    + destruct m as [|c m']; [destruct V|]. destruct (Ascii.eqb_spec c NUL) as [->|NC].
      * cbn [bind]. assert (E : (match sp_precision sp with Some q => if q <? 0 then q else 0 | None => 0 end) = 0) by (destruct (sp_precision sp); [destruct (N.ltb_spec n 0); lia|reflexivity]).
        rewrite E. cbn. discriminate.
      * destruct V as [V|V]; [congruence|]. apply in_split in V.
        assert (FS : exists s rest, c :: m' = s ++ NUL :: rest /\ ~ In NUL s).
        { clear -V NC. assert (G : forall m : bytes, In NUL m -> exists s rest, m = s ++ NUL :: rest /\ ~ In NUL s).
          { induction m as [|x m IH]; intros [].
            - subst x. exists [], m. split; [reflexivity|intros []].
            - destruct (Ascii.eqb_spec x NUL) as [->|NX]; [exists [], m; split; [reflexivity|intros []]|].
              destruct (IH H) as (s & rest & -> & NI). exists (x :: s), rest. split; [reflexivity|]. intros [E|J]; [congruence|contradiction]. }
          apply G. right. destruct V as (l1 & l2 & ->). apply in_or_app. right. left. reflexivity. }
        destruct FS as (s & rest & E & NI). rewrite E, strlen_ok by exact NI. cbn [bind]. rewrite read_prefix; [cbn [bind]; discriminate|].
        destruct (sp_precision sp) as [q|]; [destruct (N.ltb_spec q (length_N s))|]; lia.
    + cbn [bind]. assert (L : (match sp_precision sp with Some q => if q <? size then q else size | None => size end) <= length_N m).
      { destruct (sp_precision sp) as [q|]; [destruct (N.ltb_spec q size)|]; lia. }
      unfold read. destruct (N.ltb_spec (length_N m) (match sp_precision sp with Some q => if q <? size then q else size | None => size end)); [lia|]. cbn [bind]. discriminate.
  - subst size. discriminate.
Qed.

Lemma print_text_defined dbl sp a : valid a -> print_text dbl sp a <> Undefined.
Proof.
  assert (WI : forall w z, int_range w z -> write_int_text w z sp <> Undefined).
  { intros w z R. assert (D := write_int_text_defined w z sp R). destruct (radix (sp_type sp)); [destruct D as (t & ->)|rewrite D]; discriminate. }
  assert (WD : forall z, (- 2 ^ 31 <= z < 2 ^ 31)%Z -> int_range W32 z) by (intros z R; unfold int_range; cbn [bits_of]; change (Z.of_N 32) with 32%Z; lia).
  intros V. destruct a as [z|n|z|n|b|z|bits|p|p size]; cbn [print_text].
  - apply WI, WD, V.
  - apply WI. unfold int_range. cbn [valid bits_of] in *. change (Z.of_N 32) with 32%Z. lia.
  - apply WI. unfold int_range. cbn [valid bits_of] in *. change (Z.of_N 64) with 64%Z. lia.
  - apply WI. unfold int_range. cbn [valid bits_of] in *. change (Z.of_N 64) with 64%Z. lia.
  - destruct (negb (Ascii.eqb (sp_type sp) NUL)) eqn:T; [apply WI, WD; destruct b; lia|]. unfold write_bool. rewrite T. apply write_string_defined. destruct b; vm_compute; discriminate.
  - unfold write_char_text. destruct (_ && _); [|discriminate]. assert (D := WI W32 z (WD z V)). destruct (write_int_text W32 z sp); [discriminate..|congruence].
  - destruct (is_float_type (sp_type sp)); discriminate.
  - apply write_string_defined. cbn [valid] in *. destruct p; [exact V|reflexivity].
  - apply write_string_defined. exact V.
Qed.

Definition quiet (s : bytes) : Prop := ~ In "."%char s \/ (~ In "-"%char s /\ ~ In "*"%char s).
Lemma quiet_part a b : part a b -> quiet b -> quiet a.
Proof. intros P [H|[H1 H2]]; [left; eapply part_not; eassumption|right; split; eapply part_not; eassumption]. Qed.

Lemma conversion_defined dbl args ix s o : Forall valid args -> quiet s -> 500 <= o_capacity o ->
  match format_conversion dbl args ix s o with
  | Ok (o', _, s') => 500 <= o_capacity o' /\ part s' s
  | Error _ => True
  | Undefined => False
  end.
Proof.
  intros V Q C. unfold format_conversion.
  assert (P1 := parse_header_part args ix s). destruct (parse_header args ix first_spec s) as [[[[n sp1] ix1] s1]| |]; [|exact I|exact P1]. cbn [bind].
  destruct P1 as (PA & PB & PC). assert (P2 := parse_precision_part args ix1 sp1 s1).
  destruct (parse_precision args ix1 sp1 s1) as [[[sp2 ix2] s2]| |]; [|exact I|exact P2]. cbn [bind]. destruct P2 as (PD & PE & PF).
  assert (GI := get_arg_in args ix2 s2 n). destruct (get_arg args ix2 s2 n) as [[a ix3]| |]; [|exact I|exact GI]. cbn [bind].
  assert (VA : valid a) by (rewrite Forall_forall in V; apply V; exact GI).
  assert (VL := parse_length_valid a s2 VA). assert (PL := parse_length_part a s2). destruct (parse_length a s2) as [a1 s3]. cbn [fst snd] in *.
  destruct s3 as [|type s4]; [exact I|]. assert (VN := normalize_valid a1 type VL). destruct (normalize a1 type) as [a2 type']. cbn [fst] in VN.
  set (sp := with_type (adjust sp2 a) type').
  assert (MV : moves sp = false).
  { unfold moves, sp. cbn [with_type sp_align sp_precision]. rewrite adjust_precision. destruct Q as [Q|[Q1 Q2]].
    - rewrite PF by (eapply part_not; eassumption). rewrite PB. destruct (sp_align (adjust sp2 a)); reflexivity.
    - assert (A := adjust_align sp2 a). rewrite PE in A. specialize (A (PC Q1 Q2)). destruct (sp_align (adjust sp2 a)); try reflexivity. congruence. }
  assert (PR := print_arg_printed dbl sp a2 o C). assert (D := print_text_defined dbl sp a2 VN).
  destruct (print_text dbl sp a2) as [t|e|]; cbn [printed] in PR; [|rewrite PR; exact I|congruence].
  destruct (PR (or_introl MV)) as (cap & C1 & ->). cbn [bind]. split; [exact C1|].
  eapply part_trans; [apply part_cons|]. eapply part_trans; [exact PL|]. eapply part_trans; eassumption.
Qed.

Lemma format_go_defined dbl args : Forall valid args -> forall fuel ix lit s o, quiet s -> (length s < fuel)%nat -> 500 <= o_capacity o ->
  format_go dbl args fuel ix lit s o <> Undefined.
Proof.
  intros V. induction fuel as [|fuel IH]; intros ix lit s o Q L C; [lia|]. cbn [format_go]. destruct s as [|c s']; [discriminate|]. cbn [length] in L.
  assert (Q' := quiet_part _ _ (part_cons c s') Q).
  destruct (negb (Ascii.eqb c "%")); [apply IH; [exact Q'|lia|exact C]|].
  destruct (Ascii.eqb (peek s') "%").
  - destruct (literal_app o (lit ++ [c]) C) as (cap & C1 & ->). apply IH; [eapply quiet_part; [apply part_tl|exact Q']| |exact C1].
    assert (T := proj1 (part_tl s')). lia.
  - destruct (literal_app o lit C) as (cap & C1 & ->).
    assert (D := conversion_defined dbl args ix s' (Out (o_text o ++ lit) cap) V Q' C1).
    destruct (format_conversion dbl args ix s' (Out (o_text o ++ lit) cap)) as [[[o' ix'] s'']| |]; [|discriminate|contradiction]. cbn [bind].
    destruct D as [D1 D2]. apply IH; [eapply quiet_part; [exact D2|exact Q']|destruct D2; lia|exact D1].
Qed.

Lemma c_string_part s : part (c_string s) s.
Proof.
  induction s as [|c s IH]; [apply part_refl|]. cbn [c_string]. destruct (Ascii.eqb c NUL); [split; [cbn; lia|intros x []]|].
  destruct IH as [A C]. split; [cbn; lia|]. intros x [->|J]; [left; reflexivity|right; apply C, J].
Qed.
Lemma sprintf_defined dbl format args : Forall valid args -> quiet format -> sprintf dbl format args <> Undefined.
Proof.
  intros V Q. unfold sprintf. assert (D := format_go_defined dbl args V (S (length (c_string format))) (Some 0) [] (c_string format) start
    (quiet_part _ _ (c_string_part format) Q) ltac:(lia) ltac:(cbn; lia)).
  destruct (format_go _ _ _ _ _ _ _); [discriminate..|congruence].
Qed.

(** ---- refusals ---- *)

Lemma cut_text c : exists u, c_length c = u /\
  removelast (conversion_text c) = "%"%char :: match c_position c with Some (_, ds) => ds ++ B "$" | None => [] end ++ c_flags c ++ amount_text (c_width c) ++ precision_text (c_precision c) ++ u.
Proof.
  exists (c_length c). split; [reflexivity|]. unfold conversion_text, tail_text, precision_text.
  rewrite !app_assoc. rewrite app_comm_cons. rewrite removelast_last. rewrite <- !app_assoc. reflexivity.
Qed.

Lemma incomplete_ok dbl c args : well_formed c -> stars c = 0%nat -> (place c < length args)%nat ->
  sprintf dbl (removelast (conversion_text c)) args = Error EInvalidString.
Proof.
  intros W S0 PL. assert (NN : ~ In NUL (removelast (conversion_text c))).
  { intros J. apply (conversion_no_nul c W). unfold conversion_text, tail_text in *. rewrite !app_assoc, app_comm_cons in *. rewrite removelast_last in J. apply in_or_app. left. exact J. }
  unfold sprintf. rewrite c_string_id by exact NN. destruct (cut_text c) as (u & U & E). rewrite E. clear E NN.
  destruct (stars_none c S0) as [SW SP]. assert (W' := W). destruct W as (WP & WF & WW & WQ & WL & WT & WX). rewrite U in WL.
  assert (US : letter (peek u) = true \/ u = []).
  { unfold lengths in WL. repeat (destruct WL as [<-|WL]); [..|contradiction]; auto. }
  set (t := precision_text (c_precision c) ++ u).
  assert (TS : stops (peek t)).
  { unfold t. destruct (c_precision c); cbn [precision_text app peek hd]; [apply dot_stops|]. destruct US as [US| ->]; [apply letter_stops; exact US|repeat split]. }
  set (body := match c_position c with Some (_, ds) => ds ++ B "$" | None => [] end ++ c_flags c ++ amount_text (c_width c) ++ t).
  assert (H : parse_header args (Some 0) first_spec body
    = (r <- width_step args (Some 0) (flagged first_spec (c_flags c)) (c_width c); Ok (option_map fst (c_position c), fst r, snd r, t))).
  { unfold body. destruct (c_position c) as [[n ds]|]; cbn [option_map fst].
    - apply header_some; try assumption; [apply WP|congruence].
    - apply header_none; try assumption. congruence. }
  assert (F : Ascii.eqb (peek body) "%" = false).
  { assert (C := conversion_first c (@nil ascii) W'). rewrite app_nil_r in C. unfold conversion_text, tail_text in C. cbn [tl] in C. unfold body, t.
    destruct (c_position c) as [[n ds]|].
    - destruct WP as [(NE & _) _]. destruct ds; [congruence|]. exact C.
    - cbn [app] in *. destruct (c_flags c); [|exact C]. cbn [app] in *. destruct (amount_text (c_width c)); [|exact C]. cbn [app] in *.
      destruct (c_precision c); [reflexivity|]. cbn [precision_text app] in *. destruct u as [|x u']; [reflexivity|]. rewrite U in C. exact C. }
  cbn [length]. cbn [format_go]. change (negb (Ascii.eqb "%" "%")) with false. cbv iota. fold t. fold body. rewrite F. unfold format_conversion. rewrite H.
  assert (WS : exists sp1, width_step args (Some 0) (flagged first_spec (c_flags c)) (c_width c) = Ok (sp1, Some 0)).
  { unfold width_step. destruct (c_width c); try congruence; eexists; reflexivity. }
  destruct WS as (sp1 & ->). cbn [bind fst snd]. unfold t. rewrite parse_precision_ok; [|exact WQ|destruct US as [US| ->]; [left; exact US|right; split; [reflexivity|exact SP]]].
  assert (PS : exists sp2, precision_step args (Some 0) sp1 (c_precision c) = Ok (sp2, Some 0)).
  { unfold precision_step. destruct (c_precision c) as [[]|]; try congruence; eexists; reflexivity. }
  destruct PS as (sp2 & ->). cbn [bind fst snd].
  assert (GA : exists a ix, get_arg args (Some 0) u (option_map fst (c_position c)) = Ok (a, ix)).
  { unfold place in PL. apply nth_error_Some in PL. unfold get_arg, do_get_arg. destruct (c_position c) as [[n ds]|]; cbn [option_map fst].
    - destruct (N.eqb_spec n 0); [lia|]. destruct (nth_error args (N.to_nat (n - 1))) as [a|]; [|congruence]. eexists. eexists. reflexivity.
    - change (N.to_nat 0) with 0%nat. destruct (nth_error args 0) as [a|]; [|congruence]. eexists. eexists. reflexivity. }
  destruct GA as (a & ix & ->). cbn [bind fst snd].
  unfold lengths in WL. repeat (destruct WL as [<-|WL]); [..|contradiction]; cbn [B list_ascii_of_string parse_length Ascii.eqb Bool.eqb peek hd tl orb]; reflexivity.
Qed.

(** Which letters go with an argument. *)
Lemma wants_in c args w : wants c args = Some w -> In (subject w) args.
Proof.
  unfold wants. destruct (take_width c args) as [[[l wd] args1]|] eqn:TW; [|discriminate].
  destruct (take_precision c args1) as [[p [|a [|? ?]]]|] eqn:TP; try discriminate. intros H. injection H as <-. cbn [subject].
  assert (I1 : incl args1 args).
  { unfold take_width in TW. destruct (c_width c); [injection TW as _ _ <-; apply incl_refl..|]. destruct args as [|b args']; [discriminate|].
    destruct (number_of b) as [z|]; [|discriminate]. destruct (an_int z); [|discriminate]. injection TW as _ _ <-. intros x J. right. exact J. }
  apply I1. unfold take_precision in TP. destruct (c_precision c) as [[]|]; try (injection TP as _ ->; left; reflexivity).
  destruct args1 as [|b args']; [discriminate|]. destruct (number_of b) as [z|]; [|discriminate]. destruct (an_int z); [|discriminate].
  injection TP as _ ->. right. left. reflexivity.
Qed.

Lemma print_integer dbl sp a : is_integer a = true -> valid a -> sp_type sp <> NUL -> sp_type sp <> "c"%char ->
  match radix (sp_type sp) with Some _ => exists t, print_text dbl sp a = Ok t | None => print_text dbl sp a = Error EUnknownType end.
Proof.
  intros IA V T1 T2.
  assert (WD : forall z, (- 2 ^ 31 <= z < 2 ^ 31)%Z -> int_range W32 z) by (intros z R; unfold int_range; cbn [bits_of]; change (Z.of_N 32) with 32%Z; lia).
  destruct a as [z|n|z|n|b|z|bits|p|p size]; try discriminate; cbn [print_text].
  - apply write_int_text_defined, WD, V.
  - apply write_int_text_defined. unfold int_range. cbn [valid bits_of] in *. change (Z.of_N 32) with 32%Z. lia.
  - apply write_int_text_defined. unfold int_range. cbn [valid bits_of] in *. change (Z.of_N 64) with 64%Z. lia.
  - apply write_int_text_defined. unfold int_range. cbn [valid bits_of] in *. change (Z.of_N 64) with 64%Z. lia.
  - destruct (Ascii.eqb_spec (sp_type sp) NUL); [contradiction|]. cbn [negb]. apply write_int_text_defined, WD. destruct b; lia.
  - unfold write_char_text. destruct (Ascii.eqb_spec (sp_type sp) NUL); [contradiction|]. destruct (Ascii.eqb_spec (sp_type sp) "c"); [contradiction|]. cbn [negb andb].
    assert (D := write_int_text_defined W32 z sp (WD z V)). destruct (radix (sp_type sp)); [destruct D as (t & ->); eexists; reflexivity|rewrite D; reflexivity].
Qed.

Lemma lengthen_valid l type a : valid a -> valid (lengthen l type a).
Proof. intros V. unfold lengthen. destruct (bytes_eqb l (B "L")); [exact V|apply convert_valid; exact V]. Qed.
Lemma lengthen_integer l type a : is_integer (lengthen l type a) = is_integer a.
Proof.
  unfold lengthen. destruct (bytes_eqb l (B "L")); [reflexivity|]. unfold convert. destruct (int_value a) as [[v bits]|] eqn:E; [|reflexivity].
  assert (I1 : is_integer a = true) by (destruct a; try discriminate; reflexivity). rewrite I1. cbv zeta. destruct (_ || _), (if bytes_eqb l (B "hh") then _ else _); reflexivity.
Qed.
Lemma lengthen_other l type a : is_integer a = false -> lengthen l type a = a.
Proof. intros H. unfold lengthen, convert. destruct (bytes_eqb l (B "L")); [reflexivity|]. destruct a; try discriminate; reflexivity. Qed.

Lemma fits_radix : forall l, letter l = true ->
  match radix (printed_type l) with Some _ => true | None => false end = existsb (Ascii.eqb l) (B "diuoxXbB")
  /\ printed_type l <> NUL
  /\ existsb (Ascii.eqb l) (B "diuoxXcbB") = Ascii.eqb l "c" || existsb (Ascii.eqb l) (B "diuoxXbB")
  /\ is_float_type l = existsb (Ascii.eqb l) (B "eEfFgGaA")
  /\ (l <> "c"%char -> printed_type l <> "c"%char)
  /\ l <> NUL.
Proof.
  intros l; destruct l as [[] [] [] [] [] [] [] []]; intros H; vm_compute in H; try discriminate H; repeat split; intros; try congruence; discriminate.
Qed.

Lemma string_kind p size sp : sp_type sp <> NUL -> valid (AString p size) ->
  if Ascii.eqb (sp_type sp) "s" then match p with None => write_string p size sp = Error ENullString | Some _ => exists t, write_string p size sp = Ok t end
  else write_string p size sp = Error EUnknownType.
Proof.
  intros T V. assert (D := write_string_defined p size sp V). unfold write_string in *. destruct (Ascii.eqb_spec (sp_type sp) NUL); [contradiction|].
  destruct (Ascii.eqb_spec (sp_type sp) "s"); cbn [negb andb] in *; [|reflexivity].
  destruct p as [m|].
  - match goal with |- exists t, ?r = Ok t => destruct r as [t|err|] eqn:E end; [eexists; reflexivity| |congruence].
    exfalso. destruct (size =? 0).
    + destruct m as [|c m']; [discriminate|]. destruct (Ascii.eqb c NUL); [cbn [bind] in E|destruct (strlen (c :: m')); [cbn [bind] in E|discriminate]];
        unfold read in E; destruct (_ <? _) in E; discriminate.
    + cbn [bind] in E. unfold read in E. destruct (_ <? _) in E; discriminate.
  - cbn [valid] in V. subst size. reflexivity.
Qed.

Lemma kinds_ok dbl c args w : well_formed c -> c_position c = None -> wants c args = Some w -> valid (subject w) ->
  if fits (c_letter c) (subject w) then
    if null (subject w) then sprintf dbl (conversion_text c) args = Error ENullString
    else exists out, sprintf dbl (conversion_text c) args = Ok out
  else sprintf dbl (conversion_text c) args = Error EUnknownType.
Proof.
  intros WF P W V. rewrite (alone_wants dbl c args w WF P W). destruct WF as (_ & _ & _ & _ & _ & LT & _).
  destruct (fits_radix _ LT) as (F1 & F2 & F3 & F4 & F5 & F6).
  destruct (is_integer (subject w)) eqn:IA.
  - assert (FT : fits (c_letter c) (subject w) = Ascii.eqb (c_letter c) "c" || existsb (Ascii.eqb (c_letter c)) (B "diuoxXbB")).
    { rewrite <- F3. destruct (subject w); try discriminate; reflexivity. }
    assert (NL : null (subject w) = false) by (destruct (subject w); try discriminate; reflexivity).
    rewrite FT, NL. unfold normalize. rewrite lengthen_integer, IA.
    assert (LV := lengthen_valid (c_length c) (c_letter c) (subject w) V).
    destruct (Ascii.eqb_spec (c_letter c) "c") as [LC|LC].
    + rewrite LC in *. cbn [Ascii.eqb Bool.eqb orb].
      assert (LI := lengthen_integer (c_length c) "c" (subject w)). rewrite IA in LI.
      destruct (lengthen (c_length c) "c" (subject w)) eqn:E; try discriminate; cbn [to_char int_value print_text write_char_text with_type sp_type Ascii.eqb Bool.eqb negb andb NUL bind]; eexists; reflexivity.
    + cbn [orb]. assert (PT : exists sp, sp_type sp = printed_type (c_letter c) /\
        (let (a2, type) := (if Ascii.eqb (c_letter c) "i" || Ascii.eqb (c_letter c) "u" then (lengthen (c_length c) (c_letter c) (subject w), "d"%char) else (lengthen (c_length c) (c_letter c) (subject w), c_letter c)) in
         print_text dbl (with_type (adjust (base_spec c w) (subject w)) type) a2) = print_text dbl sp (lengthen (c_length c) (c_letter c) (subject w))).
      { exists (with_type (adjust (base_spec c w) (subject w)) (printed_type (c_letter c))). split; [reflexivity|]. unfold printed_type.
        destruct (Ascii.eqb (c_letter c) "i" || Ascii.eqb (c_letter c) "u"); reflexivity. }
      destruct PT as (sp & ST & ->).
      assert (LI := lengthen_integer (c_length c) (c_letter c) (subject w)). rewrite IA in LI.
      assert (D := print_integer dbl sp _ LI LV). rewrite ST in D. specialize (D F2 (F5 LC)). rewrite <- F1.
      destruct (radix (printed_type (c_letter c))); exact D.
  - rewrite (lengthen_other _ _ _ IA). unfold normalize. rewrite IA. set (sp := with_type (adjust (base_spec c w) (subject w)) (c_letter c)).
    assert (ST : sp_type sp = c_letter c) by reflexivity. clearbody sp.
    destruct (subject w) as [ | | | | | |bits|p|p size]; try discriminate; cbn [fits null print_text].
    + rewrite ST, F4. destruct (existsb (Ascii.eqb (c_letter c)) (B "eEfFgGaA")); [eexists; reflexivity|reflexivity].
    + assert (K := string_kind p 0 sp). rewrite ST in K. specialize (K F6). cbn [valid] in *. specialize (K ltac:(destruct p; [exact V|reflexivity])).
      destruct (Ascii.eqb (c_letter c) "s"); [destruct p; exact K|exact K].
    + assert (K := string_kind p size sp). rewrite ST in K. specialize (K F6 V).
      destruct (Ascii.eqb (c_letter c) "s"); [destruct p; exact K|exact K].
Qed.

(** An argument that cannot be a width or a precision. *)
Lemma star_width dbl c a args : well_formed c -> c_position c = None -> c_width c = Asterisk -> valid a ->
  match number_of a with
  | None => sprintf dbl (conversion_text c) (a :: args) = Error EWidthNotInteger
  | Some z => (2 ^ 31 <= Z.abs z)%Z -> sprintf dbl (conversion_text c) (a :: args) = Error ENumberTooBig
  end.
Proof.
  intros WF P CW V. rewrite (alone_ok dbl c _ WF). unfold conv_args, width_step. rewrite CW. rewrite (get_arg_at (a :: args) 0 a args eq_refl). cbn [bind fst snd].
  assert (NV := number_value a). destruct (number_of a) as [z|] eqn:NO.
  - intros BIG. destruct NV as (bits & IV & BB). unfold width_of. rewrite IV. cbv zeta.
    assert (E : Z.to_N (if (z <? 0)%Z then (- z) mod 2 ^ Z.of_N bits else z) = Z.abs_N z).
    { destruct (Z.ltb_spec z 0); [|lia]. rewrite Z.mod_small; [lia|].
      assert (- z < 2 ^ Z.of_N bits)%Z; [|lia].
      destruct a as [x|n|x|n|[]|x|?|?|? ?]; cbn [number_of int_value valid] in *; try discriminate; injection NO as <-; injection IV as <-;
        try (change (Z.of_N 32) with 32%Z); try (change (Z.of_N 64) with 64%Z); lia. }
    rewrite E. destruct (N.ltb_spec INT_MAX (Z.abs_N z)) as [_|H]; [reflexivity|unfold INT_MAX in H; lia].
  - unfold width_of. rewrite NV. reflexivity.
Qed.

(** ---- the number of arguments ---- *)

Lemma get_arg_enough args i s a ix : get_arg args (Some i) s None = Ok (a, ix) -> (N.to_nat i < length args)%nat.
Proof.
  unfold get_arg, do_get_arg. destruct (nth_error args (N.to_nat i)) eqn:E; [|discriminate]. intros _. apply nth_error_Some. congruence.
Qed.
Lemma conv_args_enough args i c r : c_position c = None -> conv_args args (Some i) c = Ok r -> (N.to_nat i + needs c <= length args)%nat.
Proof.
  intros P. unfold conv_args, width_step, precision_step, needs, stars. rewrite P. cbn [option_map].
  assert (LAST : forall j sp, (ai <- get_arg args (Some j) (B "*") None;
     (let sp3 := adjust sp (fst ai) in let (a2, type) := normalize (lengthen (c_length c) (c_letter c) (fst ai)) (c_letter c) in Ok (with_type sp3 type, a2, snd ai))) = Ok r ->
     (N.to_nat j < length args)%nat).
  { intros j sp E. destruct (get_arg args (Some j) (B "*") None) as [[a ix]| |] eqn:G; [|discriminate..]. exact (get_arg_enough _ _ _ _ _ G). }
  assert (MID : forall j sp, (r2 <- (match c_precision c with
      | None | Some NoAmount => Ok (sp, Some j)
      | Some (Given n _) => Ok (with_precision sp (Some n), Some j)
      | Some Asterisk => ai <- get_arg args (Some j) (B "*") None; sp2 <- precision_of sp (fst ai); Ok (sp2, snd ai)
      end);
      ai <- get_arg args (snd r2) (B "*") None;
     (let sp3 := adjust (fst r2) (fst ai) in let (a2, type) := normalize (lengthen (c_length c) (c_letter c) (fst ai)) (c_letter c) in Ok (with_type sp3 type, a2, snd ai))) = Ok r ->
     (N.to_nat j + match c_precision c with Some Asterisk => 1 | _ => 0 end < length args)%nat).
  { intros j sp E. destruct (c_precision c) as [[|n ds|]|]; cbn [bind fst snd] in E; try (apply LAST in E; lia).
    destruct (get_arg args (Some j) (B "*") None) as [[a ix]| |] eqn:G; [|discriminate..]. cbn [bind fst snd] in E.
    destruct (precision_of sp a); [|discriminate..]. cbn [bind fst snd] in E. rewrite (get_arg_next _ _ _ _ _ G) in E. apply LAST in E. lia. }
  destruct (c_width c) as [|n ds|]; cbn [bind fst snd]; intros E; try (apply MID in E; lia).
  destruct (get_arg args (Some i) (B "*") None) as [[a ix]| |] eqn:G; [|discriminate..]. cbn [bind fst snd] in E.
  destruct (width_of _ a); [|discriminate..]. cbn [bind fst snd] in E. rewrite (get_arg_next _ _ _ _ _ G) in E. apply MID in E. lia.
Qed.

Lemma steps_enough dbl args ps : Forall good_piece ps -> forall k lit o r, (N.to_nat k <= length args)%nat -> steps dbl args (Some k) lit o ps = Ok r ->
  (N.to_nat k + all_needs ps <= length args)%nat.
Proof.
  induction 1 as [|p ps H _ IH]; intros k lit o r K E; [cbn [all_needs]; lia|].
  destruct p as [s|c]; cbn [steps all_needs good_piece] in *.
  - destruct (after_literal lit o s) as [l1 o1]. exact (IH _ _ _ _ K E).
  - destruct H as [W P]. destruct (conv_args args (Some k) c) as [[[sp a] ix1]| |] eqn:CA; [|discriminate..]. cbn [bind] in E.
    assert (EN := conv_args_enough _ _ _ _ P CA).
    rewrite (conv_args_next _ _ _ _ _ _ P CA) in E. destruct (print_arg dbl sp a (write_literal o lit)); [|discriminate..]. cbn [bind] in E.
    apply IH in E; lia.
Qed.
Lemma missing_ok dbl ps args out0 : Forall good_piece ps -> (length args < all_needs ps)%nat -> sprintf dbl (format_text ps) args <> Ok out0.
Proof.
  intros G L E. rewrite (sprintf_steps dbl args ps (good_clean ps G)) in E.
  destruct (steps dbl args (Some 0) [] start ps) as [r| |] eqn:S0; [|discriminate..]. apply (steps_enough dbl args ps G) in S0; [|cbn; lia].
  change (N.to_nat 0) with 0%nat in S0. lia.
Qed.

Lemma next_missing_ok dbl ps c rest args out0 : Forall good_piece ps -> sprintf dbl (format_text ps) args = Ok out0 -> all_needs ps = length args ->
  well_formed c -> c_position c = None ->
  sprintf dbl (format_text ps ++ conversion_text c ++ rest) args = Error EIndexRange.
Proof.
  intros G E L W P.
  destruct (sprintf_behind dbl args ps (conversion_text c ++ rest) out0 (good_clean ps G) E) as (ix & lit & o & fuel & ST & LF & ->).
  rewrite c_string_app in * by (apply conversion_no_nul; exact W). destruct fuel as [|fuel]; [lia|]. rewrite go_conversion by exact W.
  rewrite (steps_auto dbl args ps G 0 [] start ix lit o ST), N.add_0_l, L.
  assert (GA : get_arg args (Some (N.of_nat (length args))) (B "*") None = Error EIndexRange).
  { unfold get_arg, do_get_arg. rewrite Nat2N.id. rewrite (proj2 (nth_error_None args (length args))) by lia. reflexivity. }
  unfold conv_args, width_step. rewrite P. cbn [option_map].
  destruct (c_width c); cbn [bind fst snd]; try (rewrite GA; reflexivity);
    unfold precision_step; destruct (c_precision c) as [[]|]; cbn [bind fst snd]; rewrite GA; reflexivity.
Qed.

Lemma steps_extra dbl args more ps : Forall good_piece ps -> forall k lit o, (N.to_nat k + all_needs ps <= length args)%nat ->
  steps dbl (args ++ more) (Some k) lit o ps = steps dbl args (Some k) lit o ps.
Proof.
  induction 1 as [|p ps H _ IH]; intros k lit o L; [reflexivity|].
  destruct p as [s|c]; cbn [steps all_needs good_piece] in *.
  - destruct (after_literal lit o s) as [l1 o1]. apply IH. exact L.
  - destruct H as [W P]. rewrite (conv_args_shift (args ++ more) k c P), (conv_args_shift args k c P).
    replace (firstn (needs c) (skipn (N.to_nat k) (args ++ more))) with (firstn (needs c) (skipn (N.to_nat k) args)).
    + destruct (conv_args (firstn (needs c) (skipn (N.to_nat k) args)) (Some 0) c) as [[[sp a] ix]| |] eqn:E; cbn [shift bind]; [|reflexivity|reflexivity].
      rewrite (conv_args_next _ _ _ _ _ _ P E). cbn [bind]. destruct (print_arg dbl sp a (write_literal o lit)); cbn [bind]; [|reflexivity|reflexivity].
      apply IH. lia.
    + rewrite skipn_app, firstn_app. replace (N.to_nat k - length args)%nat with 0%nat by lia. cbn [skipn].
      rewrite skipn_length. replace (needs c - (length args - N.to_nat k))%nat with 0%nat by lia. cbn [firstn]. rewrite app_nil_r. reflexivity.
Qed.
Lemma extra_ok dbl ps args more : Forall good_piece ps -> (all_needs ps <= length args)%nat ->
  sprintf dbl (format_text ps) (args ++ more) = sprintf dbl (format_text ps) args.
Proof.
  intros G L. rewrite !sprintf_steps by (apply good_clean; exact G). rewrite steps_extra by (exact G || cbn; lia). reflexivity.
Qed.

(** ---- one text ---- *)

Lemma fills_eq c s : fills c s -> s = repeat c (length s).
Proof. induction 1 as [|x s -> _ IH]; [reflexivity|]. cbn [length repeat]. congruence. Qed.

Lemma field_one number al fill width mark body o1 o2 : field number al fill width mark body o1 -> field number al fill width mark body o2 -> o1 = o2.
Proof.
  intros (l1 & i1 & r1 & E1 & L1 & I1 & R1 & S1 & A1) (l2 & i2 & r2 & E2 & L2 & I2 & R2 & S2 & A2).
  apply fills_eq in L1, I1, R1, L2, I2, R2. rewrite E1 in S1. rewrite E2 in S2. rewrite E1, E2. clear E1 E2 o1 o2.
  rewrite !length_N_app in S1, S2. unfold length_N in *.
  assert (K : length l1 = length l2 /\ length i1 = length i2 /\ length r1 = length r2).
  { clear L1 I1 R1 L2 I2 R2. destruct al, number; destruct A1 as [X1 Y1], A2 as [X2 Y2]; subst; cbn [length] in *; lia. }
  destruct K as (K1 & K2 & K3). rewrite L1, I1, R1, L2, I2, R2, K1, K2, K3. reflexivity.
Qed.

Lemma integer_text_one c w v o1 o2 : integer_text c w v o1 -> integer_text c w v o2 -> o1 = o2.
Proof.
  intros (b1 & u1 & d1 & B1 & N1 & F1) (b2 & u2 & d2 & B2 & N2 & F2). rewrite B1 in B2. injection B2 as <- <-.
  assert (BASE : 2 <= b1 <= 16).
  { unfold base_of in B1. repeat match type of B1 with (if ?x then _ else _) = _ => destruct x end; try discriminate; injection B1 as <- <-; lia. }
  rewrite (numeral_unique b1 u1 BASE d1 d2 _ N1 N2) in F1. eapply field_one; eassumption.
Qed.
