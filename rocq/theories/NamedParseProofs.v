(** Proofs about format strings with choices of arguments: the parser does what the parts mean. *)
From Verif Require Import Base Decimal FmtModel FmtSpec FmtProofs FmtSubProofs NamedModel NamedSpec NamedProofs.
Open Scope N_scope.

(** What follows a choice in a well-formed string. *)
Definition ends (rest : bytes) : Prop := (peek rest = ":" \/ peek rest = RBRACE)%char.

Lemma ends_facts rest : ends rest -> is_digit (peek rest) = false /\ is_name_char (peek rest) = false /\
  negb (Ascii.eqb (peek rest) RBRACE) && negb (Ascii.eqb (peek rest) ":") = false /\ is_name_start (peek rest) = false.
Proof. intros [-> | ->]; repeat split; reflexivity. Qed.

(** ---- characters ---- *)

Definition name_facts (c : ascii) : bool :=
  Bool.eqb (is_name_start c) (name_start c)
  && Bool.eqb (is_digit c) (decimal c)
  && implb (name_start c) (negb (is_digit c) && negb (Ascii.eqb c LBRACE) && negb (Ascii.eqb c NUL) && match align_char c with None => true | _ => false end)
  && implb (decimal c) (negb (Ascii.eqb c LBRACE) && negb (Ascii.eqb c NUL) && match align_char c with None => true | _ => false end && negb (name_start c)).
Lemma name_ok : forall c, name_facts c = true.
Proof. per_byte. Qed.

Lemma name_start_ok c : is_name_start c = name_start c.
Proof. assert (F := name_ok c). unfold name_facts in F. rewrite !andb_true_iff in F. apply Bool.eqb_prop. tauto. Qed.
Lemma is_digit_ok c : is_digit c = decimal c.
Proof. assert (F := name_ok c). unfold name_facts in F. rewrite !andb_true_iff in F. apply Bool.eqb_prop. tauto. Qed.
Lemma name_start_facts c : name_start c = true -> is_digit c = false /\ c <> LBRACE /\ c <> NUL /\ align_char c = None.
Proof.
  intros H. assert (F := name_ok c). unfold name_facts in F. rewrite H in F. cbn [implb] in F. rewrite !andb_true_iff, !negb_true_iff in F.
  destruct F as [[_ [[[F1 F2] F3] F4]] _]. apply Ascii.eqb_neq in F2, F3. repeat split; try assumption. destruct (align_char c); congruence.
Qed.
Lemma decimal_facts c : decimal c = true -> c <> LBRACE /\ c <> NUL /\ align_char c = None /\ name_start c = false.
Proof.
  intros H. assert (F := name_ok c). unfold name_facts in F. rewrite H in F. cbn [implb] in F. rewrite !andb_true_iff, !negb_true_iff in F.
  destruct F as [_ [[[F1 F2] F3] F4]]. apply Ascii.eqb_neq in F1, F2. repeat split; try assumption. destruct (align_char c); congruence.
Qed.

Lemma digits_decimal ds : forall acc v, read_digits 10 acc ds = Some v -> Forall (fun c => decimal c = true) ds.
Proof.
  induction ds as [|c ds IH]; intros acc v E; [constructor|]. cbn [read_digits] in E. destruct (digit_number c) as [d|] eqn:D; [|discriminate].
  destruct (N.ltb_spec d 10) as [L|L]; [|discriminate]. constructor; [|exact (IH _ _ E)]. unfold decimal. rewrite D. apply N.ltb_lt, L.
Qed.

(** The first character of a choice and what follows. *)
Lemma choice_first c rest : sound_choice c -> ends rest ->
  peek (choice_text c ++ rest) <> LBRACE /\ align_char (peek (choice_text c ++ rest)) = None.
Proof.
  intros S E. destruct c as [|n ds|name]; cbn [choice_text app sound_choice] in *.
  - destruct E as [-> | ->]; split; try reflexivity; discriminate.
  - destruct S as [(NE & RD & _) _]. apply digits_decimal in RD. destruct ds as [|c ds]; [congruence|].
    apply Forall_cons_iff in RD as [RD _]. destruct (decimal_facts c RD) as (A & _ & C & _). split; assumption.
  - destruct name as [|c name]; [destruct S|]. destruct S as [S _]. destruct (name_start_facts c S) as (_ & A & _ & C). split; assumption.
Qed.

Lemma choice_no_nul c : sound_choice c -> ~ In NUL (choice_text c).
Proof.
  destruct c as [|n ds|name]; cbn [choice_text sound_choice].
  - intros _ [].
  - intros [S _]. exact (digits_no_nul n ds S).
  - intros S. destruct name as [|c name]; [destruct S|]. destruct S as [S1 S2]. intros [I|I].
    + apply name_start_facts in S1. tauto.
    + rewrite Forall_forall in S2. apply S2 in I. discriminate I.
Qed.

(** ---- the selection ---- *)

Lemma name_run_ok name rest : Forall (fun c => is_name_char c = true) name -> is_name_char (peek rest) = false ->
  name_run (name ++ rest) = (name, rest).
Proof.
  intros F E. induction name as [|c name IH]; cbn [app name_run].
  - destruct rest as [|c rest]; [reflexivity|]. cbn [peek hd] in E. cbn [name_run]. rewrite E. reflexivity.
  - apply Forall_cons_iff in F as [F1 F]. rewrite F1, (IH F). reflexivity.
Qed.

Section Selection.
Variables (l : list given) (al : arg_list).
Hypothesis M : make_arg_list l = Ok al.

Lemma get_ok i : do_get_arg al i = match nth_error l (N.to_nat i) with Some g => Ok (value_of g) | None => Error EIndexRange end.
Proof. unfold do_get_arg. rewrite (at_index_ok l al M). cbn [bind]. destruct (nth_error l (N.to_nat i)) as [[]|]; reflexivity. Qed.

Definition pick (f : formatter) (c : choice) : result (arg * formatter) :=
  let (ix, m) := f in
  match c with
  | Following =>
      match ix with
      | None => Error EAutoFromManual
      | Some i => match nth_error l (N.to_nat i) with Some g => Ok (value_of g, (Some (i + 1), m)) | None => Error EIndexRange end
      end
  | _ =>
      match ix with
      | Some (N.pos _) => Error EManualFromAuto
      | _ => a <- chosen l c; Ok (a, (None, match c with Called _ => entries l | _ => m end))
      end
  end.

Definition good (f : formatter) : Prop := snd f = [] \/ snd f = entries l.

Lemma pick_good f c a f' : good f -> pick f c = Ok (a, f') -> good f'.
Proof.
  destruct f as [ix m]. unfold pick, good. intros G. destruct c as [|n ds|name].
  - destruct ix as [i|]; [|discriminate]. destruct (nth_error l (N.to_nat i)); [|discriminate]. intros E. injection E as _ <-. exact G.
  - destruct ix as [[|p]|]; try discriminate; destruct (chosen l (Position n ds)); cbn [bind]; try discriminate; intros E; injection E as _ <-; exact G.
  - destruct ix as [[|p]|]; try discriminate; destruct (chosen l (Called name)); cbn [bind]; try discriminate; intros E; injection E as _ <-; right; reflexivity.
Qed.

Lemma select_ok f c rest : good f -> sound_choice c -> ends rest ->
  parse_arg al f (choice_text c ++ rest) = match pick f c with Ok (a, f') => Ok (a, f', rest) | Error e => Error e | Undefined => Undefined end.
Proof.
  destruct f as [ix m]. intros G S E. assert (EF := ends_facts rest E). destruct EF as (E1 & E2 & E3 & E4).
  unfold parse_arg. destruct c as [|n ds|name]; cbn [choice_text app sound_choice pick] in *.
  - rewrite E4. unfold parse_arg_index. rewrite E1, E3. destruct ix as [i|]; [|reflexivity]. rewrite get_ok.
    destruct (nth_error l (N.to_nat i)); reflexivity.
  - destruct S as [S B]. destruct (parse_int_ok n ds rest S B E1) as [P1 P2].
    assert (NS : is_name_start (peek (ds ++ rest)) = false).
    { destruct S as (NE & RD & _). apply digits_decimal in RD. destruct ds as [|c ds]; [congruence|].
      apply Forall_cons_iff in RD as [RD _]. destruct (decimal_facts c RD) as (_ & _ & _ & Q). cbn [app peek hd]. rewrite name_start_ok. exact Q. }
    rewrite NS. unfold parse_arg_index. rewrite P2, P1. cbn [bind]. rewrite E3, get_ok. cbn [chosen].
    destruct ix as [[|p]|]; try reflexivity; destruct (nth_error l (N.to_nat n)); reflexivity.
  - destruct name as [|c name]; [destruct S|]. destruct S as [S1 S2]. cbn [app peek hd]. rewrite name_start_ok, S1.
    unfold parse_arg_name. change (c :: name ++ rest) with ((c :: name) ++ rest). rewrite name_run_ok; [| |exact E2].
    2: { constructor.
         - unfold is_name_char. rewrite name_start_ok, S1. reflexivity.
         - eapply Forall_impl; [|exact S2]. intros x X. unfold is_name_char. rewrite name_start_ok, is_digit_ok. exact X. }
    cbn [chosen]. destruct ix as [[|p]|]; try reflexivity;
      (rewrite (init_ok l al M m G); cbn [bind]; rewrite find_entries; destruct (called (c :: name) l); reflexivity).
Qed.
End Selection.

(** ---- sizes ---- *)

Lemma int_of_arg_ok neg ni a : int_of_arg neg ni a = size_of neg ni a.
Proof.
  unfold int_of_arg, size_of, INT_MAX. destruct a; cbn [number_of]; try reflexivity.
  - destruct (Z.ltb_spec z 0); [reflexivity|]. destruct (N.ltb_spec (2 ^ 31 - 1) (Z.to_N z)), (Z.ltb_spec z (2 ^ 31)); try reflexivity; exfalso.
    + change (2 ^ 31)%Z with 2147483648%Z in *. change (2 ^ 31) with 2147483648 in *. lia.
    + change (2 ^ 31)%Z with 2147483648%Z in *. change (2 ^ 31) with 2147483648 in *. lia.
  - assert (P : (Z.of_N n <? 0)%Z = false) by (apply Z.ltb_ge; lia). rewrite P, N2Z.id.
    destruct (N.ltb_spec (2 ^ 31 - 1) n), (Z.ltb_spec (Z.of_N n) (2 ^ 31)); try reflexivity; exfalso;
    change (2 ^ 31)%Z with 2147483648%Z in *; change (2 ^ 31) with 2147483648 in *; lia.
  - destruct (Z.ltb_spec z 0); [reflexivity|]. destruct (N.ltb_spec (2 ^ 31 - 1) (Z.to_N z)), (Z.ltb_spec z (2 ^ 31)); try reflexivity; exfalso.
    + change (2 ^ 31)%Z with 2147483648%Z in *. change (2 ^ 31) with 2147483648 in *. lia.
    + change (2 ^ 31)%Z with 2147483648%Z in *. change (2 ^ 31) with 2147483648 in *. lia.
  - assert (P : (Z.of_N n <? 0)%Z = false) by (apply Z.ltb_ge; lia). rewrite P, N2Z.id.
    destruct (N.ltb_spec (2 ^ 31 - 1) n), (Z.ltb_spec (Z.of_N n) (2 ^ 31)); try reflexivity; exfalso;
    change (2 ^ 31)%Z with 2147483648%Z in *; change (2 ^ 31) with 2147483648 in *; lia.
Qed.

(** ---- the front of a specification ---- *)

(** How late a character can first appear, where a brace can start a width. *)
Definition late (k : N) (c : ascii) : Prop := k <= rank c \/ (k <= 5 /\ c = LBRACE).

Lemma late2 c : late 2 c -> align_char c = None.
Proof. intros [H|[_ ->]]; [apply rank2, H|reflexivity]. Qed.
Lemma late3 c : late 3 c -> Ascii.eqb c "+" = false /\ Ascii.eqb c "-" = false /\ Ascii.eqb c " " = false.
Proof. intros [H|[_ ->]]; [apply rank3, H|repeat split; reflexivity]. Qed.
Lemma late4 c : late 4 c -> Ascii.eqb c "#" = false.
Proof. intros [H|[_ ->]]; [apply rank4, H|reflexivity]. Qed.
Lemma late5 c : late 5 c -> Ascii.eqb c "0" = false.
Proof. intros [H|[_ ->]]; [apply rank5, H|reflexivity]. Qed.
Lemma late_weaken j k c : j <= k -> late k c -> late j c.
Proof. intros H [K|[K E]]; [left; lia|right; split; [lia|exact E]]. Qed.

Section Front.
Variables (w : wish) (a : arg) (t5 : bytes).
Let t4 : bytes := (if w_zero w then B "0" else []) ++ t5.
Let t3 : bytes := (if w_hash w then B "#" else []) ++ t4.
Let t2 : bytes := opt_text (w_sign w) ++ t3.

Hypothesis FL : match w_fill w with Some c => c <> LBRACE /\ c <> RBRACE /\ c <> NUL /\ w_align w <> ADefault | None => True end.
Hypothesis AL : w_align w = ANumeric -> number_kind a = true.
Hypothesis SG : match w_sign w with
  | Some c => (c = "+" \/ c = "-" \/ c = " ")%char /\ number_kind a = true /\ match a with AUint _ | AUlong _ => False | _ => True end
  | None => True end.
Hypothesis HA : w_hash w = true -> number_kind a = true.
Hypothesis ZE : w_zero w = true -> number_kind a = true.
Hypothesis L5 : late 5 (peek t5).
Hypothesis NE : w_fill w = None -> w_align w = ADefault -> w_sign w = None -> w_hash w = false -> w_zero w = false ->
  peek t5 <> RBRACE /\ t5 <> [] /\ align_char (peek (tl t5)) = None.

Lemma front4 : late 4 (peek t4).
Proof. unfold t4. destruct (w_zero w); [left; vm_compute; discriminate|]. cbn [app]. apply (late_weaken 4 5); [lia|exact L5]. Qed.
Lemma front3 : late 3 (peek t3).
Proof. assert (P := front4). unfold t3. destruct (w_hash w); [left; vm_compute; discriminate|]. cbn [app]. apply (late_weaken 3 4); [lia|exact P]. Qed.
Lemma front2 : late 2 (peek t2).
Proof.
  assert (P := front3). unfold t2. destruct (w_sign w) as [c|].
  - left. destruct SG as [[-> | [-> | ->]] _]; vm_compute; discriminate.
  - cbn [app opt_text]. apply (late_weaken 2 3); [lia|exact P].
Qed.

Lemma front_second : w_fill w = None -> w_align w = ADefault -> align_char (peek (tl t2)) = None /\ peek t2 <> RBRACE /\ t2 <> [].
Proof.
  intros F A. assert (P4 := front4). assert (P3 := front3). specialize (NE F A). unfold t2 in *.
  destruct (w_sign w) as [c|].
  { cbn [opt_text app tl peek hd]. fold (peek t3). split; [apply late2, (late_weaken 2 3); [lia|exact P3]|]. split; [|discriminate].
    destruct SG as [[-> | [-> | ->]] _]; discriminate. }
  specialize (NE eq_refl). cbn [opt_text app]. unfold t3 in *. destruct (w_hash w).
  { change (B "#" ++ t4) with ("#"%char :: t4). cbn [tl]. split; [apply late2, (late_weaken 2 4); [lia|exact P4]|]. split; discriminate. }
  specialize (NE eq_refl). cbn [app]. unfold t4 in *. destruct (w_zero w).
  { change (B "0" ++ t5) with ("0"%char :: t5). cbn [tl]. split; [apply late2, (late_weaken 2 5); [lia|exact L5]|]. split; discriminate. }
  destruct (NE eq_refl) as (N1 & N2 & N3). cbn [app]. split; [exact N3|split; assumption].
Qed.

Lemma front_align : parse_align a (opt_text (w_fill w) ++ align_text (w_align w) ++ t2)
  = Ok (w_align w, match w_fill w with Some c => c | None => " "%char end, t2).
Proof.
  assert (P2 := late2 _ front2).
  assert (CA : check_align a (w_align w) = Ok tt).
  { unfold check_align. destruct (w_align w); try reflexivity. apply require_numeric_ok, AL. reflexivity. }
  assert (Q : forall al, al <> ADefault -> exists c, align_text al = [c] /\ align_char c = Some al).
  { intros [] H; try congruence; eexists; split; reflexivity. }
  assert (SE := front_second). clear L5 NE.
  destruct (w_fill w) as [c|] eqn:F.
  - destruct FL as (F1 & F2 & _ & F3). destruct (Q _ F3) as (x & X1 & X2). rewrite X1. cbn [opt_text app].
    unfold parse_align. cbn [peek hd tl]. rewrite X2. apply Ascii.eqb_neq in F1, F2. rewrite F1, F2, CA. reflexivity.
  - cbn [opt_text app]. destruct (w_align w) eqn:A.
    5: { cbn [align_text app]. destruct (SE eq_refl eq_refl) as (S1 & S2 & S3). unfold parse_align.
         destruct t2 as [|c s1]; [congruence|]. cbn [tl peek hd] in *. fold (peek s1) in *.
         rewrite S1, P2. reflexivity. }
    all: cbn [align_text B list_ascii_of_string app]; unfold parse_align; rewrite P2;
      match goal with |- context [align_char ?c] => change (align_char c) with (Some (w_align (Wish None ltac:(let x := eval cbv in (align_char c) in match x with Some ?y => exact y end) None false false None None None))) end;
      cbn [w_align]; rewrite CA; reflexivity.
Qed.

Lemma front_sign : parse_sign a t2 = Ok (match w_sign w with Some c => negb (Ascii.eqb c "-") | None => false end,
  match w_sign w with Some c => Ascii.eqb c "+" | None => false end, match w_sign w with Some c => Ascii.eqb c "-" | None => false end, t3).
Proof.
  assert (P3 := late3 _ front3). unfold t2. destruct (w_sign w) as [c|].
  - destruct SG as (SG' & NK & U).
    assert (C : check_sign a = Ok tt).
    { unfold check_sign. rewrite require_numeric_ok by exact NK. cbn [bind]. destruct a; try contradiction; reflexivity. }
    destruct SG' as [-> | [-> | ->]]; cbn [opt_text app]; unfold parse_sign; rewrite C; reflexivity.
  - cbn [opt_text app]. unfold parse_sign. destruct t3 as [|c s]; [reflexivity|]. cbn [peek hd] in P3.
    destruct P3 as (-> & -> & ->). reflexivity.
Qed.

Lemma front_hash : parse_flag "#" a t3 = Ok (w_hash w, t4).
Proof.
  assert (P4 := late4 _ front4). unfold t3. destruct (w_hash w).
  - change (B "#" ++ t4) with ("#"%char :: t4). unfold parse_flag. rewrite Ascii.eqb_refl, require_numeric_ok by auto. reflexivity.
  - cbn [app]. unfold parse_flag. destruct t4 as [|c s]; [reflexivity|]. cbn [peek hd] in P4. rewrite P4. reflexivity.
Qed.

Lemma front_zero : parse_flag "0" a t4 = Ok (w_zero w, t5).
Proof.
  assert (P5 := late5 _ L5). unfold t4. destruct (w_zero w).
  - change (B "0" ++ t5) with ("0"%char :: t5). unfold parse_flag. rewrite Ascii.eqb_refl, require_numeric_ok by auto. reflexivity.
  - cbn [app]. unfold parse_flag. clear NE. destruct t5 as [|c s]; [reflexivity|]. cbn [peek hd] in P5. rewrite P5. reflexivity.
Qed.
End Front.

(** ---- the parser, for a selection that picks what a choice chooses ---- *)

Section Parser.
Variables (State : Type) (select : State -> bytes -> result (arg * State * bytes)) (dbl : spec -> N -> bytes)
  (choose : State -> choice -> result (arg * State)) (ok : State -> Prop).
Hypothesis SEL : forall st c rest, ok st -> sound_choice c -> ends rest ->
  select st (choice_text c ++ rest) = match choose st c with Ok (a, st') => Ok (a, st', rest) | Error e => Error e | Undefined => Undefined end.
Hypothesis OKS : forall st c a st', ok st -> choose st c = Ok (a, st') -> ok st'.

Definition size_st (st : State) (neg ni : error) (s : size) : result (N * State) :=
  match s with
  | Number n _ => Ok (n, st)
  | Of c => r <- choose st c; let (a, st') := r : arg * State in n <- size_of neg ni a; Ok (n, st')
  end.
Definition width_st (st : State) (d : desire) : result (N * State) :=
  match d_width d with Some s => size_st st ENegativeWidth EWidthNotInteger s | None => Ok (0, st) end.
Definition precision_st (st : State) (d : desire) : result (option N * State) :=
  match d_precision d with
  | Some s => r <- size_st st ENegativePrecision EPrecisionNotInteger s; Ok (Some (fst r), snd r)
  | None => Ok (None, st)
  end.
Definition desire_st (st : State) (d : desire) : result (spec * State) :=
  r <- width_st st d; p <- precision_st (snd r) d; Ok (settled d (fst r) (fst p), snd p).
Definition spec_st (st : State) (d : option desire) : result (spec * State) :=
  match d with Some d => desire_st st d | None => Ok (empty_spec, st) end.
Fixpoint out_st (st : State) (ps : list part) : result (bytes * State) :=
  match ps with
  | [] => Ok ([], st)
  | Words s :: ps' => r <- out_st st ps'; Ok (s ++ fst r, snd r)
  | Place c d :: ps' =>
      x <- choose st c;
      y <- spec_st (snd x) d;
      t <- format_arg dbl (fst y) (fst x);
      r <- out_st (snd y) ps';
      Ok (t ++ fst r, snd r)
  end.
Fixpoint sound_st (st : State) (ps : list part) : Prop :=
  match ps with
  | [] => True
  | Words s :: ps' => sound_st st ps'
  | Place c d :: ps' =>
      sound_choice c /\ forall a st1, choose st c = Ok (a, st1) ->
        match d with Some d => sound_desire a d | None => True end /\
        forall sp st2, spec_st st1 d = Ok (sp, st2) -> sound_st st2 ps'
  end.

Lemma size_ok_st st neg ni s n st' : ok st -> size_st st neg ni s = Ok (n, st') -> ok st'.
Proof.
  intros K. destruct s as [m ds|c]; cbn [size_st]; [intros E; injection E as _ <-; exact K|].
  destruct (choose st c) as [[a st1]| |] eqn:C; cbn [bind]; try discriminate. destruct (size_of neg ni a); cbn [bind]; try discriminate.
  intros E. injection E as _ <-. exact (OKS _ _ _ _ K C).
Qed.
Lemma width_ok_st st d n st' : ok st -> width_st st d = Ok (n, st') -> ok st'.
Proof.
  intros K. unfold width_st. destruct (d_width d) as [s|]; [apply size_ok_st, K|]. intros E. injection E as _ <-. exact K.
Qed.
Lemma spec_ok_st st d sp st' : ok st -> spec_st st d = Ok (sp, st') -> ok st'.
Proof.
  intros K. destruct d as [d|]; cbn [spec_st]; [|intros E; injection E as _ <-; exact K]. unfold desire_st.
  destruct (width_st st d) as [[n st1]| |] eqn:W; cbn [bind snd]; try discriminate. apply (width_ok_st _ _ _ _ K) in W.
  unfold precision_st. destruct (d_precision d) as [s|].
  - destruct (size_st st1 _ _ s) as [[p st2]| |] eqn:P; cbn [bind]; try discriminate. intros E. injection E as _ <-.
    exact (size_ok_st _ _ _ _ _ _ W P).
  - cbn [bind]. intros E. injection E as _ <-. exact W.
Qed.

(** What follows a nested choice, and a size. *)
Lemma nested_st st neg ni c rest : ok st -> sound_choice c ->
  parse_nested State select st neg ni (choice_text c ++ RBRACE :: rest)
  = match size_st st neg ni (Of c) with Ok (n, st') => Ok (n, st', rest) | Error e => Error e | Undefined => Undefined end.
Proof.
  intros K S. unfold parse_nested. rewrite (SEL st c (RBRACE :: rest) K S) by (right; reflexivity). cbn [size_st].
  destruct (choose st c) as [[a st']| |]; cbn [bind]; try reflexivity. rewrite Ascii.eqb_refl, int_of_arg_ok.
  destruct (size_of neg ni a); reflexivity.
Qed.

Lemma width_parse st d t6 : ok st -> sound_size 1 (d_width d) -> 6 <= rank (peek t6) ->
  parse_width State select st (match d_width d with Some s => size_text s | None => [] end ++ t6)
  = match width_st st d with Ok (n, st') => Ok (n, st', t6) | Error e => Error e | Undefined => Undefined end.
Proof.
  intros K S P. destruct (rank6 _ P) as [D L]. unfold parse_width, width_st. destruct (d_width d) as [[n ds|c]|]; cbn [sound_size size_text size_st] in *.
  - destruct S as [W W']. destruct (parse_int_ok n ds t6 W ltac:(lia) D) as [E ->]. rewrite E. reflexivity.
  - change (B "{" ++ choice_text c ++ B "}") with (LBRACE :: choice_text c ++ [RBRACE]). cbn [app peek hd]. rewrite <- app_assoc. cbn [app].
    change (is_digit LBRACE) with false. cbv iota. rewrite Ascii.eqb_refl. apply nested_st; assumption.
  - cbn [app]. rewrite D. destruct t6 as [|c s]; [reflexivity|]. cbn [peek hd] in L. rewrite L. reflexivity.
Qed.

Lemma precision_parse st d a t7 : ok st -> sound_size 0 (d_precision d) -> (d_precision d <> None -> whole_kind a = false) -> 7 <= rank (peek t7) ->
  parse_precision State select a st (match d_precision d with Some s => "."%char :: size_text s | None => [] end ++ t7)
  = match precision_st st d with Ok (n, st') => Ok (n, st', t7) | Error e => Error e | Undefined => Undefined end.
Proof.
  intros K S WK P. destruct (rank6 (peek t7) ltac:(lia)) as [D L]. assert (DT := rank7 _ P).
  unfold parse_precision, precision_st. destruct (kinds a) as [IW _]. destruct (d_precision d) as [s|].
  - rewrite IW, (WK ltac:(discriminate)). destruct s as [n ds|c]; cbn [sound_size size_text size_st] in *; cbn [app]; rewrite Ascii.eqb_refl.
    + destruct S as [W W']. destruct (parse_int_ok n ds t7 W ltac:(lia) D) as [E ->]. rewrite E. reflexivity.
    + change (B "{" ++ choice_text c ++ B "}") with (LBRACE :: choice_text c ++ [RBRACE]). cbn [app peek hd]. rewrite <- app_assoc. cbn [app].
      change (is_digit LBRACE) with false. cbv iota. rewrite Ascii.eqb_refl. rewrite nested_st by assumption. cbn [size_st].
      destruct (choose st c) as [[b st1]| |]; cbn [bind]; try reflexivity. destruct (size_of _ _ b); reflexivity.
  - cbn [app]. destruct t7 as [|c s]; [reflexivity|]. cbn [peek hd] in DT. rewrite DT. reflexivity.
Qed.

Lemma peek_app (s t : bytes) : s <> [] -> peek (s ++ t) = peek s.
Proof. destruct s; [congruence|reflexivity]. Qed.

Lemma spec_parse st d a rest : ok st -> sound_desire a d ->
  parse_spec State select a st (desire_text d ++ RBRACE :: rest)
  = match desire_st st d with Ok (sp, st') => Ok (sp, st', RBRACE :: rest) | Error e => Error e | Undefined => Undefined end.
Proof.
  intros K (NE & FL & AL & SG & HA & ZE & WI & PR & WK & TY). unfold desire_text in *. cbv zeta in *.
  set (t7 := opt_text (w_type (d_wish d)) ++ RBRACE :: rest).
  set (t6 := match d_precision d with Some s => "."%char :: size_text s | None => [] end ++ t7).
  set (t5 := match d_width d with Some s => size_text s | None => [] end ++ t6).
  assert (E : (":"%char :: opt_text (w_fill (d_wish d)) ++ align_text (w_align (d_wish d)) ++ opt_text (w_sign (d_wish d)) ++
     (if w_hash (d_wish d) then B "#" else []) ++ (if w_zero (d_wish d) then B "0" else []) ++
     match d_width d with Some s => size_text s | None => [] end ++
     match d_precision d with Some s => "."%char :: size_text s | None => [] end ++ opt_text (w_type (d_wish d))) ++ RBRACE :: rest
    = ":"%char :: opt_text (w_fill (d_wish d)) ++ align_text (w_align (d_wish d)) ++ opt_text (w_sign (d_wish d)) ++
     (if w_hash (d_wish d) then B "#" else []) ++ (if w_zero (d_wish d) then B "0" else []) ++ t5).
  { unfold t5, t6, t7. cbn [app]. rewrite <- !app_assoc. reflexivity. }
  rewrite E. clear E.
  assert (P7 : 7 <= rank (peek t7)).
  { unfold t7. destruct (w_type (d_wish d)) as [c|]; cbn [opt_text app peek hd].
    - apply letter_rank in TY as [TY _]. rewrite TY. lia.
    - vm_compute. discriminate. }
  assert (P6 : 6 <= rank (peek t6)).
  { unfold t6. destruct (d_precision d); cbn [app]; [vm_compute; discriminate|lia]. }
  assert (P5 : late 5 (peek t5)).
  { unfold t5. destruct (d_width d) as [[n ds|c]|]; cbn [size_text app sound_size] in *.
    - left. destruct WI as [WI WI']. assert (F := digits_first n ds WI ltac:(lia)). destruct WI as (NN & _).
      rewrite peek_app by exact NN. exact F.
    - right. split; [lia|reflexivity].
    - left. lia. }
  assert (N5 : w_fill (d_wish d) = None -> w_align (d_wish d) = ADefault -> w_sign (d_wish d) = None -> w_hash (d_wish d) = false ->
    w_zero (d_wish d) = false -> peek t5 <> RBRACE /\ t5 <> [] /\ align_char (peek (tl t5)) = None).
  { intros N1 N2 N3 N4 N5. rewrite N1, N2, N3, N4, N5 in NE. cbn [opt_text align_text app] in NE. unfold t5. 
    destruct (d_width d) as [[n ds|c]|]; cbn [size_text app sound_size] in *.
    - destruct WI as [(NN & RD & _) _]. apply digits_decimal in RD. destruct ds as [|c ds]; [congruence|].
      apply Forall_cons_iff in RD as [RC RD]. cbn [app tl peek hd]. split; [|split; [discriminate|]].
      + intros ->. discriminate RC.
      + destruct ds as [|c' ds]; [cbn [app]; apply rank2; change (2 <= rank (peek t6)); lia|]. apply Forall_cons_iff in RD as [RC' _]. cbn [app peek hd].
        apply decimal_facts in RC'. tauto.
    - change (B "{" ++ choice_text c ++ B "}") with (LBRACE :: choice_text c ++ [RBRACE]). cbn [app tl]. rewrite <- app_assoc. cbn [app].
      split; [discriminate|split; [discriminate|]]. apply choice_first; [exact WI|right; reflexivity].
    - unfold t6. destruct (d_precision d) as [[n ds|c]|]; cbn [size_text app sound_size] in *.
      + destruct PR as [(NN & RD & _) _]. apply digits_decimal in RD. destruct ds as [|c ds]; [congruence|].
        apply Forall_cons_iff in RD as [RC RD]. cbn [app tl peek hd]. split; [discriminate|split; [discriminate|]].
        apply decimal_facts in RC. tauto.
      + cbn [tl]. split; [discriminate|split; [discriminate|reflexivity]].
      + unfold t7. destruct (w_type (d_wish d)) as [c|]; cbn [opt_text app] in *; [|exfalso; apply NE; reflexivity].
        cbn [tl peek hd]. split; [|split; [discriminate|reflexivity]]. intros ->. discriminate TY. }
  unfold parse_spec. rewrite Ascii.eqb_refl.
  rewrite (front_align (d_wish d) a t5 FL AL SG HA ZE P5 N5). cbn [bind].
  rewrite (front_sign (d_wish d) a t5 AL SG HA ZE P5 N5). cbn [bind].
  rewrite (front_hash (d_wish d) a t5 HA ZE P5 N5). cbn [bind].
  rewrite (front_zero (d_wish d) a t5 ZE P5 N5). cbn [bind]. unfold t5.
  rewrite (width_parse st d t6 K WI P6). unfold desire_st.
  destruct (width_st st d) as [[n st1]| |] eqn:W; cbn [bind fst snd]; try reflexivity. unfold t6.
  rewrite (precision_parse st1 d a t7 (width_ok_st _ _ _ _ K W) PR WK P7).
  destruct (precision_st st1 d) as [[p st2]| |]; cbn [bind fst snd]; try reflexivity.
  unfold t7, settled, asks. cbn [w_fill w_align w_sign w_hash w_zero w_width w_precision w_type].
  destruct (w_type (d_wish d)) as [c|]; cbn [opt_text app].
  - apply letter_rank in TY as (_ & -> & _). destruct p; reflexivity.
  - rewrite Ascii.eqb_refl. destruct p; reflexivity.
Qed.

Lemma placeholder_st st d a rest : ok st -> match d with Some d => sound_desire a d | None => True end ->
  format_placeholder State select dbl a st (match d with Some d => desire_text d | None => [] end ++ RBRACE :: rest)
  = (y <- spec_st st d; t <- format_arg dbl (fst y) a; Ok (t, snd y, rest)).
Proof.
  intros K S. unfold format_placeholder. destruct d as [d|]; cbn [app spec_st].
  - rewrite (spec_parse st d a rest K S). destruct (desire_st st d) as [[sp st']| |]; cbn [bind fst snd]; try reflexivity.
  - change (parse_spec State select a st (RBRACE :: rest)) with (@Ok (spec * State * bytes) (empty_spec, st, RBRACE :: rest)).
    cbn [bind fst snd]. rewrite Ascii.eqb_refl. reflexivity.
Qed.

Lemma words_st st s rest : forall fuel, (length (flat_map brace_text s ++ rest) < fuel)%nat -> exists fuel', (length rest < fuel')%nat /\
  format_go State select dbl fuel st (flat_map brace_text s ++ rest) = (r <- format_go State select dbl fuel' st rest; Ok (s ++ r)).
Proof.
  induction s as [|c s IH]; intros fuel F.
  - exists fuel. split; [exact F|]. cbn [flat_map app]. destruct (format_go State select dbl fuel st rest); reflexivity.
  - cbn [flat_map] in *. rewrite <- app_assoc in *. set (tail := flat_map brace_text s ++ rest) in *. destruct fuel as [|fuel]; [lia|].
    unfold brace_text in *. destruct (Ascii.eqb_spec c LBRACE) as [->|N1].
    + change (B "{{" ++ tail) with (LBRACE :: LBRACE :: tail) in *. cbn [length] in F. destruct (IH fuel ltac:(lia)) as (f' & F' & E).
      exists f'. split; [exact F'|]. cbn [format_go]. rewrite Ascii.eqb_refl. cbn [negb andb peek hd tl]. rewrite Ascii.eqb_refl, E.
      destruct (format_go State select dbl f' st rest); reflexivity.
    + destruct (Ascii.eqb_spec c RBRACE) as [->|N2].
      * change (B "}}" ++ tail) with (RBRACE :: RBRACE :: tail) in *. cbn [length] in F. destruct (IH fuel ltac:(lia)) as (f' & F' & E).
        exists f'. split; [exact F'|]. cbn [format_go]. rewrite Ascii.eqb_refl.
        change (negb (Ascii.eqb RBRACE LBRACE) && negb true) with false. cbv iota. cbn [peek hd tl]. rewrite Ascii.eqb_refl, E.
        destruct (format_go State select dbl f' st rest); reflexivity.
      * cbn [app length] in *. destruct (IH fuel ltac:(lia)) as (f' & F' & E). exists f'. split; [exact F'|]. cbn [format_go].
        apply Ascii.eqb_neq in N1, N2. rewrite N1, N2. cbn [negb andb]. rewrite E. destruct (format_go State select dbl f' st rest); reflexivity.
Qed.

Lemma open_st fuel st c rest : ok st -> sound_choice c -> ends rest ->
  format_go State select dbl (S fuel) st (LBRACE :: choice_text c ++ rest)
  = (x <- choose st c; r2 <- format_placeholder State select dbl (fst x) (snd x) rest;
     let '(text, st2, s2) := r2 : bytes * State * bytes in out <- format_go State select dbl fuel st2 s2; Ok (text ++ out)).
Proof.
  intros K S E. cbn [format_go]. rewrite Ascii.eqb_refl. cbn [negb andb].
  destruct (choice_first c rest S E) as [NL _]. apply Ascii.eqb_neq in NL. rewrite NL. change (Ascii.eqb LBRACE RBRACE) with false. cbv iota.
  rewrite (SEL st c rest K S E). destruct (choose st c) as [[a st1]| |]; reflexivity.
Qed.

Lemma parts_st ps rest : forall st fuel, ok st -> sound_st st ps -> (length (parts_text ps ++ rest) < fuel)%nat ->
  exists fuel', (length rest < fuel')%nat /\
  format_go State select dbl fuel st (parts_text ps ++ rest)
  = (x <- out_st st ps; r <- format_go State select dbl fuel' (snd x) rest; Ok (fst x ++ r)).
Proof.
  induction ps as [|p ps IH]; intros st fuel K S F.
  - exists fuel. split; [exact F|]. cbn [parts_text flat_map app out_st bind fst snd]. destruct (format_go State select dbl fuel st rest); reflexivity.
  - unfold parts_text in *. cbn [flat_map] in *. fold (parts_text ps) in *. rewrite <- app_assoc in *. destruct p as [s|c d]; cbn [part_text out_st sound_st] in *.
    + destruct (words_st st s (parts_text ps ++ rest) fuel F) as (f1 & F1 & E1). destruct (IH st f1 K S F1) as (f2 & F2 & E2).
      exists f2. split; [exact F2|]. rewrite E1, E2. destruct (out_st st ps) as [[t st']| |]; cbn [bind fst snd]; try reflexivity.
      destruct (format_go State select dbl f2 st' rest); cbn [bind]; try reflexivity. rewrite app_assoc. reflexivity.
    + destruct S as [SC S].
      assert (E : (match d with Some d0 => B "{" ++ choice_text c ++ desire_text d0 ++ B "}" | None => B "{" ++ choice_text c ++ B "}" end)
                  ++ parts_text ps ++ rest
                = LBRACE :: choice_text c ++ (match d with Some d => desire_text d | None => [] end ++ RBRACE :: parts_text ps ++ rest)).
      { destruct d as [d|]; cbn [app]; change (B "{") with [LBRACE]; change (B "}") with [RBRACE]; cbn [app]; rewrite <- ?app_assoc; reflexivity. }
      assert (T : part_text (Place c d) ++ parts_text ps ++ rest
                = LBRACE :: choice_text c ++ (match d with Some d => desire_text d | None => [] end ++ RBRACE :: parts_text ps ++ rest)).
      { rewrite <- E. destruct d; reflexivity. }
      unfold part_text in T, F. rewrite T in *. clear E T. cbn [length] in F. rewrite !app_length in F. cbn [length] in F.
      destruct fuel as [|fuel]; [inversion F|].
      rewrite open_st; [|exact K|exact SC|destruct d as [d|]; [left|right]; reflexivity].
      destruct (choose st c) as [[a st1]| |] eqn:C; cbn [bind fst snd].
      2,3: exists (Datatypes.S (length rest)); split; [lia|reflexivity].
      destruct (S a st1 eq_refl) as [SD S']. assert (K1 := OKS _ _ _ _ K C).
      rewrite (placeholder_st st1 d a _ K1 SD). destruct (spec_st st1 d) as [[sp st2]| |] eqn:SP; cbn [bind fst snd].
      2,3: exists (Datatypes.S (length rest)); split; [lia|reflexivity].
      destruct (format_arg dbl sp a) as [t| |]; cbn [bind].
      2,3: exists (Datatypes.S (length rest)); split; [lia|reflexivity].
      destruct (IH st2 fuel (spec_ok_st _ _ _ _ K1 SP) (S' sp st2 eq_refl)) as (f2 & F2 & E2).
      { rewrite app_length in *. lia. }
      exists f2. split; [exact F2|]. rewrite E2. destruct (out_st st2 ps) as [[u st']| |]; cbn [bind fst snd]; try reflexivity.
      destruct (format_go State select dbl f2 st' rest); cbn [bind]; try reflexivity. rewrite app_assoc. reflexivity.
Qed.
End Parser.
