(** C121-C123: arguments of the formatting library, by number and by name.
    In every theorem [dbl] is the text of a double for a specification: they hold for every such function. *)
From Verif Require Import Base Decimal FmtModel FmtSpec FmtProofs FmtSubProofs NamedModel NamedSpec NamedProofs NamedParseProofs NamedEndProofs NamedSameProofs.
Open Scope N_scope.

Definition case_ints (n : nat) : list given := map (fun k => Plain (AInt (Z.of_nat k))) (seq 0 n).
Definition case_list : list given :=
  Plain (AInt 3) :: Named (B "width") (AInt 8) :: Named (B "text") (ACString (Some (B "abc" ++ [NUL]))) :: Named (B "width") (AInt 5) :: Named (B "prec") (AUint 2)
  :: case_ints 14 ++ [Named (B "last_1") (AInt 77)].

(** C121. Any number of arguments is stored without a write behind the array, and any number (even one with more than 64 bits) reads the
    argument at that place or none if there is none; never what is behind the array, what was not written or a value as of another type. *)
Theorem C121_by_number : forall l, exists al, make_arg_list l = Ok al /\
  forall i, at_index al i = Ok (nth_error l (N.to_nat i)).
Proof. exact (fun l => ex_intro _ _ (conj (make_arg_list_ok l) (at_index_ok l _ (make_arg_list_ok l)))). Qed.
Print Assumptions C121_by_number.
Example C121_by_number_case : forall n, n = 15%nat \/ n = 16%nat \/ n = 17%nat \/ n = 40%nat ->
  exists al, make_arg_list (case_ints n) = Ok al
    /\ at_index al 14 = Ok (Some (Plain (AInt 14)))
    /\ at_index al (N.of_nat n - 1) = Ok (Some (Plain (AInt (Z.of_nat n - 1))))
    /\ at_index al (N.of_nat n) = Ok None /\ at_index al (2 ^ 70) = Ok None.
Proof.
  intros n H. destruct (C121_by_number (case_ints n)) as (al & M & E). exists al. split; [exact M|]. rewrite !E.
  assert (X : nth_error (case_ints n) (N.to_nat (2 ^ 70)) = None).
  { apply nth_error_None. unfold case_ints. rewrite map_length, seq_length. destruct H as [->|[->|[->| ->]]]; lia. }
  rewrite X. destruct H as [->|[->|[->| ->]]]; repeat split; reflexivity.
Qed.

(** C121. Two arguments have the same number of a type exactly if they are of one kind; the number fits in 4 bits and is never that of
    "none". So no value is read as one of another type. *)
Theorem C121_tags : forall g h, (type_of g = type_of h <-> same_kind g h) /\ 0 < type_of g < 16.
Proof. exact (fun g h => conj (tags_lemma g h) (type_small g)). Qed.
Print Assumptions C121_tags.
Example C121_tags_case : type_of (Plain (AInt 3)) = type_of (Plain (AInt 4)) /\ type_of (Plain (ACString None)) <> type_of (Plain (AString None 0))
  /\ type_of (Named (B "a") (AInt 3)) = type_of (Named (B "b") (ABool true)) /\ type_of (Named (B "a") (AInt 3)) <> type_of (Plain (AInt 3)).
Proof. repeat split; discriminate. Qed.

(** C121. The table of names gives the first argument of a name, and none for a name that no argument has. It is built without undefined
    behaviour, the second time as well. *)
Theorem C121_by_name : forall l, exists al m, make_arg_list l = Ok al /\ init al [] = Ok m /\ init al m = Ok m /\
  forall name, find m name = called name l.
Proof.
  exact (fun l => let M := make_arg_list_ok l in ex_intro _ _ (ex_intro _ (entries l) (conj M
    (conj (init_ok l _ M [] (or_introl eq_refl)) (conj (init_ok l _ M (entries l) (or_intror eq_refl)) (find_entries l)))))).
Qed.
Print Assumptions C121_by_name.
Example C121_by_name_case : length case_list = 20%nat /\ exists al m, make_arg_list case_list = Ok al /\ init al [] = Ok m
  /\ find m (B "width") = Some (AInt 8) /\ find m (B "last_1") = Some (AInt 77) /\ find m (B "widt") = None /\ find m (B "") = None.
Proof.
  split; [reflexivity|]. destruct (C121_by_name case_list) as (al & m & M & I & _ & F). exists al, m. rewrite !F.
  repeat split; [exact M|exact I].
Qed.

(** C122. A format string whose placeholders, widths and precisions all say which argument they mean, by number or by name, yields what
    it says; the first failure is the result. *)
Theorem C122_explicit : forall dbl l ps, all_explicit ps -> Forall (sound_part l) ps ->
  write dbl (parts_text ps) l = meaning (format_arg dbl) l ps.
Proof. exact explicit_lemma. Qed.
Print Assumptions C122_explicit.
Definition case_desire (w p : option size) (t : option ascii) : desire :=
  Desire (Wish (Some "*"%char) ARight None false false None None t) w p.
Definition case_parts : list part :=
  [Words (B "a{"); Place (Called (B "text")) (Some (case_desire (Some (Of (Called (B "width")))) (Some (Of (Called (B "prec")))) None));
   Words (B "} "); Place (Position 0 (B "0")) (Some (case_desire (Some (Of (Position 3 (B "3")))) None (Some "x"%char)));
   Place (Called (B "last_1")) None].
Definition case_lean (w p : option size) : desire := Desire (Wish None ADefault None false false None None None) w p.
Ltac sound_case :=
  repeat match goal with
  | |- Forall _ [] => constructor
  | |- Forall _ (_ :: _) => constructor
  | |- sound_part _ _ => cbn [sound_part]
  | |- sound_choice _ => cbn [sound_choice]
  | |- sound_size _ _ => cbn [sound_size option_map]
  | |- sound_desire _ _ => unfold sound_desire; cbv zeta; cbn [case_desire case_lean d_wish d_width d_precision w_fill w_align w_sign w_hash w_zero w_type fst snd counted_size]
  | |- _ /\ _ => split
  | |- ~ In _ _ => let X := fresh in intros X; repeat (destruct X as [X|X]; [discriminate X|]); exact X
  | |- digits_of _ _ => unfold digits_of, numeral; repeat split; try lia; try (left; reflexivity); repeat constructor
  | |- identifier _ => cbn
  | |- (exists a, _) => exists (ACString None)
  | |- forall a, chosen _ _ = _ -> _ => let CH := fresh in intros ? CH; vm_compute in CH; injection CH as <-
  | |- _ <> _ => discriminate
  | |- ?a = ?b => reflexivity
  | |- _ -> _ => intros
  | |- True => exact I
  | |- _ < _ => reflexivity
  | |- _ <= _ => discriminate
  end; try discriminate; try congruence.
Example C122_explicit_case : all_explicit case_parts /\ Forall (sound_part case_list) case_parts
  /\ parts_text case_parts = B "a{{{text:*>{width}.{prec}}}} {0:*>{3}x}{last_1}"
  /\ forall dbl, write dbl (B "a{{{text:*>{width}.{prec}}}} {0:*>{3}x}{last_1}") case_list = Ok (B "a{******ab} ****377").
Proof.
  split; [repeat constructor; discriminate|]. split; [|split; [reflexivity|intros; vm_compute; reflexivity]].
  unfold case_parts. sound_case.
Qed.

(** C122. A format string that leaves all choices to the order is the one with the numbers 0, 1, 2, ... given: a placeholder counts before
    its width, and its width before its precision. *)
Theorem C122_in_order : forall dbl l digits ps, all_following ps -> Forall (sound_part l) (counted digits 0 ps) ->
  write dbl (parts_text ps) l = meaning (format_arg dbl) l (counted digits 0 ps)
  /\ write dbl (parts_text ps) l = write dbl (parts_text (counted digits 0 ps)) l.
Proof. exact following_lemma. Qed.
Print Assumptions C122_in_order.
Definition case_following : list part :=
  [Place Following None; Words (B "-"); Place Following (Some (case_lean (Some (Of Following)) (Some (Of Following)))); Place Following None].
Definition case_four : list given := [Plain (AInt 1); Named (B "n") (ACString (Some (B "abcdef" ++ [NUL]))); Plain (AInt 5); Plain (AUlong 3); Plain (AChar 33)].
Example C122_in_order_case : all_following case_following /\ Forall (sound_part case_four) (counted dec 0 case_following)
  /\ parts_text case_following = B "{}-{:{}.{}}{}" /\ parts_text (counted dec 0 case_following) = B "{0}-{1:{2}.{3}}{4}"
  /\ forall dbl, write dbl (B "{}-{:{}.{}}{}") case_four = Ok (B "1-abc  !").
Proof.
  split; [repeat constructor|]. split; [|split; [reflexivity|split; [reflexivity|intros; vm_compute; reflexivity]]].
  unfold case_following. cbn [counted counted_size case_lean d_wish d_width d_precision]. unfold at_position. sound_case.
Qed.

(** C122. Names are only another way to write positions: with the number of the first argument of the name instead, unnamed values alone
    give the same. *)
Theorem C122_names_are_positions : forall digits l, (forall n, digits_of n (digits n)) -> length_N l < 2 ^ 31 ->
  forall dbl ps, all_explicit ps -> Forall (sound_part l) ps ->
  write dbl (parts_text ps) l = FmtModel.write dbl (parts_text (map (placed_part digits l) ps)) (map value_of l).
Proof. exact placed_lemma. Qed.
Print Assumptions C122_names_are_positions.
Example C122_names_are_positions_case : (forall n, digits_of n (dec n)) /\ length_N case_list < 2 ^ 31
  /\ parts_text (map (placed_part dec case_list) case_parts) = B "a{{{2:*>{1}.{4}}}} {0:*>{3}x}{19}"
  /\ forall dbl, FmtModel.write dbl (B "a{{{2:*>{1}.{4}}}} {0:*>{3}x}{19}") (map value_of case_list) = Ok (B "a{******ab} ****377").
Proof. split; [exact dec_digits|]. split; [reflexivity|]. split; [reflexivity|intros; vm_compute; reflexivity]. Qed.

(** C123. Without named arguments, every format string of whatever bytes gives what it gives in the model of C50 and C59-C61, which knows
    no names: those theorems hold for any number of arguments as they are stored. *)
Theorem C123_unnamed : forall dbl format args, write dbl format (map Plain args) = FmtModel.write dbl format args.
Proof. exact plain_lemma. Qed.
Print Assumptions C123_unnamed.
Example C123_unnamed_case : forall dbl,
  write dbl (B "{16}{0:{1}}") (case_ints 17) = Ok (B "160")
  /\ FmtModel.write dbl (B "{16}{0:{1}}") (map value_of (case_ints 17)) = Ok (B "160")
  /\ write dbl (B "{17}") (case_ints 17) = Error EIndexRange /\ write dbl (B "{} }") (case_ints 17) = Error EUnmatchedBrace.
Proof. intros. repeat split; vm_compute; reflexivity. Qed.

(** C123. A name given to an argument changes nothing for format strings that do not look for names: for every format string, what the
    values alone give, unless that is the failure to find a name. *)
Theorem C123_names_do_not_matter : forall dbl format l, FmtModel.write dbl format (map value_of l) <> Error ENotFound ->
  write dbl format l = FmtModel.write dbl format (map value_of l).
Proof. exact values_lemma. Qed.
Print Assumptions C123_names_do_not_matter.
Example C123_names_do_not_matter_case : forall dbl,
  FmtModel.write dbl (B "{} {} {:>4}") (map value_of case_list) = Ok (B "3 8  abc")
  /\ write dbl (B "{} {} {:>4}") case_list = Ok (B "3 8  abc")
  /\ FmtModel.write dbl (B "{0:_{") (map value_of case_list) = write dbl (B "{0:_{") case_list.
Proof. intros. repeat split; vm_compute; reflexivity. Qed.

(** C123. A placeholder that leaves the choice to the order is refused behind one that does not, whatever comes after it. *)
Theorem C123_order_after_explicit : forall dbl l ps t c rest, all_explicit ps -> has_place ps -> Forall (sound_part l) ps ->
  meaning (format_arg dbl) l ps = Ok t -> (c = ":" \/ c = "}")%char ->
  write dbl (parts_text ps ++ B "{" ++ c :: rest) l = Error EAutoFromManual.
Proof. exact (fun dbl l ps t c rest X P S M E => mixed_following dbl l ps (c :: rest) t X P S M E). Qed.
Print Assumptions C123_order_after_explicit.
Example C123_order_after_explicit_case : has_place case_parts /\ forall dbl, meaning (format_arg dbl) case_list case_parts = Ok (B "a{******ab} ****377")
  /\ write dbl (parts_text case_parts ++ B "{:what comes") case_list = Error EAutoFromManual.
Proof. split; [discriminate|]. intros. split; vm_compute; reflexivity. Qed.

(** C123. And the other way round. *)
Theorem C123_explicit_after_order : forall dbl l digits ps t p c rest, all_following ps -> has_place ps -> Forall (sound_part l) (counted digits 0 ps) ->
  meaning (format_arg dbl) l (counted digits 0 ps) = Ok t -> explicit p -> sound_choice p -> (c = ":" \/ c = "}")%char ->
  write dbl (parts_text ps ++ B "{" ++ choice_text p ++ c :: rest) l = Error EManualFromAuto.
Proof. exact (fun dbl l digits ps t p c rest X P S M XP SP E => mixed_explicit dbl l digits ps p (c :: rest) t X P S M XP SP E). Qed.
Print Assumptions C123_explicit_after_order.
Example C123_explicit_after_order_case : has_place case_following /\ sound_choice (Called (B "n")) /\
  forall dbl, meaning (format_arg dbl) case_four (counted dec 0 case_following) = Ok (B "1-abc  !")
  /\ write dbl (B "{}-{:{}.{}}{}{n:}}}") case_four = Error EManualFromAuto.
Proof. split; [discriminate|]. split; [split; [reflexivity|constructor]|]. intros. split; vm_compute; reflexivity. Qed.

(** C123. Widths count as well. *)
Theorem C123_width_after_explicit : forall dbl l ps t p a rest, all_explicit ps -> Forall (sound_part l) ps -> meaning (format_arg dbl) l ps = Ok t ->
  explicit p -> sound_choice p -> chosen l p = Ok a ->
  write dbl (parts_text ps ++ B "{" ++ choice_text p ++ B ":{}" ++ rest) l = Error EAutoFromManual.
Proof. exact (fun dbl l ps t p a rest X S M => nested_following dbl l ps p a rest t X S M). Qed.
Print Assumptions C123_width_after_explicit.
Example C123_width_after_explicit_case : chosen case_list (Called (B "prec")) = Ok (AUint 2) /\
  forall dbl, write dbl (B "{prec:{}d} and more") case_list = Error EAutoFromManual.
Proof. split; [reflexivity|intros; vm_compute; reflexivity]. Qed.

Theorem C123_explicit_width_in_order : forall dbl l digits ps t p a rest, all_following ps -> Forall (sound_part l) (counted digits 0 ps) ->
  meaning (format_arg dbl) l (counted digits 0 ps) = Ok t -> nth_error l (length (flat_map choices_of ps)) = Some a ->
  explicit p -> sound_choice p ->
  write dbl (parts_text ps ++ B "{:{" ++ choice_text p ++ B "}" ++ rest) l = Error EManualFromAuto.
Proof. exact (fun dbl l digits ps t p a rest X S M => nested_explicit dbl l digits ps p a rest t X S M). Qed.
Print Assumptions C123_explicit_width_in_order.
Example C123_explicit_width_in_order_case : nth_error (case_four ++ [Plain (AInt 6)]) (length (flat_map choices_of case_following)) = Some (Plain (AInt 6)) /\
  forall dbl, write dbl (B "{}-{:{}.{}}{}{:{2}}") (case_four ++ [Plain (AInt 6)]) = Error EManualFromAuto.
Proof. split; [reflexivity|intros; vm_compute; reflexivity]. Qed.
