(** Proofs that named arguments are values at positions, and that lists without names behave as in FmtModel.v. *)
From Verif Require Import Base Decimal FmtModel FmtSpec FmtProofs FmtSubProofs NamedModel NamedSpec NamedProofs NamedParseProofs NamedEndProofs.
Open Scope N_scope.

(** ---- two selections that agree ---- *)

Section Simulation.
Variables (S1 S2 : Type) (sel1 : S1 -> bytes -> result (arg * S1 * bytes)) (sel2 : S2 -> bytes -> result (arg * S2 * bytes))
  (R : S1 -> S2 -> Prop) (Bad : error -> Prop) (dbl : spec -> N -> bytes).

(** The same outcome, or the second fails in a way that is excepted. *)
Definition same {A C : Type} (Q : A -> C -> Prop) (r1 : result A) (r2 : result C) : Prop :=
  match r2 with Error e => Bad e | _ => False end \/
  match r1, r2 with
  | Ok x, Ok y => Q x y
  | Error a, Error b => a = b
  | Undefined, Undefined => True
  | _, _ => False
  end.
Definition tri {A : Type} (x : A * S1 * bytes) (y : A * S2 * bytes) : Prop :=
  fst (fst x) = fst (fst y) /\ snd x = snd y /\ R (snd (fst x)) (snd (fst y)).

Hypothesis SAME : forall st1 st2 s, R st1 st2 -> same tri (sel1 st1 s) (sel2 st2 s).

Lemma same_bind {A C A' C' : Type} (Q : A -> C -> Prop) (Q' : A' -> C' -> Prop) r1 r2 f1 f2 :
  same Q r1 r2 -> (forall x y, Q x y -> same Q' (f1 x) (f2 y)) -> same Q' (bind r1 f1) (bind r2 f2).
Proof.
  intros [H|H] F.
  - left. destruct r2; cbn [bind]; try contradiction. exact H.
  - destruct r1, r2; cbn [bind]; try contradiction; [exact (F _ _ H)|right; exact H|right; exact I].
Qed.
Lemma same_both {A A' C' : Type} (Q' : A' -> C' -> Prop) (r : result A) f1 f2 :
  (forall x, same Q' (f1 x) (f2 x)) -> same Q' (bind r f1) (bind r f2).
Proof. intros F. apply (same_bind eq); [right; destruct r; auto|]. intros x y ->. apply F. Qed.
Lemma same_ok {A C : Type} (Q : A -> C -> Prop) x y : Q x y -> same Q (Ok x) (Ok y).
Proof. intros H. right. exact H. Qed.
Lemma same_error {A C : Type} (Q : A -> C -> Prop) e : same Q (Error e) (Error e).
Proof. right. reflexivity. Qed.
Lemma same_undefined {A C : Type} (Q : A -> C -> Prop) : same Q Undefined Undefined.
Proof. right. exact I. Qed.
Lemma tri_intro {A : Type} (a : A) st1 st2 s : R st1 st2 -> tri (a, st1, s) (a, st2, s).
Proof. intros H. split; [reflexivity|split; [reflexivity|exact H]]. Qed.

Lemma nested_same st1 st2 e1 e2 s : R st1 st2 -> same tri (parse_nested S1 sel1 st1 e1 e2 s) (parse_nested S2 sel2 st2 e1 e2 s).
Proof.
  intros H. unfold parse_nested. apply (same_bind tri); [apply SAME, H|]. intros [[a st1'] s1] [[b st2'] s2] (E1 & E2 & E3).
  cbn [fst snd] in *. subst b s2. destruct s1 as [|c s1]; [apply same_error|]. destruct (Ascii.eqb c RBRACE); [|apply same_error].
  apply same_both. intros n. apply same_ok, tri_intro, E3.
Qed.

Lemma width_same st1 st2 s : R st1 st2 -> same tri (parse_width S1 sel1 st1 s) (parse_width S2 sel2 st2 s).
Proof.
  intros H. unfold parse_width. destruct (is_digit (peek s)).
  - apply same_both. intros n. apply same_ok, tri_intro, H.
  - destruct s as [|c s]; [apply same_ok, tri_intro, H|]. destruct (Ascii.eqb c LBRACE); [apply nested_same, H|apply same_ok, tri_intro, H].
Qed.

Lemma precision_same a st1 st2 s : R st1 st2 -> same tri (parse_precision S1 sel1 a st1 s) (parse_precision S2 sel2 a st2 s).
Proof.
  intros H. unfold parse_precision. destruct s as [|c s]; [apply same_ok, tri_intro, H|].
  destruct (Ascii.eqb c "."); [|apply same_ok, tri_intro, H]. apply (same_bind tri).
  - destruct (is_digit (peek s)); [apply same_both; intros n; apply same_ok, tri_intro, H|]. destruct s as [|c' s]; [apply same_error|].
    destruct (Ascii.eqb c' LBRACE); [apply nested_same, H|apply same_error].
  - intros [[n st1'] s1] [[m st2'] s2] (E1 & E2 & E3). cbn [fst snd] in *. subst m s2. destruct (is_integer a); [apply same_error|].
    apply same_ok, tri_intro, E3.
Qed.

Lemma spec_same a st1 st2 s : R st1 st2 -> same tri (parse_spec S1 sel1 a st1 s) (parse_spec S2 sel2 a st2 s).
Proof.
  intros H. unfold parse_spec. destruct s as [|c s]; [apply same_ok, tri_intro, H|].
  destruct (Ascii.eqb c ":"); [|apply same_ok, tri_intro, H].
  apply same_both. intros [[al fill] s1]. apply same_both. intros [[[sg pl] mi] s2]. apply same_both. intros [ha s3].
  apply same_both. intros [ze s4]. apply (same_bind tri); [apply width_same, H|].
  intros [[n st1'] s5] [[m st2'] s5'] (E1 & E2 & E3). cbn [fst snd] in *. subst m s5'. apply (same_bind tri); [apply precision_same, E3|].
  intros [[p st1''] s6] [[q st2''] s6'] (F1 & F2 & F3). cbn [fst snd] in *. subst q s6'.
  destruct s6 as [|c' s7]; [apply same_ok, tri_intro, F3|]. destruct (Ascii.eqb c' RBRACE); apply same_ok, tri_intro, F3.
Qed.

Lemma placeholder_same a st1 st2 s : R st1 st2 -> same tri (format_placeholder S1 sel1 dbl a st1 s) (format_placeholder S2 sel2 dbl a st2 s).
Proof.
  intros H. unfold format_placeholder. apply (same_bind tri); [apply spec_same, H|].
  intros [[sp st1'] s1] [[sp' st2'] s2] (E1 & E2 & E3). cbn [fst snd] in *. subst sp' s2.
  destruct s1 as [|c s1]; [apply same_error|]. destruct (Ascii.eqb c RBRACE); [|apply same_error].
  apply same_both. intros out. apply same_ok, tri_intro, E3.
Qed.

Lemma go_same fuel : forall st1 st2 s, R st1 st2 -> same eq (format_go S1 sel1 dbl fuel st1 s) (format_go S2 sel2 dbl fuel st2 s).
Proof.
  induction fuel as [|fuel IH]; intros st1 st2 s H; cbn [format_go]; [apply same_undefined|]. destruct s as [|c s]; [apply same_ok; reflexivity|].
  destruct (negb (Ascii.eqb c LBRACE) && negb (Ascii.eqb c RBRACE)).
  { apply (same_bind eq); [apply IH, H|]. intros x y ->. apply same_ok. reflexivity. }
  destruct (Ascii.eqb (peek s) c).
  { apply (same_bind eq); [apply IH, H|]. intros x y ->. apply same_ok. reflexivity. }
  destruct (Ascii.eqb c RBRACE); [apply same_error|].
  apply (same_bind tri); [apply SAME, H|]. intros [[a st1'] s1] [[b st2'] s2] (E1 & E2 & E3). cbn [fst snd] in *. subst b s2.
  apply (same_bind tri); [apply placeholder_same, E3|]. intros [[t st1''] s3] [[u st2''] s4] (F1 & F2 & F3). cbn [fst snd] in *. subst u s4.
  apply (same_bind eq); [apply IH, F3|]. intros x y ->. apply same_ok. reflexivity.
Qed.
End Simulation.

(** ---- without names ---- *)

Lemma old_write dbl format args : FmtModel.write dbl format args
  = format_go index (FmtModel.parse_arg args) dbl (S (length (c_string format))) (Some 0) (c_string format).
Proof. reflexivity. Qed.

Lemma called_plain name args : called name (map Plain args) = None.
Proof. induction args as [|a args IH]; [reflexivity|exact IH]. Qed.

Lemma get_old l al i : make_arg_list l = Ok al -> do_get_arg al i = FmtModel.do_get_arg (map value_of l) i.
Proof.
  intros M. rewrite (get_ok l al M). unfold FmtModel.do_get_arg. rewrite nth_error_map. destruct (nth_error l (N.to_nat i)); reflexivity.
Qed.

(** Selection by position: the same as from the list of the values. *)
Lemma select_same l al (Bad : error -> Prop) : make_arg_list l = Ok al ->
  (forall name, called name l <> None -> Bad ENotFound) ->
  forall f ix s, good l f /\ fst f = ix -> same Bad (tri formatter index (fun f ix => good l f /\ fst f = ix)) (parse_arg al f s) (FmtModel.parse_arg (map value_of l) ix s).
Proof.
  intros M B [ix' m] ix s [G E]. cbn [fst] in E. subst ix'. unfold parse_arg, FmtModel.parse_arg. destruct (is_name_start (peek s)).
  - unfold parse_arg_name, FmtModel.parse_arg_name. destruct (name_run s) as [name s'].
    assert (Q : same Bad (tri formatter index (fun f ix => good l f /\ fst f = ix))
      (m' <- init al m; match find m' name with Some a => Ok (a, (None, m'), s') | None => Error ENotFound end) (Error ENotFound)).
    { rewrite (init_ok l al M m G). cbn [bind]. rewrite find_entries. destruct (called name l) as [a|] eqn:C; [|apply same_error].
      left. apply (B name). congruence. }
    destruct ix as [[|p]|]; [exact Q|apply same_error|exact Q].
  - unfold parse_arg_index, FmtModel.parse_arg_index. destruct (is_digit (peek s)).
    + apply same_both. intros [n s']. rewrite (get_old l al n M).
      destruct ix as [[|p]|]; [|apply same_error|];
        (destruct (FmtModel.do_get_arg (map value_of l) n); [apply same_ok, tri_intro; split; [exact G|reflexivity]|apply same_error|apply same_undefined]).
    + destruct ix as [i|]; [|apply same_error]. rewrite (get_old l al i M).
      destruct (FmtModel.do_get_arg (map value_of l) i); [apply same_ok, tri_intro; split; [exact G|reflexivity]|apply same_error|apply same_undefined].
Qed.

Lemma write_same dbl format l (Bad : error -> Prop) : (forall name, called name l <> None -> Bad ENotFound) ->
  same Bad eq (write dbl format l) (FmtModel.write dbl format (map value_of l)).
Proof.
  intros B. destruct (write_run dbl l format) as (al & M & ->). rewrite old_write.
  exact (go_same formatter index (parse_arg al) (FmtModel.parse_arg (map value_of l)) (fun f ix => good l f /\ fst f = ix) Bad dbl
    (select_same l al Bad M B) (S (length (c_string format))) (Some 0, []) (Some 0) (c_string format) (conj (or_introl eq_refl) eq_refl)).
Qed.

Lemma plain_lemma dbl format args : write dbl format (map Plain args) = FmtModel.write dbl format args.
Proof.
  assert (V : map value_of (map Plain args) = args) by (rewrite map_map; cbn [value_of]; apply map_id).
  assert (Q := write_same dbl format (map Plain args) (fun _ => False)). rewrite V in Q.
  destruct Q as [Q|Q].
  - intros name H. apply H, called_plain.
  - destruct (FmtModel.write dbl format args); contradiction.
  - destruct (write dbl format (map Plain args)), (FmtModel.write dbl format args); try contradiction; congruence.
Qed.

Lemma values_lemma dbl format l : FmtModel.write dbl format (map value_of l) <> Error ENotFound ->
  write dbl format l = FmtModel.write dbl format (map value_of l).
Proof.
  intros H. destruct (write_same dbl format l (eq ENotFound)) as [Q|Q].
  - intros _ _. reflexivity.
  - destruct (FmtModel.write dbl format (map value_of l)); try contradiction. congruence.
  - destruct (write dbl format l), (FmtModel.write dbl format (map value_of l)); try contradiction; congruence.
Qed.

(** ---- positions instead of names ---- *)

Section Placed.
Variables (digits : N -> bytes) (l : list given).
Hypothesis DIGITS : forall n, digits_of n (digits n).
Hypothesis LENGTH : length_N l < 2 ^ 31.
Let plain := map Plain (map value_of l).

Lemma place_small name n : place_of name l = Some n -> n < 2 ^ 31.
Proof.
  intros E. assert (P := place_called name l). rewrite E in P. destruct P as (g & P & _).
  assert (L : (N.to_nat n < length l)%nat) by (apply nth_error_Some; congruence). unfold length_N in LENGTH. lia.
Qed.

Lemma chosen_placed c : chosen plain (placed digits l c) = chosen l c.
Proof.
  destruct c as [|n ds|name]; cbn [placed chosen].
  - reflexivity.
  - unfold plain. rewrite map_map, nth_error_map. destruct (nth_error l (N.to_nat n)); reflexivity.
  - assert (P := place_called name l). destruct (place_of name l) as [n|].
    + destruct P as (g & P & ->). cbn [at_position chosen]. unfold plain. rewrite map_map, nth_error_map, P. reflexivity.
    + rewrite P. cbn [chosen]. unfold plain. rewrite called_plain. reflexivity.
Qed.

Lemma sound_placed c : sound_choice c -> sound_choice (placed digits l c).
Proof.
  destruct c as [|n ds|name]; cbn [placed]; try (intros S; exact S). intros S. destruct (place_of name l) as [n|] eqn:E; [|exact S].
  split; [apply DIGITS|exact (place_small name n E)].
Qed.
Lemma explicit_placed c : explicit c -> explicit (placed digits l c).
Proof. destruct c as [|n ds|name]; cbn [placed]; intros X; try exact X. destruct (place_of name l); discriminate. Qed.

Definition placed_desire (d : desire) : desire :=
  Desire (d_wish d) (option_map (placed_size digits l) (d_width d)) (option_map (placed_size digits l) (d_precision d)).

Lemma size_placed neg ni s : size_chosen plain neg ni (placed_size digits l s) = size_chosen l neg ni s.
Proof. destruct s as [n ds|c]; cbn [placed_size size_chosen]; [reflexivity|]. rewrite chosen_placed. reflexivity. Qed.

Lemma sound_size_placed lo s : sound_size lo s -> sound_size lo (option_map (placed_size digits l) s).
Proof. destruct s as [[n ds|c]|]; cbn [option_map placed_size sound_size]; try (intros S; exact S). apply sound_placed. Qed.

Lemma desire_placed a d : sound_desire a d -> sound_desire a (placed_desire d).
Proof.
  unfold sound_desire, placed_desire. cbv zeta. cbn [d_wish d_width d_precision].
  intros (NE & FL & AL & SG & HA & ZE & WI & PR & WK & TY).
  repeat match goal with |- _ /\ _ => split end; try assumption.
  - intros E. apply NE. unfold desire_text in *. cbv zeta in *. cbn [d_wish d_width d_precision] in *. apply (f_equal (@tl ascii)) in E. cbn [tl] in E. change (tl (B ":")) with (@nil ascii) in E.
    apply app_eq_nil in E as [E1 E]. apply app_eq_nil in E as [E2 E]. apply app_eq_nil in E as [E3 E]. apply app_eq_nil in E as [E4 E].
    apply app_eq_nil in E as [E5 E]. apply app_eq_nil in E as [E6 E]. apply app_eq_nil in E as [E7 E8].
    rewrite E1, E2, E3, E4, E5, E8. destruct (d_width d) as [[n ds|c]|]; cbn [option_map placed_size size_text] in E6.
    + subst ds. destruct (d_precision d); [discriminate E7|]. reflexivity.
    + discriminate E6.
    + destruct (d_precision d); [discriminate E7|]. reflexivity.
  - apply sound_size_placed, WI.
  - apply sound_size_placed, PR.
  - intros H. apply WK. intros E. apply H. rewrite E. reflexivity.
Qed.

Lemma meaning_placed render ps : meaning render plain (map (placed_part digits l) ps) = meaning render l ps.
Proof.
  induction ps as [|p ps IH]; [reflexivity|]. cbn [map meaning]. rewrite IH.
  assert (E : (match placed_part digits l p with Words s => Ok s | Place c d => place_meaning render plain c d end)
            = match p with Words s => Ok s | Place c d => place_meaning render l c d end); [|rewrite E; reflexivity].
  destruct p as [s|c d]; cbn [placed_part]; [reflexivity|]. unfold place_meaning. rewrite chosen_placed.
  destruct (chosen l c); cbn [bind]; try reflexivity. destruct d as [d|]; cbn [option_map]; [|reflexivity]. cbn [d_width d_precision].
  assert (W : match option_map (placed_size digits l) (d_width d) with Some s => size_chosen plain ENegativeWidth EWidthNotInteger s | None => Ok 0 end
    = match d_width d with Some s => size_chosen l ENegativeWidth EWidthNotInteger s | None => Ok 0 end).
  { destruct (d_width d); cbn [option_map]; [apply size_placed|reflexivity]. }
  rewrite W. destruct (d_precision d); cbn [option_map]; [rewrite size_placed|]; reflexivity.
Qed.

Lemma parts_placed ps : Forall (sound_part l) ps -> Forall (sound_part plain) (map (placed_part digits l) ps).
Proof.
  intros F. apply Forall_map. eapply Forall_impl; [|exact F]. intros p S. destruct p as [s|c d]; cbn [placed_part sound_part] in *; [exact S|].
  destruct S as [SC SD]. split; [apply sound_placed, SC|]. destruct d as [d|]; cbn [option_map]; [|exact I].
  destruct SD as [SD [a SE]]. split.
  - intros b E. rewrite chosen_placed in E. apply (desire_placed b d), SD, E.
  - exists a. apply (desire_placed a d), SE.
Qed.

Lemma all_placed ps : all_explicit ps -> all_explicit (map (placed_part digits l) ps).
Proof.
  intros X. unfold all_explicit in *. rewrite flat_map_concat_map, map_map, <- flat_map_concat_map.
  rewrite Forall_forall in *. intros c I. apply in_flat_map in I as (p & I & J).
  assert (Y : forall c, In c (choices_of p) -> explicit c) by (intros x Hx; apply X, in_flat_map; eauto).
  destruct p as [s|c' d]; cbn [placed_part choices_of] in *; [destruct J|]. destruct d as [d|]; cbn [option_map choices_of d_width d_precision] in *.
  - destruct J as [<-|J]; [apply explicit_placed, Y; left; reflexivity|].
    assert (Z : forall s x, In x (size_choices (option_map (placed_size digits l) s)) -> exists y, In y (size_choices s) /\ x = placed digits l y).
    { intros s x Hx. destruct s as [[n ds|y]|]; cbn in Hx; try contradiction. destruct Hx as [<-|[]]. exists y. split; [left; reflexivity|reflexivity]. }
    apply in_app_or in J as [J|J]; apply Z in J as (y & J & ->); apply explicit_placed, Y; right; apply in_or_app; auto.
  - destruct J as [<-|[]]. apply explicit_placed, Y. left. reflexivity.
Qed.

Lemma placed_lemma dbl ps : all_explicit ps -> Forall (sound_part l) ps ->
  write dbl (parts_text ps) l = FmtModel.write dbl (parts_text (map (placed_part digits l) ps)) (map value_of l).
Proof.
  intros X S. rewrite (explicit_lemma dbl l ps X S), <- (meaning_placed (format_arg dbl) ps), <- plain_lemma. symmetry.
  apply explicit_lemma; [apply all_placed, X|apply parts_placed, S].
Qed.
End Placed.

Lemma dec_digits n : digits_of n (dec n).
Proof. rewrite dec_in_base. apply in_base_numeral; [lia|]. apply check_table; vm_compute; reflexivity. Qed.
