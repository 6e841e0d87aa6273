(** Proofs: what is behind a string in memory is not seen. *)
From Verif Require Import Base Values RootModel FactoriesModel SystemModel SayModel SaySpec.
From Verif Require Import FmtModel FmtSpec FmtProofs FmtSubProofs.
From Verif Require MetaFormatProofs StrModel StrSpec StrProofs StringViewModel.
Open Scope N_scope.

Section Seen.
Variable dbl : spec -> N -> bytes.

(** Nothing the formatter asks of two arguments tells them apart. *)
Definition alike (a b : arg) : Prop :=
  is_integer a = is_integer b /\ is_numeric a = is_numeric b /\ check_sign a = check_sign b /\
  (forall e1 e2, int_of_arg e1 e2 a = int_of_arg e1 e2 b) /\ forall sp, format_arg dbl sp a = format_arg dbl sp b.

Lemma read_front (s m1 m2 : bytes) n : n <= length_N s -> read (s ++ m1) n = read (s ++ m2) n.
Proof.
  intros H. unfold read. rewrite !length_N_app. destruct (N.ltb_spec (length_N s + length_N m1) n); [lia|]. destruct (N.ltb_spec (length_N s + length_N m2) n); [lia|].
  unfold length_N in H. rewrite !firstn_app. replace (N.to_nat n - length s)%nat with 0%nat by lia. rewrite !firstn_O. reflexivity.
Qed.
Lemma seen_alike a b : same_seen a b -> alike a b.
Proof.
  intros [->|[(s & m1 & m2 & NE & -> & ->)|(s & m1 & m2 & NN & -> & ->)]].
  - repeat split.
  - split; [reflexivity|]. split; [reflexivity|]. split; [reflexivity|]. split; [reflexivity|]. intros sp. cbn [format_arg]. unfold write_string.
    destruct (negb _ && negb _); [reflexivity|]. destruct (N.eqb_spec (length_N s) 0) as [Z|_]; [destruct s; [congruence|discriminate]|]. cbn [bind].
    destruct (sp_precision sp) as [q|]; [destruct (N.ltb_spec q (length_N s))|]; rewrite (read_front s m1 m2) by lia; reflexivity.
  - split; [reflexivity|]. split; [reflexivity|]. split; [reflexivity|]. split; [reflexivity|]. intros sp. cbn [format_arg]. unfold write_string.
    destruct (negb _ && negb _); [reflexivity|]. change (0 =? 0) with true. cbv iota. rewrite !strlen_ok by exact NN.
    assert (SZ : forall m, match s ++ NUL :: m with [] => Undefined | c :: _ => if Ascii.eqb c NUL then Ok 0 else Ok (length_N s) end = Ok (length_N s)).
    { intros m. destruct s as [|c s]; [reflexivity|]. cbn [app]. destruct (Ascii.eqb_spec c NUL) as [->|_]; [|reflexivity]. exfalso. apply NN. left; reflexivity. }
    rewrite !SZ. cbn [bind].
    destruct (sp_precision sp) as [q|]; [destruct (N.ltb_spec q (length_N s))|]; rewrite (read_front s (NUL :: m1) (NUL :: m2)) by lia; reflexivity.
Qed.

Section Args.
Variables args1 args2 : list arg.
Hypothesis HA : Forall2 alike args1 args2.

(** Results that agree, up to alike arguments. *)
Definition agree {A C} (Q : A -> C -> Prop) (x : result A) (y : result C) : Prop :=
  match x, y with Ok a, Ok c => Q a c | Error e, Error f => e = f | Undefined, Undefined => True | _, _ => False end.
Definition picked (x y : arg * index * bytes) : Prop := alike (fst (fst x)) (fst (fst y)) /\ snd (fst x) = snd (fst y) /\ snd x = snd y.

Lemma get_agree i : agree alike (do_get_arg args1 i) (do_get_arg args2 i).
Proof.
  unfold do_get_arg. generalize (N.to_nat i) as n. induction HA as [|a b l1 l2 H F IH]; intros n; destruct n as [|n]; cbn [nth_error agree]; try reflexivity.
  - exact H.
  - apply IH; exact F.
Qed.
Lemma index_agree ix s : agree picked (parse_arg_index args1 ix s) (parse_arg_index args2 ix s).
Proof.
  unfold parse_arg_index. destruct (is_digit (peek s)).
  - destruct (parse_int s) as [[n s']|e|]; cbn [bind]; [|reflexivity|exact I]. pose proof (get_agree n) as G.
    destruct ix as [[|p]|]; try reflexivity;
      (destruct (do_get_arg args1 n), (do_get_arg args2 n); cbn [agree] in G |- *; try contradiction; [split; [exact G|split; reflexivity]|subst; reflexivity|exact I]).
  - destruct ix as [i|]; [|reflexivity]. pose proof (get_agree i) as G.
    destruct (do_get_arg args1 i), (do_get_arg args2 i); cbn [agree] in G |- *; try contradiction; [split; [exact G|split; reflexivity]|subst; reflexivity|exact I].
Qed.
Lemma arg_agree ix s : agree picked (parse_arg args1 ix s) (parse_arg args2 ix s).
Proof. unfold parse_arg. destruct (is_name_start (peek s)); [reflexivity|apply index_agree]. Qed.
Lemma nested_agree ix e1 e2 s : parse_nested args1 ix e1 e2 s = parse_nested args2 ix e1 e2 s.
Proof.
  unfold parse_nested. pose proof (arg_agree ix s) as G. destruct (parse_arg args1 ix s) as [[[a1 i1] s1]|x|], (parse_arg args2 ix s) as [[[a2 i2] s2]|y|]; cbn [agree] in G; try contradiction.
  - unfold picked in G; cbn [fst snd] in G; destruct G as (A & <- & <-). cbn [bind fst snd] in *. destruct s1; [reflexivity|]. destruct (Ascii.eqb a RBRACE); [|reflexivity].
    destruct A as (_ & _ & _ & A & _). rewrite A. reflexivity.
  - subst. reflexivity.
  - reflexivity.
Qed.
Lemma width_agree ix s : parse_width args1 ix s = parse_width args2 ix s.
Proof. unfold parse_width. destruct (is_digit (peek s)); [reflexivity|]. destruct s; [reflexivity|]. rewrite nested_agree. reflexivity. Qed.
Lemma precision_agree a b ix s : alike a b -> parse_precision args1 a ix s = parse_precision args2 b ix s.
Proof.
  intros (A & _). unfold parse_precision. destruct s as [|c s]; [reflexivity|]. destruct (Ascii.eqb c "."); [|reflexivity]. rewrite A.
  destruct (is_digit (peek s)); [reflexivity|]. destruct s; [reflexivity|]. rewrite nested_agree. reflexivity.
Qed.
Lemma spec_agree a b ix s : alike a b -> parse_spec args1 a ix s = parse_spec args2 b ix s.
Proof.
  intros AL. pose proof AL as (A1 & A2 & A3 & A4 & A5). unfold parse_spec. destruct s as [|c s]; [reflexivity|]. destruct (Ascii.eqb c ":"); [|reflexivity].
  replace (parse_align b s) with (parse_align a s) by (unfold parse_align, check_align, require_numeric; rewrite A2; reflexivity).
  destruct (parse_align a s) as [[[al fill] s1]|e|]; cbn [bind]; [|reflexivity|reflexivity].
  replace (parse_sign b s1) with (parse_sign a s1) by (unfold parse_sign; rewrite A3; reflexivity).
  destruct (parse_sign a s1) as [[[[sg pl] mi] s2]|e|]; cbn [bind]; [|reflexivity|reflexivity].
  replace (parse_flag "#" b s2) with (parse_flag "#" a s2) by (unfold parse_flag, require_numeric; rewrite A2; reflexivity).
  destruct (parse_flag "#" a s2) as [[h s3]|e|]; cbn [bind]; [|reflexivity|reflexivity].
  replace (parse_flag "0" b s3) with (parse_flag "0" a s3) by (unfold parse_flag, require_numeric; rewrite A2; reflexivity).
  destruct (parse_flag "0" a s3) as [[z s4]|e|]; cbn [bind]; [|reflexivity|reflexivity].
  rewrite width_agree. destruct (parse_width args2 ix s4) as [[[wd ix5] s5]|e|]; cbn [bind]; [|reflexivity|reflexivity].
  rewrite (precision_agree a b _ _ AL). reflexivity.
Qed.
Lemma placeholder_agree a b ix s : alike a b -> format_placeholder dbl args1 a ix s = format_placeholder dbl args2 b ix s.
Proof.
  intros AL. unfold format_placeholder. rewrite (spec_agree a b ix s AL). destruct (parse_spec args2 b ix s) as [[[sp ix'] s']|e|]; cbn [bind]; [|reflexivity|reflexivity].
  destruct s'; [reflexivity|]. destruct AL as (_ & _ & _ & _ & A). rewrite A. reflexivity.
Qed.
Lemma go_agree : forall fuel ix s, format_go dbl args1 fuel ix s = format_go dbl args2 fuel ix s.
Proof.
  induction fuel as [|fuel IH]; intros ix s; [reflexivity|]. cbn [format_go]. destruct s as [|c s]; [reflexivity|].
  destruct (negb _ && negb _); [rewrite IH; reflexivity|]. destruct (Ascii.eqb (peek s) c); [rewrite IH; reflexivity|].
  destruct (Ascii.eqb c RBRACE); [reflexivity|]. pose proof (arg_agree ix s) as G.
  destruct (parse_arg args1 ix s) as [[[a1 i1] s1]|x|]; destruct (parse_arg args2 ix s) as [[[a2 i2] s2]|y|]; cbn [agree] in G.
  2,3,4,6,7,8: destruct G.
  2: subst y; cbn [bind]; reflexivity.
  2: cbn [bind]; reflexivity.
  unfold picked in G; cbn [fst snd] in G; destruct G as (A & <- & <-). cbn [bind fst snd] in *. rewrite (placeholder_agree _ _ _ _ A).
  destruct (format_placeholder dbl args2 a2 i1 s1) as [[[t ix2] s2]|e|]; cbn [bind]; [|reflexivity|reflexivity]. rewrite IH. reflexivity.
Qed.
End Args.

Lemma seen_write format args1 args2 : Forall2 same_seen args1 args2 -> write dbl format args1 = write dbl format args2.
Proof.
  intros F. unfold write. apply go_agree. induction F as [|a b l1 l2 H F IH]; constructor; [apply seen_alike; exact H|exact IH].
Qed.
End Seen.

(** ---- the string formatter ---- *)

Section Formatter.
Variable dbl : spec -> N -> bytes.
Variable double_of : bytes -> N.
Variable sevmap : StrModel.severity_map.

Definition with_message (v : StrModel.view) (r : StrModel.srecord) : StrModel.srecord :=
  StrModel.SRec v (StrModel.r_severity r) (StrModel.r_nanoseconds r) (StrModel.r_tid r) (StrModel.r_pack r) (StrModel.r_pid r)
    (StrModel.r_lwp r) (StrModel.r_procname r) (StrModel.r_thread_name r) (StrModel.r_stamp r) (StrModel.r_junk r).

Lemma token_seen r v1 v2 t : (forall spec, write dbl spec [StrModel.arg_of_view v1] = write dbl spec [StrModel.arg_of_view v2]) ->
  StrModel.write_token dbl double_of sevmap (with_message v1 r) t = StrModel.write_token dbl double_of sevmap (with_message v2 r) t.
Proof. intros H. destruct t; unfold StrModel.write_token; cbn [with_message StrModel.r_formatted StrModel.r_severity StrModel.r_nanoseconds StrModel.r_tid StrModel.r_pack StrModel.r_pid StrModel.r_lwp StrModel.r_procname StrModel.r_thread_name StrModel.r_stamp StrModel.r_junk]; first [rewrite H; reflexivity|reflexivity]. Qed.
Lemma format_seen r v1 v2 : (forall spec, write dbl spec [StrModel.arg_of_view v1] = write dbl spec [StrModel.arg_of_view v2]) ->
  forall ts, StrModel.format dbl double_of sevmap (with_message v1 r) ts = StrModel.format dbl double_of sevmap (with_message v2 r) ts.
Proof. intros H. induction ts as [|t ts IH]; [reflexivity|]. cbn [StrModel.format]. rewrite (token_seen r v1 v2 t H), IH. reflexivity. Qed.
End Formatter.

(** ---- from the call to the sinks ---- *)

Section Say.
Variable dbl : FmtModel.spec -> N -> bytes.
Variable dbl_json : N -> bytes.
Variable double_of : bytes -> N.
Variable what : FmtModel.error -> bytes.
Variable json_fmt : bytes -> value -> option bytes.
Notation render := (render dbl dbl_json double_of what json_fmt).
Notation render_in_place := (render_in_place dbl dbl_json double_of what json_fmt).
Notation handle_in_place := (handle_in_place dbl dbl_json double_of what json_fmt).
Notation handle_all := (handle_all dbl dbl_json double_of what json_fmt).
Notation say := (say dbl dbl_json double_of what json_fmt).
Notation say_all := (say_all dbl dbl_json double_of what json_fmt).
Notation log := (log dbl dbl_json double_of what json_fmt).
Notation log_all := (log_all dbl dbl_json double_of what json_fmt).
Notation message := (message dbl).

(** A view like those of SystemModel: what it shows does not depend on what is behind. *)
Definition calm_view (v : StrModel.view) : Prop := exists s m, v = StrModel.View (Some (s ++ m)) (length_N s) /\ (s = [] -> hd_error m = Some NUL).

Lemma viewed_front s m : StrModel.viewed (StrModel.View (Some (s ++ m)) (length_N s)) = s.
Proof.
  unfold StrModel.viewed, length_N. cbn [StrModel.v_data StrModel.v_size]. rewrite Nat2N.id, firstn_app, firstn_all, Nat.sub_diag, firstn_O, app_nil_r. reflexivity.
Qed.
Lemma empty_write format m : hd_error m = Some NUL -> write dbl format [AString (Some m) 0] = write dbl format [AString (Some [NUL]) 0].
Proof.
  intros H. destruct m as [|c m]; [discriminate|]. injection H as ->. unfold write. apply go_agree. constructor; [|constructor].
  split; [reflexivity|]. split; [reflexivity|]. split; [reflexivity|]. split; [reflexivity|]. intros sp. cbn [format_arg]. unfold write_string.
  destruct (negb _ && negb _); [reflexivity|]. change (0 =? 0) with true. cbv iota. rewrite Ascii.eqb_refl. cbn [bind].
  destruct (sp_precision sp) as [q|]; [destruct (N.ltb_spec q 0); [lia|]|]; reflexivity.
Qed.
Lemma calm_write v format : calm_view v -> write dbl format [StrModel.arg_of_view v] = write dbl format [StrModel.arg_of_view (view_of (StrModel.viewed v))].
Proof.
  intros (s & m & -> & Z). rewrite viewed_front. unfold StrModel.arg_of_view, view_of. cbn [StrModel.v_data StrModel.v_size]. destruct s as [|c s].
  - cbn [app]. change (length_N (@nil ascii)) with 0. apply empty_write. apply Z. reflexivity.
  - apply seen_write. constructor; [|constructor]. right. left. exists (c :: s), m, [NUL]. split; [discriminate|]. split; reflexivity.
Qed.
Lemma render_calm f e r v : calm_view v -> r_formatted r = StrModel.viewed v -> render_in_place f e r v = render f e r.
Proof.
  intros C E. destruct f as [tokens sevmap|d|d]; [|reflexivity|reflexivity]. cbn [SayModel.render_in_place SystemModel.render]. cbv zeta.
  change (StrModel.SRec v (StrModel.r_severity (srecord_of e r)) (StrModel.r_nanoseconds (srecord_of e r)) (StrModel.r_tid (srecord_of e r)) (StrModel.r_pack (srecord_of e r)) (StrModel.r_pid (srecord_of e r))
    (StrModel.r_lwp (srecord_of e r)) (StrModel.r_procname (srecord_of e r)) (StrModel.r_thread_name (srecord_of e r)) (StrModel.r_stamp (srecord_of e r)) (StrModel.r_junk (srecord_of e r)))
    with (with_message v (srecord_of e r)).
  change (srecord_of e r) with (with_message (view_of (r_formatted r)) (srecord_of e r)) at 2.
  rewrite (format_seen dbl double_of _ (srecord_of e r) v (view_of (r_formatted r))); [reflexivity|]. intros spec. rewrite E. apply calm_write. exact C.
Qed.
Lemma handle_calm env r v q : calm_view v -> r_formatted r = StrModel.viewed v -> forall hs w i, handle_in_place w env r v q i hs = handle_all w env r q i hs.
Proof.
  intros C E. induction hs as [|[f sinks] hs IH]; intros w i; [reflexivity|]. cbn [SayModel.handle_in_place SystemModel.handle_all]. rewrite (render_calm f env r v C E).
  destruct (render f env r); [|rewrite IH; reflexivity|reflexivity]. destruct (emit_all _ _ _ _ _ _ _ _) as [[[[w1 s1] e1] x]|]; [|reflexivity]. rewrite IH. reflexivity.
Qed.

(** The call of SystemModel that is the same as a call whose message is calm. *)
Definition call_said (u : said) (m : RootModel.result sview) : call :=
  Call (s_severity u) (StrModel.viewed (StrModel.View (StringViewModel.v_data (s_pattern u)) (StringViewModel.v_size (s_pattern u)))) (pack_of u) (s_scoped u) m (s_tid u) (s_now u) (s_env u) (s_circumstances u).

Lemma say_calm w hs u v : message u = Ok v -> calm_view v ->
  say w hs u = match log w hs (call_said u (Ret (SView (StrModel.viewed v)))) with Some (w1, hs1, evs) => Some (w1, hs1, evs, Ret tt) | None => None end.
Proof.
  intros M C. unfold SayModel.say, SystemModel.log. rewrite M. cbn [c_supplier call_said]. cbv zeta.
  rewrite (handle_calm _ _ _ _ C) by reflexivity. reflexivity.
Qed.
Lemma say_error w hs u e : message u = Error e -> say w hs u = Some (w, hs, [], Throw (StdExn (what e))).
Proof. intros M. unfold SayModel.say. rewrite M. reflexivity. Qed.
End Say.
