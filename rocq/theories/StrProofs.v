(** Proofs about the string formatter: values and texts through specifications. *)
From Verif Require Import Base ParserModel FmtModel FmtSpec FmtProofs FmtSubProofs StrModel StrSpec.
Open Scope N_scope.

Lemma bytes_eqb_false a b : bytes_eqb a b = false <-> a <> b.
Proof.
  destruct (bytes_eqb a b) eqn:E; split; intros H; try congruence.
  - apply bytes_eqb_eq in E. congruence.
  - intros ->. rewrite bytes_eqb_refl in E. discriminate.
Qed.

Lemma Forall2_len {A C} (R : A -> C -> Prop) l l' : Forall2 R l l' -> length l = length l'.
Proof. induction 1; cbn; congruence. Qed.

Section Values.
Variable dbl : spec -> N -> bytes.
Variable double_of : bytes -> N.

(** A format string that asks for what an optional specification says. *)
Definition asks_for (f : bytes) (w : option wish) : Prop :=
  forall a, suits a w -> write dbl f [a] = format_arg dbl (layout w) a.

Lemma asks_spec w : asks_for (B "{" ++ spec_text w ++ B "}") w.
Proof.
  intros a S1. destruct w as [w|]; cbn [spec_text layout]; [apply write_one; exact S1|]. apply write_plain.
Qed.

Lemma asks_empty : asks_for (B "{:}") None.
Proof.
  intros a _. cbn [layout]. unfold write. cbv zeta.
  change (c_string (B "{:}")) with [LBRACE; ":"%char; RBRACE].
  change (run dbl [a] (Some 0) [LBRACE; ":"%char; RBRACE] = format_arg dbl empty_spec a).
  rewrite run_open by discriminate. rewrite (parse_arg_next [a] 0 a) by (reflexivity || (left; reflexivity)).
  unfold format_placeholder.
  replace (parse_spec [a] a (Some (0 + 1)) [":"%char; RBRACE]) with (Ok (empty_spec, Some 1, [RBRACE])) by reflexivity.
  cbn [bind]. rewrite Ascii.eqb_refl. destruct (format_arg dbl empty_spec a) as [t| |]; cbn [bind]; [|reflexivity|reflexivity].
  cbn [length format_go bind]. rewrite app_nil_r. reflexivity.
Qed.

Lemma text_type_ok w : text_type w -> negb (Ascii.eqb (sp_type (layout w)) NUL) && negb (Ascii.eqb (sp_type (layout w)) "s") = false.
Proof. unfold text_type, type_of. intros [-> | ->]; reflexivity. Qed.

Lemma firstn_min {A} (q n : nat) (m : list A) : firstn q (firstn n m) = firstn (Nat.min q n) m.
Proof. apply firstn_firstn. Qed.

Lemma read_text w m size : size <= length_N m ->
  read m (match sp_precision (layout w) with Some q => if q <? size then q else size | None => size end)
    = Ok (cut w (firstn (N.to_nat size) m)).
Proof.
  intros H. unfold read, cut. destruct (sp_precision (layout w)) as [q|].
  - rewrite firstn_min. destruct (N.ltb_spec q size).
    + destruct (N.ltb_spec (length_N m) q); [lia|]. do 2 f_equal. lia.
    + destruct (N.ltb_spec (length_N m) size); [lia|]. do 2 f_equal. lia.
  - destruct (N.ltb_spec (length_N m) size); [lia|]. reflexivity.
Qed.

Lemma show_view w m size : text_type w -> size <= length_N m -> (size = 0 -> hd_error m = Some NUL) ->
  exists out, format_arg dbl (layout w) (AString (Some m) size) = Ok out /\ shows_text w (firstn (N.to_nat size) m) out.
Proof.
  intros T L Z. cbn [format_arg]. unfold write_string. rewrite (text_type_ok w T).
  assert (SZ : (if size =? 0 then match m with [] => Undefined | c :: _ => if Ascii.eqb c NUL then Ok 0 else match strlen m with Some n => Ok n | None => Undefined end end
                else Ok size) = Ok size).
  { destruct (N.eqb_spec size 0) as [->|]; [|reflexivity]. specialize (Z eq_refl). destruct m as [|c m]; [discriminate|].
    injection Z as ->. rewrite Ascii.eqb_refl. reflexivity. }
  rewrite SZ. cbn [bind]. rewrite (read_text w m size L). cbn [bind]. eexists. split; [reflexivity|]. apply pad_field.
Qed.

Lemma show_c_string w s m : text_type w -> ~ In NUL s ->
  exists out, format_arg dbl (layout w) (ACString (Some (s ++ NUL :: m))) = Ok out /\ shows_text w s out.
Proof.
  intros T NN. cbn [format_arg]. unfold write_string. rewrite (text_type_ok w T). change (0 =? 0) with true. cbv iota.
  assert (SZ : match s ++ NUL :: m with [] => Undefined
     | c :: _ => if Ascii.eqb c NUL then Ok 0 else match strlen (s ++ NUL :: m) with Some n => Ok n | None => Undefined end end = Ok (length_N s)).
  { rewrite strlen_ok by exact NN. destruct s as [|c s]; [reflexivity|]. cbn [app]. destruct (Ascii.eqb_spec c NUL) as [->|_]; [|reflexivity].
    exfalso. apply NN. left. reflexivity. }
  rewrite SZ. cbn [bind]. rewrite read_text by (rewrite length_N_app; lia). cbn [bind]. eexists. split; [reflexivity|].
  replace (firstn (N.to_nat (length_N s)) (s ++ NUL :: m)) with s; [apply pad_field|].
  rewrite firstn_app. replace (N.to_nat (length_N s)) with (length s) by (unfold length_N; lia).
  rewrite firstn_all, Nat.sub_diag, firstn_O, app_nil_r. reflexivity.
Qed.

Lemma show_number w a z : carries a z -> suits a w -> radix (type_of w) <> None ->
  exists out, format_arg dbl (layout w) a = Ok out /\ shows_number w z out.
Proof.
  intros C S1 R. destruct (carries_int dbl a z (layout w) C) as (wd & E & RG).
  unfold type_of in R. destruct (radix (sp_type (layout w))) as [[[base upper] mark]|] eqn:RX; [|congruence].
  destruct (write_int_ok wd z (layout w) base upper mark RG RX) as (ds & NU & Q).
  eexists. rewrite E, Q. split; [reflexivity|]. exists base, upper, mark, ds. refine (conj RX (conj NU _)).
  replace (sign_mark w z) with (sign_of (layout w) z); [apply laid_field|].
  destruct w as [w|]; cbn [layout sign_mark].
  - apply sign_asks. destruct S1 as (_ & _ & _ & SG & _). destruct (w_sign w); [apply SG|exact I].
  - unfold sign_of. destruct (z <? 0)%Z; reflexivity.
Qed.

Lemma suits_cstring p w : suits (AString None 0) w -> suits (ACString p) w.
Proof. destruct w as [w|]; intros H; exact H. Qed.
Lemma suits_string p n w : suits (AString None 0) w -> suits (AString p n) w.
Proof. destruct w as [w|]; intros H; exact H. Qed.
Lemma suits_long z w : suits (ALong 0) w -> suits (ALong z) w.
Proof. destruct w as [w|]; intros H; exact H. Qed.
Lemma suits_int z w : suits (ALong 0) w -> suits (AInt z) w.
Proof. destruct w as [w|]; intros H; exact H. Qed.
Lemma suits_ulong n w : suits (AUlong 0) w -> suits (AUlong n) w.
Proof. destruct w as [w|]; intros H; exact H. Qed.
Lemma suits_double n w : suits (ADouble 0) w -> suits (ADouble n) w.
Proof. destruct w as [w|]; intros H; exact H. Qed.

Lemma float_type_in c : In c (NUL :: B "aAeEfFgG") -> is_float_type c = true.
Proof. cbn. intros H. repeat destruct H as [H|H]; try contradiction; subst c; reflexivity. Qed.

Lemma show_bool w b : suits (ABool b) w -> (type_of w = NUL \/ radix (type_of w) <> None) ->
  exists out, format_arg dbl (layout w) (ABool b) = Ok out /\
    (if Ascii.eqb (type_of w) NUL then shows_text w (if b then B "true" else B "false") out else shows_number w (if b then 1 else 0)%Z out).
Proof.
  intros S1 T. cbn [format_arg]. unfold write_bool. fold (type_of w).
  destruct (Ascii.eqb_spec (type_of w) NUL) as [E|N]; cbn [negb].
  - destruct (show_view w ((if b then B "true" else B "false") ++ [NUL]) (length_N (if b then B "true" else B "false"))) as (out & E1 & E2).
    + left. exact E.
    + rewrite length_N_app. lia.
    + destruct b; discriminate.
    + exists out. split; [exact E1|]. destruct b; exact E2.
  - destruct T as [T|T]; [congruence|].
    destruct (show_number w (AInt (if b then 1 else 0)) (if b then 1 else 0)%Z) as (out & E1 & E2).
    + destruct b; cbn; lia.
    + destruct w as [w|]; [|exact I]. exact S1.
    + exact T.
    + exists out. split; [exact E1|exact E2].
Qed.

Lemma show_value f w v : asks_for f w -> suits_value w v -> exists out, write_value dbl f v = Ok out /\ shows_value dbl w v out.
Proof.
  intros AF H. destruct v as [|b|z|n|bits|v|text]; cbn [write_value shows_value suits_value] in *.
  - destruct H as [S1 T]. rewrite AF by (apply suits_cstring; exact S1).
    apply (show_c_string w (B "none") []); [exact T|]. intros I; repeat destruct I as [I|I]; try discriminate; destruct I.
  - destruct H as [S1 T]. rewrite AF by exact S1. apply (show_bool w b S1 T).
  - destruct H as [[S1 R] Z]. rewrite AF by (apply suits_long; exact S1).
    apply show_number; [split; [reflexivity|exact Z]|apply suits_long; exact S1|exact R].
  - destruct H as [[S1 R] Z]. rewrite AF by (apply suits_ulong; exact S1).
    apply show_number; [split; [reflexivity|lia]|apply suits_ulong; exact S1|exact R].
  - destruct H as [S1 T]. rewrite AF by exact S1. cbn [format_arg]. unfold type_of in T. rewrite (float_type_in _ T).
    eexists. split; reflexivity.
  - destruct H as [[S1 T] (m & E & NN)]. rewrite AF by (apply suits_cstring; exact S1). rewrite E. apply show_c_string; [exact T|exact NN].
  - eexists. split; reflexivity.
Qed.

Lemma show_good_view f w v : asks_for f w -> suits_text w -> good_view v ->
  exists out, write dbl f [arg_of_view v] = Ok out /\ shows_text w (viewed v) out.
Proof.
  intros AF [S1 T] (m & E & L & Z). unfold arg_of_view, viewed. rewrite E. rewrite AF by (apply suits_string; exact S1).
  apply show_view; assumption.
Qed.

Lemma show_string f w s : asks_for f w -> suits_text w -> exists out, write dbl f [arg_of_string s] = Ok out /\ shows_text w s out.
Proof.
  intros AF [S1 T]. unfold arg_of_string, terminated. rewrite AF by (apply suits_string; exact S1).
  destruct (show_view w (s ++ [NUL]) (length_N s) T) as (out & E1 & E2).
  - rewrite length_N_app. lia.
  - unfold length_N. destruct s as [|c s]; [reflexivity|]. cbn [length]. lia.
  - exists out. split; [exact E1|]. replace (firstn (N.to_nat (length_N s)) (s ++ [NUL])) with s in E2; [exact E2|].
    replace (N.to_nat (length_N s)) with (length s) by (unfold length_N; lia). rewrite firstn_app, firstn_all, Nat.sub_diag, firstn_O, app_nil_r. reflexivity.
Qed.

Lemma show_literal f w s : asks_for f w -> suits_text w -> ~ In NUL s ->
  exists out, write dbl f [arg_of_literal s] = Ok out /\ shows_text w s out.
Proof.
  intros AF [S1 T] NN. unfold arg_of_literal, terminated. rewrite AF by (apply suits_cstring; exact S1). apply show_c_string; assumption.
Qed.

Lemma show_ulong f w n : asks_for f w -> suits_unsigned w -> n < 2 ^ 64 ->
  exists out, write dbl f [AUlong n] = Ok out /\ shows_number w (Z.of_N n) out.
Proof.
  intros AF [S1 R] L. rewrite AF by (apply suits_ulong; exact S1).
  apply show_number; [split; [reflexivity|lia]|apply suits_ulong; exact S1|exact R].
Qed.
Lemma show_long f w z : asks_for f w -> suits_signed w -> (- 2 ^ 63 <= z < 2 ^ 63)%Z ->
  exists out, write dbl f [ALong z] = Ok out /\ shows_number w z out.
Proof.
  intros AF [S1 R] L. rewrite AF by (apply suits_long; exact S1).
  apply show_number; [split; [reflexivity|exact L]|apply suits_long; exact S1|exact R].
Qed.
Lemma show_int f w z : asks_for f w -> suits_signed w -> (- 2 ^ 31 <= z < 2 ^ 31)%Z ->
  exists out, write dbl f [AInt z] = Ok out /\ shows_number w z out.
Proof.
  intros AF [S1 R] L. rewrite AF by (apply suits_int; exact S1).
  apply show_number; [split; [reflexivity|exact L]|apply suits_int; exact S1|exact R].
Qed.

(** A text from a buffer, which may be empty. *)
Lemma show_buffer f w s junk : asks_for f w -> suits_text w -> (s = [] -> hd_error junk = Some NUL) ->
  exists out, write dbl f [AString (Some (s ++ junk)) (length_N s)] = Ok out /\ shows_text w s out.
Proof.
  intros AF [S1 T] J. rewrite AF by (apply suits_string; exact S1).
  destruct (show_view w (s ++ junk) (length_N s) T) as (out & E1 & E2).
  - rewrite length_N_app. lia.
  - unfold length_N. destruct s as [|c s]; [intros _; apply J; reflexivity|]. cbn [length]. lia.
  - exists out. split; [exact E1|]. replace (firstn (N.to_nat (length_N s)) (s ++ junk)) with s in E2; [exact E2|].
    replace (N.to_nat (length_N s)) with (length s) by (unfold length_N; lia). rewrite firstn_app, firstn_all, Nat.sub_diag, firstn_O, app_nil_r. reflexivity.
Qed.

(** ---- attributes ---- *)

Lemma find_in_app name l l' : find_in name (l ++ l') = match find_in name l with Some v => Some v | None => find_in name l' end.
Proof. induction l as [|[n v] l IH]; [reflexivity|]. cbn [app find_in]. destruct (bytes_eqb (viewed n) name); [reflexivity|exact IH]. Qed.
Lemma find_concat name p : find name p = find_in name (concat p).
Proof. induction p as [|l p IH]; [reflexivity|]. cbn [find concat]. rewrite find_in_app, IH. reflexivity. Qed.

Lemma find_first name r v : first_called name r v -> find name (r_pack r) = Some v.
Proof.
  intros (b & n & a & E & NM & F). rewrite find_concat. unfold attributes in E. rewrite E, find_in_app.
  assert (N : find_in name b = None).
  { clear E. induction b as [|[m x] b IH]; [reflexivity|]. cbn [find_in]. rewrite (proj2 (bytes_eqb_false _ _)).
    - apply IH. intros y I. apply F. right. exact I.
    - apply (F (m, x)). left. reflexivity. }
  rewrite N. cbn [find_in]. rewrite NM, bytes_eqb_refl. reflexivity.
Qed.
Lemma find_none name r : none_called name r -> find name (r_pack r) = None.
Proof.
  unfold none_called, attributes. rewrite find_concat. induction (concat (r_pack r)) as [|[m x] b IH]; intros F; [reflexivity|].
  cbn [find_in]. rewrite (proj2 (bytes_eqb_false _ _)); [apply IH; intros y I; apply F; right; exact I|].
  apply (F (m, x)). left. reflexivity.
Qed.

(** ---- `{...}` ---- *)

Definition part_token (p : part) : subtoken :=
  match p with
  | Words_ t => SLiteral t
  | Name_ w => SName (B "{:" ++ ParserSpec.opt_spec (option_map after_colon w) ++ B "}")
  | Value_ w => SValue (B "{:" ++ ParserSpec.opt_spec (option_map after_colon w) ++ B "}")
  end.

Lemma asks_opt w : asks_for (B "{:" ++ ParserSpec.opt_spec (option_map after_colon w) ++ B "}") w.
Proof. destruct w as [w|]; [apply (asks_spec (Some w))|apply asks_empty]. Qed.

Lemma show_part a p : part_suits a p -> exists out, write_sub dbl a (part_token p) = Ok out /\ part_shows dbl a p out.
Proof.
  intros H. destruct p as [t|w|w]; cbn [part_token write_sub part_shows part_suits] in *.
  - eexists. split; reflexivity.
  - destruct H as [S1 G]. apply show_good_view; [apply asks_opt|exact S1|exact G].
  - apply show_value; [apply asks_opt|exact H].
Qed.

Lemma show_parts a ps : Forall (part_suits a) ps ->
  exists ts, write_subs dbl a (map part_token ps) = Ok (concat ts) /\ Forall2 (part_shows dbl a) ps ts.
Proof.
  induction 1 as [|p ps H HS IH]; [exists []; split; [reflexivity|constructor]|].
  destruct (show_part a p H) as (out & E1 & E2), IH as (ts & E3 & E4). exists (out :: ts). split; [|constructor; assumption].
  cbn [map write_subs]. rewrite E1. cbn [bind]. rewrite E3. reflexivity.
Qed.

Definition glue (first : bool) (sep : bytes) (ts : list bytes) : bytes :=
  if first then join sep ts else flat_map (fun t => sep ++ t) ts.
Lemma glue_app first sep ts us : glue first sep (ts ++ us) = glue first sep ts ++ glue (first && match ts with [] => true | _ => false end) sep us.
Proof.
  destruct first; cbn [glue andb]; [|apply flat_map_app]. destruct ts as [|t ts]; [reflexivity|]. cbn [app join].
  rewrite flat_map_app, app_assoc. reflexivity.
Qed.

Definition one_each (ps : list part) (attrs : list (view * aval)) (texts : list bytes) : Prop :=
  Forall2 (fun a t => exists ts, Forall2 (part_shows dbl a) ps ts /\ t = concat ts) attrs texts.

Lemma show_list lo ps : lo_tokens lo = map part_token ps -> forall l, Forall (fun a => Forall (part_suits a) ps) l -> forall first,
  exists texts, eval_list dbl lo first l = Ok (glue first (lo_separator lo) texts, first && match l with [] => true | _ => false end)
    /\ one_each ps l texts.
Proof.
  intros LT l H. induction H as [|a l HA HL IH]; intros first.
  - exists []. split; [|constructor]. cbn [eval_list]. destruct first; reflexivity.
  - destruct (show_parts a ps HA) as (ts & E1 & E2), (IH false) as (texts & E3 & E4). exists (concat ts :: texts).
    split; [|constructor; [exists ts; split; [exact E2|reflexivity]|exact E4]].
    cbn [eval_list]. rewrite LT, E1. cbn [bind]. rewrite E3. cbn [bind]. do 2 f_equal.
    + destruct first; cbn [glue join flat_map app]; [reflexivity|]. rewrite <- app_assoc. reflexivity.
    + rewrite andb_false_r. reflexivity.
Qed.

Lemma show_eval lo ps : lo_tokens lo = map part_token ps -> forall p, Forall (fun a => Forall (part_suits a) ps) (concat p) -> forall first,
  exists texts, eval dbl lo first p = Ok (glue first (lo_separator lo) texts) /\ one_each ps (concat p) texts.
Proof.
  intros LT. induction p as [|l p IH]; intros H first.
  - exists []. split; [|constructor]. cbn [eval]. destruct first; reflexivity.
  - cbn [concat] in H. apply Forall_app in H as [H1 H2].
    destruct (show_list lo ps LT l H1 first) as (ts & E1 & E2).
    destruct (IH H2 (first && match l with [] => true | _ => false end)) as (us & E3 & E4).
    exists (ts ++ us). split; [|apply Forall2_app; assumption].
    cbn [eval]. rewrite E1. cbn [bind]. rewrite E3. cbn [bind]. rewrite glue_app. do 3 f_equal.
    assert (LL := Forall2_len _ _ _ E2). destruct l, ts; try discriminate; reflexivity.
Qed.

Lemma show_others lo ps w r sevmap : lo_tokens lo = map part_token ps -> asks_for (lo_spec lo) w -> others_suit ps w r ->
  exists out, write_token dbl double_of sevmap r (TLeftover lo) = Done out /\ others_show dbl ps (lo_separator lo) w r out.
Proof.
  intros LT AF [[S1 T] H]. destruct (show_eval lo ps LT (r_pack r) H true) as (texts & E1 & E2).
  cbn [write_token]. rewrite E1. cbn [bind glue]. unfold others_show.
  set (text := join (lo_separator lo) texts). assert (JN : joined dbl ps (lo_separator lo) (attributes r) text).
  { exists texts. split; [reflexivity|exact E2]. }
  clearbody text. destruct (N.eqb_spec (length_N text) 0) as [Z|NZ].
  - exists []. split; [reflexivity|]. exists text. split; [exact JN|]. destruct text; [reflexivity|discriminate Z].
  - rewrite AF by (apply suits_string; exact S1).
    destruct (show_view w text (length_N text) T) as (out & O1 & O2); [lia|congruence|].
    exists out. split; [exact (f_equal lift O1)|]. exists text. split; [exact JN|].
    replace (firstn (N.to_nat (length_N text)) text) with text in O2; [destruct text; [exfalso; apply NZ; reflexivity|exact O2]|].
    symmetry. apply firstn_all2. unfold length_N. lia.
Qed.
End Values.
