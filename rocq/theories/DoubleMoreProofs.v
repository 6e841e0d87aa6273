(** Programs of buffer operations and floating-point numbers. *)
From Verif Require Import Base FmtModel FmtSpec MembufModel MembufSpec MembufProofs DoubleModel DoubleSpec DoubleProofs.
From Verif Require PrintfModel PrintfMoreProofs.
Open Scope N_scope.

(** ---- bits ---- *)

Lemma mark_text sp bits : sign_text (sign_char sp bits) = mark sp bits.
Proof.
  unfold sign_char, mark, negative. destruct (N.leb_spec (2 ^ 63) bits); destruct (N.ltb_spec bits (2 ^ 63)); try lia; [reflexivity|].
  destruct (sp_sign sp), (sp_plus sp); reflexivity.
Qed.
Lemma special_finite bits : special bits = false <-> finite bits.
Proof. unfold special, finite. apply N.eqb_neq. Qed.
Lemma special_not bits : special bits = true <-> ~ finite bits.
Proof. rewrite <- special_finite. destruct (special bits); split; congruence. Qed.
Lemma magnitude_mod bits : bits < 2 ^ 64 -> magnitude bits = bits mod 2 ^ 63.
Proof.
  intros H. unfold magnitude, negative. destruct (N.leb_spec (2 ^ 63) bits).
  - symmetry. replace bits with (bits - 2 ^ 63 + 1 * 2 ^ 63) at 1 by lia. rewrite N.mod_add by discriminate. apply N.mod_small. lia.
  - symmetry. apply N.mod_small. assumption.
Qed.
Lemma float_known t : match float_type t with
  | Some (type, upper) => known t /\ type = (if Ascii.eqb t NUL then "g"%char else t) /\ upper = capital t
  | None => ~ known t
  end.
Proof.
  unfold float_type, known. destruct (Ascii.eqb_spec t NUL) as [->|NN]; [split; [auto|split; reflexivity]|].
  destruct (existsb (Ascii.eqb t) (B "efga")) eqn:E1.
  - apply existsb_exists in E1 as (x & I & E). apply Ascii.eqb_eq in E. subst x. split.
    + right. cbn in I |- *. tauto.
    + split; [reflexivity|]. cbn in I. repeat (destruct I as [<-|I]; [reflexivity|]). contradiction.
  - destruct (existsb (Ascii.eqb t) (B "FEGA")) eqn:E2.
    + apply existsb_exists in E2 as (x & I & E). apply Ascii.eqb_eq in E. subst x. split.
      * right. cbn in I |- *. tauto.
      * split; [reflexivity|]. cbn in I. repeat (destruct I as [<-|I]; [reflexivity|]). contradiction.
    + intros [K|K]; [contradiction|].
      assert (Q : existsb (Ascii.eqb t) (B "efga") = true \/ existsb (Ascii.eqb t) (B "FEGA") = true).
      { rewrite !existsb_exists. cbn in K |- *. repeat (destruct K as [<-|K]; [first [left; eexists; split; [|apply Ascii.eqb_refl]; cbn; tauto | right; eexists; split; [|apply Ascii.eqb_refl]; cbn; tauto]|]). contradiction. }
      destruct Q; congruence.
Qed.
Lemma name_same t bits : special bits = true -> name_of bits (capital t) = name t bits.
Proof. intros H. unfold name_of, name, is_nan. rewrite H. cbn [andb]. destruct (bits mod 2 ^ 52 =? 0); reflexivity. Qed.
Lemma name_length t bits : length_N (name t bits) = 3.
Proof. unfold name. destruct (bits mod 2 ^ 52 =? 0), (capital t); reflexivity. Qed.

(** ---- layout ---- *)

Lemma fills_repeat c n : fills c (repeat c n).
Proof. unfold fills. induction n; constructor; auto. Qed.
Lemma fills_nil c : fills c [].
Proof. constructor. Qed.
Local Hint Resolve fills_repeat fills_nil : core.

Lemma laid_field sp sign body : (sp_align sp = ACenter -> sp_width sp <= length_N (sign_text sign) + length_N body) ->
  (sp_align sp = ALeft -> sp_fill sp = " "%char) ->
  field true (sp_align sp) (sp_fill sp) (sp_width sp) (sign_text sign) body
    (laid_out sp sign (match sign with Some _ => sp_width sp - 1 | None => sp_width sp end) body).
Proof.
  intros HC HL. set (lw := match sign with Some _ => _ | None => _ end).
  assert (LW : length_N (sign_text sign) + N.max lw (length_N body) = N.max (sp_width sp) (length_N (sign_text sign) + length_N body)).
  { unfold lw. destruct sign; cbn [sign_text]; [change (length_N [a]) with 1|change (length_N []) with 0]; lia. }
  unfold laid_out. cbv zeta. set (m := N.to_nat (lw - length_N body)).
  assert (LM : forall c : ascii, length_N (repeat c m) = lw - length_N body) by (intros c; apply len_repeat).
  unfold field. destruct (sp_align sp) eqn:AL.
  - exists [], [], (repeat " "%char m). cbn [app]. rewrite HL by reflexivity. rewrite !len_app, LM. repeat split; auto. lia.
  - exists (repeat (sp_fill sp) m), [], []. cbn [app]. rewrite app_nil_r. rewrite !len_app, LM. repeat split; auto. lia.
  - exists [], (repeat (sp_fill sp) m), []. cbn [app]. rewrite app_nil_r. rewrite !len_app, LM. repeat split; auto. lia.
  - specialize (HC eq_refl). exists [], [], []. cbn [app]. rewrite app_nil_r. rewrite !len_app. repeat split; auto; [lia|unfold length_N; cbn; lia..].
  - exists (repeat (sp_fill sp) m), [], []. cbn [app]. rewrite app_nil_r. rewrite !len_app, LM. repeat split; auto. lia.
Qed.
Lemma centered_field sp sign body : sp_align sp = ACenter -> length_N (sign_text sign) + length_N body < sp_width sp ->
  field true (sp_align sp) (sp_fill sp) (sp_width sp) (sign_text sign) body (centered sp sign body).
Proof.
  intros AL H. unfold centered. cbv zeta. set (n := length_N (sign_text sign ++ body)).
  assert (LN : n = length_N (sign_text sign) + length_N body) by apply len_app.
  set (p := sp_width sp - n). assert (EP : p + n = sp_width sp) by (unfold p; lia). clearbody p.
  assert (D1 : p = 2 * (p / 2) + p mod 2) by (apply N.div_mod; discriminate).
  assert (D2 : p mod 2 < 2) by (apply N.mod_lt; discriminate).
  set (h := p / 2) in *. set (e := p mod 2) in *. clearbody h e.
  rewrite AL. eexists (repeat (sp_fill sp) _), [], (repeat (sp_fill sp) _). rewrite <- app_assoc. cbn [app]. split; [reflexivity|].
  rewrite !len_app, !len_repeat. repeat split; auto; lia.
Qed.
Lemma special_field sp mk nm : match sp_align sp with ADefault | ANumeric => sp_width sp <= length_N (mk ++ nm) | _ => True end ->
  field true (sp_align sp) (sp_fill sp) (sp_width sp) mk nm (pad_str (mk ++ nm) sp).
Proof.
  intros H. unfold pad_str. destruct (N.ltb_spec (length_N (mk ++ nm)) (sp_width sp)) as [L|L].
  - destruct (sp_align sp) eqn:AL; unfold field; try lia.
    + eexists [], [], _. cbn [app]. split; [rewrite <- app_assoc; reflexivity|]. rewrite (len_app (mk ++ nm)), len_repeat. repeat split; auto. lia.
    + eexists _, [], []. cbn [app]. rewrite app_nil_r. split; [reflexivity|]. rewrite (len_app _ (mk ++ nm)), len_repeat. repeat split; auto. lia.
    + set (n := length_N (mk ++ nm)) in *. set (p := sp_width sp - n). assert (EP : p + n = sp_width sp) by (unfold p; lia).
      assert (D1 : p = 2 * (p / 2) + p mod 2) by (apply N.div_mod; discriminate).
      assert (D2 : p mod 2 < 2) by (apply N.mod_lt; discriminate).
      eexists (repeat (sp_fill sp) (N.to_nat (p / 2))), [], (repeat (sp_fill sp) (N.to_nat (p - p / 2))). cbn [app].
      split; [rewrite <- !app_assoc; reflexivity|]. rewrite !(len_app _ (_ ++ _)), (len_app (mk ++ nm)), !len_repeat. fold n.
      clearbody p n. set (h := p / 2) in *. set (e := p mod 2) in *. clearbody h e. repeat split; auto; lia.
  - unfold field. exists [], [], []. cbn [app]. rewrite app_nil_r. split; [reflexivity|]. repeat split; auto; [lia|].
    destruct (sp_align sp); repeat split; unfold length_N; cbn; lia.
Qed.

(** ---- one number ---- *)

Section Library.
Variable digits : bool -> option N -> ascii -> N -> option bytes.
Hypothesis SANE : sane digits.

Section Ops.
Variables (lenient : bool) (gr : buf -> N -> outcome buf) (inv : buf -> Prop).
Hypothesis inv_base : forall b, inv b -> length_N (array b) = b_capacity b /\ b_size b <= b_capacity b /\ b_capacity b < 2 ^ 63.
Hypothesis inv_update : forall b cs n, inv b -> length_N cs = length_N (array b) -> n <= b_capacity b -> inv (set_size (set_array b cs) n).
Hypothesis inv_size : forall b n, inv b -> n <= b_capacity b -> inv (set_size b n).
Hypothesis inv_array : forall b cs, inv b -> length_N cs = length_N (array b) -> inv (set_array b cs).
Hypothesis grow_ok : forall b n, inv b -> b_capacity b < n -> n < 2 ^ 64 ->
  match gr b n with
  | Done b' => inv b' /\ contents b' = contents b /\ b_size b' = b_size b /\ n <= b_capacity b' /\ (b_heap b = None -> b_data b' = b_data b)
  | Thrown b' => b' = b
  | Bad => False
  end.
Variable enlarged : N -> N -> N.
Hypothesis grow_cap : forall b n b', inv b -> b_capacity b < n -> gr b n = Done b' -> b_capacity b' = enlarged (b_capacity b) n.
Hypothesis grows : forall b n b', inv b -> b_capacity b < n -> gr b n = Done b' -> 0 < b_capacity b /\ 4 * b_capacity b <= 3 * b_capacity b'.

Lemma number_ok b c sp bits : inv b -> contents b = Some c -> proper_act (Number sp bits) -> tolerable lenient (Number sp bits) ->
  match write_double digits lenient gr b sp bits with
  | Some (Done b') => inv b' /\ (finite bits -> sp_align sp <> ACenter -> b_size b' < b_capacity b')
      /\ exists x, contents b' = Some (c ++ x) /\ known (sp_type sp)
      /\ (supported sp bits \/ (finite bits /\ sp_align sp = ACenter /\ (b_size b + sp_width sp <= b_capacity b \/ mark sp bits <> [])) ->
          exists out, x = stored out /\ shows digits sp bits out)
  | Some (Thrown b') => inv b' /\ contents b' = Some c
      /\ (forall out, known (sp_type sp) -> shows digits sp bits out -> length_N out < 2 ^ 31 -> refused gr inv (b_size b + length_N out + (if special bits then 0 else 1)))
  | _ => False
  end.
Proof.
  intros V C [HW HB] TO. assert (Q := write_double_ok digits SANE lenient gr inv inv_base inv_size inv_array grow_ok grows enlarged grow_cap b c sp bits V C HW).
  assert (CE : special bits = false -> sp_align sp = ACenter -> lenient = true) by (intros F; apply TO, special_finite, F). specialize (Q CE).
  assert (FK := float_known (sp_type sp)).
  destruct (write_double digits lenient gr b sp bits) as [[b'|b'|]|]; [| |exact Q|exact Q].
  - destruct Q as (V' & type & upper & FT & Q). rewrite FT in FK. destruct FK as (KN & -> & ->). split; [exact V'|]. destruct (special bits) eqn:SP.
    + destruct Q as [Q _]. split; [intros F; apply special_finite in F; congruence|].
      rewrite name_same, mark_text in Q by exact SP. eexists. split; [exact Q|]. split; [exact KN|]. intros SU. eexists. split; [reflexivity|].
      apply special_not in SP. apply shows_special; [exact SP|]. apply special_field. rewrite len_app, name_length.
      destruct SU as [[[F _]|[_ SU]]|[F _]]; [contradiction| |contradiction]. destruct (sp_align sp); try exact I; lia.
    + destruct Q as (body & [D L] & x & CX & Q). apply special_finite in SP. split; [intros _ NC; unfold wide in Q; destruct (sp_align sp); try apply Q; congruence|]. exists x. split; [exact CX|]. split; [exact KN|].
      rewrite magnitude_mod in D by exact HB. intros SU. unfold supported in SU. destruct (wide sp bits body) eqn:WD.
      * destruct Q as [LX Q]. unfold wide in WD. destruct (sp_align sp) eqn:AL; try discriminate. apply N.ltb_lt in WD.
        eexists. split; [apply Q|].
        -- destruct SU as [[[_ []]|[NF _]]|(_ & _ & SU)]; [contradiction|]. destruct SU as [SU|SU]; [left; exact SU|right].
           intros N0. apply SU. rewrite <- mark_text, N0. reflexivity.
        -- apply shows_finite with body; [exact SP|exact D|]. rewrite <- mark_text. apply centered_field; assumption.
      * eexists. split; [apply Q|]. apply shows_finite with body; [exact SP|exact D|]. rewrite <- mark_text. apply laid_field.
        -- intros AL. unfold wide in WD. rewrite AL in WD. apply N.ltb_ge in WD. exact WD.
        -- intros AL. destruct SU as [[[_ SU]|[NF _]]|(_ & SU & _)]; [rewrite AL in SU; exact SU|contradiction|congruence].
  - destruct Q as (V' & C' & Q). split; [exact V'|]. split; [exact C'|]. intros out KN SH LO.
    destruct Q as [FT|(type & upper & FT & Q)]; [rewrite FT in FK; contradiction|]. rewrite FT in FK. destruct FK as (_ & -> & ->).
    assert (LF : forall body, field true (sp_align sp) (sp_fill sp) (sp_width sp) (mark sp bits) body out -> length_N out = N.max (sp_width sp) (length_N (mark sp bits ++ body)))
      by (intros body (l & i & r & _ & _ & _ & _ & E & _); exact E).
    destruct (special bits) eqn:SP.
    + destruct SH as [body F _ _|_ SH]; [apply special_finite in F; congruence|]. apply LF in SH. rewrite name_same, mark_text in Q by exact SP. eapply refused_le; [exact Q|]. lia.
    + destruct SH as [body F D SH|NF _]; [|apply special_finite in SP; contradiction]. apply LF in SH.
      destruct Q as [[NB _]|(body' & [D' L] & R)].
      * exfalso. apply NB. exists body. unfold body_of. rewrite magnitude_mod by exact HB. split; [exact D|]. rewrite padded_length, INT_MAX_value. rewrite len_app in SH.
        unfold left_width. rewrite <- mark_text in SH. destruct (sign_char sp bits) as [s|]; cbn [sign_text] in SH; destruct (sp_align sp); lia.
      * rewrite magnitude_mod in D' by exact HB. rewrite D in D'. injection D' as <-. rewrite mark_text in R. eapply refused_le; [exact R|]. lia.
Qed.

Lemma acts_ok acts : forall b c, inv b -> contents b = Some c -> Forall proper_act acts -> Forall (tolerable lenient) acts ->
  match perform_all digits lenient gr acts b with
  | Some (Done b') => inv b' /\ exists c', contents b' = Some c' /\ (Forall supported_act acts -> acts_effect digits acts c c')
  | Some (Thrown b') => inv b' /\ exists done a rest c', acts = done ++ a :: rest /\ contents b' = Some c' /\ (Forall supported_act done -> acts_effect digits done c c')
  | _ => False
  end.
Proof.
  induction acts as [|a acts IH]; intros b c V C P T; cbn [perform_all].
  { split; [exact V|]. exists c. split; [exact C|]. constructor. }
  apply Forall_cons_iff in P as [P1 P2]. apply Forall_cons_iff in T as [T1 T2].
  assert (STEP : match perform digits lenient gr a b with
    | Some (Done b') => inv b' /\ exists c', contents b' = Some c' /\ (supported_act a -> act_effect digits a c c')
    | Some (Thrown b') => inv b' /\ contents b' = Some c
    | _ => False end).
  { destruct a as [o|sp bits]; cbn [perform].
    - destruct P1 as [P1 X1]. assert (Q := step_ok gr inv inv_base inv_update inv_size inv_array grow_ok o b c V C P1 (external_allowed o b c X1)).
      destruct (step gr o b) as [b'|b'|]; cbn [good] in Q; [| |exact Q].
      + destruct Q as (V' & (c' & EF & C') & _). split; [exact V'|]. exists c'. split; [exact C'|]. intros _. constructor. exact EF.
      + destruct Q as [-> _]. split; assumption.
    - assert (Q := number_ok b c sp bits V C P1 T1). destruct (write_double digits lenient gr b sp bits) as [[b'|b'|]|]; [| |exact Q|exact Q].
      + destruct Q as (V' & _ & x & CX & KN & Q). split; [exact V'|]. eexists. split; [exact CX|]. intros SU. destruct (Q (or_introl SU)) as (out & -> & SH).
        constructor; assumption.
      + destruct Q as (V' & C' & _). split; assumption. }
  destruct (perform digits lenient gr a b) as [[b'|b'|]|]; [| |exact STEP|exact STEP].
  - destruct STEP as (V' & c' & C' & EF). specialize (IH b' c' V' C' P2 T2). destruct (perform_all digits lenient gr acts b') as [[b2|b2|]|]; [| |exact IH|exact IH].
    + destruct IH as (V2 & c2 & C2 & E2). split; [exact V2|]. exists c2. split; [exact C2|]. intros SU. apply Forall_cons_iff in SU as [SU1 SU2]. econstructor; [apply EF; exact SU1|apply E2; exact SU2].
    + destruct IH as (V2 & done & a2 & rest & c2 & -> & C2 & E2). split; [exact V2|]. exists (a :: done), a2, rest, c2. split; [reflexivity|]. split; [exact C2|].
      intros SU. apply Forall_cons_iff in SU as [SU1 SU2]. econstructor; [apply EF; exact SU1|apply E2; exact SU2].
  - destruct STEP as [V' C']. split; [exact V'|]. exists [], a, acts, c. split; [reflexivity|]. split; [exact C'|]. constructor.
Qed.

(** NaN and infinity without an alignment, or with the numeric one. *)
Lemma special_left b c sp bits b' : inv b -> contents b = Some c -> proper_act (Number sp bits) -> ~ finite bits ->
  sp_align sp = ADefault \/ sp_align sp = ANumeric -> write_double digits lenient gr b sp bits = Some (Done b') ->
  exists out, contents b' = Some (c ++ stored out) /\ field true ALeft (sp_fill sp) (sp_width sp) (mark sp bits) (name (sp_type sp) bits) out.
Proof.
  intros V C [HW HB] NF AL E. apply special_not in NF.
  assert (Q := write_double_ok digits SANE lenient gr inv inv_base inv_size inv_array grow_ok grows enlarged grow_cap b c sp bits V C HW ltac:(congruence)).
  rewrite E, NF in Q. destruct Q as (_ & type & upper & FT & Q & _). assert (FK := float_known (sp_type sp)). rewrite FT in FK. destruct FK as (_ & _ & ->).
  rewrite name_same, mark_text in Q by exact NF. eexists. split; [exact Q|].
  set (sp' := Spec (sp_width sp) (sp_fill sp) ALeft (sp_sign sp) (sp_plus sp) (sp_minus sp) (sp_hash sp) (sp_precision sp) (sp_type sp)).
  replace (pad_str _ sp) with (pad_str (mark sp bits ++ name (sp_type sp) bits) sp').
  - exact (special_field sp' _ _ I).
  - unfold pad_str, sp'. cbn [sp_width sp_align sp_fill]. destruct AL as [-> | ->]; reflexivity.
Qed.

(** A conversion that fails. *)
Lemma failing b c sp bits : inv b -> contents b = Some c -> proper_act (Number sp bits) -> tolerable lenient (Number sp bits) -> known (sp_type sp) -> finite bits ->
  (let d := digits (sp_hash sp) (sp_precision sp) (if Ascii.eqb (sp_type sp) NUL then "g"%char else sp_type sp) (bits mod 2 ^ 63) in
   d = None \/ exists body, d = Some body /\ INT_MAX < length_N body) ->
  exists b', write_double digits lenient gr b sp bits = Some (Thrown b') /\ inv b' /\ contents b' = Some c
    /\ (refused gr inv (b_size b + N.max (sp_width sp) 1) \/ exists b'', gr b' (b_capacity b' + 1) = Thrown b'').
Proof.
  intros V C [HW HB] TO KN FI D. cbv zeta in D.
  assert (CE : special bits = false -> sp_align sp = ACenter -> lenient = true) by (intros F; apply TO, special_finite, F).
  assert (Q := write_double_ok digits SANE lenient gr inv inv_base inv_size inv_array grow_ok grows enlarged grow_cap b c sp bits V C HW CE).
  assert (FK := float_known (sp_type sp)). assert (SP := FI). apply special_finite in SP. rewrite SP in Q.
  assert (NB : forall type upper, float_type (sp_type sp) = Some (type, upper) -> ~ exists body, body_of digits sp bits type body).
  { intros type upper FT (body & D1 & D2). rewrite FT in FK. destruct FK as (_ & -> & _). rewrite magnitude_mod in D1 by exact HB.
    destruct D as [D|(body' & D & L)]; [congruence|]. rewrite D in D1. injection D1 as ->.
    assert (PB := padded_body sp (left_width sp bits) body). lia. }
  destruct (write_double digits lenient gr b sp bits) as [[b'|b'|]|]; [| |contradiction|contradiction].
  - exfalso. destruct Q as (_ & type & upper & FT & body & BO & _). apply (NB type upper FT). exists body. exact BO.
  - exists b'. split; [reflexivity|]. destruct Q as (V' & C' & Q). split; [exact V'|]. split; [exact C'|].
    destruct Q as [FT|(type & upper & FT & Q)]; [rewrite FT in FK; contradiction|].
    destruct Q as [[_ Q]|(body & BO & _)]; [exact Q|]. exfalso. apply (NB type upper FT). exists body. exact BO.
Qed.

(** The text, as a function. *)
Definition text_of (sp : spec) (bits : N) : bytes :=
  if special bits then pad_str (mark sp bits ++ name (sp_type sp) bits) sp
  else match digits (sp_hash sp) (sp_precision sp) (if Ascii.eqb (sp_type sp) NUL then "g"%char else sp_type sp) (bits mod 2 ^ 63) with
       | Some body => laid_out sp (sign_char sp bits) (left_width sp bits) body
       | None => []
       end.
Lemma pad_length s sp : length_N (pad_str s sp) = N.max (sp_width sp) (length_N s).
Proof.
  unfold pad_str. destruct (N.ltb_spec (length_N s) (sp_width sp)) as [K|K]; [|lia].
  assert (sp_width sp - length_N s = 0 \/ (sp_width sp - length_N s) / 2 <= sp_width sp - length_N s) by (right; apply N.div_le_upper_bound; lia).
  destruct (sp_align sp); rewrite ?len_app, ?len_repeat; lia.
Qed.
Lemma text_ok b c sp bits b' : inv b -> contents b = Some c -> proper_act (Number sp bits) -> finite bits -> sp_align sp <> ACenter ->
  write_double digits lenient gr b sp bits = Some (Done b') ->
  contents b' = Some (c ++ stored (text_of sp bits))
  /\ (let c1 := match sign_char sp bits with Some _ => reserved enlarged (b_capacity b) (b_size b + N.max (sp_width sp) 1) | None => b_capacity b end in
      let n := b_size b + length_N (text_of sp bits) in b_capacity b' = if n <? c1 then c1 else reserved enlarged c1 (n + 1)).
Proof.
  intros V C [HW HB] FI NC E. apply special_finite in FI.
  assert (Q := write_double_ok digits SANE lenient gr inv inv_base inv_size inv_array grow_ok grows enlarged grow_cap b c sp bits V C HW ltac:(congruence)).
  rewrite E, FI in Q. destruct Q as (_ & type & upper & FT & body & [D L] & x & CX & Q). assert (FK := float_known (sp_type sp)). rewrite FT in FK. destruct FK as (_ & -> & _).
  rewrite magnitude_mod in D by exact HB. unfold text_of. rewrite FI, D.
  assert (WD : wide sp bits body = false) by (unfold wide; destruct (sp_align sp); congruence || reflexivity). rewrite WD in Q.
  destruct Q as (-> & _ & Q). split; [exact CX|exact Q].
Qed.
Lemma text_special b c sp bits b' : inv b -> contents b = Some c -> proper_act (Number sp bits) -> ~ finite bits ->
  write_double digits lenient gr b sp bits = Some (Done b') ->
  contents b' = Some (c ++ stored (text_of sp bits)) /\ b_capacity b' = reserved enlarged (b_capacity b) (b_size b + length_N (text_of sp bits)).
Proof.
  intros V C [HW HB] NF E. apply special_not in NF.
  assert (Q := write_double_ok digits SANE lenient gr inv inv_base inv_size inv_array grow_ok grows enlarged grow_cap b c sp bits V C HW ltac:(congruence)).
  rewrite E, NF in Q. destruct Q as (_ & type & upper & FT & Q & CP). assert (FK := float_known (sp_type sp)). rewrite FT in FK. destruct FK as (_ & _ & ->).
  unfold text_of. rewrite NF, pad_length. rewrite name_same, mark_text in Q, CP by exact NF. split; [exact Q|exact CP].
Qed.
End Ops.

(** ---- memory buffers ---- *)

Section Memory.
Variables (lenient : bool) (limit : N).
Hypothesis HL : limit < 2 ^ 63.
Definition mem_enlarged (c n : N) : N := N.max n (wrap64 (c + c / 2)).
Lemma mem_cap b n b' : mem_inv b -> b_capacity b < n -> grow limit b n = Done b' -> b_capacity b' = mem_enlarged (b_capacity b) n.
Proof.
  intros _ _ E. unfold grow in E. cbv zeta in E. destruct (limit <? _); [discriminate|]. destruct (load _ _ _); [|discriminate].
  destruct (store _ _ _); [|discriminate]. destruct (deallocates b); [|discriminate]. injection E as <-. reflexivity.
Qed.
Lemma mem_wrap b : mem_inv b -> wrap64 (b_capacity b + b_capacity b / 2) = b_capacity b + b_capacity b / 2.
Proof.
  intros (A1 & A2 & A3 & A4 & A5). unfold wrap64, two64. apply N.mod_small.
  assert (b_capacity b / 2 <= b_capacity b) by (apply N.div_le_upper_bound; lia). lia.
Qed.
Lemma mem_grows b n b' : mem_inv b -> b_capacity b < n -> grow limit b n = Done b' -> 0 < b_capacity b /\ 4 * b_capacity b <= 3 * b_capacity b'.
Proof.
  intros V L E. apply mem_cap in E; [|exact V|exact L]. unfold mem_enlarged in E. rewrite mem_wrap in E by exact V.
  destruct V as (A1 & A2 & A3 & A4 & A5). change inline_size with 500 in A5. split; [lia|]. rewrite E.
  assert (D1 : b_capacity b = 2 * (b_capacity b / 2) + b_capacity b mod 2) by (apply N.div_mod; discriminate).
  assert (D2 : b_capacity b mod 2 < 2) by (apply N.mod_lt; discriminate).
  set (h := b_capacity b / 2) in *. set (e := b_capacity b mod 2) in *. clearbody h e. lia.
Qed.
Lemma mem_refused n : refused (grow limit) mem_inv n -> limit < n + n / 2.
Proof.
  intros (b0 & m & V & L1 & L2 & E). destruct (N.lt_ge_cases limit (n + n / 2)) as [K|K]; [exact K|]. exfalso.
  exact (mem_no_throw limit HL b0 m n V L1 L2 K b0 E).
Qed.

Lemma mem_acts acts b c : mem_inv b -> contents b = Some c -> Forall proper_act acts -> Forall (tolerable lenient) acts ->
  match perform_all digits lenient (grow limit) acts b with
  | Some (Done b') => mem_inv b' /\ exists c', contents b' = Some c' /\ (Forall supported_act acts -> acts_effect digits acts c c')
  | Some (Thrown b') => mem_inv b' /\ exists done a rest c', acts = done ++ a :: rest /\ contents b' = Some c' /\ (Forall supported_act done -> acts_effect digits done c c')
  | _ => False
  end.
Proof.
  apply (acts_ok lenient (grow limit) mem_inv mem_base mem_update mem_size mem_array (mem_grow limit HL) mem_enlarged mem_cap mem_grows).
Qed.
Lemma supported_tolerable acts : Forall supported_act acts -> Forall (tolerable lenient) acts.
Proof.
  apply Forall_impl. intros [o|sp bits]; cbn; [trivial|]. intros [[F S]|[NF _]] F' AL; [rewrite AL in S; contradiction|contradiction].
Qed.
Lemma number_contents acts b : Forall proper_act acts -> Forall supported_act acts -> perform_all digits lenient (grow limit) acts fresh = Some (Done b) ->
  exists c, acts_effect digits acts [] c /\ contents b = Some c.
Proof.
  intros P U E. assert (Q := mem_acts acts fresh [] fresh_inv fresh_contents P (supported_tolerable acts U)). rewrite E in Q.
  destruct Q as (_ & c & C & EF). exists c. split; [apply EF; exact U|exact C].
Qed.
Lemma number_defined acts : Forall proper_act acts -> Forall (tolerable lenient) acts ->
  exists r, perform_all digits lenient (grow limit) acts fresh = Some r /\ r <> Bad.
Proof.
  intros P T. assert (Q := mem_acts acts fresh [] fresh_inv fresh_contents P T).
  destruct (perform_all digits lenient (grow limit) acts fresh) as [[b|b|]|]; [| |contradiction|contradiction]; eexists; (split; [reflexivity|discriminate]).
Qed.
Lemma number_thrown acts b : Forall proper_act acts -> Forall supported_act acts -> perform_all digits lenient (grow limit) acts fresh = Some (Thrown b) ->
  exists done a rest c, acts = done ++ a :: rest /\ acts_effect digits done [] c /\ contents b = Some c.
Proof.
  intros P U E. assert (Q := mem_acts acts fresh [] fresh_inv fresh_contents P (supported_tolerable acts U)). rewrite E in Q.
  destruct Q as (_ & done & a & rest & c & EA & C & EF). exists done, a, rest, c. split; [exact EA|]. split; [|exact C]. apply EF.
  rewrite EA in U. apply Forall_app in U. apply U.
Qed.
Lemma reach acts b : Forall proper_act acts -> Forall (tolerable lenient) acts -> perform_all digits lenient (grow limit) acts fresh = Some (Done b) -> mem_inv b.
Proof. intros P T E. assert (Q := mem_acts acts fresh [] fresh_inv fresh_contents P T). rewrite E in Q. apply Q. Qed.
Lemma mem_number b c sp bits : mem_inv b -> contents b = Some c -> proper_act (Number sp bits) -> tolerable lenient (Number sp bits) ->
  match write_double digits lenient (grow limit) b sp bits with
  | Some (Done b') => mem_inv b' /\ (finite bits -> sp_align sp <> ACenter -> b_size b' < b_capacity b')
      /\ exists x, contents b' = Some (c ++ x) /\ known (sp_type sp)
      /\ (supported sp bits \/ (finite bits /\ sp_align sp = ACenter /\ (b_size b + sp_width sp <= b_capacity b \/ mark sp bits <> [])) ->
          exists out, x = stored out /\ shows digits sp bits out)
  | Some (Thrown b') => mem_inv b' /\ contents b' = Some c
      /\ (forall out, known (sp_type sp) -> shows digits sp bits out -> length_N out < 2 ^ 31 -> refused (grow limit) mem_inv (b_size b + length_N out + (if special bits then 0 else 1)))
  | _ => False
  end.
Proof.
  apply (number_ok lenient (grow limit) mem_inv mem_base mem_size mem_array (mem_grow limit HL) mem_enlarged mem_cap mem_grows).
Qed.

Lemma number_memory acts b c sp bits out : Forall proper_act acts -> Forall (tolerable lenient) acts -> perform_all digits lenient (grow limit) acts fresh = Some (Done b) ->
  contents b = Some c -> proper_act (Number sp bits) -> tolerable lenient (Number sp bits) -> known (sp_type sp) -> shows digits sp bits out -> length_N out < 2 ^ 31 ->
  (let m := length_N c + length_N out + 1 in m + m / 2 <= limit) -> exists b', write_double digits lenient (grow limit) b sp bits = Some (Done b').
Proof.
  intros P T E C PA TA KN SH LO M. cbv zeta in M. assert (V := reach acts b P T E). destruct (contents_inv mem_inv mem_base b c V C) as [_ LC].
  assert (Q := mem_number b c sp bits V C PA TA).
  destruct (write_double digits lenient (grow limit) b sp bits) as [[b'|b'|]|]; [eexists; reflexivity| |contradiction|contradiction].
  exfalso. destruct Q as (_ & _ & Q). assert (R := Q out KN SH LO). assert (R2 := refused_le (grow limit) mem_inv _ (length_N c + length_N out + 1) R ltac:(destruct (special bits); lia)).
  apply mem_refused in R2. lia.
Qed.
Lemma number_center acts b c sp bits b' : Forall proper_act acts -> Forall (tolerable lenient) acts -> perform_all digits lenient (grow limit) acts fresh = Some (Done b) ->
  contents b = Some c -> proper_act (Number sp bits) -> lenient = true -> finite bits -> sp_align sp = ACenter ->
  (length_N c + sp_width sp <= b_capacity b \/ mark sp bits <> []) -> write_double digits lenient (grow limit) b sp bits = Some (Done b') ->
  exists out, contents b' = Some (c ++ stored out) /\ shows digits sp bits out.
Proof.
  intros P T E C PA LE FI AL H EW. assert (V := reach acts b P T E). destruct (contents_inv mem_inv mem_base b c V C) as [_ LC].
  assert (Q := mem_number b c sp bits V C PA ltac:(intros _ _; exact LE)). rewrite EW in Q. destruct Q as (_ & _ & x & CX & _ & Q).
  destruct (Q ltac:(right; rewrite <- LC; auto)) as (out & -> & SH). exists out. split; assumption.
Qed.
Lemma number_special acts b c sp bits b' : Forall proper_act acts -> Forall (tolerable lenient) acts -> perform_all digits lenient (grow limit) acts fresh = Some (Done b) ->
  contents b = Some c -> proper_act (Number sp bits) -> ~ finite bits -> write_double digits lenient (grow limit) b sp bits = Some (Done b') ->
  exists out, contents b' = Some (c ++ stored out)
    /\ field true (match sp_align sp with ADefault | ANumeric => ALeft | al => al end) (sp_fill sp) (sp_width sp) (mark sp bits) (name (sp_type sp) bits) out.
Proof.
  intros P T E C PA NF EW. assert (V := reach acts b P T E).
  assert (Q := mem_number b c sp bits V C PA ltac:(intros F; contradiction)). rewrite EW in Q. destruct Q as (_ & _ & x & CX & _ & Q).
  destruct (sp_align sp) eqn:AL.
  1,2,4: destruct Q as (out & -> & SH); [left; right; split; [exact NF|rewrite AL; exact I]|]; exists out; (split; [exact CX|]); destruct SH as [body F _ _|_ SH]; [contradiction|]; rewrite AL in SH; exact SH.
  all: refine (special_left lenient (grow limit) mem_inv mem_base mem_size mem_array (mem_grow limit HL) mem_enlarged mem_cap mem_grows b c sp bits b' V C PA NF _ EW); auto.
Qed.
Lemma number_fails acts b c sp bits : Forall proper_act acts -> Forall (tolerable lenient) acts -> perform_all digits lenient (grow limit) acts fresh = Some (Done b) ->
  contents b = Some c -> proper_act (Number sp bits) -> tolerable lenient (Number sp bits) -> known (sp_type sp) -> finite bits ->
  (let d := digits (sp_hash sp) (sp_precision sp) (if Ascii.eqb (sp_type sp) NUL then "g"%char else sp_type sp) (bits mod 2 ^ 63) in
   d = None \/ exists body, d = Some body /\ INT_MAX < length_N body) ->
  exists b', write_double digits lenient (grow limit) b sp bits = Some (Thrown b') /\ contents b' = Some c
    /\ ((let m := length_N c + sp_width sp + 1 in m + m / 2 <= limit) -> limit < b_capacity b' + b_capacity b' / 2).
Proof.
  intros P T E C PA TA KN FI D. assert (V := reach acts b P T E). destruct (contents_inv mem_inv mem_base b c V C) as [_ LC].
  destruct (failing lenient (grow limit) mem_inv mem_base mem_size mem_array (mem_grow limit HL) mem_enlarged mem_cap mem_grows b c sp bits V C PA TA KN FI D)
    as (b' & EW & V' & C' & R). exists b'. split; [exact EW|]. split; [exact C'|]. cbv zeta. intros M. destruct R as [R|[b'' R]].
  - exfalso. assert (R2 := refused_le (grow limit) mem_inv _ (length_N c + sp_width sp + 1) R ltac:(lia)). apply mem_refused in R2. lia.
  - unfold grow in R. cbv zeta in R. rewrite mem_wrap in R by exact V'. destruct V' as (A1 & A2 & A3 & A4 & A5). change inline_size with 500 in A5.
    assert (H2 : 1 <= b_capacity b' / 2) by (apply N.div_le_lower_bound; lia).
    destruct (N.ltb_spec limit (N.max (b_capacity b' + 1) (b_capacity b' + b_capacity b' / 2))) as [K|K]; [lia|].
    destruct (load _ _ _); [|discriminate]. destruct (store _ _ _); [|discriminate]. destruct (deallocates b'); discriminate.
Qed.
Lemma mem_text b c sp bits b' o : mem_inv b -> contents b = Some c -> c = stored (PrintfModel.o_text o) -> b_capacity b = PrintfModel.o_capacity o -> proper_act (Number sp bits) -> (finite bits -> sp_align sp <> ACenter) ->
  write_double digits lenient (grow limit) b sp bits = Some (Done b') ->
  contents b' = Some (stored (PrintfModel.o_text (PrintfModel.add_double text_of sp bits o)))
  /\ b_capacity b' = PrintfModel.o_capacity (PrintfModel.add_double text_of sp bits o).
Proof.
  intros V C CO CAP PA NC E. destruct (contents_inv mem_inv mem_base b c V C) as [_ LC]. rewrite CO, stored_len in LC. unfold PrintfModel.add_double. cbv zeta.
  assert (G : forall c n, reserved mem_enlarged c n = PrintfModel.grown c n) by reflexivity.
  change ((bits / 2 ^ 52) mod 2 ^ 11 =? 2047) with (special bits). destruct (special bits) eqn:SP.
  - apply special_not in SP.
    destruct (text_special lenient (grow limit) mem_inv mem_base mem_size mem_array (mem_grow limit HL) mem_enlarged mem_cap mem_grows b c sp bits b' V C PA SP E) as [Q1 Q2].
    split; [rewrite Q1, CO, <- stored_app; f_equal; f_equal; f_equal; try (destruct (length_N (PrintfModel.o_text o) + _ <? _)); destruct ((2 ^ 63 <=? bits) || sp_sign sp); reflexivity|]. rewrite Q2. unfold PrintfModel.add. cbn [PrintfModel.o_capacity PrintfModel.o_text]. rewrite LC, CAP. apply G.
  - apply special_finite in SP.
    destruct (text_ok lenient (grow limit) mem_inv mem_base mem_size mem_array (mem_grow limit HL) mem_enlarged mem_cap mem_grows b c sp bits b' V C PA SP (NC SP) E) as [Q1 Q2].
    split; [rewrite Q1, CO, <- stored_app; f_equal; f_equal; f_equal; try (destruct (length_N (PrintfModel.o_text o) + _ <? _)); destruct ((2 ^ 63 <=? bits) || sp_sign sp); reflexivity|]. cbv zeta in Q2. rewrite LC, Q2.
    set (c1 := match sign_char sp bits with Some _ => _ | None => _ end). set (n := b_size b + length_N (text_of sp bits)).
    assert (EC : c1 = PrintfModel.o_capacity (if (2 ^ 63 <=? bits) || sp_sign sp
        then PrintfModel.reserve o (b_size b + N.max (sp_width sp) 1)
        else o)).
    { unfold c1, sign_char, negative. destruct (2 ^ 63 <=? bits), (sp_sign sp); cbn [orb PrintfModel.reserve PrintfModel.o_capacity]; rewrite ?CAP; try apply G; reflexivity. }
    set (o1 := if (2 ^ 63 <=? bits) || sp_sign sp then _ else _) in *. rewrite <- EC.
    assert (T1 : PrintfModel.o_text o1 = PrintfModel.o_text o) by (unfold o1; destruct ((2 ^ 63 <=? bits) || sp_sign sp); reflexivity).
    clearbody c1 o1. unfold PrintfModel.add. cbn [PrintfModel.o_capacity]. destruct (N.ltb_spec n c1) as [K|K].
    + rewrite T1, LC, <- EC. fold n. unfold PrintfModel.grown. rewrite (proj2 (N.ltb_ge c1 n)) by lia. reflexivity.
    + unfold PrintfModel.reserve. cbn [PrintfModel.o_capacity PrintfModel.o_text]. rewrite T1, LC, <- EC, G. fold n.
      set (c2 := PrintfModel.grown c1 (n + 1)). assert (n < c2) by (unfold c2, PrintfModel.grown; rewrite (proj2 (N.ltb_lt c1 (n + 1))) by lia; lia).
      unfold PrintfModel.grown. rewrite (proj2 (N.ltb_ge c2 n)) by lia. reflexivity.
Qed.
End Memory.

(** ---- fixed arrays ---- *)

Section Fixed.
Variables (lenient : bool) (size : N).
Hypothesis HS : size < 2 ^ 63.
Lemma fixed_acts acts : Forall proper_act acts -> Forall (tolerable lenient) acts ->
  match perform_all digits lenient fixed_grow acts (fixed_buffer size) with
  | Some (Done b') => fixed_inv size b' /\ exists c', contents b' = Some c' /\ (Forall supported_act acts -> acts_effect digits acts [] c')
  | Some (Thrown b') => fixed_inv size b' /\ exists done a rest c', acts = done ++ a :: rest /\ contents b' = Some c' /\ (Forall supported_act done -> acts_effect digits done [] c')
  | _ => False
  end.
Proof.
  intros P T. apply (acts_ok lenient fixed_grow (fixed_inv size) (fixed_base size) (fixed_update size) (fixed_size size) (fixed_array size) (fixed_grow_ok size) (fun c n => c)); try assumption.
  - discriminate.
  - discriminate.
  - exact (fixed_start size HS).
  - exact (fixed_start_contents size HS).
Qed.
Lemma fixed_number acts b c sp bits out : Forall proper_act acts -> Forall (tolerable lenient) acts -> perform_all digits lenient fixed_grow acts (fixed_buffer size) = Some (Done b) ->
  contents b = Some c -> proper_act (Number sp bits) -> supported sp bits -> known (sp_type sp) -> shows digits sp bits out -> length_N out < 2 ^ 31 ->
  (exists b', write_double digits lenient fixed_grow b sp bits = Some (Done b') /\ contents b' = Some (c ++ stored out))
  <-> length_N c + length_N out + (if special bits then 0 else 1) <= size.
Proof.
  intros P T E C PA SU KN SH LO. assert (V := fixed_acts acts P T). rewrite E in V. destruct V as [V _].
  destruct (contents_inv (fixed_inv size) (fixed_base size) b c V C) as [_ LC].
  assert (TA : tolerable lenient (Number sp bits)) by (apply (Forall_inv (supported_tolerable lenient [Number sp bits] ltac:(constructor; [exact SU|constructor])))).
  assert (Q := number_ok lenient fixed_grow (fixed_inv size) (fixed_base size) (fixed_size size) (fixed_array size) (fixed_grow_ok size) (fun c n => c)
    ltac:(discriminate) ltac:(discriminate) b c sp bits V C PA TA).
  destruct (write_double digits lenient fixed_grow b sp bits) as [[b'|b'|]|] eqn:EW; [| |contradiction|contradiction].
  - destruct Q as (V' & CP & x & CX & _ & Q). destruct (Q (or_introl SU)) as (out' & -> & SH').
    assert (EO : out' = out).
    { destruct SH as [b1 F1 D1 H1|N1 H1], SH' as [b2 F2 D2 H2|N2 H2]; try contradiction.
      - rewrite D1 in D2. injection D2 as <-. exact (PrintfMoreProofs.field_one _ _ _ _ _ _ _ _ H2 H1).
      - exact (PrintfMoreProofs.field_one _ _ _ _ _ _ _ _ H2 H1). }
    subst out'. destruct (contents_inv (fixed_inv size) (fixed_base size) b' _ V' CX) as [_ LC']. rewrite len_app, stored_len in LC'.
    destruct V' as (B0 & B1 & B2 & B3 & B4). split; [intros _|intros _; exists b'; split; [reflexivity|exact CX]].
    destruct (special bits) eqn:SP; [lia|]. apply special_finite in SP. rewrite B2 in CP. specialize (CP SP).
    destruct SU as [[_ SU]|[NF _]]; [|contradiction]. assert (sp_align sp <> ACenter) by (intros AL; rewrite AL in SU; exact SU). specialize (CP H). lia.
  - destruct Q as (V' & C' & Q). destruct (Q out KN SH LO) as (b0 & m & (B0 & B1 & B2 & B3 & B4) & L1 & L2 & _).
    split; [intros (b2 & E2 & _); discriminate|]. intros K. lia.
Qed.
End Fixed.
End Library.

Lemma one_text digits sp bits o1 o2 : shows digits sp bits o1 -> shows digits sp bits o2 -> o1 = o2.
Proof.
  intros [b1 F1 D1 H1|N1 H1] [b2 F2 D2 H2|N2 H2]; try contradiction.
  - rewrite D1 in D2. injection D2 as <-. exact (PrintfMoreProofs.field_one _ _ _ _ _ _ _ _ H1 H2).
  - exact (PrintfMoreProofs.field_one _ _ _ _ _ _ _ _ H1 H2).
Qed.
Lemma format_fits sp width type : length_N (format_string sp width type) + 1 <= 10.
Proof.
  unfold format_string. rewrite !len_app. unfold length_N. destruct (sp_hash sp), (sp_align sp), (width =? 0), (sp_precision sp); cbn; lia.
Qed.

Lemma function_lemma digits : sane digits -> exists dbl, forall lenient limit acts b c sp bits b' o, limit < 2 ^ 63 -> Forall proper_act acts ->
  Forall (tolerable lenient) acts -> perform_all digits lenient (grow limit) acts fresh = Some (Done b) -> contents b = Some c ->
  proper_act (Number sp bits) -> (finite bits -> sp_align sp <> ACenter) -> write_double digits lenient (grow limit) b sp bits = Some (Done b') ->
  c = stored (PrintfModel.o_text o) -> b_capacity b = PrintfModel.o_capacity o ->
  PrintfModel.o_text (PrintfModel.add_double dbl sp bits o) = PrintfModel.o_text o ++ dbl sp bits
  /\ contents b' = Some (stored (PrintfModel.o_text (PrintfModel.add_double dbl sp bits o)))
  /\ b_capacity b' = PrintfModel.o_capacity (PrintfModel.add_double dbl sp bits o).
Proof.
  intros SANE. exists (text_of digits). intros lenient limit acts b c sp bits b' o HL P T E C PA NC EW CO CP. split.
  - unfold PrintfModel.add_double. cbv zeta. destruct ((bits / 2 ^ 52) mod 2 ^ 11 =? 2047); [reflexivity|].
    destruct (_ + _ <? _); destruct ((2 ^ 63 <=? bits) || sp_sign sp); reflexivity.
  - exact (mem_text digits SANE lenient limit HL b c sp bits b' o (reach digits SANE lenient limit HL acts b P T E) C CO CP PA NC EW).
Qed.
Lemma fixed_lemma digits lenient size acts : sane digits -> size < 2 ^ 63 -> Forall proper_act acts -> Forall supported_act acts ->
  match perform_all digits lenient fixed_grow acts (fixed_buffer size) with
  | Some (Done b) => exists c, acts_effect digits acts [] c /\ contents b = Some c
  | Some (Thrown b) => exists done a rest c, acts = done ++ a :: rest /\ acts_effect digits done [] c /\ contents b = Some c
  | _ => False
  end.
Proof.
  intros SANE H P U. assert (Q := fixed_acts digits SANE lenient size H acts P (supported_tolerable lenient acts U)).
  destruct (perform_all digits lenient fixed_grow acts (fixed_buffer size)) as [[b|b|]|]; [| |exact Q|exact Q].
  - destruct Q as (_ & c & C & EF). exists c. split; [apply EF; exact U|exact C].
  - destruct Q as (_ & done & a & rest & c & E & C & EF). exists done, a, rest, c. split; [exact E|]. split; [|exact C]. apply EF. rewrite E in U.
    apply Forall_app in U. apply U.
Qed.
