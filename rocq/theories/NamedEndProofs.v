(** Proofs about whole format strings with choices of arguments. *)
From Verif Require Import Base Decimal FmtModel FmtSpec FmtProofs FmtSubProofs NamedModel NamedSpec NamedProofs NamedParseProofs.
Open Scope N_scope.

(** ---- no NUL ---- *)

Lemma size_no_nul lo s : sound_size lo (Some s) -> ~ In NUL (size_text s).
Proof.
  destruct s as [n ds|c]; cbn [sound_size size_text]; intros S.
  - exact (digits_no_nul n ds (proj1 S)).
  - repeat apply in_nul_app; [|apply choice_no_nul, S|]; intros [I|[]]; discriminate.
Qed.

Lemma desire_no_nul a d : sound_desire a d -> ~ In NUL (desire_text d).
Proof.
  intros (_ & FL & _ & SG & _ & _ & W & PR & _ & T). unfold desire_text. cbv zeta.
  assert (S1 : forall c, c <> NUL -> ~ In NUL [c]) by (intros c H [I|[]]; congruence).
  intros [I|I]; [discriminate|]. revert I.
  repeat apply in_nul_app.
  - destruct (w_fill (d_wish d)) as [c|]; [apply S1; tauto|intros []].
  - destruct (w_align (d_wish d)); cbn; intros I; repeat destruct I as [I|I]; try discriminate; destruct I.
  - destruct (w_sign (d_wish d)) as [c|]; [|intros []]. apply S1. destruct SG as [[-> | [-> | ->]] _]; discriminate.
  - destruct (w_hash (d_wish d)); [apply S1; discriminate|intros []].
  - destruct (w_zero (d_wish d)); [apply S1; discriminate|intros []].
  - destruct (d_width d) as [s|]; [exact (size_no_nul 1 s W)|intros []].
  - destruct (d_precision d) as [s|]; [|intros []]. intros [I|I]; [discriminate|]. revert I. exact (size_no_nul 0 s PR).
  - destruct (w_type (d_wish d)) as [c|]; [|intros []]. apply S1. intros ->. discriminate T.
Qed.

Lemma parts_no_nul l ps : Forall (sound_part l) ps -> ~ In NUL (parts_text ps).
Proof.
  induction ps as [|p ps IH]; intros F; [intros []|]. apply Forall_cons_iff in F as [S F]. unfold parts_text. cbn [flat_map].
  apply in_nul_app; [|exact (IH F)]. assert (S1 : forall c, c <> NUL -> ~ In NUL [c]) by (intros c H [I|[]]; congruence).
  destruct p as [s|c [d|]]; cbn [part_text sound_part] in *.
  - apply brace_no_nul, S.
  - destruct S as (S & _ & a & D). repeat apply in_nul_app; [apply S1; discriminate|apply choice_no_nul, S|exact (desire_no_nul a d D)|apply S1; discriminate].
  - destruct S as [S _]. repeat apply in_nul_app; [apply S1; discriminate|apply choice_no_nul, S|apply S1; discriminate].
Qed.

Lemma c_string_app s t : ~ In NUL s -> c_string (s ++ t) = s ++ c_string t.
Proof.
  induction s as [|c s IH]; intros H; [reflexivity|]. cbn [app c_string]. destruct (Ascii.eqb_spec c NUL) as [->|_].
  - exfalso. apply H. left. reflexivity.
  - rewrite IH; [reflexivity|]. intros I. apply H. right. exact I.
Qed.

(** ---- explicit choices ---- *)

Section Explicit.
Variables (dbl : spec -> N -> bytes) (l : list given).

Definition manual (f : formatter) : Prop := fst f = None \/ fst f = Some 0.

Lemma pick_explicit f c : manual f -> explicit c ->
  match chosen l c with
  | Ok a => exists f', pick l f c = Ok (a, f') /\ fst f' = None
  | Error e => pick l f c = Error e
  | Undefined => pick l f c = Undefined
  end.
Proof.
  destruct f as [ix m]. unfold manual, explicit, pick. cbn [fst]. intros MA X. destruct c as [|n ds|name]; [congruence| |];
    (destruct MA as [-> | ->]; destruct (chosen l _); cbn [bind]; try reflexivity; eexists; split; reflexivity).
Qed.

Lemma size_explicit f neg ni s : manual f -> Forall explicit (size_choices (Some s)) ->
  match size_chosen l neg ni s with
  | Ok n => exists f', size_st formatter (pick l) f neg ni s = Ok (n, f') /\ manual f' /\ (fst f = None -> fst f' = None)
  | Error e => size_st formatter (pick l) f neg ni s = Error e
  | Undefined => size_st formatter (pick l) f neg ni s = Undefined
  end.
Proof.
  intros MA X. destruct s as [n ds|c]; cbn [size_chosen size_st].
  - exists f. split; [reflexivity|split; [exact MA|auto]].
  - cbn [size_choices] in X. apply Forall_inv in X. assert (P := pick_explicit f c MA X).
    destruct (chosen l c) as [a| |]; [|rewrite P; reflexivity..]. destruct P as (f' & -> & E). cbn [bind].
    destruct (size_of neg ni a); cbn [bind]; try reflexivity. exists f'. split; [reflexivity|]. split; [left; exact E|intros _; exact E].
Qed.

Lemma spec_explicit f d : fst f = None -> Forall explicit (size_choices (d_width d) ++ size_choices (d_precision d)) ->
  match (w <- match d_width d with Some s => size_chosen l ENegativeWidth EWidthNotInteger s | None => Ok 0 end;
         p <- match d_precision d with
              | Some s => n <- size_chosen l ENegativePrecision EPrecisionNotInteger s; Ok (Some n)
              | None => Ok None
              end;
         Ok (settled d w p)) with
  | Ok sp => exists f', desire_st formatter (pick l) f d = Ok (sp, f') /\ fst f' = None
  | Error e => desire_st formatter (pick l) f d = Error e
  | Undefined => desire_st formatter (pick l) f d = Undefined
  end.
Proof.
  intros FN X. apply Forall_app in X as [X1 X2]. unfold desire_st.
  assert (W : match (match d_width d with Some s => size_chosen l ENegativeWidth EWidthNotInteger s | None => Ok 0 end) with
    | Ok n => exists f', width_st formatter (pick l) f d = Ok (n, f') /\ fst f' = None
    | Error e => width_st formatter (pick l) f d = Error e
    | Undefined => width_st formatter (pick l) f d = Undefined end).
  { unfold width_st. destruct (d_width d) as [s|]; [|exists f; split; [reflexivity|exact FN]].
    assert (S := size_explicit f ENegativeWidth EWidthNotInteger s (or_introl FN) X1).
    destruct (size_chosen l ENegativeWidth EWidthNotInteger s); [|exact S..]. destruct S as (f' & S1 & _ & S2). exists f'. auto. }
  destruct (match d_width d with Some s => size_chosen l ENegativeWidth EWidthNotInteger s | None => Ok 0 end) as [n| |]; cbn [bind];
    [|rewrite W; reflexivity..]. destruct W as (f1 & -> & FN1). cbn [bind fst snd]. unfold precision_st.
  destruct (d_precision d) as [s|]; [|exists f1; split; [reflexivity|exact FN1]].
  assert (S := size_explicit f1 ENegativePrecision EPrecisionNotInteger s (or_introl FN1) X2).
  destruct (size_chosen l ENegativePrecision EPrecisionNotInteger s) as [p| |]; cbn [bind]; [|rewrite S; reflexivity..].
  destruct S as (f2 & -> & _ & S2). cbn [bind fst snd]. exists f2. split; [reflexivity|auto].
Qed.

Lemma out_explicit ps : forall f, manual f -> all_explicit ps ->
  match meaning (format_arg dbl) l ps with
  | Ok t => exists f', out_st formatter dbl (pick l) f ps = Ok (t, f') /\ manual f' /\ (has_place ps -> fst f' = None) /\ (fst f = None -> fst f' = None)
  | Error e => out_st formatter dbl (pick l) f ps = Error e
  | Undefined => out_st formatter dbl (pick l) f ps = Undefined
  end.
Proof.
  induction ps as [|p ps IH]; intros f MA X; cbn [meaning out_st].
  - exists f. split; [reflexivity|]. split; [exact MA|]. split; [intros H; exfalso; apply H; reflexivity|auto].
  - unfold all_explicit in X. cbn [flat_map] in X. apply Forall_app in X as [X1 X2]. destruct p as [s|c d].
    + cbn [bind]. specialize (IH f MA X2). destruct (meaning (format_arg dbl) l ps) as [t| |]; cbn [bind]; [|rewrite IH; reflexivity..].
      destruct IH as (f' & -> & M' & H1 & H2). cbn [bind fst snd]. exists f'. split; [reflexivity|]. split; [exact M'|].
      split; [|exact H2]. intros H. apply H1. exact H.
    + assert (XC : explicit c) by (destruct d; cbn [choices_of] in X1; apply Forall_inv in X1; exact X1).
      assert (P := pick_explicit f c MA XC). unfold place_meaning. destruct (chosen l c) as [a| |]; cbn [bind]; [|rewrite P; reflexivity..].
      destruct P as (f1 & -> & F1). cbn [bind fst snd].
      assert (Q : match (match d with None => Ok empty_spec | Some d =>
            (w <- match d_width d with Some s => size_chosen l ENegativeWidth EWidthNotInteger s | None => Ok 0 end;
             p <- match d_precision d with
                  | Some s => n <- size_chosen l ENegativePrecision EPrecisionNotInteger s; Ok (Some n)
                  | None => Ok None
                  end;
             Ok (settled d w p)) end) with
        | Ok sp => exists f', spec_st formatter (pick l) f1 d = Ok (sp, f') /\ fst f' = None
        | Error e => spec_st formatter (pick l) f1 d = Error e
        | Undefined => spec_st formatter (pick l) f1 d = Undefined end).
      { destruct d as [d|]; cbn [spec_st]; [|exists f1; split; [reflexivity|exact F1]]. apply spec_explicit; [exact F1|].
        cbn [choices_of] in X1. apply Forall_inv_tail in X1. exact X1. }
      assert (R : forall sp, (match d with None => Ok empty_spec | Some d =>
            (w <- match d_width d with Some s => size_chosen l ENegativeWidth EWidthNotInteger s | None => Ok 0 end;
             p <- match d_precision d with
                  | Some s => n <- size_chosen l ENegativePrecision EPrecisionNotInteger s; Ok (Some n)
                  | None => Ok None
                  end;
             Ok (settled d w p)) end) = sp ->
          (match d with None => format_arg dbl empty_spec a | Some d =>
             w <- match d_width d with Some s => size_chosen l ENegativeWidth EWidthNotInteger s | None => Ok 0 end;
             p <- match d_precision d with
                  | Some s => n <- size_chosen l ENegativePrecision EPrecisionNotInteger s; Ok (Some n)
                  | None => Ok None
                  end;
             format_arg dbl (settled d w p) a end) = (s <- sp; format_arg dbl s a)).
      { intros sp <-. destruct d as [d|]; [|reflexivity].
        destruct (match d_width d with Some s => size_chosen l ENegativeWidth EWidthNotInteger s | None => Ok 0 end); cbn [bind]; try reflexivity.
        destruct (match d_precision d with
                  | Some s => n <- size_chosen l ENegativePrecision EPrecisionNotInteger s; Ok (Some n)
                  | None => Ok None
                  end); reflexivity. }
      rewrite (R _ eq_refl). clear R.
      destruct (match d with None => Ok empty_spec | Some d => _ end) as [sp| |]; cbn [bind]; [|rewrite Q; reflexivity..].
      destruct Q as (f2 & -> & F2). cbn [bind fst snd]. destruct (format_arg dbl sp a) as [t| |]; cbn [bind]; try reflexivity.
      specialize (IH f2 (or_introl F2) X2). destruct (meaning (format_arg dbl) l ps) as [u| |]; cbn [bind]; [|rewrite IH; reflexivity..].
      destruct IH as (f' & -> & M' & H1 & H2). cbn [bind fst snd]. exists f'. split; [reflexivity|]. split; [exact M'|].
      split; intros _; exact (H2 F2).
Qed.

Lemma sound_explicit ps : forall f, manual f -> all_explicit ps -> Forall (sound_part l) ps -> sound_st formatter (pick l) f ps.
Proof.
  induction ps as [|p ps IH]; intros f MA X S; [exact I|]. unfold all_explicit in X. cbn [flat_map] in X. apply Forall_app in X as [X1 X2].
  apply Forall_cons_iff in S as [S1 S2]. cbn [sound_st]. destruct p as [s|c d]; [exact (IH f MA X2 S2)|].
  assert (XC : explicit c) by (destruct d; cbn [choices_of] in X1; apply Forall_inv in X1; exact X1).
  cbn [sound_part] in S1. destruct S1 as [SC SD]. split; [exact SC|]. intros a f1 E. assert (P := pick_explicit f c MA XC).
  destruct (chosen l c) as [b| |] eqn:C; [|congruence..]. destruct P as (f1' & P1 & P2). rewrite P1 in E. injection E as -> ->.
  split; [destruct d as [d|]; [|exact I]; apply (proj1 SD); reflexivity|].
  intros sp f2 E2. apply IH; [|exact X2|exact S2]. destruct d as [d|]; cbn [spec_st] in E2.
  - cbn [choices_of] in X1. apply Forall_inv_tail in X1. assert (Q := spec_explicit f1 d P2 X1).
    destruct (w <- _; _) in Q; [|congruence..]. destruct Q as (f2' & Q1 & Q2). left. congruence.
  - injection E2 as _ <-. left. exact P2.
Qed.
End Explicit.

(** ---- following choices ---- *)

Section Automatic.
Variables (dbl : spec -> N -> bytes) (l : list given) (digits : N -> bytes).

Lemma pick_following k m : pick l (Some k, m) Following
  = match chosen l (at_position digits k) with Ok a => Ok (a, (Some (k + 1), m)) | Error e => Error e | Undefined => Undefined end.
Proof. cbn [pick chosen at_position]. destruct (nth_error l (N.to_nat k)); reflexivity. Qed.

Lemma size_following k m neg ni s : Forall (eq Following) (size_choices (Some s)) ->
  exists s' k', counted_size digits k (Some s) = (Some s', k') /\
  size_st formatter (pick l) (Some k, m) neg ni s = (n <- size_chosen l neg ni s'; Ok (n, (Some k', m))).
Proof.
  intros X. destruct s as [n ds|c]; [exists (Number n ds), k; split; reflexivity|]. cbn [size_choices] in X. apply Forall_inv in X. subst c.
  exists (Of (at_position digits k)), (k + 1). split; [reflexivity|]. cbn [size_st size_chosen]. rewrite pick_following.
  destruct (chosen l (at_position digits k)); cbn [bind]; try reflexivity.
Qed.

Lemma desire_following k m d : Forall (eq Following) (size_choices (d_width d) ++ size_choices (d_precision d)) ->
  let w := counted_size digits k (d_width d) in
  let p := counted_size digits (snd w) (d_precision d) in
  desire_st formatter (pick l) (Some k, m) d =
  (n <- match fst w with Some s => size_chosen l ENegativeWidth EWidthNotInteger s | None => Ok 0 end;
   q <- match fst p with
        | Some s => n <- size_chosen l ENegativePrecision EPrecisionNotInteger s; Ok (Some n)
        | None => Ok None
        end;
   Ok (settled d n q, (Some (snd p), m))).
Proof.
  intros X w p. apply Forall_app in X as [X1 X2]. unfold desire_st, precision_st. subst p w.
  assert (W : width_st formatter (pick l) (Some k, m) d
    = (n <- match fst (counted_size digits k (d_width d)) with Some s => size_chosen l ENegativeWidth EWidthNotInteger s | None => Ok 0 end;
       Ok (n, (Some (snd (counted_size digits k (d_width d))), m)))).
  { unfold width_st. destruct (d_width d) as [s|]; [|reflexivity]. destruct (size_following k m ENegativeWidth EWidthNotInteger s X1) as (s' & k' & -> & ->). reflexivity. }
  rewrite W. clear W. destruct (match fst (counted_size digits k (d_width d)) with Some s => _ | None => _ end) as [n| |]; cbn [bind fst snd]; try reflexivity.
  set (k1 := snd (counted_size digits k (d_width d))). destruct (d_precision d) as [s|]; [|reflexivity].
  destruct (size_following k1 m ENegativePrecision EPrecisionNotInteger s X2) as (s' & k' & -> & ->). cbn [fst snd].
  destruct (size_chosen l _ _ s'); reflexivity.
Qed.

Lemma settled_counted d w p : forall n q, settled (Desire (d_wish d) w p) n q = settled d n q.
Proof. reflexivity. Qed.

Lemma out_following ps : forall k m, all_following ps ->
  match meaning (format_arg dbl) l (counted digits k ps) with
  | Ok t => exists k', out_st formatter dbl (pick l) (Some k, m) ps = Ok (t, (Some k', m)) /\ k <= k' /\ (has_place ps -> k < k')
  | Error e => out_st formatter dbl (pick l) (Some k, m) ps = Error e
  | Undefined => out_st formatter dbl (pick l) (Some k, m) ps = Undefined
  end.
Proof.
  assert (CS : forall k s, k <= snd (counted_size digits k s)).
  { intros k s. destruct s as [[n ds|[]]|]; cbn [counted_size snd]; lia. }
  induction ps as [|p ps IH]; intros k m X; cbn [counted meaning out_st].
  - exists k. split; [reflexivity|]. split; [lia|]. intros H. exfalso. apply H. reflexivity.
  - unfold all_following in X. cbn [flat_map] in X. apply Forall_app in X as [X1 X2]. destruct p as [s|c d].
    + cbn [meaning bind]. specialize (IH k m X2). destruct (meaning (format_arg dbl) l (counted digits k ps)) as [t| |]; cbn [bind]; [|rewrite IH; reflexivity..].
      destruct IH as (k' & -> & L1 & L2). cbn [bind fst snd]. exists k'. split; [reflexivity|]. split; [exact L1|]. intros H. apply L2. exact H.
    + assert (XC : Following = c) by (destruct d; cbn [choices_of] in X1; apply Forall_inv in X1; exact X1). subst c.
      rewrite pick_following. destruct d as [d|].
      * cbn [choices_of] in X1. apply Forall_inv_tail in X1. assert (D := desire_following (k + 1) m d X1). cbv zeta in D.
        assert (C1 := CS (k + 1) (d_width d)). destruct (counted_size digits (k + 1) (d_width d)) as [w k1]. cbn [fst snd] in *.
        assert (C2 := CS k1 (d_precision d)). destruct (counted_size digits k1 (d_precision d)) as [p k2]. cbn [fst snd meaning] in *.
        unfold place_meaning. destruct (chosen l (at_position digits k)) as [a| |]; cbn [bind]; try reflexivity. cbn [bind fst snd spec_st d_width d_precision].
        rewrite D. clear D. destruct (match w with Some s => _ | None => _ end) as [n| |]; cbn [bind fst snd]; try reflexivity.
        destruct (match p with Some s => _ | None => _ end) as [q| |]; cbn [bind fst snd]; try reflexivity.
        rewrite settled_counted. destruct (format_arg dbl (settled d n q) a) as [t| |]; cbn [bind fst snd]; try reflexivity.
        specialize (IH k2 m X2). destruct (meaning (format_arg dbl) l (counted digits k2 ps)) as [u| |]; cbn [bind]; [|rewrite IH; reflexivity..].
        destruct IH as (k' & -> & L1 & _). cbn [bind fst snd]. exists k'. split; [reflexivity|]. split; [lia|intros _; lia].
      * cbn [meaning]. unfold place_meaning. destruct (chosen l (at_position digits k)) as [a| |]; cbn [bind]; try reflexivity. cbn [bind fst snd spec_st].
        destruct (format_arg dbl empty_spec a) as [t| |]; cbn [bind fst snd]; try reflexivity.
        specialize (IH (k + 1) m X2). destruct (meaning (format_arg dbl) l (counted digits (k + 1) ps)) as [u| |]; cbn [bind]; [|rewrite IH; reflexivity..].
        destruct IH as (k' & -> & L1 & _). cbn [bind fst snd]. exists k'. split; [reflexivity|]. split; [lia|intros _; lia].
Qed.

(** A counted desire is as sound as the one that is counted. *)
Lemma sound_counted a d k : Forall (eq Following) (size_choices (d_width d) ++ size_choices (d_precision d)) ->
  let w := counted_size digits k (d_width d) in
  let p := counted_size digits (snd w) (d_precision d) in
  sound_desire a (Desire (d_wish d) (fst w) (fst p)) -> sound_desire a d.
Proof.
  intros X w p. apply Forall_app in X as [X1 X2]. unfold sound_desire. cbv zeta. cbn [d_wish d_width d_precision].
  intros (NE & FL & AL & SG & HA & ZE & WI & PR & WK & TY).
  repeat match goal with |- _ /\ _ => split end; try assumption.
  - intros E. apply NE. unfold desire_text in *. cbv zeta in *. cbn [d_wish d_width d_precision] in *. apply (f_equal (@tl ascii)) in E. cbn [tl] in E. change (tl (B ":")) with (@nil ascii) in E.
    apply app_eq_nil in E as [E1 E]. apply app_eq_nil in E as [E2 E]. apply app_eq_nil in E as [E3 E]. apply app_eq_nil in E as [E4 E].
    apply app_eq_nil in E as [E5 E]. apply app_eq_nil in E as [E6 E]. apply app_eq_nil in E as [E7 E8].
    rewrite E1, E2, E3, E4, E5, E8. subst p w. destruct (d_width d) as [[n ds|c]|]; cbn [size_text] in E6.
    + subst ds. cbn [counted_size fst snd size_text]. destruct (d_precision d); [discriminate E7|]. reflexivity.
    + discriminate E6.
    + destruct (d_precision d); [discriminate E7|]. reflexivity.
  - subst w. destruct (d_width d) as [[n ds|c]|]; cbn [counted_size fst] in WI; [exact WI| |exact I].
    cbn [size_choices] in X1. apply Forall_inv in X1. subst c. exact I.
  - subst p. destruct (d_precision d) as [[n ds|c]|]; cbn [counted_size fst] in PR; [exact PR| |exact I].
    cbn [size_choices] in X2. apply Forall_inv in X2. subst c. exact I.
  - intros H. apply WK. subst p. destruct (d_precision d) as [[n ds|[]]|]; cbn [counted_size fst]; congruence.
Qed.

Lemma sound_following ps : forall k m, all_following ps -> Forall (sound_part l) (counted digits k ps) -> sound_st formatter (pick l) (Some k, m) ps.
Proof.
  induction ps as [|p ps IH]; intros k m X S; [exact I|]. unfold all_following in X. cbn [flat_map] in X. apply Forall_app in X as [X1 X2].
  cbn [sound_st]. destruct p as [s|c d].
  - cbn [counted] in S. apply Forall_cons_iff in S as [_ S]. exact (IH k m X2 S).
  - assert (XC : Following = c) by (destruct d; cbn [choices_of] in X1; apply Forall_inv in X1; exact X1). subst c.
    split; [exact I|]. intros a f1 E. rewrite pick_following in E. destruct (chosen l (at_position digits k)) as [b| |] eqn:C; try discriminate.
    injection E as -> <-. destruct d as [d|]; cbn [counted] in S.
    + cbn [choices_of] in X1. apply Forall_inv_tail in X1. assert (D := desire_following (k + 1) m d X1).
      assert (SD := sound_counted a d (k + 1) X1). cbv zeta in *.
      destruct (counted_size digits (k + 1) (d_width d)) as [w k1]. cbn [fst snd] in *.
      destruct (counted_size digits k1 (d_precision d)) as [p k2]. cbn [fst snd] in *. apply Forall_cons_iff in S as [S1 S].
      cbn [sound_part] in S1. destruct S1 as [_ [S1 _]]. split; [apply SD, S1, C|].
      intros sp f2 E. cbn [spec_st] in E. rewrite D in E. destruct (match w with Some s => _ | None => _ end); cbn [bind] in E; try discriminate.
      destruct (match p with Some s => _ | None => _ end); cbn [bind] in E; try discriminate. injection E as _ <-. exact (IH k2 m X2 S).
    + apply Forall_cons_iff in S as [_ S]. split; [exact I|]. intros sp f2 E. cbn [spec_st] in E. injection E as _ <-. exact (IH (k + 1) m X2 S).
Qed.

Lemma counted_no_nul ps : forall k, all_following ps -> Forall (sound_part l) (counted digits k ps) -> ~ In NUL (parts_text ps).
Proof.
  assert (S1 : forall c, c <> NUL -> ~ In NUL [c]) by (intros c H [I|[]]; congruence).
  induction ps as [|p ps IH]; intros k X S; [intros []|]. unfold all_following in X. cbn [flat_map] in X. apply Forall_app in X as [X1 X2].
  unfold parts_text. cbn [flat_map]. destruct p as [s|c d].
  - cbn [counted] in S. apply Forall_cons_iff in S as [SP S]. apply in_nul_app; [apply brace_no_nul, SP|exact (IH k X2 S)].
  - assert (XC : Following = c) by (destruct d; cbn [choices_of] in X1; apply Forall_inv in X1; exact X1). subst c. destruct d as [d|]; cbn [counted] in S.
    + cbn [choices_of] in X1. apply Forall_inv_tail in X1.
      assert (SD := fun a => sound_counted a d (k + 1) X1). cbv zeta in *.
      destruct (counted_size digits (k + 1) (d_width d)) as [w k1]. cbn [fst snd] in *.
      destruct (counted_size digits k1 (d_precision d)) as [p k2]. cbn [fst snd] in *. apply Forall_cons_iff in S as [SP S].
      destruct SP as (_ & _ & a & SP). apply in_nul_app; [|exact (IH k2 X2 S)]. cbn [part_text choice_text].
      repeat apply in_nul_app; [apply S1; discriminate|intros []|exact (desire_no_nul a d (SD a SP))|apply S1; discriminate].
    + apply Forall_cons_iff in S as [_ S]. apply in_nul_app; [|exact (IH (k + 1) X2 S)]. cbn [part_text choice_text].
      repeat apply in_nul_app; [apply S1; discriminate|intros []|apply S1; discriminate].
Qed.

Lemma counted_explicit ps : forall k, all_following ps -> all_explicit (counted digits k ps).
Proof.
  assert (C : forall k s, Forall (eq Following) (size_choices s) -> Forall explicit (size_choices (fst (counted_size digits k s)))).
  { intros k s X. destruct s as [[n ds|c]|]; try constructor. cbn [size_choices] in X. apply Forall_inv in X. subst c.
    cbn. constructor; [discriminate|constructor]. }
  induction ps as [|p ps IH]; intros k X; [constructor|]. unfold all_following in X. cbn [flat_map] in X. apply Forall_app in X as [X1 X2].
  unfold all_explicit. destruct p as [s|c d]; [exact (IH k X2)|].
  assert (XC : Following = c) by (destruct d; cbn [choices_of] in X1; apply Forall_inv in X1; exact X1). subst c. destruct d as [d|]; cbn [counted].
  - cbn [choices_of] in X1. apply Forall_inv_tail in X1. apply Forall_app in X1 as [XA XB].
    assert (CA := C (k + 1) _ XA). destruct (counted_size digits (k + 1) (d_width d)) as [w k1].
    assert (CB := C k1 _ XB). destruct (counted_size digits k1 (d_precision d)) as [p k2]. cbn [fst] in *.
    cbn [flat_map choices_of d_width d_precision]. apply Forall_app. split; [|exact (IH k2 X2)]. constructor; [discriminate|].
    apply Forall_app. split; assumption.
  - cbn [flat_map choices_of]. apply Forall_app. split; [|exact (IH (k + 1) X2)]. constructor; [discriminate|constructor].
Qed.
End Automatic.

(** ---- whole strings ---- *)

Section Whole.
Variables (dbl : spec -> N -> bytes) (l : list given).

Lemma write_run format : exists al, make_arg_list l = Ok al /\
  write dbl format l = format_go formatter (parse_arg al) dbl (S (length (c_string format))) (Some 0, []) (c_string format).
Proof. eexists. split; [apply make_arg_list_ok|]. unfold write. rewrite make_arg_list_ok. reflexivity. Qed.

(** The start of a string, for parts whose outcome is known. *)
Lemma write_start ps rest : ~ In NUL (parts_text ps) -> sound_st formatter (pick l) (Some 0, []) ps ->
  exists al fuel, make_arg_list l = Ok al /\ (length (c_string rest) < fuel)%nat /\
  write dbl (parts_text ps ++ rest) l
  = (x <- out_st formatter dbl (pick l) (Some 0, []) ps;
     r <- format_go formatter (parse_arg al) dbl fuel (snd x) (c_string rest); Ok (fst x ++ r)).
Proof.
  intros NN S. destruct (write_run (parts_text ps ++ rest)) as (al & M & ->). rewrite (c_string_app _ rest NN).
  destruct (parts_st formatter (parse_arg al) dbl (pick l) (good l) (fun st c rest K => select_ok l al M st c rest K) (pick_good l)
    ps (c_string rest) (Some 0, []) (Datatypes.S (length (parts_text ps ++ c_string rest))) (or_introl eq_refl) S ltac:(lia)) as (f & F & E).
  exists al, f. split; [exact M|]. split; [exact F|]. exact E.
Qed.

Lemma write_all ps : ~ In NUL (parts_text ps) -> sound_st formatter (pick l) (Some 0, []) ps ->
  write dbl (parts_text ps) l = (x <- out_st formatter dbl (pick l) (Some 0, []) ps; Ok (fst x)).
Proof.
  intros NN S. destruct (write_start ps [] NN S) as (al & f & _ & F & E). rewrite app_nil_r in E. rewrite E.
  destruct f as [|f]; [cbn in F; lia|]. cbn [c_string format_go].
  destruct (out_st formatter dbl (pick l) (Some 0, []) ps); cbn [bind]; try reflexivity. rewrite app_nil_r. reflexivity.
Qed.

Lemma explicit_lemma ps : all_explicit ps -> Forall (sound_part l) ps -> write dbl (parts_text ps) l = meaning (format_arg dbl) l ps.
Proof.
  intros X S. rewrite (write_all ps (parts_no_nul l ps S) (sound_explicit l ps (Some 0, []) (or_intror eq_refl) X S)).
  assert (O := out_explicit dbl l ps (Some 0, []) (or_intror eq_refl) X).
  destruct (meaning (format_arg dbl) l ps); [|exact (f_equal (fun r => bind r (fun x => Ok (fst x))) O)..].
  destruct O as (f' & O & _). exact (f_equal (fun r => bind r (fun x => Ok (fst x))) O).
Qed.

Lemma following_lemma digits ps : all_following ps -> Forall (sound_part l) (counted digits 0 ps) ->
  write dbl (parts_text ps) l = meaning (format_arg dbl) l (counted digits 0 ps)
  /\ write dbl (parts_text ps) l = write dbl (parts_text (counted digits 0 ps)) l.
Proof.
  intros X S. assert (E : write dbl (parts_text ps) l = meaning (format_arg dbl) l (counted digits 0 ps)).
  { rewrite (write_all ps (counted_no_nul l digits ps 0 X S) (sound_following l digits ps 0 [] X S)).
    assert (O := out_following dbl l digits ps 0 [] X).
    destruct (meaning (format_arg dbl) l (counted digits 0 ps)); [|exact (f_equal (fun r => bind r (fun x => Ok (fst x))) O)..].
    destruct O as (k' & O & _). exact (f_equal (fun r => bind r (fun x => Ok (fst x))) O). }
  split; [exact E|]. rewrite E. symmetry. apply explicit_lemma; [apply counted_explicit, X|exact S].
Qed.

Lemma ends_c_string rest : ends rest -> ends (c_string rest).
Proof. unfold ends, peek. destruct rest as [|c rest]; cbn [hd c_string]; intros [E|E]; try discriminate; subst c; [left|right]; reflexivity. Qed.

(** A following choice after explicit ones, and an explicit one after following ones. *)
Lemma mixed_following ps rest t : all_explicit ps -> has_place ps -> Forall (sound_part l) ps -> meaning (format_arg dbl) l ps = Ok t ->
  ends rest -> write dbl (parts_text ps ++ B "{" ++ rest) l = Error EAutoFromManual.
Proof.
  intros X P S ME E. assert (E' := ends_c_string rest E).
  destruct (write_start ps (B "{" ++ rest) (parts_no_nul l ps S) (sound_explicit l ps (Some 0, []) (or_intror eq_refl) X S)) as (al & f & M & F & ->).
  assert (O := out_explicit dbl l ps (Some 0, []) (or_intror eq_refl) X). rewrite ME in O. destruct O as (f' & O & _ & H & _).
  refine (eq_trans (f_equal (fun r => bind r _) O) _). specialize (H P). cbn [bind fst snd]. change (c_string (B "{" ++ rest)) with (LBRACE :: c_string rest) in *.
  destruct f as [|f]; [lia|]. destruct f' as [ix m]. cbn [fst] in H. subst ix.
  cbn [format_go]. rewrite Ascii.eqb_refl. cbn [negb andb].
  assert (NL : Ascii.eqb (peek (c_string rest)) LBRACE = false) by (destruct E' as [-> | ->]; reflexivity).
  rewrite NL. change (Ascii.eqb LBRACE RBRACE) with false. cbv iota.
  destruct (ends_facts _ E') as (E1 & E2 & E3 & E4). unfold parse_arg. rewrite E4. unfold parse_arg_index. rewrite E1, E3. reflexivity.
Qed.

Lemma mixed_explicit digits ps c rest t : all_following ps -> has_place ps -> Forall (sound_part l) (counted digits 0 ps) ->
  meaning (format_arg dbl) l (counted digits 0 ps) = Ok t -> explicit c -> sound_choice c ->
  ends rest -> write dbl (parts_text ps ++ B "{" ++ choice_text c ++ rest) l = Error EManualFromAuto.
Proof.
  intros X P S ME XC SC E. assert (E' := ends_c_string rest E).
  destruct (write_start ps (B "{" ++ choice_text c ++ rest) (counted_no_nul l digits ps 0 X S) (sound_following l digits ps 0 [] X S)) as (al & f & M & F & ->).
  assert (O := out_following dbl l digits ps 0 [] X). rewrite ME in O. destruct O as (k' & O & _ & H).
  refine (eq_trans (f_equal (fun r => bind r _) O) _). specialize (H P). cbn [bind fst snd].
  assert (CS : c_string (B "{" ++ choice_text c ++ rest) = LBRACE :: choice_text c ++ c_string rest).
  { change (B "{" ++ choice_text c ++ rest) with (LBRACE :: choice_text c ++ rest). cbn [c_string]. change (Ascii.eqb LBRACE NUL) with false. cbv iota.
    rewrite (c_string_app _ rest (choice_no_nul c SC)). reflexivity. }
  rewrite CS in *. destruct f as [|f]; [cbn in F; lia|].
  refine (eq_trans (f_equal (fun r => bind r _) (open_st formatter (parse_arg al) dbl (pick l) (good l)
    (fun st c rest K => select_ok l al M st c rest K) f (Some k', []) c (c_string rest) (or_introl eq_refl) SC E')) _).
  destruct k' as [|k']; [lia|]. destruct c as [|n ds|name]; [destruct XC; reflexivity|reflexivity|reflexivity].
Qed.

(** The same for a width inside of a placeholder. *)
Lemma nested_following ps c a rest t : all_explicit ps -> Forall (sound_part l) ps -> meaning (format_arg dbl) l ps = Ok t ->
  explicit c -> sound_choice c -> chosen l c = Ok a ->
  write dbl (parts_text ps ++ B "{" ++ choice_text c ++ B ":{}" ++ rest) l = Error EAutoFromManual.
Proof.
  intros X S ME XC SC CH.
  destruct (write_start ps (B "{" ++ choice_text c ++ B ":{}" ++ rest) (parts_no_nul l ps S) (sound_explicit l ps (Some 0, []) (or_intror eq_refl) X S)) as (al & f & M & F & W).
  rewrite W. clear W.
  assert (O := out_explicit dbl l ps (Some 0, []) (or_intror eq_refl) X). rewrite ME in O. destruct O as (f' & OE & MA & _).
  assert (G : good l f').
  { assert (OG : forall ps f t f', good l f -> out_st formatter dbl (pick l) f ps = Ok (t, f') -> good l f').
    { clear. induction ps as [|p ps IH]; intros f t f' G E; cbn [out_st] in E; [injection E as _ <-; exact G|]. destruct p as [s|c d].
      - destruct (out_st formatter dbl (pick l) f ps) as [[u g]| |] eqn:O; cbn [bind fst snd] in E; try discriminate. injection E as _ <-. exact (IH _ _ _ G O).
      - destruct (pick l f c) as [[a f1]| |] eqn:P; cbn [bind fst snd] in E; try discriminate.
        destruct (spec_st formatter (pick l) f1 d) as [[sp f2]| |] eqn:Q; cbn [bind fst snd] in E; try discriminate.
        destruct (format_arg dbl sp a); cbn [bind] in E; try discriminate.
        destruct (out_st formatter dbl (pick l) f2 ps) as [[u g]| |] eqn:O; cbn [bind fst snd] in E; try discriminate. injection E as _ <-.
        refine (IH _ _ _ _ O). exact (spec_ok_st formatter (pick l) (good l) (pick_good l) _ _ _ _ (pick_good l _ _ _ _ G P) Q). }
    exact (OG ps (Some 0, []) t f' (or_introl eq_refl) OE). }
  refine (eq_trans (f_equal (fun r => bind r _) OE) _). cbn [bind fst snd].
  assert (CS : c_string (B "{" ++ choice_text c ++ B ":{}" ++ rest) = LBRACE :: choice_text c ++ B ":{}" ++ c_string rest).
  { change (B "{" ++ choice_text c ++ B ":{}" ++ rest) with (LBRACE :: choice_text c ++ B ":{}" ++ rest). cbn [c_string]. change (Ascii.eqb LBRACE NUL) with false. cbv iota.
    rewrite (c_string_app _ _ (choice_no_nul c SC)). reflexivity. }
  rewrite CS in *. destruct f as [|f]; [cbn in F; lia|].
  refine (eq_trans (f_equal (fun r => bind r _) (open_st formatter (parse_arg al) dbl (pick l) (good l)
    (fun st c rest K => select_ok l al M st c rest K) f f' c (B ":{}" ++ c_string rest) G SC (or_introl eq_refl))) _).
  assert (P := pick_explicit l f' c MA XC). rewrite CH in P. destruct P as ([ix m] & -> & FN). cbn [fst] in FN. subst ix. reflexivity.
Qed.

Lemma nested_explicit digits ps c a rest t : all_following ps -> Forall (sound_part l) (counted digits 0 ps) ->
  meaning (format_arg dbl) l (counted digits 0 ps) = Ok t -> nth_error l (length (flat_map choices_of ps)) = Some a ->
  explicit c -> sound_choice c ->
  write dbl (parts_text ps ++ B "{:{" ++ choice_text c ++ B "}" ++ rest) l = Error EManualFromAuto.
Proof.
  intros X S ME NA XC SC.
  destruct (write_start ps (B "{:{" ++ choice_text c ++ B "}" ++ rest) (counted_no_nul l digits ps 0 X S) (sound_following l digits ps 0 [] X S)) as (al & f & M & F & ->).
  assert (CO : forall ps k m t f', all_following ps -> out_st formatter dbl (pick l) (Some k, m) ps = Ok (t, f') ->
    f' = (Some (k + N.of_nat (length (flat_map choices_of ps))), m)).
  { clear. induction ps as [|p ps IH]; intros k m t f' X E; cbn [out_st] in E; [injection E as _ <-; cbn; f_equal; f_equal; lia|].
    unfold all_following in X. cbn [flat_map] in *. apply Forall_app in X as [X1 X2]. rewrite app_length. destruct p as [s|c d].
    - destruct (out_st formatter dbl (pick l) (Some k, m) ps) as [[u g]| |] eqn:O; cbn [bind fst snd] in E; try discriminate. injection E as _ <-. exact (IH _ _ _ _ X2 O).
    - assert (XC : Following = c) by (destruct d; cbn [choices_of] in X1; apply Forall_inv in X1; exact X1). subst c.
      rewrite (pick_following l (fun _ => [])) in E. destruct (chosen l (at_position (fun _ => []) k)) as [b| |]; cbn [bind] in E; try discriminate. cbn [fst snd] in E.
      assert (Q : forall sp f2, spec_st formatter (pick l) (Some (k + 1), m) d = Ok (sp, f2) -> f2 = (Some (k + N.of_nat (length (choices_of (Place Following d)))), m)).
      { intros sp f2 Q. destruct d as [d|]; cbn [spec_st] in Q; [|injection Q as _ <-; reflexivity].
        cbn [choices_of] in X1. apply Forall_inv_tail in X1. rewrite (desire_following l (fun _ => []) (k + 1) m d X1) in Q.
        destruct (match fst (counted_size _ _ _) with Some s => _ | None => _ end); cbn [bind] in Q; try discriminate.
        destruct (match fst (counted_size _ _ _) with Some s => _ | None => _ end); cbn [bind] in Q; try discriminate. injection Q as _ <-.
        f_equal. f_equal. cbn [choices_of length]. rewrite app_length. apply Forall_app in X1 as [XA XB].
        assert (CL : forall k s, Forall (eq Following) (size_choices s) -> snd (counted_size (fun _ => []) k s) = k + N.of_nat (length (size_choices s))).
        { intros k' s Y. destruct s as [[n' ds|c]|]; cbn [counted_size size_choices snd length]; try lia.
          cbn [size_choices] in Y. apply Forall_inv in Y. subst c. cbn [snd]. lia. }
        rewrite !CL by assumption. lia. }
      destruct (spec_st formatter (pick l) (Some (k + 1), m) d) as [[sp f2]| |]; cbn [bind fst snd] in E; try discriminate. specialize (Q _ _ eq_refl). subst f2.
      destruct (format_arg dbl sp b); cbn [bind] in E; try discriminate.
      destruct (out_st formatter dbl (pick l) _ ps) as [[u g]| |] eqn:O; cbn [bind fst snd] in E; try discriminate. injection E as _ <-.
      apply IH in O; [|exact X2]. rewrite O. f_equal. f_equal. lia. }
  assert (O := out_following dbl l digits ps 0 [] X). rewrite ME in O. destruct O as (k' & O & _ & _). assert (Q := CO _ _ _ _ _ X O).
  refine (eq_trans (f_equal (fun r => bind r _) O) _). injection Q as ->. cbn [bind fst snd].
  assert (CS : c_string (B "{:{" ++ choice_text c ++ B "}" ++ rest) = LBRACE :: B ":{" ++ choice_text c ++ B "}" ++ c_string rest).
  { change (B "{:{" ++ choice_text c ++ B "}" ++ rest) with (LBRACE :: ":"%char :: LBRACE :: choice_text c ++ B "}" ++ rest). cbn [c_string].
    change (Ascii.eqb LBRACE NUL) with false. change (Ascii.eqb ":" NUL) with false. cbv iota.
    rewrite (c_string_app _ _ (choice_no_nul c SC)). reflexivity. }
  rewrite CS in *. destruct f as [|f]; [cbn in F; lia|]. clear CO O.
  set (k := N.of_nat (length (flat_map choices_of ps))) in *.
  assert (OP := open_st formatter (parse_arg al) dbl (pick l) (good l) (fun st c rest K => select_ok l al M st c rest K) f (Some (0 + k), []) Following
    (B ":{" ++ choice_text c ++ B "}" ++ c_string rest) (or_introl eq_refl) I (or_introl eq_refl)).
  cbn [choice_text app] in OP. cbn [app]. refine (eq_trans (f_equal (fun r => bind r _) OP) _). clear OP. cbn [pick]. replace (N.to_nat (0 + k)) with (length (flat_map choices_of ps)) by (unfold k; lia).
  rewrite NA. cbn [bind fst snd]. unfold format_placeholder. change (B ":{" ++ choice_text c ++ B "}" ++ c_string rest) with (":"%char :: LBRACE :: choice_text c ++ RBRACE :: c_string rest).
  unfold parse_spec. rewrite Ascii.eqb_refl.
  destruct (choice_first c (RBRACE :: c_string rest) SC (or_intror eq_refl)) as [_ AC].
  unfold parse_align. rewrite AC. change (align_char LBRACE) with (@None alignment). cbn [bind].
  change (parse_sign (value_of a) (LBRACE :: choice_text c ++ RBRACE :: c_string rest)) with (@Ok (bool * bool * bool * bytes) (false, false, false, LBRACE :: choice_text c ++ RBRACE :: c_string rest)).
  cbn [bind]. change (parse_flag "#" (value_of a) (LBRACE :: choice_text c ++ RBRACE :: c_string rest)) with (@Ok (bool * bytes) (false, LBRACE :: choice_text c ++ RBRACE :: c_string rest)).
  cbn [bind]. change (parse_flag "0" (value_of a) (LBRACE :: choice_text c ++ RBRACE :: c_string rest)) with (@Ok (bool * bytes) (false, LBRACE :: choice_text c ++ RBRACE :: c_string rest)).
  cbn [bind]. unfold parse_width. cbn [peek hd]. change (is_digit LBRACE) with false. cbv iota. rewrite Ascii.eqb_refl.
  match goal with |- context [parse_nested ?A ?sel ?st ?e1 ?e2 ?t] =>
    replace (parse_nested A sel st e1 e2 t) with (@Error (N * formatter * bytes) EManualFromAuto); [reflexivity|symmetry] end.
  refine (eq_trans (nested_st formatter (parse_arg al) (pick l) (good l) (fun st c rest K => select_ok l al M st c rest K)
    (Some (0 + k + 1), []) ENegativeWidth EWidthNotInteger c (c_string rest) (or_introl eq_refl) SC) _).
  cbn [size_st]. replace (0 + k + 1) with (N.succ k) by lia. destruct k as [|k]; destruct c as [|n ds|name]; try reflexivity; destruct XC; reflexivity.
Qed.
End Whole.
