(** Lemmas about the console sink. *)
From Verif Require Import Base Decimal ConsoleModel ConsoleSpec.
Open Scope nat_scope.

Lemma upd_same {A} (f : nat -> A) k v : upd f k v k = v.
Proof. unfold upd. rewrite Nat.eqb_refl. reflexivity. Qed.
Lemma upd_other {A} (f : nat -> A) k v x : x <> k -> upd f k v x = f x.
Proof. unfold upd. intros H. destruct (Nat.eqb_spec x k); congruence. Qed.

(** ** Colour mapping *)

Lemma mapping_go {R} (severity : R -> Z) (r : R) calls : forall m0,
  fold_left (apply_colorize R severity) calls m0 r =
  match find (concerns severity r) (rev calls) with Some x => colour_given r x | None => m0 r end.
Proof.
  induction calls as [|x calls IH] using rev_ind; intros m0; [reflexivity|].
  rewrite fold_left_app, rev_app_distr. cbn [fold_left rev app find].
  destruct x as [s c|f]; cbn [apply_colorize concerns colour_given]; [|reflexivity].
  destruct (s =? severity r)%Z; [reflexivity|]. apply IH.
Qed.

Lemma mapping_lemma : forall R (severity : R -> Z) calls r,
  built_mapping R severity calls r =
  match find (concerns severity r) (rev calls) with Some x => colour_given r x | None => default_color end.
Proof. intros. apply (mapping_go severity r calls). Qed.

(** ** Text of a line *)

Lemma line_text_lemma : forall filter tty color formatted,
  emit_bytes filter tty color formatted = None <-> filter = Deny.
Proof. intros [] tty color formatted; cbn; split; congruence. Qed.

Lemma plain_line_lemma : forall filter tty color formatted b,
  tty = false \/ color = default_color -> emit_bytes filter tty color formatted = Some b -> b = formatted ++ [chr 10].
Proof.
  intros filter tty color formatted b H E.
  assert (X : (if tty then color_write color formatted else formatted) = formatted).
  { destruct H as [-> | ->]; [reflexivity|]. destruct tty; reflexivity. }
  destruct filter; cbn [emit_bytes] in E; try discriminate; injection E as <-; exact (f_equal (fun x => x ++ [NL]) X).
Qed.

Lemma coloured_line_lemma : forall filter color formatted b,
  color <> default_color -> emit_bytes filter true color formatted = Some b ->
  b = (chr 27 :: B "[" ++ sdec (code color) ++ B "m") ++ formatted ++ (chr 27 :: B "[0m") ++ [chr 10].
Proof.
  intros filter color formatted b H E.
  assert (C : colored color = true).
  { unfold colored. destruct (Z.eqb_spec (code color) (code default_color)) as [E1|]; [|reflexivity].
    destruct (Z.eqb_spec (attr color) (attr default_color)) as [E2|]; [|reflexivity].
    exfalso. apply H. destruct color; cbn in E1, E2. subst. reflexivity. }
  assert (X : b = color_write color formatted ++ [NL]) by (destruct filter; cbn [emit_bytes] in E; [inversion E; reflexivity..|discriminate]).
  rewrite X. unfold color_write. rewrite C. rewrite <- !app_assoc. reflexivity.
Qed.

(** ** Threads *)

Section OneLock.
Variable l : nat.

(** The state after a history: who holds the lock, what remains to be written. *)
Definition pending (w : world) (s : bool) : bytes :=
  match w_lock w l with
  | Some t => match w_thread w t with TWrite q rest => if Bool.eqb (q_stream q) s then rest else [] | _ => [] end
  | None => []
  end.

Definition inv (w : world) (evs : list event) : Prop :=
  (forall t, match w_thread w t with
    | TIdle => True | TWait q => q_lock q = l
    | TWrite q rest => q_lock q = l /\ w_lock w l = Some t
    end) /\
  (forall t, w_lock w l = Some t -> exists q rest, w_thread w t = TWrite q rest) /\
  (forall s, w_out w s ++ pending w s = concat (texts s evs)) /\
  (forall s t q rest, w_lock w l = Some t -> w_thread w t = TWrite q rest -> q_stream q = s ->
     exists ts done, texts s evs = ts ++ [q_bytes q] /\ q_bytes q = done ++ rest) /\
  (forall t, begun t evs = taken t evs ++ match w_thread w t with TWait q => [q] | _ => [] end) /\
  (forall t, taken t evs = finished t evs ++ match w_thread w t with TWrite q _ => [q] | _ => [] end).

Lemma texts_app s a b : texts s (a ++ b) = texts s a ++ texts s b.
Proof. induction a as [|e a IH]; [reflexivity|]. destruct e; cbn; rewrite IH; [reflexivity|apply app_assoc|reflexivity]. Qed.
Lemma begun_app t a b : begun t (a ++ b) = begun t a ++ begun t b.
Proof. induction a as [|e a IH]; [reflexivity|]. destruct e; cbn; rewrite IH; [apply app_assoc|reflexivity|reflexivity]. Qed.
Lemma taken_app t a b : taken t (a ++ b) = taken t a ++ taken t b.
Proof. induction a as [|e a IH]; [reflexivity|]. destruct e; cbn; rewrite IH; [reflexivity|apply app_assoc|reflexivity]. Qed.
Lemma finished_app t a b : finished t (a ++ b) = finished t a ++ finished t b.
Proof. induction a as [|e a IH]; [reflexivity|]. destruct e; cbn; rewrite IH; [reflexivity|reflexivity|apply app_assoc]. Qed.

Lemma inv_init : inv init [].
Proof.
  unfold inv, init, pending; cbn. refine (conj _ (conj _ (conj _ (conj _ (conj _ _))))); auto.
  - intros t H; discriminate.
  - intros s t q rest H; discriminate.
Qed.

Lemma inv_step w evs a w1 e1 : (forall t q, a = Begin t q -> q_lock q = l) ->
  inv w evs -> step w a = Some (w1, e1) -> inv w1 (evs ++ e1).
Proof.
  intros HL (I1 & I2 & I3 & I4 & I5 & I6) E. destruct a as [t q|t|t|t]; cbn [step] in E.
  - (* Begin *)
    destruct (w_thread w t) as [|q0|q0 r0] eqn:ET; try discriminate. inversion E; subst w1 e1; clear E.
    assert (NH : w_lock w l <> Some t).
    { intros H. destruct (I2 _ H) as (q1 & r1 & H1). congruence. }
    unfold inv, pending. cbn [w_lock w_thread w_out].
    refine (conj _ (conj _ (conj _ (conj _ (conj _ _))))).
    + intros u. destruct (Nat.eq_dec u t) as [->|Hu]; [rewrite upd_same; apply (HL t q eq_refl)|].
      rewrite upd_other by exact Hu. apply I1.
    + intros u Hu. rewrite upd_other by congruence. apply I2; exact Hu.
    + intros s. rewrite texts_app. cbn [texts]. rewrite app_nil_r, <- I3. f_equal. unfold pending.
      destruct (w_lock w l) as [u|]; [|reflexivity]. rewrite upd_other by congruence. reflexivity.
    + intros s u q1 r1 Hu. rewrite upd_other by congruence. rewrite texts_app. cbn [texts]. rewrite app_nil_r.
      intros. eapply I4; eauto.
    + intros u. rewrite begun_app, taken_app. cbn [begun taken]. rewrite !app_nil_r.
      destruct (Nat.eqb_spec t u) as [->|Hu].
      * rewrite upd_same, I5, ET, app_nil_r. reflexivity.
      * rewrite upd_other by congruence. rewrite app_nil_r. apply I5.
    + intros u. rewrite taken_app, finished_app. cbn [taken finished]. rewrite !app_nil_r.
      destruct (Nat.eq_dec u t) as [->|Hu].
      * rewrite upd_same, I6, ET. reflexivity.
      * rewrite upd_other by congruence. apply I6.
  - (* Take *)
    destruct (w_thread w t) as [|q|q0 r0] eqn:ET; try discriminate.
    assert (QL := I1 t). rewrite ET in QL. rewrite QL in E.
    destruct (w_lock w l) eqn:EL; [discriminate|]. inversion E; subst w1 e1; clear E.
    assert (NW : forall u q1 r1, w_thread w u <> TWrite q1 r1).
    { intros u q1 r1 H. assert (X := I1 u). rewrite H in X. destruct X; congruence. }
    unfold inv, pending. cbn [w_lock w_thread w_out]. rewrite upd_same.
    refine (conj _ (conj _ (conj _ (conj _ (conj _ _))))).
    + intros u. destruct (Nat.eq_dec u t) as [->|Hu]; [rewrite upd_same; auto|].
      rewrite upd_other by exact Hu. assert (X := I1 u).
      destruct (w_thread w u) as [|q1|q1 r1] eqn:EU; auto. destruct (NW u q1 r1 EU).
    + intros u Hu. injection Hu as <-. rewrite upd_same. eauto.
    + intros s. rewrite upd_same, texts_app. cbn [texts]. rewrite app_nil_r, concat_app.
      assert (X := I3 s). unfold pending in X. rewrite EL, app_nil_r in X. rewrite X.
      destruct (Bool.eqb (q_stream q) s); cbn; rewrite ?app_nil_r; reflexivity.
    + intros s u q1 r1 Hu. injection Hu as <-. rewrite upd_same. intros H HS. injection H as <- <-.
      exists (texts s evs), []. rewrite texts_app. cbn [texts]. subst s. rewrite Bool.eqb_reflx. split; reflexivity.
    + intros u. rewrite begun_app, taken_app. cbn [begun taken]. rewrite !app_nil_r.
      destruct (Nat.eqb_spec t u) as [->|Hu].
      * rewrite upd_same, I5, ET, app_nil_r. reflexivity.
      * rewrite upd_other by congruence. rewrite app_nil_r. apply I5.
    + intros u. rewrite taken_app, finished_app. cbn [taken finished]. rewrite !app_nil_r.
      destruct (Nat.eqb_spec t u) as [->|Hu].
      * rewrite upd_same, I6, ET, app_nil_r. reflexivity.
      * rewrite upd_other by congruence. rewrite app_nil_r. apply I6.
  - (* Put *)
    destruct (w_thread w t) as [|q|q [|c rest]] eqn:ET; try discriminate. inversion E; subst w1 e1; clear E.
    assert (X := I1 t). rewrite ET in X. destruct X as [QL HT].
    unfold inv, pending. cbn [w_lock w_thread w_out]. rewrite app_nil_r.
    refine (conj _ (conj _ (conj _ (conj _ (conj _ _))))).
    + intros u. destruct (Nat.eq_dec u t) as [->|Hu]; [rewrite upd_same; auto|]. rewrite upd_other by exact Hu. apply I1.
    + intros u Hu. destruct (Nat.eq_dec u t) as [->|Hne]; [rewrite upd_same; eauto|]. rewrite upd_other by exact Hne. apply I2; exact Hu.
    + intros s. rewrite HT, upd_same. assert (Y := I3 s). unfold pending in Y. rewrite HT, ET in Y. rewrite <- Y.
      unfold out_add. destruct (q_stream q), s; cbn; rewrite <- ?app_assoc; reflexivity.
    + intros s u q1 r1 Hu. assert (u = t) as -> by congruence. rewrite upd_same. intros H HS. injection H as <- <-.
      destruct (I4 s t q (c :: rest) HT ET HS) as (ts & dn & H1 & H2). exists ts, (dn ++ [c]). split; [exact H1|].
      rewrite <- app_assoc. exact H2.
    + intros u. destruct (Nat.eq_dec u t) as [->|Hu].
      * rewrite upd_same, I5, ET. reflexivity.
      * rewrite upd_other by congruence. apply I5.
    + intros u. destruct (Nat.eq_dec u t) as [->|Hu].
      * rewrite upd_same, I6, ET. reflexivity.
      * rewrite upd_other by congruence. apply I6.
  - (* Done *)
    destruct (w_thread w t) as [|q|q [|c rest]] eqn:ET; try discriminate. inversion E; subst w1 e1; clear E.
    assert (X := I1 t). rewrite ET in X. destruct X as [QL HT].
    unfold inv, pending. cbn [w_lock w_thread w_out]. rewrite QL, upd_same.
    refine (conj _ (conj _ (conj _ (conj _ (conj _ _))))).
    + intros u. destruct (Nat.eq_dec u t) as [->|Hu]; [rewrite upd_same; auto|]. rewrite upd_other by exact Hu.
      assert (Y := I1 u). destruct (w_thread w u); auto. destruct Y; congruence.
    + intros u Hu; discriminate.
    + intros s. rewrite texts_app. cbn [texts]. rewrite !app_nil_r. rewrite <- I3. unfold pending. rewrite HT, ET.
      destruct (Bool.eqb (q_stream q) s); rewrite app_nil_r; reflexivity.
    + intros s u q1 r1 Hu; discriminate.
    + intros u. rewrite begun_app, taken_app. cbn [begun taken]. rewrite !app_nil_r.
      destruct (Nat.eq_dec u t) as [->|Hu].
      * rewrite upd_same, I5, ET. reflexivity.
      * rewrite upd_other by congruence. apply I5.
    + intros u. rewrite taken_app, finished_app. cbn [taken finished]. rewrite !app_nil_r.
      destruct (Nat.eqb_spec t u) as [->|Hu].
      * rewrite upd_same, I6, ET, app_nil_r. reflexivity.
      * rewrite upd_other by congruence. rewrite app_nil_r. apply I6.
Qed.

Lemma inv_run acts : forall w evs w1 e1, one_lock l acts -> inv w evs -> run w acts = Some (w1, e1) -> inv w1 (evs ++ e1).
Proof.
  induction acts as [|a acts IH]; intros w evs w1 e1 HL HI E; cbn [run] in E.
  - inversion E; subst. rewrite app_nil_r. exact HI.
  - destruct (step w a) as [[w2 e2]|] eqn:ES; [|discriminate].
    destruct (run w2 acts) as [[w3 e3]|] eqn:ER; [|discriminate]. inversion E; subst w3 e1.
    rewrite app_assoc. eapply IH; [| |exact ER].
    + intros t q H. apply (HL t q). right; exact H.
    + eapply inv_step; [|exact HI|exact ES]. intros t q ->. apply (HL t q). left; reflexivity.
Qed.
End OneLock.

Lemma whole_lines_lemma : forall l acts w evs s,
  one_lock l acts -> run init acts = Some (w, evs) ->
  whole_texts (w_out w s) (texts s evs) /\
  ((forall t, w_thread w t = TIdle) -> w_out w s = concat (texts s evs)).
Proof.
  intros l acts w evs s HL E.
  destruct (inv_run l acts init [] w evs HL (inv_init l) E) as (I1 & I2 & I3 & I4 & I5 & I6). cbn [app] in *.
  specialize (I3 s). unfold pending in I3. split.
  - destruct (w_lock w l) as [t|] eqn:EL; [|left; rewrite app_nil_r in I3; exact I3].
    destruct (I2 t eq_refl) as (q & rest & ET). rewrite ET in I3.
    destruct (Bool.eqb (q_stream q) s) eqn:ES; [|left; rewrite app_nil_r in I3; exact I3].
    apply eqb_prop in ES. destruct (I4 s t q rest eq_refl ET ES) as (ts & dn & H1 & H2).
    right. exists ts, (q_bytes q), dn. split; [exact H1|]. split; [exists rest; exact H2|].
    rewrite H1, concat_app in I3. cbn in I3. rewrite app_nil_r, H2, app_assoc in I3. apply app_inv_tail in I3. exact I3.
  - intros HI. destruct (w_lock w l) as [t|] eqn:EL; [|rewrite app_nil_r in I3; exact I3].
    destruct (I2 t eq_refl) as (q & rest & ET). rewrite HI in ET. discriminate.
Qed.

Lemma thread_order_lemma : forall l acts w evs t,
  one_lock l acts -> run init acts = Some (w, evs) ->
  is_prefix (taken t evs) (begun t evs) /\ is_prefix (finished t evs) (taken t evs) /\
  (w_thread w t = TIdle -> finished t evs = begun t evs /\ taken t evs = begun t evs).
Proof.
  intros l acts w evs t HL E.
  destruct (inv_run l acts init [] w evs HL (inv_init l) E) as (I1 & I2 & I3 & I4 & I5 & I6). cbn [app] in *.
  split; [|split].
  - eexists. apply I5.
  - eexists. apply I6.
  - intros HI. rewrite I5, I6, HI, !app_nil_r. split; reflexivity.
Qed.

(** No deadlock: a waiting thread can proceed, or the holder can. *)
Lemma progress_lemma : forall l acts w evs,
  one_lock l acts -> run init acts = Some (w, evs) -> (exists t, w_thread w t <> TIdle) ->
  exists a w' e, (forall t q, a <> Begin t q) /\ step w a = Some (w', e).
Proof.
  intros l acts w evs HL E (t & Ht).
  destruct (inv_run l acts init [] w evs HL (inv_init l) E) as (I1 & I2 & _).
  assert (WR : forall u q rest, w_thread w u = TWrite q rest -> exists a w' e, (forall t q, a <> Begin t q) /\ step w a = Some (w', e)).
  { intros u q [|c rest] EU.
    - exists (Done u). cbn. rewrite EU. eexists _, _. split; [discriminate|reflexivity].
    - exists (Put u). cbn. rewrite EU. eexists _, _. split; [discriminate|reflexivity]. }
  destruct (w_thread w t) as [|q|q rest] eqn:ET; [congruence| |eapply WR; exact ET].
  destruct (w_lock w l) as [u|] eqn:EL.
  - destruct (I2 u eq_refl) as (q1 & r1 & EU). eapply WR; exact EU.
  - assert (QL := I1 t). rewrite ET in QL. exists (Take t). cbn. rewrite ET, QL, EL. eexists _, _. split; [discriminate|reflexivity].
Qed.

(** Two mutexes for one stream. *)
Lemma two_mutexes_lemma : exists acts w evs a b,
  run init acts = Some (w, evs) /\ (forall t, w_thread w t = TIdle) /\
  begun 1 evs = [a] /\ begun 2 evs = [b] /\ q_stream a = false /\ q_stream b = false /\
  w_out w false <> q_bytes a ++ q_bytes b /\ w_out w false <> q_bytes b ++ q_bytes a.
Proof.
  exists [Begin 1 (Request 0 false (B "aa")); Begin 2 (Request 1 false (B "bb")); Take 1; Take 2;
          Put 1; Put 2; Put 1; Put 2; Done 1; Done 2].
  eexists _, _, (Request 0 false (B "aa")), (Request 1 false (B "bb")).
  split; [vm_compute; reflexivity|]. split; [intros [|[|[|t]]]; reflexivity|].
  repeat split; vm_compute; discriminate.
Qed.
