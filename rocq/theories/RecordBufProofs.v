(** Buffered records behave as values. *)
From Verif Require Import Base Values RecordBufModel RecordBufSpec.

Lemma field_eqb_eq a b : field_eqb a b = true <-> a = b.
Proof. destruct a, b; cbn; split; congruence. Qed.

Lemma loc_eqb_eq a b : loc_eqb a b = true <-> a = b.
Proof.
  destruct a as [o f|x], b as [o' f'|y]; cbn; try (split; congruence).
  - rewrite andb_true_iff, Nat.eqb_eq, field_eqb_eq. split; [intros [-> ->]; reflexivity|intros E; inversion E; auto].
  - rewrite Nat.eqb_eq. split; [intros ->; reflexivity|intros E; inversion E; auto].
Qed.

Lemma mset_same m l p : mset m l p l = p.
Proof. unfold mset. destruct (loc_eqb l l) eqn:E; [reflexivity|]. assert (loc_eqb l l = true) by (apply loc_eqb_eq; reflexivity). congruence. Qed.
Lemma mset_other m l p x : x <> l -> mset m l p x = m x.
Proof. intros H. unfold mset. destruct (loc_eqb x l) eqn:E; [apply loc_eqb_eq in E; contradiction|reflexivity]. Qed.
Lemma upd_same {A} (f : nat -> A) k v : upd f k v k = v.
Proof. unfold upd. rewrite Nat.eqb_refl. reflexivity. Qed.
Lemma upd_other {A} (f : nat -> A) k v x : x <> k -> upd f k v x = f x.
Proof. intros H. unfold upd. apply Nat.eqb_neq in H. rewrite H. reflexivity. Qed.
Lemma supd_same {A} (f : nat -> A) k v : supd f k v k = v.
Proof. unfold supd. rewrite Nat.eqb_refl. reflexivity. Qed.
Lemma supd_other {A} (f : nat -> A) k v x : x <> k -> supd f k v x = f x.
Proof. intros H. unfold supd. apply Nat.eqb_neq in H. rewrite H. reflexivity. Qed.

(** ** Reading application memory *)

Lemma shows_bytes w app v s : (forall a, w_app w a = app a) -> Shows app v s -> view_bytes w v = Some s.
Proof.
  intros Ha H. inversion H as [a before s' after E]; subst. unfold view_bytes. cbn [v_place v_off v_len place_bytes].
  rewrite Ha, E. rewrite !app_length. replace (_ <=? _) with true by (symmetry; apply Nat.leb_le; lia).
  rewrite skipn_app, skipn_all, Nat.sub_diag. cbn. rewrite firstn_app, firstn_all, Nat.sub_diag. cbn. rewrite app_nil_r. reflexivity.
Qed.

Lemma shows_value w app v x : (forall a, w_app w a = app a) -> ShowsValue app v x -> into_owned w v = Some x.
Proof.
  intros Ha H. inversion H; subst; cbn; auto.
  - rewrite (shows_bytes _ _ _ _ Ha H0). reflexivity.
  - rewrite Ha, H0. reflexivity.
Qed.

Lemma traverse_forall2 {A B} (f : A -> option B) l r : Forall2 (fun x y => f x = Some y) l r -> traverse f l = Some r.
Proof. induction 1 as [|x y l r H _ IH]; cbn; [reflexivity|]. rewrite H. cbn. rewrite IH. reflexivity. Qed.

Lemma forall2_concat {A B} (R : A -> B -> Prop) l r : Forall2 (Forall2 R) l r -> Forall2 R (concat l) (concat r).
Proof. induction 1; cbn; [constructor|]. apply Forall2_app; assumption. Qed.

Lemma forall2_impl {A B} (P Q : A -> B -> Prop) l r : (forall x y, P x y -> Q x y) -> Forall2 P l r -> Forall2 Q l r.
Proof. intros H. induction 1; constructor; auto. Qed.

Lemma shows_flatten w app pack lists : (forall a, w_app w a = app a) ->
  Forall2 (Forall2 (ShowsAttribute app)) pack lists -> flatten w pack = Some (concat lists).
Proof.
  intros Ha H. unfold flatten. apply traverse_forall2. apply forall2_concat in H.
  eapply forall2_impl; [|exact H]. intros [kv vv] [k v] [H1 H2]. cbn in *.
  rewrite (shows_bytes _ _ _ _ Ha H1). cbn. rewrite (shows_value _ _ _ _ Ha H2). reflexivity.
Qed.

Definition no_fun (a : attribute) : Prop := match snd a with VFun _ => False | _ => True end.

Lemma shows_no_fun app pack lists : Forall2 (Forall2 (ShowsAttribute app)) pack lists -> Forall no_fun (concat lists).
Proof.
  intros H. apply forall2_concat in H. induction H as [|[kv vv] [k v] l r [_ H] _ IH]; constructor; [|exact IH].
  unfold no_fun. cbn in *. inversion H; exact I.
Qed.

(** ** Reading back owned containers *)

Lemma views_from_read w l e : w_mem w l = Some (Elems e) -> forall pre suf, e = pre ++ suf -> Forall no_fun suf ->
  traverse (observe_attribute w) (views_from l (length pre) suf) = Some suf.
Proof.
  intros Hm pre suf. revert pre. induction suf as [|[k v] suf IH]; intros pre -> Hn; [reflexivity|].
  cbn [views_from traverse]. inversion Hn as [|? ? Hv Hn']; subst.
  assert (Hnth : nth_error (pre ++ ((k, v) : attribute) :: suf) (length pre) = Some (k, v)).
  { rewrite nth_error_app2, Nat.sub_diag by lia. reflexivity. }
  assert (Ek : view_bytes w (View (PKey l (length pre)) 0 (length k)) = Some k).
  { unfold view_bytes. cbn [v_place v_off v_len place_bytes]. rewrite Hm. rewrite Hnth. cbn. rewrite Nat.leb_refl. rewrite firstn_all. reflexivity. }
  assert (Ev : into_owned w (view_of_value l (length pre) v) = Some v).
  { destruct v; cbn [view_of_value into_owned]; try reflexivity; [|destruct Hv].
    unfold view_bytes. cbn [v_place v_off v_len place_bytes]. rewrite Hm, Hnth. rewrite Nat.leb_refl. cbn. rewrite firstn_all. reflexivity. }
  unfold observe_attribute at 1. cbn [fst snd]. rewrite Ek. cbn [bind]. rewrite Ev. cbn [bind].
  specialize (IH (pre ++ [(k, v)])). rewrite app_length in IH. cbn [length] in IH. rewrite Nat.add_1_r in IH.
  rewrite IH by (try assumption; rewrite <- app_assoc; reflexivity). reflexivity.
Qed.

Lemma text_read w l s : w_mem w l = Some (Text s) -> view_bytes w (View (PText l) 0 (length s)) = Some s.
Proof. intros H. unfold view_bytes. cbn [v_place v_off v_len place_bytes]. rewrite H. rewrite Nat.leb_refl. cbn. rewrite firstn_all. reflexivity. Qed.

(** ** Invariant *)

Definition kind (f : field) (p : payload) : Prop :=
  match f, p with Att, Elems _ => True | Msg, Text _ | Fmt, Text _ => True | _, _ => False end.

Definition own (n : nat) (o : obj) (f : field) (l : loc) : Prop := l = Inline o f \/ exists b, l = Heap b /\ b < n.

Definition stored (m : loc -> option payload) (n : nat) (o : obj) (rb : rbuf) : Prop :=
  forall f, own n o f (b_loc rb f) /\ exists p, m (b_loc rb f) = Some p /\ kind f p.

Definition holds (m : loc -> option payload) (o : obj) (rb : rbuf) (r : record) : Prop :=
  exists e, m (b_loc rb Msg) = Some (Text (r_message r)) /\
    m (b_loc rb Fmt) = Some (Text (r_formatted r)) /\
    m (b_loc rb Att) = Some (Elems e) /\ Forall no_fun e /\ r_attributes r = [e] /\
    b_msgv rb = View (PText (b_loc rb Msg)) 0 (length (r_message r)) /\
    b_fmtv rb = View (PText (b_loc rb Fmt)) 0 (length (r_formatted r)) /\
    b_attv rb = views_from (b_loc rb Att) 0 e /\
    b_pack rb = [o] /\ b_inner rb = Some (Inner o o (r_severity r) (r_timestamp r) (r_tid r) o).

Definition good (m : loc -> option payload) (n : nat) (o : obj) (rb : rbuf) (c : content) : Prop :=
  stored m n o rb /\ match c with Nothing => b_pack rb = [] | Holds r => holds m o rb r end.

Record Inv (w : world) (s : sstate) : Prop := {
  inv_app : forall a, w_app w a = s_app s a;
  inv_obj : forall o, match s_obj s o with
                      | None => w_bufs w o = None
                      | Some c => exists rb, w_bufs w o = Some rb /\ good (w_mem w) (w_next w) o rb c
                      end;
  inv_sep : forall o o' rb rb' f f' b, w_bufs w o = Some rb -> w_bufs w o' = Some rb' ->
    b_loc rb f = Heap b -> b_loc rb' f' = Heap b -> o = o' /\ f = f'
}.

Lemma inv_init app : Inv (init app) (sinit app).
Proof. split; cbn; [reflexivity|reflexivity|discriminate]. Qed.

Lemma good_ext m m' n n' o rb c : n <= n' -> (forall f, m' (b_loc rb f) = m (b_loc rb f)) -> good m n o rb c -> good m' n' o rb c.
Proof.
  intros Hn E [H1 H2]. split.
  - intros f. destruct (H1 f) as [Ho (p & Hp & Hk)]. split.
    + destruct Ho as [Ho|(b & Hb & Hlt)]; [left; exact Ho|right; exists b; split; [exact Hb|lia]].
    + exists p. rewrite E. auto.
  - destruct c as [|r]; [exact H2|]. destruct H2 as (e & A & B & C & D). exists e. rewrite !E. auto.
Qed.

(** An object's locations are not those of another object. *)
Lemma own_neq n o f l o' f' : own n o f l -> o' <> o -> l <> Inline o' f'.
Proof. intros [->|(b & -> & _)] H E; inversion E; congruence. Qed.

Lemma own_field_neq n o f l o' f' : own n o f l -> f' <> f -> l <> Inline o' f'.
Proof. intros [->|(b & -> & _)] H E; inversion E; congruence. Qed.

(** ** Construction *)

Definition loc3 (l1 l2 l3 : loc) : field -> loc := fun f => match f with Msg => l1 | Fmt => l2 | Att => l3 end.

Lemma container_new_spec fits m n o f p m' n' l : container_new fits m n o f p = (m', n', l) ->
  m' l = Some p /\ n <= n' /\ own n' o f l /\ (forall b, l = Heap b -> n <= b) /\
  (forall x, x <> l -> m' x = m x).
Proof.
  unfold container_new. destruct (fits p); intros E; inversion E; subst.
  - repeat split; [apply mset_same|lia|left; reflexivity|discriminate|]. intros; apply mset_other; assumption.
  - repeat split; [apply mset_same|lia|right; eexists; split; [reflexivity|lia]|intros b Eb; inversion Eb; lia|].
    intros; apply mset_other; assumption.
Qed.

Lemma new_three fits m n o p1 p2 p3 m1 n1 l1 m2 n2 l2 m3 n3 l3 :
  container_new fits m n o Msg p1 = (m1, n1, l1) ->
  container_new fits m1 n1 o Fmt p2 = (m2, n2, l2) ->
  container_new fits m2 n2 o Att p3 = (m3, n3, l3) ->
  m1 l1 = Some p1 /\ m2 l2 = Some p2 /\
  m3 l1 = Some p1 /\ m3 l2 = Some p2 /\ m3 l3 = Some p3 /\ n <= n3 /\
  (forall f, own n3 o f (loc3 l1 l2 l3 f)) /\
  (forall f b, loc3 l1 l2 l3 f = Heap b -> n <= b) /\
  (forall f f' b, loc3 l1 l2 l3 f = Heap b -> loc3 l1 l2 l3 f' = Heap b -> f = f') /\
  (forall x, (forall f, x <> loc3 l1 l2 l3 f) -> m3 x = m x).
Proof.
  intros E1 E2 E3.
  apply container_new_spec in E1 as (A1 & B1 & C1 & D1 & F1).
  apply container_new_spec in E2 as (A2 & B2 & C2 & D2 & F2).
  apply container_new_spec in E3 as (A3 & B3 & C3 & D3 & F3).
  assert (N12 : l1 <> l2).
  { destruct C1 as [->|(b & -> & Hb)], C2 as [->|(b' & -> & Hb')]; try congruence.
    intros E; inversion E; subst. specialize (D2 _ eq_refl). lia. }
  assert (N13 : l1 <> l3).
  { destruct C1 as [->|(b & -> & Hb)], C3 as [->|(b' & -> & Hb')]; try congruence.
    intros E; inversion E; subst. specialize (D3 _ eq_refl). lia. }
  assert (N23 : l2 <> l3).
  { destruct C2 as [->|(b & -> & Hb)], C3 as [->|(b' & -> & Hb')]; try congruence.
    intros E; inversion E; subst. specialize (D3 _ eq_refl). lia. }
  repeat split.
  - exact A1.
  - exact A2.
  - rewrite F3, F2 by congruence. exact A1.
  - rewrite F3 by congruence. exact A2.
  - exact A3.
  - lia.
  - intros [| |]; cbn; [destruct C1 as [->|(b & -> & Hb)]|destruct C2 as [->|(b & -> & Hb)]|exact C3];
      try (left; reflexivity); right; eexists; (split; [reflexivity|lia]).
  - intros [| |] b; cbn; intros E; [apply D1 in E|apply D2 in E|apply D3 in E]; lia.
  - intros [| |] [| |] b; cbn; congruence.
  - intros x H. pose proof (H Msg). pose proof (H Fmt). pose proof (H Att). cbn in *.
    rewrite F3, F2, F1 by assumption. reflexivity.
Qed.

Lemma inv_add w s o m' n' rb c :
  Inv w s -> s_obj s o = None -> w_next w <= n' ->
  good m' n' o rb c ->
  (forall f b, b_loc rb f = Heap b -> w_next w <= b) ->
  (forall f f' b, b_loc rb f = Heap b -> b_loc rb f' = Heap b -> f = f') ->
  (forall x, (forall f, x <> b_loc rb f) -> m' x = w_mem w x) ->
  Inv (World m' (upd (w_bufs w) o (Some rb)) (w_app w) n') (SState (supd (s_obj s) o (Some c)) (s_app s)).
Proof.
  intros HI Ho Hn Hg Hf Hff Hm. split; cbn.
  - apply (inv_app _ _ HI).
  - intros o'. destruct (Nat.eq_dec o' o) as [->|Hne].
    + rewrite supd_same, upd_same. eauto.
    + rewrite supd_other, upd_other by assumption. pose proof (inv_obj _ _ HI o') as H.
      destruct (s_obj s o') as [c'|]; [|exact H]. destruct H as (rb' & E & Hg'). exists rb'. split; [exact E|].
      apply (good_ext (w_mem w) _ (w_next w)); [exact Hn| |exact Hg'].
      intros f. apply Hm. intros f' El. destruct Hg as [Hs _]. destruct (Hs f') as [Ho' _].
      destruct Hg' as [Hs' _]. destruct (Hs' f) as [Ho'' _].
      destruct Ho' as [E1|(b & E1 & _)], Ho'' as [E2|(b' & E2 & Hb')]; rewrite E1, E2 in El; inversion El; subst; [congruence|].
      apply Hf in E1. lia.
  - intros o1 o2 rb1 rb2 f1 f2 b E1 E2 L1 L2.
    destruct (Nat.eq_dec o1 o) as [->|N1], (Nat.eq_dec o2 o) as [->|N2];
      rewrite ?upd_same in *; rewrite ?upd_other in E1 by assumption; rewrite ?upd_other in E2 by assumption.
    + inversion E1; inversion E2; subst. split; [reflexivity|eauto].
    + inversion E1; subst. exfalso. pose proof (inv_obj _ _ HI o2) as H. destruct (s_obj s o2); [|congruence].
      destruct H as (x & Ex & [Hx _]). rewrite E2 in Ex. inversion Ex; subst. destruct (Hx f2) as [[G|(b' & G & Hb')] _]; rewrite L2 in G; inversion G; subst.
      apply Hf in L1. lia.
    + inversion E2; subst. exfalso. pose proof (inv_obj _ _ HI o1) as H. destruct (s_obj s o1); [|congruence].
      destruct H as (x & Ex & [Hx _]). rewrite E1 in Ex. inversion Ex; subst. destruct (Hx f1) as [[G|(b' & G & Hb')] _]; rewrite L1 in G; inversion G; subst.
      apply Hf in L2. lia.
    + eapply (inv_sep _ _ HI); eassumption.
Qed.

Lemma step_new fits w s o : Inv w s -> s_obj s o = None ->
  exists w', step fits w (NewEmpty o) = Some (w', None) /\ Inv w' (SState (supd (s_obj s) o (Some Nothing)) (s_app s)).
Proof.
  intros HI Ho. pose proof (inv_obj _ _ HI o) as Hb. rewrite Ho in Hb. unfold step. rewrite Hb. unfold new_empty.
  destruct (container_new fits (w_mem w) (w_next w) o Msg (Text [])) as [[m1 n1] l1] eqn:E1.
  destruct (container_new fits m1 n1 o Fmt (Text [])) as [[m2 n2] l2] eqn:E2.
  destruct (container_new fits m2 n2 o Att (Elems [])) as [[m3 n3] l3] eqn:E3.
  destruct (new_three _ _ _ _ _ _ _ _ _ _ _ _ _ _ _ _ E1 E2 E3) as (A1 & A2 & A3 & A4 & A5 & Hn & Hown & Hf & Hff & Hm).
  unfold view_of_text, view_of_attributes. rewrite A1, A2, A5. cbn. eexists. split; [reflexivity|].
  apply (inv_add w s o m3 n3); auto. split; [|reflexivity].
  intros f. split; [apply Hown|]. destruct f; cbn; [exists (Text [])|exists (Text [])|exists (Elems [])]; cbn; auto.
Qed.

Lemma step_copy fits w s o v r : Inv w s -> s_obj s o = None -> Snapshot (s_app s) v r ->
  exists w', step fits w (Copy o v) = Some (w', None) /\ Inv w' (SState (supd (s_obj s) o (Some (Holds r))) (s_app s)).
Proof.
  intros HI Ho Hs. pose proof (inv_obj _ _ HI o) as Hb. rewrite Ho in Hb. unfold step. rewrite Hb. unfold copy_record.
  inversion Hs as [mv fv sev ts tid pack message formatted lists H1 H2 H3]; subst. cbn [rv_message rv_formatted rv_attributes rv_severity rv_timestamp rv_tid].
  rewrite (shows_bytes _ _ _ _ (inv_app _ _ HI) H1). cbn [bind].
  rewrite (shows_bytes _ _ _ _ (inv_app _ _ HI) H2). cbn [bind].
  rewrite (shows_flatten _ _ _ _ (inv_app _ _ HI) H3). cbn [bind].
  destruct (container_new fits (w_mem w) (w_next w) o Msg (Text message)) as [[m1 n1] l1] eqn:E1.
  destruct (container_new fits m1 n1 o Fmt (Text formatted)) as [[m2 n2] l2] eqn:E2.
  destruct (container_new fits m2 n2 o Att (Elems (concat lists))) as [[m3 n3] l3] eqn:E3.
  destruct (new_three _ _ _ _ _ _ _ _ _ _ _ _ _ _ _ _ E1 E2 E3) as (A1 & A2 & A3 & A4 & A5 & Hn & Hown & Hf & Hff & Hm).
  unfold view_of_text, view_of_attributes. rewrite A1, A2, A5. cbn. eexists. split; [reflexivity|].
  apply (inv_add w s o m3 n3); auto. split.
  - intros f. split; [apply Hown|]. destruct f; cbn; eexists; split; try eassumption; exact I.
  - exists (concat lists). cbn. repeat split; auto. eapply shows_no_fun; eassumption.
Qed.

(** ** Moves *)

Definition move_spec (m : loc -> option payload) (f : field) (src dst : obj) (ls ld : loc) (r : (loc -> option payload) * loc * loc) : Prop :=
  let '(m', s', d') := r in
  s' = Inline src f /\ m' s' = Some (empty_payload f) /\
  (d' = ld \/ (d' = ls /\ exists b, ls = Heap b)) /\ m' d' = m ls /\
  (forall x, x <> Inline src f -> x <> ld -> m' x = m x).

Lemma container_move_spec m f src dst ls : src <> dst -> (ls = Inline src f \/ exists b, ls = Heap b) ->
  move_spec m f src dst ls (Inline dst f) (container_move m f src dst ls).
Proof.
  intros Hne [->|(b & ->)]; unfold move_spec; cbn [container_move container_move_assign].
  - refine (conj eq_refl (conj (mset_same _ _ _) (conj (or_introl eq_refl) (conj _ _)))).
    + rewrite mset_other by congruence. apply mset_same.
    + intros x H1 H2. rewrite !mset_other by assumption. reflexivity.
  - refine (conj eq_refl (conj (mset_same _ _ _) (conj (or_intror (conj eq_refl (ex_intro _ _ eq_refl))) (conj _ _)))).
    + apply mset_other. discriminate.
    + intros x H1 H2. apply mset_other. assumption.
Qed.

Lemma container_move_assign_spec m f src dst ls ld : src <> dst -> ls <> ld ->
  (ls = Inline src f \/ exists b, ls = Heap b) -> (ld = Inline dst f \/ exists b, ld = Heap b) ->
  move_spec m f src dst ls ld (container_move_assign m f src ls ld).
Proof.
  intros Hne Hl [->|(b & ->)] Hd; unfold move_spec; cbn [container_move container_move_assign].
  - refine (conj eq_refl (conj (mset_same _ _ _) (conj (or_introl eq_refl) (conj _ _)))).
    + rewrite mset_other. apply mset_same. destruct Hd as [->|(d & ->)]; congruence.
    + intros x H1 H2. rewrite !mset_other by assumption. reflexivity.
  - destruct Hd as [->|(d & ->)].
    + refine (conj eq_refl (conj (mset_same _ _ _) (conj (or_intror (conj eq_refl (ex_intro _ _ eq_refl))) (conj _ _)))).
      * apply mset_other. discriminate.
      * intros x H1 H2. apply mset_other. assumption.
    + refine (conj eq_refl (conj (mset_same _ _ _) (conj (or_intror (conj eq_refl (ex_intro _ _ eq_refl))) (conj _ _)))).
      * rewrite !mset_other by congruence. reflexivity.
      * intros x H1 H2. rewrite !mset_other by assumption. reflexivity.
Qed.

(** The six locations involved are pairwise distinct where it matters. *)
Lemma moves_three m src dst (LS LD : field -> loc) m1 s1 d1 m2 s2 d2 m3 s3 d3 :
  src <> dst ->
  (forall f, LS f = Inline src f \/ exists b, LS f = Heap b) ->
  (forall f, LD f = Inline dst f \/ exists b, LD f = Heap b) ->
  (forall f f' b, LS f = Heap b -> LS f' = Heap b -> f = f') ->
  (forall f f' b, LD f = Heap b -> LD f' = Heap b -> f = f') ->
  (forall f f' b, LS f = Heap b -> LD f' = Heap b -> False) ->
  move_spec m Msg src dst (LS Msg) (LD Msg) (m1, s1, d1) ->
  move_spec m1 Fmt src dst (LS Fmt) (LD Fmt) (m2, s2, d2) ->
  move_spec m2 Att src dst (LS Att) (LD Att) (m3, s3, d3) ->
  m1 d1 = m (LS Msg) /\ m2 d2 = m (LS Fmt) /\
  (forall f, m3 (loc3 d1 d2 d3 f) = m (LS f)) /\
  (forall f, loc3 s1 s2 s3 f = Inline src f /\ m3 (Inline src f) = Some (empty_payload f)) /\
  (forall f, loc3 d1 d2 d3 f = LD f \/ (loc3 d1 d2 d3 f = LS f /\ exists b, LS f = Heap b)) /\
  (forall x, (forall f, x <> Inline src f) -> (forall f, x <> LD f) -> m3 x = m x).
Proof.
  intros Hne HS HD SS DD SD (A1 & B1 & C1 & D1 & F1) (A2 & B2 & C2 & D2 & F2) (A3 & B3 & C3 & D3 & F3).
  assert (X : forall f f', f <> f' -> LS f <> LD f').
  { intros f f' Hff E. destruct (HS f) as [H|(b & H)], (HD f') as [H'|(b' & H')]; rewrite H, H' in E; inversion E; subst; [congruence|].
    eapply SD; eassumption. }
  assert (Y : forall f f', f <> f' -> LD f <> LD f').
  { intros f f' Hff E. destruct (HD f) as [H|(b & H)], (HD f') as [H'|(b' & H')]; rewrite H, H' in E; inversion E; subst; [congruence|].
    apply Hff. eapply DD; eassumption. }
  assert (Z : forall f f', f <> f' -> LS f <> Inline src f').
  { intros f f' Hff E. destruct (HS f) as [H|(b & H)]; rewrite H in E; inversion E; congruence. }
  assert (W : forall f f', LD f <> Inline src f').
  { intros f f' E. destruct (HD f) as [H|(b & H)]; rewrite H in E; inversion E; congruence. }
  assert (E2 : m1 (LS Fmt) = m (LS Fmt)) by (apply F1; [apply Z|apply X]; discriminate).
  assert (E3 : m2 (LS Att) = m (LS Att)).
  { rewrite F2, F1; [reflexivity|apply Z|apply X|apply Z|apply X]; discriminate. }
  assert (K : forall f f', f <> f' -> (forall d, (d = LD f \/ (d = LS f /\ exists b, LS f = Heap b)) -> d <> Inline src f' /\ d <> LD f')).
  { intros f f' Hff d [->|[-> _]]; split; auto. }
  repeat split.
  - exact D1.
  - rewrite D2. exact E2.
  - intros [| |]; cbn [loc3].
    + destruct (K Msg Fmt ltac:(discriminate) _ C1), (K Msg Att ltac:(discriminate) _ C1).
      rewrite F3, F2 by assumption. exact D1.
    + destruct (K Fmt Att ltac:(discriminate) _ C2). rewrite F3 by assumption. rewrite D2. exact E2.
    + rewrite D3. exact E3.
  - destruct f; cbn [loc3]; assumption.
  - destruct f.
    + rewrite F3, F2; [rewrite <- A1; exact B1|congruence|apply not_eq_sym, W|congruence|apply not_eq_sym, W].
    + rewrite F3; [rewrite <- A2; exact B2|congruence|apply not_eq_sym, W].
    + rewrite <- A3. exact B3.
  - intros [| |]; cbn [loc3]; assumption.
  - intros x H1 H2. rewrite F3, F2, F1; auto.
Qed.

(** Re-establishing the invariant after a move. [LD]: where the destination kept its data before (its
    inline storage if it did not exist). *)
Lemma inv_move w s src dst r rb (LD : field -> loc) m3 (LD' : field -> loc) rs rd :
  Inv w s -> src <> dst -> s_obj s src = Some (Holds r) -> w_bufs w src = Some rb ->
  (forall f, own (w_next w) dst f (LD f)) ->
  (forall f f' b, LD f = Heap b -> LD f' = Heap b -> f = f') ->
  (forall o x f f' b, o <> dst -> w_bufs w o = Some x -> b_loc x f = Heap b -> LD f' = Heap b -> False) ->
  (forall f, m3 (LD' f) = w_mem w (b_loc rb f)) ->
  (forall f, b_loc rs f = Inline src f /\ m3 (Inline src f) = Some (empty_payload f)) ->
  (forall f, LD' f = LD f \/ (LD' f = b_loc rb f /\ exists b, b_loc rb f = Heap b)) ->
  (forall x, (forall f, x <> Inline src f) -> (forall f, x <> LD f) -> m3 x = w_mem w x) ->
  b_pack rs = [] -> (forall f, b_loc rd f = LD' f) ->
  holds m3 dst rd r ->
  Inv (World m3 (upd (upd (w_bufs w) src (Some rs)) dst (Some rd)) (w_app w) (w_next w))
      (SState (supd (supd (s_obj s) src (Some Nothing)) dst (Some (Holds r))) (s_app s)).
Proof.
  intros HI Hne Hs Hb Hown Hdd Hod Hm Hrs Hd' Hfr Hp Hrd Hh.
  pose proof (inv_obj _ _ HI src) as Hsrc. rewrite Hs in Hsrc. destruct Hsrc as (rb0 & Eb & Hgs). rewrite Hb in Eb. inversion Eb; subst rb0.
  destruct Hgs as [Hst _].
  split; cbn.
  - apply (inv_app _ _ HI).
  - intros o. destruct (Nat.eq_dec o dst) as [->|Nd]; [|destruct (Nat.eq_dec o src) as [->|Ns]].
    + rewrite supd_same, upd_same. exists rd. split; [reflexivity|]. split; [|exact Hh].
      intros f. rewrite Hrd. split.
      * destruct (Hd' f) as [->|(-> & b & Hbl)]; [apply Hown|]. destruct (Hst f) as [[G|G] _]; [congruence|right; exact G].
      * destruct (Hst f) as (_ & p & Ep & Hk). exists p. rewrite Hm. auto.
    + rewrite supd_other, supd_same, upd_other, upd_same by congruence. exists rs. split; [reflexivity|]. split; [|exact Hp].
      intros f. destruct (Hrs f) as [-> Hm3]. split; [left; reflexivity|]. rewrite Hm3. eexists; split; [reflexivity|]. destruct f; exact I.
    + rewrite 2 supd_other, 2 upd_other by assumption. pose proof (inv_obj _ _ HI o) as H.
      destruct (s_obj s o) as [c|]; [|exact H]. destruct H as (x & Ex & Hg). exists x. split; [exact Ex|].
      apply (good_ext (w_mem w) _ (w_next w)); [lia| |exact Hg]. intros f. destruct Hg as [Hsx _]. destruct (Hsx f) as [Hox _].
      apply Hfr.
      * intros f'. eapply own_neq; [exact Hox|congruence].
      * intros f' E. destruct (Hown f') as [G|(b & G & _)]; rewrite G in E.
        -- revert E. eapply own_neq; [exact Hox|congruence].
        -- eapply Hod; eauto.
  - intros o1 o2 rb1 rb2 f1 f2 b E1 E2 L1 L2.
    assert (Src : forall o x f, o <> dst -> upd (upd (w_bufs w) src (Some rs)) dst (Some rd) o = Some x -> b_loc x f = Heap b ->
              o <> src /\ w_bufs w o = Some x).
    { intros o x f No Ex Hx. rewrite upd_other in Ex by assumption. destruct (Nat.eq_dec o src) as [->|Ns].
      - rewrite upd_same in Ex. inversion Ex; subst. destruct (Hrs f) as [G _]. congruence.
      - rewrite upd_other in Ex by assumption. auto. }
    assert (Dst : forall o x f f', o <> dst -> upd (upd (w_bufs w) src (Some rs)) dst (Some rd) o = Some x -> b_loc x f = Heap b ->
              b_loc rd f' = Heap b -> False).
    { intros o x f f' No Ex Hx Hf'. destruct (Src _ _ _ No Ex Hx) as [Ns Ex']. rewrite Hrd in Hf'.
      destruct (Hd' f') as [G|(G & _)]; rewrite G in Hf'.
      - eapply Hod; eauto.
      - destruct (inv_sep _ _ HI _ _ _ _ _ _ _ Ex' Hb Hx Hf') as [-> _]. congruence. }
    destruct (Nat.eq_dec o1 dst) as [->|N1], (Nat.eq_dec o2 dst) as [->|N2].
    + rewrite upd_same in E1, E2. inversion E1; inversion E2; subst. split; [reflexivity|]. rewrite Hrd in L1, L2.
      destruct (Hd' f1) as [G1|(G1 & _)], (Hd' f2) as [G2|(G2 & _)]; rewrite G1 in L1; rewrite G2 in L2.
      * eauto.
      * exfalso. eapply (Hod src rb); eauto.
      * exfalso. eapply (Hod src rb); eauto.
      * eapply (inv_sep _ _ HI); eassumption.
    + exfalso. rewrite upd_same in E1. inversion E1; subst. eapply Dst; eauto.
    + exfalso. rewrite upd_same in E2. inversion E2; subst. eapply Dst; eauto.
    + destruct (Src _ _ _ N1 E1 L1), (Src _ _ _ N2 E2 L2). eapply (inv_sep _ _ HI); eassumption.
Qed.

Lemma own_split n o f l : own n o f l -> l = Inline o f \/ exists b, l = Heap b.
Proof. intros [H|(b & H & _)]; eauto. Qed.

(** The common part of both kinds of move: all reads succeed and the new destination is right. *)
Lemma holds_moved w src dst rb r m3 d1 d2 d3 mv fv av pack :
  holds (w_mem w) src rb r ->
  (forall f, m3 (loc3 d1 d2 d3 f) = w_mem w (b_loc rb f)) ->
  mv = View (PText d1) 0 (length (r_message r)) -> fv = View (PText d2) 0 (length (r_formatted r)) ->
  (forall e, r_attributes r = [e] -> av = views_from d3 0 e) -> pack = [dst] ->
  holds m3 dst (RBuf (loc3 d1 d2 d3) mv fv av pack (repoint_inner (b_inner rb) dst)) r.
Proof.
  intros (e & A & B & C & D & E & F & G & H & I & J) Hm -> -> Hav ->.
  exists e. cbn [b_loc b_msgv b_fmtv b_attv b_pack b_inner]. rewrite !Hm. rewrite J. cbn.
  repeat split; auto.
Qed.

Lemma step_move_construct fits w s src dst r : Inv w s -> s_obj s src = Some (Holds r) -> s_obj s dst = None ->
  exists w', step fits w (MoveConstruct src dst) = Some (w', None) /\
    Inv w' (SState (supd (supd (s_obj s) src (Some Nothing)) dst (Some (Holds r))) (s_app s)).
Proof.
  intros HI Hs Hd. assert (Hne : src <> dst) by congruence.
  pose proof (inv_obj _ _ HI dst) as Hbd. rewrite Hd in Hbd. unfold step. rewrite Hbd. unfold move_construct.
  pose proof (inv_obj _ _ HI src) as Hsrc. rewrite Hs in Hsrc. destruct Hsrc as (rb & Hb & Hst & Hh). rewrite Hb. cbn [bind].
  assert (HS : forall f, b_loc rb f = Inline src f \/ exists b, b_loc rb f = Heap b) by (intros f; eapply own_split, Hst).
  pose proof (container_move_spec (w_mem w) Msg src dst (b_loc rb Msg) Hne (HS Msg)) as M1.
  destruct (container_move (w_mem w) Msg src dst (b_loc rb Msg)) as [[m1 s1] d1].
  pose proof (container_move_spec m1 Fmt src dst (b_loc rb Fmt) Hne (HS Fmt)) as M2.
  destruct (container_move m1 Fmt src dst (b_loc rb Fmt)) as [[m2 s2] d2].
  pose proof (container_move_spec m2 Att src dst (b_loc rb Att) Hne (HS Att)) as M3.
  destruct (container_move m2 Att src dst (b_loc rb Att)) as [[m3 s3] d3].
  destruct (moves_three (w_mem w) src dst (b_loc rb) (fun f => Inline dst f) m1 s1 d1 m2 s2 d2 m3 s3 d3 Hne HS)
    as (R1 & R2 & R3 & R4 & R5 & R6); [auto| |discriminate|discriminate|exact M1|exact M2|exact M3|].
  { intros f f' b H1 H2. exact (proj2 (inv_sep _ _ HI _ _ _ _ _ _ _ Hb Hb H1 H2)). }
  pose proof Hh as (e & A & B & C & D & E & F & G & H & I & J).
  rewrite A in R1. rewrite B in R2. pose proof (R3 Att) as R3'. cbn [loc3] in R3'. rewrite C in R3'.
  unfold view_of_text. rewrite R1. cbn [bind]. rewrite R2. cbn [bind]. unfold view_of_attributes. rewrite R3'. cbn [bind].
  rewrite I. cbn [repoint_pack bind]. eexists. split; [reflexivity|].
  eapply (inv_move w s src dst r rb (fun f => Inline dst f) m3 (loc3 d1 d2 d3)); auto.
  - intros f. left. reflexivity.
  - discriminate.
  - discriminate.
  - apply (holds_moved w src dst rb r m3 d1 d2 d3); auto. intros e' E'. rewrite E in E'. inversion E'. reflexivity.
Qed.

Lemma step_move_assign fits w s src dst r c : Inv w s -> src <> dst -> s_obj s src = Some (Holds r) -> s_obj s dst = Some c ->
  exists w', step fits w (MoveAssign src dst) = Some (w', None) /\
    Inv w' (SState (supd (supd (s_obj s) src (Some Nothing)) dst (Some (Holds r))) (s_app s)).
Proof.
  intros HI Hne Hs Hd.
  pose proof (inv_obj _ _ HI dst) as Hbd. rewrite Hd in Hbd. destruct Hbd as (rd & Hbd & Hstd & _).
  pose proof (inv_obj _ _ HI src) as Hsrc. rewrite Hs in Hsrc. destruct Hsrc as (rb & Hb & Hst & Hh).
  unfold step, move_assign. apply Nat.eqb_neq in Hne as Hne'. rewrite Hne', Hb, Hbd. cbn [bind].
  assert (HS : forall f, b_loc rb f = Inline src f \/ exists b, b_loc rb f = Heap b) by (intros f; eapply own_split, Hst).
  assert (HD : forall f, b_loc rd f = Inline dst f \/ exists b, b_loc rd f = Heap b) by (intros f; eapply own_split, Hstd).
  assert (SD : forall f f' b, b_loc rb f = Heap b -> b_loc rd f' = Heap b -> False).
  { intros f f' b H1 H2. destruct (inv_sep _ _ HI _ _ _ _ _ _ _ Hb Hbd H1 H2). contradiction. }
  assert (SDn : forall f, b_loc rb f <> b_loc rd f).
  { intros f E. destruct (HS f) as [H1|(b & H1)], (HD f) as [H2|(b' & H2)]; rewrite H1, H2 in E; inversion E; subst; [congruence|eauto]. }
  pose proof (container_move_assign_spec (w_mem w) Msg src dst _ _ Hne (SDn Msg) (HS Msg) (HD Msg)) as M1.
  destruct (container_move_assign (w_mem w) Msg src (b_loc rb Msg) (b_loc rd Msg)) as [[m1 s1] d1].
  pose proof (container_move_assign_spec m1 Fmt src dst _ _ Hne (SDn Fmt) (HS Fmt) (HD Fmt)) as M2.
  destruct (container_move_assign m1 Fmt src (b_loc rb Fmt) (b_loc rd Fmt)) as [[m2 s2] d2].
  pose proof (container_move_assign_spec m2 Att src dst _ _ Hne (SDn Att) (HS Att) (HD Att)) as M3.
  destruct (container_move_assign m2 Att src (b_loc rb Att) (b_loc rd Att)) as [[m3 s3] d3].
  destruct (moves_three (w_mem w) src dst (b_loc rb) (b_loc rd) m1 s1 d1 m2 s2 d2 m3 s3 d3 Hne HS HD)
    as (R1 & R2 & R3 & R4 & R5 & R6); [| |exact SD|exact M1|exact M2|exact M3|].
  { intros f f' b H1 H2. exact (proj2 (inv_sep _ _ HI _ _ _ _ _ _ _ Hb Hb H1 H2)). }
  { intros f f' b H1 H2. exact (proj2 (inv_sep _ _ HI _ _ _ _ _ _ _ Hbd Hbd H1 H2)). }
  pose proof Hh as (e & A & B & C & D & E & F & G & H & I & J).
  rewrite A in R1. rewrite B in R2. pose proof (R3 Att) as R3'. cbn [loc3] in R3'. rewrite C in R3'.
  unfold view_of_text. rewrite R1. cbn [bind]. rewrite R2. cbn [bind]. unfold view_of_attributes. rewrite R3'. cbn [bind].
  rewrite I. cbn [repoint_pack bind]. eexists. split; [reflexivity|].
  eapply (inv_move w s src dst r rb (b_loc rd) m3 (loc3 d1 d2 d3)); auto.
  - intros f. apply Hstd.
  - intros f f' b H1 H2. exact (proj2 (inv_sep _ _ HI _ _ _ _ _ _ _ Hbd Hbd H1 H2)).
  - intros o x f f' b No Ex H1 H2. destruct (inv_sep _ _ HI _ _ _ _ _ _ _ Ex Hbd H1 H2). contradiction.
  - apply (holds_moved w src dst rb r m3 d1 d2 d3); auto. intros e' E'. rewrite E in E'. inversion E'. reflexivity.
Qed.

(** ** Destruction, application writes, observation *)

Lemma step_destroy fits w s o c : Inv w s -> s_obj s o = Some c ->
  exists w', step fits w (Destroy o) = Some (w', None) /\ Inv w' (SState (supd (s_obj s) o None) (s_app s)).
Proof.
  intros HI Ho. pose proof (inv_obj _ _ HI o) as H. rewrite Ho in H. destruct H as (rb & Hb & Hst & _).
  unfold step, destroy. rewrite Hb. cbn [bind option_map]. eexists. split; [reflexivity|]. split; cbn.
  - apply (inv_app _ _ HI).
  - intros o'. destruct (Nat.eq_dec o' o) as [->|No].
    + rewrite supd_same, upd_same. reflexivity.
    + rewrite supd_other, upd_other by assumption. pose proof (inv_obj _ _ HI o') as H.
      destruct (s_obj s o') as [c'|]; [|exact H]. destruct H as (x & Ex & Hg). exists x. split; [exact Ex|].
      apply (good_ext (w_mem w) _ (w_next w)); [lia| |exact Hg]. intros f. destruct Hg as [Hsx _]. destruct (Hsx f) as [Hox _].
      assert (N1 : forall f', b_loc x f <> Inline o f') by (intros f'; eapply own_neq; [exact Hox|congruence]).
      assert (N2 : forall f', b_loc x f <> b_loc rb f').
      { intros f' E. destruct (Hst f') as [[G|(b & G & _)] _]; rewrite G in E; [exact (N1 _ E)|].
        destruct (inv_sep _ _ HI _ _ _ _ _ _ _ Ex Hb E G). contradiction. }
      rewrite !mset_other by auto. reflexivity.
  - intros o1 o2 rb1 rb2 f1 f2 b E1 E2.
    destruct (Nat.eq_dec o1 o) as [->|N1]; [rewrite upd_same in E1; discriminate|rewrite upd_other in E1 by assumption].
    destruct (Nat.eq_dec o2 o) as [->|N2]; [rewrite upd_same in E2; discriminate|rewrite upd_other in E2 by assumption].
    eapply (inv_sep _ _ HI); eassumption.
Qed.

Lemma step_observe fits w s o lwp r : Inv w s -> s_obj s o = Some (Holds r) ->
  step fits w (Observe o lwp) = Some (w, Some (r, lwp)).
Proof.
  intros HI Ho. pose proof (inv_obj _ _ HI o) as H. rewrite Ho in H.
  destruct H as (rb & Hb & _ & e & A & B & C & D & E & F & G & H & I & J).
  unfold step, observe. rewrite Hb. cbn [bind]. rewrite J. cbn [bind i_message i_formatted i_attributes]. rewrite Hb. cbn [bind].
  rewrite F, (text_read _ _ _ A). cbn [bind]. rewrite G, (text_read _ _ _ B). cbn [bind]. rewrite I. cbn [traverse]. rewrite Hb. cbn [bind].
  pose proof (views_from_read w _ e C [] e eq_refl D) as Hv. cbn [length] in Hv. rewrite H, Hv. cbn. rewrite <- E. destruct r; reflexivity.
Qed.

Lemma step_sim fits w s x s' out : Inv w s -> sstep s x s' out ->
  exists w' o, step fits w x = Some (w', o) /\ Inv w' s' /\ option_map fst o = out.
Proof.
  intros HI H. inversion H; subst.
  - destruct (step_new fits w s o HI H0) as (w' & E & HI'). exists w', None. auto.
  - destruct (step_copy fits w s o v r HI H0 H1) as (w' & E & HI'). exists w', None. auto.
  - destruct (step_move_construct fits w s src dst r HI H0 H1) as (w' & E & HI'). exists w', None. auto.
  - destruct (step_move_assign fits w s src dst r c HI H0 H1 H2) as (w' & E & HI'). exists w', None. auto.
  - exists w, None. unfold step, move_assign. rewrite Nat.eqb_refl. auto.
  - destruct (step_destroy fits w s o c HI H0) as (w' & E & HI'). exists w', None. auto.
  - eexists _, None. split; [reflexivity|]. split; [|reflexivity]. split; cbn.
    + intros b. unfold upd, supd. destruct (Nat.eqb b a); [reflexivity|apply (inv_app _ _ HI)].
    + apply (inv_obj _ _ HI).
    + apply (inv_sep _ _ HI).
  - exists w, (Some (r, lwp)). rewrite (step_observe fits w s' o lwp r HI H0). auto.
Qed.

Lemma run_sim fits s ops s' outs : srun s ops s' outs -> forall w, Inv w s ->
  exists w' l, run fits w ops = Some (w', l) /\ Inv w' s' /\ map fst l = outs.
Proof.
  induction 1; intros w HI.
  - exists w, []. auto.
  - destruct (step_sim fits _ _ _ _ _ HI H) as (w1 & o & E & HI1 & Eo). destruct o; [discriminate|].
    destruct (IHsrun _ HI1) as (w2 & l & E2 & HI2 & El). exists w2, l. cbn. rewrite E. cbn. rewrite E2. auto.
  - destruct (step_sim fits _ _ _ _ _ HI H) as (w1 & o & E & HI1 & Eo). destruct o as [[r' lwp]|]; [|discriminate].
    cbn in Eo. inversion Eo; subst.
    destruct (IHsrun _ HI1) as (w2 & l & E2 & HI2 & El). exists w2, ((r, lwp) :: l). cbn. rewrite E. cbn. rewrite E2. cbn. rewrite El. auto.
Qed.

Lemma snapshot_lemma fits app ops s outs : srun (sinit app) ops s outs ->
  exists w l, run fits (init app) ops = Some (w, l) /\ map fst l = outs.
Proof. intros H. destruct (run_sim fits _ _ _ _ H _ (inv_init app)) as (w & l & E & _ & El). eauto. Qed.

Lemma moved_from_undefined_lemma fits app ops s outs w l src dst :
  srun (sinit app) ops s outs -> run fits (init app) ops = Some (w, l) -> s_obj s src = Some Nothing ->
  s_obj s dst = None -> step fits w (MoveConstruct src dst) = None.
Proof.
  intros H E Hs Hd. destruct (run_sim fits _ _ _ _ H _ (inv_init app)) as (w0 & l0 & E0 & HI & _).
  rewrite E in E0. inversion E0; subst.
  pose proof (inv_obj _ _ HI dst) as Hbd. rewrite Hd in Hbd. 
  pose proof (inv_obj _ _ HI src) as Hbs. rewrite Hs in Hbs. destruct Hbs as (rb & Hb & _ & Hp).
  unfold step. rewrite Hbd. unfold move_construct. rewrite Hb. cbn [bind]. rewrite Hp.
  destruct (container_move (w_mem w0) Msg src dst (b_loc rb Msg)) as [[m1 s1] d1].
  destruct (container_move m1 Fmt src dst (b_loc rb Fmt)) as [[m2 s2] d2].
  destruct (container_move m2 Att src dst (b_loc rb Att)) as [[m3 s3] d3].
  destruct (view_of_text m1 d1); cbn [bind]; [|reflexivity].
  destruct (view_of_text m2 d2); cbn [bind]; [|reflexivity].
  destruct (view_of_attributes m3 d3); reflexivity.
Qed.
