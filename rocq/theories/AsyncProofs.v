(** Invariants of the asynchronous sink. *)
From Verif Require Import Base AsyncModel AsyncSpec.

Lemma upd_same {A} (f : nat -> A) k v : upd f k v k = v.
Proof. unfold upd. rewrite Nat.eqb_refl. reflexivity. Qed.
Lemma upd_other {A} (f : nat -> A) k v x : x <> k -> upd f k v x = f x.
Proof. intros H. unfold upd. apply Nat.eqb_neq in H. rewrite H. reflexivity. Qed.

(** ** Projections *)

Lemma accepted_app a b : accepted (a ++ b) = accepted a ++ accepted b.
Proof. induction a as [|[] a IH]; cbn; rewrite ?IH; reflexivity. Qed.
Lemma filled_app a b : filled (a ++ b) = filled a ++ filled b.
Proof. induction a as [|[] a IH]; cbn; rewrite ?IH; reflexivity. Qed.
Lemma taken_app a b : taken (a ++ b) = taken a ++ taken b.
Proof. induction a as [|[] a IH]; cbn; rewrite ?IH; reflexivity. Qed.
Lemma delivered_app a b : delivered (a ++ b) = delivered a ++ delivered b.
Proof. induction a as [|[] a IH]; cbn; rewrite ?IH; reflexivity. Qed.
Lemma calls_app p a b : calls p (a ++ b) = calls p a ++ calls p b.
Proof. induction a as [|[q| | | | | | | | | | | | |] a IH]; cbn; rewrite ?IH; try reflexivity. destruct (Nat.eqb q p); reflexivity. Qed.
Lemma by_producer_app p a b : by_producer p (a ++ b) = by_producer p a ++ by_producer p b.
Proof. unfold by_producer. rewrite filter_app, map_app. reflexivity. Qed.

Definition content (x : cell) : producer * msg := match x with Reserved p m | Ready p m => (p, m) end.
Definition reserved (x : cell) : bool := match x with Reserved _ _ => true | Ready _ _ => false end.
Definition hand (w : wpc) : list (producer * msg) :=
  match w with WCheck (Some x) => [x] | WEmit p m => [(p, m)] | _ => [] end.

(** What a producer has done so far, given where it is. *)
Definition attempts (c : config) (p : producer) (m : msg) (k : nat) : list event :=
  ECall p m :: concat (repeat [EFull p m (c_capacity c); ERetry p m] k).
Definition progress (c : config) (p : producer) (pc : ppc) (t : list event) : Prop :=
  match pc with
  | PIdle => emits c p t
  | PTry m => exists t0 k, emits c p t0 /\ (k = 0 \/ c_policy c = Wait) /\ t = t0 ++ attempts c p m k
  | PFill m => exists t0 k, emits c p t0 /\ (k = 0 \/ c_policy c = Wait) /\ t = t0 ++ attempts c p m k ++ [EAccept p m]
  | PFull m => exists t0 k, emits c p t0 /\ (k = 0 \/ c_policy c = Wait) /\ t = t0 ++ attempts c p m k ++ [EFull p m (c_capacity c)]
  end.

Record Inv (c : config) (s : state) (h : list event) : Prop := {
  inv_taken : taken h = delivered h ++ hand (s_work s) \/ (s_work s = WDead /\ taken h = delivered h);
  inv_accepted : accepted h = taken h ++ map content (s_queue s);
  inv_capacity : length (s_queue s) <= c_capacity c;
  inv_reserved : forall p m, In (Reserved p m) (s_queue s) <-> s_prod s p = PFill m;
  inv_distinct : NoDup (map (fun x => fst (content x)) (filter reserved (s_queue s)));
  inv_filled : length (accepted h) = length (filled h) + length (filter reserved (s_queue s));
  inv_progress : forall p, progress c p (s_prod s p) (filter (own_event p) h)
}.

Lemma inv_init c : Inv c init [].
Proof.
  split; cbn; auto; try lia.
  - intros p m. split; [intros []|discriminate].
  - constructor.
  - intros p. constructor.
Qed.

(** ** The queue *)

Lemma publish_content q p : map content (publish q p) = map content q.
Proof. induction q as [|[p' m|p' m] q IH]; cbn; [reflexivity| |]; [destruct (Nat.eqb p' p); cbn; congruence|congruence]. Qed.
Lemma publish_length q p : length (publish q p) = length q.
Proof. rewrite <- (map_length content), publish_content, map_length. reflexivity. Qed.

Lemma publish_in q p p' m : NoDup (map (fun x => fst (content x)) (filter reserved q)) ->
  In (Reserved p' m) (publish q p) <-> In (Reserved p' m) q /\ p' <> p.
Proof.
  induction q as [|[p0 m0|p0 m0] q IH]; cbn [publish filter reserved map content fst]; intros Hn.
  - cbn. tauto.
  - inversion Hn as [|? ? Hnot Hn']; subst. destruct (Nat.eqb_spec p0 p) as [->|Ne].
    + cbn. split.
      * intros [H|H]; [discriminate|]. split; [right; exact H|]. intros ->. apply Hnot. apply in_map_iff.
        exists (Reserved p m). split; [reflexivity|]. apply filter_In. auto.
      * intros [[H|H] Hne]; [inversion H; subst; contradiction|right; exact H].
    + cbn. rewrite (IH Hn'). split; [intros [H|[H1 H2]]; [inversion H; subst; auto|auto]|intros [[H|H] Hne]; auto].
  - cbn. rewrite (IH Hn). split; [intros [H|[H1 H2]]; [discriminate|auto]|intros [[H|H] Hne]; [discriminate|auto]].
Qed.

Lemma publish_distinct q p : NoDup (map (fun x => fst (content x)) (filter reserved q)) ->
  NoDup (map (fun x => fst (content x)) (filter reserved (publish q p))) /\
  (forall x, In x (map (fun x => fst (content x)) (filter reserved (publish q p))) -> In x (map (fun x => fst (content x)) (filter reserved q))).
Proof.
  induction q as [|[p0 m0|p0 m0] q IH]; cbn [publish filter reserved map content fst]; intros Hn.
  - split; [constructor|auto].
  - inversion Hn as [|? ? Hnot Hn']; subst. destruct (Nat.eqb p0 p).
    + cbn. split; [exact Hn'|auto].
    + cbn. destruct (IH Hn') as [H1 H2]. split; [constructor; auto|]. intros x [->|H]; auto.
  - cbn. auto.
Qed.

Lemma publish_count q p m : In (Reserved p m) q -> length (filter reserved q) = S (length (filter reserved (publish q p))).
Proof.
  induction q as [|[p0 m0|p0 m0] q IH]; cbn [publish filter reserved]; intros Hi; [destruct Hi| |].
  - destruct (Nat.eqb_spec p0 p) as [->|Ne]; cbn [filter reserved length]; [reflexivity|].
    destruct Hi as [H|H]; [inversion H; subst; contradiction|]. rewrite (IH H). reflexivity.
  - destruct Hi as [H|H]; [discriminate|]. exact (IH H).
Qed.

Lemma filter_snoc {A} (f : A -> bool) l x : filter f (l ++ [x]) = filter f l ++ (if f x then [x] else []).
Proof. rewrite filter_app. cbn. destruct (f x); reflexivity. Qed.

Lemma nodup_snoc {A} (l : list A) x : NoDup l -> ~ In x l -> NoDup (l ++ [x]).
Proof.
  induction l as [|y l IH]; cbn; intros Hn Hi; [repeat constructor; auto|].
  inversion Hn; subst. constructor; [|apply IH; tauto]. rewrite in_app_iff. cbn. intros [H|[H|[]]]; subst; tauto.
Qed.

(** ** One step *)

(** Other producers are not affected by the events of [p]. *)
Lemma progress_frame c s h p pc' evs :
  (forall q, progress c q (s_prod s q) (filter (own_event q) h)) ->
  (forall q, q <> p -> filter (own_event q) evs = []) ->
  progress c p pc' (filter (own_event p) h ++ filter (own_event p) evs) ->
  forall q, progress c q (upd (s_prod s) p pc' q) (filter (own_event q) (h ++ evs)).
Proof.
  intros H Ho Hp q. rewrite filter_app. destruct (Nat.eq_dec q p) as [->|Ne].
  - rewrite upd_same. exact Hp.
  - rewrite upd_other by assumption. rewrite Ho, app_nil_r by assumption. apply H.
Qed.

Lemma eqb_other q p : q <> p -> Nat.eqb p q = false.
Proof. intros H. apply Nat.eqb_neq. congruence. Qed.

Lemma attempts_more c p m k : attempts c p m k ++ [EFull p m (c_capacity c); ERetry p m] = attempts c p m (S k).
Proof.
  unfold attempts. cbn [app]. f_equal. induction k as [|k IH]; [reflexivity|].
  change (repeat ?x (S k)) with (x :: repeat x k). cbn [concat]. rewrite <- app_assoc, IH. reflexivity.
Qed.

Lemma prod_reserved_frame s p pc' :
  (forall p' m, In (Reserved p' m) (s_queue s) <-> s_prod s p' = PFill m) ->
  (forall m, s_prod s p <> PFill m) -> (forall m, pc' <> PFill m) ->
  forall p' m, In (Reserved p' m) (s_queue s) <-> upd (s_prod s) p pc' p' = PFill m.
Proof.
  intros H H1 H2 p' m. destruct (Nat.eq_dec p' p) as [->|Ne].
  - rewrite upd_same. split; intros E; [apply H in E; destruct (H1 _ E)|destruct (H2 _ E)].
  - rewrite upd_other by assumption. apply H.
Qed.

Lemma step_inv c s h a s' evs : Inv c s h -> s_work s <> WDead -> step c s a = Some (s', evs) -> Inv c s' (h ++ evs).
Proof.
  intros HI Hdead. destruct (inv_taken _ _ _ HI) as [Ht|[Hd _]]; [|contradiction].
  pose proof (inv_accepted _ _ _ HI) as Ha. pose proof (inv_capacity _ _ _ HI) as Hc.
  pose proof (inv_reserved _ _ _ HI) as Hr. pose proof (inv_distinct _ _ _ HI) as Hn.
  pose proof (inv_filled _ _ _ HI) as Hf. pose proof (inv_progress _ _ _ HI) as Hp.
  destruct a as [p m|p|throws| |]; cbn [step].
  - (* Call *)
    destruct (s_prod s p) eqn:Ep; try discriminate. intros E; inversion E; subst; clear E.
    split; cbn [s_queue s_prod s_work]; rewrite ?taken_app, ?delivered_app, ?accepted_app, ?filled_app; cbn [taken delivered accepted filled]; rewrite ?app_nil_r; auto.
    + apply prod_reserved_frame; [exact Hr|intros ? ?; congruence|discriminate].
    + apply progress_frame; [exact Hp|intros q Hq; cbn; rewrite eqb_other by exact Hq; reflexivity|].
      specialize (Hp p). rewrite Ep in Hp. cbn. rewrite Nat.eqb_refl. exists (filter (own_event p) h), 0. auto.
  - destruct (s_prod s p) as [|m|m|m] eqn:Ep; try discriminate.
    + (* try *)
      destruct (length (s_queue s) <? c_capacity c) eqn:El; intros E; inversion E; subst; clear E.
      * apply Nat.ltb_lt in El. split; cbn [s_queue s_prod s_work]; rewrite ?taken_app, ?delivered_app, ?accepted_app, ?filled_app; cbn [taken delivered accepted filled]; rewrite ?app_nil_r; auto.
        -- rewrite map_app, Ha, <- app_assoc. reflexivity.
        -- rewrite app_length. cbn. lia.
        -- intros p' m'. rewrite in_app_iff. cbn [In]. destruct (Nat.eq_dec p' p) as [->|Ne].
           ++ rewrite upd_same. split.
              ** intros [H|[H|[]]]; [apply Hr in H; congruence|inversion H; reflexivity].
              ** intros H; inversion H; auto.
           ++ rewrite upd_other by assumption. rewrite <- Hr. split; [intros [H|[H|[]]]; [exact H|inversion H; subst; contradiction]|auto].
        -- rewrite filter_snoc. cbn [reserved]. rewrite map_app. apply nodup_snoc; [exact Hn|]. cbn.
           intros H. apply in_map_iff in H as (x & Ex & Hx). apply filter_In in Hx as [Hx Hb]. destruct x as [p' m'|]; [|discriminate].
           cbn in Ex. subst. apply Hr in Hx. congruence.
        -- rewrite filter_snoc, !app_length. cbn. lia.
        -- apply progress_frame; [exact Hp|intros q Hq; cbn; rewrite eqb_other by exact Hq; reflexivity|].
           specialize (Hp p). rewrite Ep in Hp. cbn. rewrite Nat.eqb_refl. destruct Hp as (t0 & k & H1 & H2 & ->).
           exists t0, k. rewrite <- app_assoc. auto.
      * apply Nat.ltb_ge in El. split; cbn [s_queue s_prod s_work]; rewrite ?taken_app, ?delivered_app, ?accepted_app, ?filled_app; cbn [taken delivered accepted filled]; rewrite ?app_nil_r; auto.
        -- apply prod_reserved_frame; [exact Hr|intros ? ?; congruence|discriminate].
        -- apply progress_frame; [exact Hp|intros q Hq; cbn; rewrite eqb_other by exact Hq; reflexivity|].
           specialize (Hp p). rewrite Ep in Hp. cbn. rewrite Nat.eqb_refl. destruct Hp as (t0 & k & H1 & H2 & ->).
           exists t0, k. rewrite <- app_assoc. replace (length (s_queue s)) with (c_capacity c) by lia. auto.
    + (* fill *)
      intros E; inversion E; subst; clear E.
      split; cbn [s_queue s_prod s_work]; rewrite ?taken_app, ?delivered_app, ?accepted_app, ?filled_app; cbn [taken delivered accepted filled]; rewrite ?app_nil_r; auto.
      * rewrite publish_content. exact Ha.
      * rewrite publish_length. exact Hc.
      * intros p' m'. rewrite publish_in by exact Hn. destruct (Nat.eq_dec p' p) as [->|Ne].
        -- rewrite upd_same. split; [intros [_ H]; contradiction|discriminate].
        -- rewrite upd_other by assumption. rewrite <- Hr. tauto.
      * apply publish_distinct. exact Hn.
      * rewrite app_length. cbn. rewrite Hf, (publish_count (s_queue s) p m); [lia|]. apply Hr. exact Ep.
      * apply progress_frame; [exact Hp|intros q Hq; cbn; rewrite eqb_other by exact Hq; reflexivity|].
        specialize (Hp p). rewrite Ep in Hp. cbn. rewrite Nat.eqb_refl. destruct Hp as (t0 & k & H1 & H2 & ->).
        rewrite <- app_assoc. eapply emits_snoc; [exact H1|]. rewrite <- app_assoc. cbn [app].
        destruct H2 as [->|H2]; [apply emit_at_once|apply emit_waits; exact H2].
    + (* full *)
      destruct (c_policy c) eqn:Epol; cbn [overflow]; intros E; inversion E; subst; clear E.
      * split; cbn [s_queue s_prod s_work]; rewrite ?taken_app, ?delivered_app, ?accepted_app, ?filled_app; cbn [taken delivered accepted filled]; rewrite ?app_nil_r; auto.
        -- apply prod_reserved_frame; [exact Hr|intros ? ?; congruence|discriminate].
        -- apply progress_frame; [exact Hp|intros q Hq; cbn; rewrite eqb_other by exact Hq; reflexivity|].
           specialize (Hp p). rewrite Ep in Hp. cbn. rewrite Nat.eqb_refl. destruct Hp as (t0 & k & H1 & H2 & ->).
           destruct H2 as [->|H2]; [|congruence]. rewrite <- app_assoc. eapply emits_snoc; [exact H1|]. cbn. apply emit_drops. exact Epol.
      * split; cbn [s_queue s_prod s_work]; rewrite ?taken_app, ?delivered_app, ?accepted_app, ?filled_app; cbn [taken delivered accepted filled]; rewrite ?app_nil_r; auto.
        -- apply prod_reserved_frame; [exact Hr|intros ? ?; congruence|discriminate].
        -- apply progress_frame; [exact Hp|intros q Hq; cbn; rewrite eqb_other by exact Hq; reflexivity|].
           specialize (Hp p). rewrite Ep in Hp. cbn. rewrite Nat.eqb_refl. destruct Hp as (t0 & k & H1 & H2 & ->).
           exists t0, (S k). split; [exact H1|]. split; [auto|]. rewrite <- !app_assoc. cbn [app]. rewrite attempts_more. reflexivity.
  - (* worker *)
    destruct (s_work s) as [|got|p m| |] eqn:Ew; try discriminate.
    + destruct (s_queue s) as [|[p m|p m] q'] eqn:Eq; intros E; inversion E; subst; clear E;
      (split; cbn [s_queue s_prod s_work hand]; rewrite ?taken_app, ?delivered_app, ?accepted_app, ?filled_app, ?Eq; cbn [taken delivered accepted filled hand]; rewrite ?app_nil_r;
       [cbn [hand] in Ht; rewrite ?app_nil_r in Ht; left; congruence| | | | | |intros q; rewrite filter_app; cbn; rewrite app_nil_r; apply Hp]);
       cbn [map content] in Ha; rewrite ?app_nil_r in Ha; auto; cbn [hand] in Ht; rewrite ?app_nil_r in Ht.
      * rewrite Ha. cbn. rewrite <- app_assoc. reflexivity.
      * cbn in Hc. lia.
      * intros p' m'. rewrite <- Hr. cbn. split; [auto|intros [H|H]; [discriminate|exact H]].
    + destruct got as [[p m]|]; [|destruct (is_stopped (s_dtor s))]; intros E; inversion E; subst; clear E;
      (split; cbn [s_queue s_prod s_work hand]; rewrite ?taken_app, ?delivered_app, ?accepted_app, ?filled_app; cbn [taken delivered accepted filled hand]; rewrite ?app_nil_r;
       [cbn [hand] in Ht; rewrite ?app_nil_r in Ht; auto| | | | | |intros q; rewrite ?filter_app; cbn; rewrite ?app_nil_r; apply Hp]; auto).
    + destruct throws; intros E; inversion E; subst; clear E;
      (split; cbn [s_queue s_prod s_work hand]; rewrite ?taken_app, ?delivered_app, ?accepted_app, ?filled_app; cbn [taken delivered accepted filled hand]; rewrite ?app_nil_r;
       [cbn [hand] in Ht; auto| | | | | |intros q; rewrite filter_app; cbn; rewrite app_nil_r; apply Hp]; auto).
  - destruct (s_dtor s); intros E; inversion E; subst; clear E.
    split; cbn [s_queue s_prod s_work hand]; rewrite ?taken_app, ?delivered_app, ?accepted_app, ?filled_app; cbn [taken delivered accepted filled hand]; rewrite ?app_nil_r; auto.
    intros q; rewrite filter_app; cbn; rewrite app_nil_r; apply Hp.
  - destruct (s_dtor s); [discriminate| |discriminate]. destruct (s_work s) eqn:Ew; intros E; inversion E; subst; clear E.
    split; cbn [s_queue s_prod s_work hand]; rewrite ?taken_app, ?delivered_app, ?accepted_app, ?filled_app; cbn [taken delivered accepted filled hand]; rewrite ?app_nil_r; auto.
    + left. cbn [hand] in Ht. rewrite app_nil_r in Ht. exact Ht.
    + intros q; rewrite filter_app; cbn; rewrite app_nil_r; apply Hp.
Qed.

Lemma run_inv c acts : forall s h s' evs, Inv c s h -> run c s acts = Some (s', evs) -> Inv c s' (h ++ evs).
Proof.
  induction acts as [|a acts IH]; cbn [run]; intros s h s' evs HI.
  - intros E; inversion E; subst. rewrite app_nil_r. exact HI.
  - destruct (s_work s) eqn:Ew; try discriminate;
    (destruct (step c s a) as [[s1 e1]|] eqn:E1; [|discriminate];
     destruct (run c s1 acts) as [[s2 e2]|] eqn:E2; [|discriminate];
     intros E; inversion E; subst; rewrite app_assoc; eapply IH; [|exact E2]; eapply step_inv; eauto; congruence).
Qed.

Lemma reach_inv c acts s evs : run c init acts = Some (s, evs) -> Inv c s evs.
Proof. intros H. exact (run_inv c acts init [] s evs (inv_init c) H). Qed.

(** ** C08 *)

Lemma delivery_order_lemma c acts s evs : run c init acts = Some (s, evs) -> is_prefix (delivered evs) (accepted evs).
Proof.
  intros H. apply reach_inv in H as HI. rewrite (inv_accepted _ _ _ HI).
  destruct (inv_taken _ _ _ HI) as [->|[_ ->]]; [rewrite <- app_assoc|]; eexists; reflexivity.
Qed.

Lemma capacity_lemma c acts s evs : run c init acts = Some (s, evs) ->
  length (accepted evs) <= length (taken evs) + c_capacity c.
Proof.
  intros H. apply reach_inv in H as HI. rewrite (inv_accepted _ _ _ HI), app_length, map_length.
  pose proof (inv_capacity _ _ _ HI). lia.
Qed.

(** Projections of one thread's events to its own trace. *)
Lemma accepted_own p evs : by_producer p (accepted evs) = by_producer p (accepted (filter (own_event p) evs)).
Proof.
  induction evs as [|e evs IH]; [reflexivity|].
  destruct e; cbn [accepted filter own_event]; try (destruct (Nat.eqb p0 p) eqn:E; cbn [accepted]; exact IH); try exact IH.
  destruct (Nat.eqb p0 p) eqn:E; cbn [accepted]; unfold by_producer in *; cbn [filter fst]; rewrite E; cbn [map snd]; [congruence|exact IH].
Qed.

Lemma calls_own p evs : calls p evs = calls p (filter (own_event p) evs).
Proof.
  induction evs as [|e evs IH]; [reflexivity|].
  destruct e; cbn [calls filter own_event]; try (destruct (Nat.eqb p0 p) eqn:E; cbn [calls]; exact IH); try exact IH.
  destruct (Nat.eqb p0 p) eqn:E; cbn [calls]; rewrite ?E; congruence.
Qed.

Lemma reps_accepted c p m k : accepted (concat (repeat [EFull p m (c_capacity c); ERetry p m] k)) = [].
Proof. induction k; cbn; auto. Qed.
Lemma reps_calls c p q m k : calls q (concat (repeat [EFull p m (c_capacity c); ERetry p m] k)) = [].
Proof. induction k; cbn; auto. Qed.

Lemma sub_app {A} (a b a' b' : list A) : sub a b -> sub a' b' -> sub (a ++ a') (b ++ b').
Proof. intros H H'. induction H; cbn; [exact H'|apply sub_keep; exact IHsub|apply sub_skip; exact IHsub]. Qed.
Lemma sub_refl {A} (a : list A) : sub a a.
Proof. induction a; constructor; assumption. Qed.

Lemma by_one p m : by_producer p [(p, m)] = [m].
Proof. unfold by_producer. cbn. rewrite Nat.eqb_refl. reflexivity. Qed.

Lemma emits_calls c p t : emits c p t ->
  sub (by_producer p (accepted t)) (calls p t) /\ (c_policy c = Wait -> by_producer p (accepted t) = calls p t).
Proof.
  induction 1 as [|m evs e _ [IH1 IH2] He]; [split; [constructor|reflexivity]|].
  rewrite accepted_app, by_producer_app, calls_app.
  assert (G : sub (by_producer p (accepted e)) (calls p e) /\ (c_policy c = Wait -> by_producer p (accepted e) = calls p e)).
  { destruct He as [k Hw| |Hd]; cbn [accepted calls].
    - rewrite accepted_app, calls_app, reps_accepted, reps_calls. cbn [accepted calls app]. rewrite Nat.eqb_refl, by_one. split; [apply sub_refl|reflexivity].
    - rewrite Nat.eqb_refl, by_one. split; [apply sub_refl|reflexivity].
    - rewrite Nat.eqb_refl. split; [apply sub_skip, sub_nil|congruence]. }
  destruct G as [G1 G2]. split; [apply sub_app; assumption|]. intros Hw. rewrite IH2, G2 by exact Hw. reflexivity.
Qed.

Lemma progress_calls c p pc t : progress c p pc t ->
  sub (by_producer p (accepted t)) (calls p t) /\ (c_policy c = Wait -> is_prefix (by_producer p (accepted t)) (calls p t)).
Proof.
  destruct pc as [|m|m|m]; cbn [progress].
  - intros H. apply emits_calls in H as [H1 H2]. split; [exact H1|]. intros Hw. rewrite H2 by exact Hw. exists []. rewrite app_nil_r. reflexivity.
  - intros (t0 & k & H & _ & ->). apply emits_calls in H as [H1 H2]. unfold attempts.
    rewrite accepted_app, by_producer_app, calls_app. cbn [accepted calls]. rewrite reps_accepted, reps_calls, Nat.eqb_refl. cbn.
    split; [apply sub_app; [exact H1|apply sub_skip, sub_nil]|]. intros Hw. rewrite H2 by exact Hw. rewrite app_nil_r. eexists; reflexivity.
  - intros (t0 & k & H & _ & ->). apply emits_calls in H as [H1 H2]. unfold attempts. 
    rewrite !accepted_app, !by_producer_app, !calls_app. cbn [accepted calls]. rewrite reps_accepted, reps_calls, Nat.eqb_refl.
    cbn [app]. rewrite by_one. cbn.
    split; [apply sub_app; [exact H1|apply sub_refl]|]. intros Hw. rewrite H2 by exact Hw. exists []. rewrite app_nil_r. reflexivity.
  - intros (t0 & k & H & _ & ->). apply emits_calls in H as [H1 H2]. unfold attempts.
    rewrite !accepted_app, !by_producer_app, !calls_app. cbn [accepted calls]. rewrite reps_accepted, reps_calls, Nat.eqb_refl. cbn.
    split; [apply sub_app; [exact H1|apply sub_skip, sub_nil]|]. intros Hw. rewrite H2 by exact Hw. rewrite app_nil_r. eexists; reflexivity.
Qed.

Lemma sub_nil_l {A} (c : list A) : sub [] c.
Proof. induction c; constructor; assumption. Qed.

Lemma sub_prefix {A} (r c a : list A) : sub (a ++ r) c -> sub a c.
Proof.
  remember (a ++ r) as ar eqn:E. intros H. revert a E. induction H as [|x l1 l2 H IH|x l1 l2 H IH]; intros a E.
  - symmetry in E. apply app_eq_nil in E as [-> _]. constructor.
  - destruct a as [|y a]; [apply sub_nil_l|]. cbn in E. inversion E; subst. apply sub_keep, IH. reflexivity.
  - apply sub_skip, IH, E.
Qed.

Lemma producer_order_lemma c acts s evs p : run c init acts = Some (s, evs) ->
  sub (by_producer p (delivered evs)) (calls p evs) /\
  (c_policy c = Wait -> is_prefix (by_producer p (delivered evs)) (calls p evs)).
Proof.
  intros H. apply reach_inv in H as HI. pose proof (delivery_order_lemma _ _ _ _ H) as [r Hr].
  pose proof (inv_progress _ _ _ HI p) as Hp. apply progress_calls in Hp as [H1 H2].
  rewrite <- accepted_own, <- calls_own in H1. rewrite <- accepted_own, <- calls_own in H2.
  rewrite Hr, by_producer_app in H1. rewrite Hr, by_producer_app in H2. split.
  - eapply sub_prefix. exact H1.
  - intros Hw. destruct (H2 Hw) as [r' Hr']. rewrite Hr'. rewrite <- app_assoc. eexists; reflexivity.
Qed.

(** ** C09 *)

Lemma run_split c acts : forall s s' evs t1 t2, run c s acts = Some (s', evs) -> evs = t1 ++ EMiss :: t2 ->
  exists acts1 s1 b acts2, run c s acts1 = Some (s1, t1) /\ s_work s1 = WTake /\
    step c s1 (Work b) = Some (State (s_queue s1) (s_prod s1) (WCheck None) (s_dtor s1), [EMiss]) /\
    run c s1 (Work b :: acts2) = Some (s', EMiss :: t2).
Proof.
  induction acts as [|a acts IH]; cbn [run]; intros s s' evs t1 t2.
  - intros E; inversion E; subst. intros E'. destruct t1; discriminate.
  - intros H E. assert (Hd : s_work s <> WDead) by (destruct (s_work s); congruence).
    assert (H' : match step c s a with None => None | Some (x, e) => match run c x acts with Some (y, e') => Some (y, e ++ e') | None => None end end = Some (s', evs)).
    { destruct (s_work s); try exact H. contradiction. } clear H.
    destruct (step c s a) as [[sx ex]|] eqn:Es; [|discriminate].
    destruct (run c sx acts) as [[sy ey]|] eqn:Er; [|discriminate]. inversion H'; subst.
    (* is EMiss inside ex, or later? *)
    destruct (Nat.le_gt_cases (length ex) (length t1)) as [Hl|Hl].
    + assert (exists t1', t1 = ex ++ t1') as [t1' ->].
      { exists (skipn (length ex) t1). pose proof (f_equal (firstn (length ex)) H1) as Hx.
        rewrite firstn_app, firstn_all, Nat.sub_diag in Hx. cbn in Hx. rewrite app_nil_r in Hx.
        rewrite firstn_app in Hx. replace (length ex - length t1) with 0 in Hx by lia. cbn in Hx. rewrite app_nil_r in Hx.
        rewrite Hx at 1. rewrite firstn_skipn. reflexivity. }
      rewrite <- app_assoc in H1. apply app_inv_head in H1.
      destruct (IH _ _ _ _ _ Er H1) as (acts1 & s1 & b & acts2 & R1 & Rw & R2 & R3).
      exists (a :: acts1), s1, b, acts2. split; [|auto]. cbn [run]. rewrite Es, R1. destruct (s_work s); try reflexivity. contradiction.
    + (* EMiss in ex: then the step is a failed dequeue *)
      assert (Hin : In EMiss ex).
      { pose proof (f_equal (fun l => nth_error l (length t1)) H1) as Hx. cbn in Hx.
        rewrite nth_error_app1 in Hx by exact Hl. rewrite nth_error_app2, Nat.sub_diag in Hx by lia. cbn in Hx.
        eapply nth_error_In. exact Hx. }
      assert (ex = [EMiss] /\ exists b, a = Work b /\ s_work s = WTake /\ sx = State (s_queue s) (s_prod s) (WCheck None) (s_dtor s)) as [-> (b & -> & Ew & ->)].
      { destruct a as [p m|p|b| |]; cbn [step] in Es.
        - destruct (s_prod s p); inversion Es; subst; cbn in Hin; intuition discriminate.
        - destruct (s_prod s p); [discriminate| | |].
          + destruct (length (s_queue s) <? c_capacity c); inversion Es; subst; cbn in Hin; intuition discriminate.
          + inversion Es; subst; cbn in Hin; intuition discriminate.
          + destruct (overflow (c_policy c)); inversion Es; subst; cbn in Hin; intuition discriminate.
        - destruct (s_work s) as [|got|p m| |]; try discriminate.
          + destruct (s_queue s) as [|[p m|p m] q] eqn:Eq; inversion Es; subst; cbn in Hin; try (intuition discriminate); (split; [reflexivity|exists b; rewrite <- ?Eq; auto]).
          + destruct got as [[p m]|]; [|destruct (is_stopped (s_dtor s))]; inversion Es; subst; cbn in Hin; intuition discriminate.
          + destruct b; inversion Es; subst; cbn in Hin; intuition discriminate.
        - destruct (s_dtor s); inversion Es; subst; cbn in Hin; intuition discriminate.
        - destruct (s_dtor s); [discriminate| |discriminate]. destruct (s_work s); inversion Es; subst; cbn in Hin; intuition discriminate. }
      cbn in Hl. destruct t1; [|cbn in Hl; lia]. cbn in H1. inversion H1; subst.
      exists [], s, b, acts. split; [reflexivity|]. split; [exact Ew|]. split; [exact Es|].
      cbn [run]. rewrite Es, Er. rewrite Ew. reflexivity.
Qed.

Lemma delivered_before_last_lemma c acts s t1 t2 :
  run c init acts = Some (s, t1 ++ EMiss :: t2) ->
  taken t2 = [] -> s_work s = WExit ->
  length (accepted t1) = length (filled t1) ->
  delivered (t1 ++ EMiss :: t2) = accepted t1.
Proof.
  intros H Hno Hexit Hfill. destruct (run_split c acts init s _ t1 t2 H eq_refl) as (acts1 & s1 & b & acts2 & R1 & Rw & R2 & R3).
  apply reach_inv in H as HI. apply reach_inv in R1 as HI1.
  pose proof (inv_filled _ _ _ HI1) as Hf. assert (Hz : length (filter reserved (s_queue s1)) = 0) by lia.
  destruct (s_queue s1) as [|[p m|p m] q] eqn:Eq; [|cbn in Hz; lia|].
  2:{ cbn [step] in R2. rewrite Rw, Eq in R2. discriminate. }
  destruct (inv_taken _ _ _ HI) as [Ht|[Hd _]]; [|congruence]. rewrite Hexit in Ht. cbn [hand] in Ht. rewrite app_nil_r in Ht. rewrite <- Ht.
  rewrite taken_app. cbn [taken]. rewrite Hno, app_nil_r. rewrite (inv_accepted _ _ _ HI1), Eq. cbn. rewrite app_nil_r. reflexivity.
Qed.

(** ** C10 *)

Lemma emits_lemma c acts s evs p : run c init acts = Some (s, evs) ->
  exists rest, emits c p (filter (own_event p) evs ++ rest).
Proof.
  intros H. apply reach_inv in H as HI. pose proof (inv_progress _ _ _ HI p) as Hp.
  destruct (s_prod s p) as [|m|m|m]; cbn [progress] in Hp.
  - exists []. rewrite app_nil_r. exact Hp.
  - destruct Hp as (t0 & k & H1 & H2 & ->). exists [EAccept p m; EFilled p m; EReturn p m]. rewrite <- app_assoc.
    eapply emits_snoc; [exact H1|]. unfold attempts. destruct H2 as [->|H2]; [apply emit_at_once|cbn [app]; apply emit_waits; exact H2].
  - destruct Hp as (t0 & k & H1 & H2 & ->). exists [EFilled p m; EReturn p m]. rewrite <- !app_assoc.
    eapply emits_snoc; [exact H1|]. unfold attempts. destruct H2 as [->|H2]; [apply emit_at_once|cbn [app]; apply emit_waits; exact H2].
  - destruct Hp as (t0 & k & H1 & H2 & ->). destruct (c_policy c) eqn:Ep.
    + destruct H2 as [->|H2]; [|discriminate]. exists [EDrop p m; EReturn p m]. rewrite <- !app_assoc.
      eapply emits_snoc; [exact H1|]. cbn. apply emit_drops. exact Ep.
    + exists [ERetry p m; EAccept p m; EFilled p m; EReturn p m]. rewrite <- !app_assoc.
      eapply emits_snoc; [exact H1|].
      change ([EFull p m (c_capacity c)] ++ [ERetry p m; EAccept p m; EFilled p m; EReturn p m])
        with ([EFull p m (c_capacity c); ERetry p m] ++ [EAccept p m; EFilled p m; EReturn p m]).
      rewrite app_assoc, attempts_more. unfold attempts. cbn [app]. apply emit_waits. exact Ep.
Qed.

(** ** C11 *)

Lemma idle_no_reserved c s h : Inv c s h -> (forall p, s_prod s p = PIdle) -> Forall (fun x => reserved x = false) (s_queue s).
Proof.
  intros HI Hp. apply Forall_forall. intros [p m|p m] Hi; [|reflexivity].
  apply (inv_reserved _ _ _ HI) in Hi. rewrite Hp in Hi. discriminate.
Qed.

Definition from_top (q : list cell) : nat := 3 * length q + 2.

Lemma drain_top c : forall q s, s_queue s = q -> Forall (fun x => reserved x = false) q -> s_work s = WTake -> is_stopped (s_dtor s) = true ->
  exists evs, run c s (repeat (Work false) (from_top q)) = Some (State [] (s_prod s) WExit (s_dtor s), evs) /\ delivered evs = map content q.
Proof.
  induction q as [|x q IH]; intros s Eq Hr Ew Es.
  - exists [EMiss; EExit]. split; [|reflexivity]. unfold from_top. cbn [length Nat.mul Nat.add repeat]. cbn [run]. rewrite Ew. cbn [step]. rewrite Ew, Eq.
    cbn [run s_work step]. cbn [s_dtor]. rewrite Es. reflexivity.
  - inversion Hr as [|? ? Hx Hr']; subst. destruct x as [p m|p m]; [discriminate|].
    destruct (IH (State q (s_prod s) WTake (s_dtor s)) eq_refl Hr' eq_refl Es) as (evs & E & Hd).
    exists (ETake p m :: EDeliver p m :: evs). split; [|cbn; rewrite Hd; reflexivity].
    replace (from_top (Ready p m :: q)) with (S (S (S (from_top q)))) by (unfold from_top; cbn [length]; lia).
    cbn [repeat]. cbn [run]. rewrite Ew. cbn [step]. rewrite Ew, Eq. cbn [run s_work step s_queue s_prod s_dtor].
    cbn [s_prod s_dtor] in E. rewrite E. reflexivity.
Qed.

Lemma shutdown_lemma c acts s evs : run c init acts = Some (s, evs) -> s_dtor s = DStopping ->
  (forall p, s_prod s p = PIdle) -> s_work s <> WDead ->
  exists k evs', k <= 3 * length (s_queue s) + 4 /\
    run c s (repeat (Work false) k ++ [Join]) = Some (State (if match s_work s with WCheck None | WExit => true | _ => false end then s_queue s else [])
                                                        (s_prod s) WExit DDone, evs' ++ [EDestroyed]) /\
    (s_work s <> WCheck None -> s_work s <> WExit -> delivered (evs ++ evs') = accepted evs).
Proof.
  intros H Hs Hp Hd. apply reach_inv in H as HI. pose proof (idle_no_reserved _ _ _ HI Hp) as Hr.
  assert (Join_ok : forall acts' s2 evs', run c s acts' = Some (s2, evs') -> s_work s2 = WExit -> s_dtor s2 = DStopping ->
            run c s (acts' ++ [Join]) = Some (State (s_queue s2) (s_prod s2) WExit DDone, evs' ++ [EDestroyed])).
  { clear. intros acts'. revert s. induction acts' as [|a acts' IH]; cbn [run app]; intros s s2 evs' E E1 E2.
    - inversion E; subst. rewrite E1. cbn [step]. rewrite E2, E1. reflexivity.
    - destruct (s_work s); try discriminate; destruct (step c s a) as [[sx ex]|]; try discriminate;
      destruct (run c sx acts') as [[sy ey]|] eqn:Er; try discriminate; inversion E; subst; rewrite (IH _ _ _ Er E1 E2); rewrite app_assoc; reflexivity. }
  assert (Hdel : forall w e, s_work s = w -> delivered e = hand w ++ map content (s_queue s) -> w <> WDead -> delivered (evs ++ e) = accepted evs).
  { intros w e <- He Hw. rewrite delivered_app, He. rewrite (inv_accepted _ _ _ HI).
    destruct (inv_taken _ _ _ HI) as [->|[Hx _]]; [|contradiction]. rewrite <- app_assoc. reflexivity. }
  destruct s as [q pr w d]. cbn [s_queue s_prod s_work s_dtor] in *. subst d.
  destruct w as [|[[p m]|]|p m| |]; try contradiction.
  - destruct (drain_top c q (State q pr WTake DStopping) eq_refl Hr eq_refl eq_refl) as (e & E & Hde).
    exists (from_top q), e. split; [unfold from_top; lia|]. split; [exact (Join_ok _ _ _ E eq_refl eq_refl)|].
    intros _ _. apply (Hdel WTake); [reflexivity|exact Hde|discriminate].
  - destruct (drain_top c q (State q pr WTake DStopping) eq_refl Hr eq_refl eq_refl) as (e & E & Hde).
    exists (S (S (from_top q))), (EDeliver p m :: e). split; [unfold from_top; lia|]. split.
    + refine (Join_ok (Work false :: Work false :: repeat (Work false) (from_top q)) (State [] pr WExit DStopping) _ _ eq_refl eq_refl). cbn [run s_work step s_queue s_prod s_dtor].
      cbn [s_prod s_dtor] in E. rewrite E. reflexivity.
    + intros _ _. apply (Hdel (WCheck (Some (p, m)))); [reflexivity|cbn; rewrite Hde; reflexivity|discriminate].
  - exists 1, [EExit]. split; [lia|]. split; [reflexivity|]. congruence.
  - destruct (drain_top c q (State q pr WTake DStopping) eq_refl Hr eq_refl eq_refl) as (e & E & Hde).
    exists (S (from_top q)), (EDeliver p m :: e). split; [unfold from_top; lia|]. split.
    + refine (Join_ok (Work false :: repeat (Work false) (from_top q)) (State [] pr WExit DStopping) _ _ eq_refl eq_refl). cbn [run s_work step s_queue s_prod s_dtor].
      cbn [s_prod s_dtor] in E. rewrite E. reflexivity.
    + intros _ _. apply (Hdel (WEmit p m)); [reflexivity|cbn; rewrite Hde; reflexivity|discriminate].
  - exists 0, []. split; [lia|]. split; [reflexivity|]. congruence.
Qed.

(** ** Progress *)

Lemma drop_finishes_lemma c s p m : c_policy c = Drop -> s_prod s p = PTry m ->
  exists s1 e1, step c s (Go p) = Some (s1, e1) /\
    forall s2, s_prod s2 p = s_prod s1 p ->
      exists s3 e3, step c s2 (Go p) = Some (s3, e3) /\ s_prod s3 p = PIdle /\ In (EReturn p m) e3.
Proof.
  intros Hc Hp. cbn [step]. rewrite Hp. destruct (length (s_queue s) <? c_capacity c); eexists _, _; (split; [reflexivity|]);
    cbn [s_prod]; intros s2 H2; rewrite upd_same in H2; cbn [step]; rewrite H2; cbn [overflow]; rewrite ?Hc; cbn [overflow];
    eexists _, _; (split; [reflexivity|]); cbn [s_prod]; rewrite upd_same; split; auto; right; left; reflexivity.
Qed.

Lemma wait_progress_lemma c acts s evs p m : run c init acts = Some (s, evs) ->
  c_policy c = Wait -> 0 < c_capacity c -> s_dtor s = DNone -> s_work s <> WDead -> s_work s <> WExit ->
  s_prod s p = PTry m \/ s_prod s p = PFull m -> (forall q n, s_prod s q <> PFill n) ->
  exists acts' s' evs', length acts' <= 5 /\ Forall (fun a => a = Work false \/ a = Go p) acts' /\
    run c s acts' = Some (s', evs') /\ In (EAccept p m) evs'.
Proof.
  intros H Hc Hcap Hd Hdead Hex Hp Hfill. apply reach_inv in H as HI.
  pose proof (inv_capacity _ _ _ HI) as Hl. pose proof (inv_reserved _ _ _ HI) as Hr.
  (* the producer's part, once there is room *)
  assert (P : forall q w, length q < c_capacity c -> w <> WDead -> exists acts' s' evs', length acts' <= 2 /\ Forall (fun a => a = Work false \/ a = Go p) acts' /\
            run c (State q (s_prod s) w DNone) acts' = Some (s', evs') /\ In (EAccept p m) evs').
  { intros q w Hlt Hw. apply Nat.ltb_lt in Hlt. destruct Hp as [Hp|Hp].
    - exists [Go p]. destruct w; try contradiction; cbn [run s_work step s_prod]; rewrite Hp; cbn [s_queue]; rewrite Hlt;
      (eexists _, _; split; [cbn; lia|]; split; [repeat constructor; auto|]; split; [reflexivity|left; reflexivity]).
    - exists [Go p; Go p]. destruct w; try contradiction; cbn [run s_work step s_prod]; rewrite Hp, Hc; cbn [overflow run s_work step s_prod s_queue]; rewrite upd_same, Hlt;
      (eexists _, _; split; [cbn; lia|]; split; [repeat constructor; auto|]; split; [reflexivity|right; left; reflexivity]). }
  destruct s as [q pr w d]. cbn [s_queue s_prod s_work s_dtor] in *. subst d.
  assert (Q : forall w0 pre, run c (State q pr w DNone) pre = Some (State q pr WTake DNone, w0) -> Forall (fun a => a = Work false \/ a = Go p) pre -> length pre <= 2 ->
     exists acts' s' evs', length acts' <= 5 /\ Forall (fun a => a = Work false \/ a = Go p) acts' /\
       run c (State q pr w DNone) acts' = Some (s', evs') /\ In (EAccept p m) evs').
  { intros w0 pre E Hpre Hlen. 
    assert (App : forall a1 a2 x y z e1 e2, run c x a1 = Some (y, e1) -> run c y a2 = Some (z, e2) -> run c x (a1 ++ a2) = Some (z, e1 ++ e2)).
    { clear. induction a1 as [|a a1 IH]; cbn [run app]; intros a2 x y z e1 e2 E1 E2; [inversion E1; subst; exact E2|].
      destruct (s_work x); try discriminate; destruct (step c x a) as [[x' e]|]; try discriminate;
      destruct (run c x' a1) as [[y' e']|] eqn:Er; try discriminate; inversion E1; subst; rewrite (IH _ _ _ _ _ _ Er E2), app_assoc; reflexivity. }
    destruct q as [|x q].
    - destruct (P [] WTake ltac:(cbn; lia) ltac:(discriminate)) as (a & s' & e & L & F & R & I).
      exists (pre ++ a), s', (w0 ++ e). rewrite app_length. split; [lia|]. split; [apply Forall_app; auto|].
      split; [eapply App; eassumption|apply in_app_iff; auto].
    - destruct x as [p' m'|p' m'].
      { exfalso. apply (Hfill p' m'). apply Hr. left. reflexivity. }
      destruct (P q (WCheck (Some (p', m'))) ltac:(cbn in Hl; lia) ltac:(discriminate)) as (a & s' & e & L & F & R & I).
      exists (pre ++ Work false :: a), s', (w0 ++ ETake p' m' :: e). rewrite app_length. cbn [length]. split; [lia|].
      split; [apply Forall_app; auto|]. split; [|apply in_app_iff; right; right; exact I].
      eapply App; [exact E|]. cbn [run s_work step s_queue s_prod s_dtor]. cbn [s_prod] in R. rewrite R. reflexivity. }
  destruct w as [|[[p' m']|]|p' m'| |]; try contradiction.
  - apply (Q [] []); auto.
  - apply (Q [EDeliver p' m'] [Work false; Work false]); auto.
  - apply (Q [] [Work false]); auto.
  - apply (Q [EDeliver p' m'] [Work false]); auto.
Qed.

(** ** Construction *)

Lemma builder_fold cs b : fold_left builder_call cs b =
  Builder (b_policy (fold_left builder_call cs b)) (asked_factor cs (b_factor b)).
Proof.
  revert b. induction cs as [|[] cs IH]; intros b; cbn [fold_left asked_factor]; [destruct b; reflexivity|..]; rewrite IH at 1; reflexivity.
Qed.

Lemma exp2_spec f : (2 <= f <= 20)%N -> exp2 f = Some (N.to_nat (2 ^ f)).
Proof.
  intros H. unfold exp2. replace (f <? 2)%N with false by (symmetry; apply N.ltb_ge; lia).
  replace (20 <? f)%N with false by (symmetry; apply N.ltb_ge; lia). reflexivity.
Qed.
Lemma exp2_none f : ~ (2 <= f <= 20)%N -> exp2 f = None.
Proof.
  intros H. unfold exp2. destruct (N.ltb_spec f 2); [reflexivity|]. destruct (N.ltb_spec 20 f); [reflexivity|lia].
Qed.

Lemma builder_factor_lemma cs :
  let f := asked_factor cs 10 in
  ((2 <= f <= 20)%N -> exists c, builder_build (fold_left builder_call cs builder_new) = Built c /\ N.of_nat (c_capacity c) = (2 ^ f)%N) /\
  ((20 < f)%N -> builder_build (fold_left builder_call cs builder_new) = InvalidArgument).
Proof.
  cbv zeta. unfold builder_build. rewrite builder_fold. cbn [b_factor builder_new]. split; intros H.
  - rewrite exp2_spec by exact H. eexists. split; [reflexivity|]. cbn [c_capacity]. apply N2Nat.id.
  - rewrite exp2_none by lia. reflexivity.
Qed.

Lemma factory_lemma f name c : factory_from (Some f) (Some name) = Built c <->
  (2 <= f <= 20)%N /\ N.of_nat (c_capacity c) = (2 ^ f)%N /\
  ((name = B "drop" /\ c_policy c = Drop) \/ (name = B "wait" /\ c_policy c = Wait)).
Proof.
  unfold factory_from, create_policy. split.
  - intros H.
    assert (R : (2 <= f <= 20)%N).
    { destruct (N.le_gt_cases 2 f) as [H1|H1]; [destruct (N.le_gt_cases f 20) as [H2|H2]; [lia|]|];
        exfalso; revert H; rewrite exp2_none by lia; destruct (bytes_eqb name (B "drop")), (bytes_eqb name (B "wait")); discriminate. }
    rewrite exp2_spec in H by exact R. split; [exact R|].
    destruct (bytes_eqb name (B "drop")) eqn:E1; [|destruct (bytes_eqb name (B "wait")) eqn:E2; [|discriminate]];
      inversion H; subst; cbn [c_capacity c_policy]; rewrite N2Nat.id; (split; [reflexivity|]).
    + left. apply bytes_eqb_eq in E1. auto.
    + right. apply bytes_eqb_eq in E2. auto.
  - intros (R & Hc & Hn). rewrite exp2_spec by exact R. destruct c as [cap pol]. cbn [c_capacity c_policy] in *.
    replace (N.to_nat (2 ^ f)) with cap by (rewrite <- Hc, Nat2N.id; reflexivity).
    destruct Hn as [[-> ->]|[-> ->]]; reflexivity.
Qed.
