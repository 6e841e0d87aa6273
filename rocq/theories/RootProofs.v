(** Proofs about log calls. *)
From Verif Require Import Base Values RootModel RootSpec.

Lemma deliver_deliveries hs : forall i r, deliveries (deliver i hs r) = map (fun k => (k, r)) (seq i (length hs)).
Proof.
  induction hs as [|h hs IH]; intros i r; cbn [deliver length seq map]; [reflexivity|].
  destruct (h r); cbn; rewrite IH; reflexivity.
Qed.

Lemma deliver_printed hs : forall i r, printed (deliver i hs r) = flat_map (fun h => diagnostic (h r)) hs.
Proof.
  induction hs as [|h hs IH]; intros i r; cbn [deliver flat_map]; [reflexivity|].
  destruct (h r) as [u|[w|n]]; cbn; rewrite IH; reflexivity.
Qed.

Lemma deliver_shape hs : forall i r x, In x (deliver i hs r) ->
  (exists k, x = EvHandle k r) \/ (exists l, x = EvPrint l).
Proof.
  induction hs as [|h hs IH]; intros i r x; cbn [deliver]; [intros []|].
  intros [<-|H]; [left; eauto|]. destruct (h r); [eauto|]. destruct H as [<-|H]; eauto.
Qed.

Lemma deliver_no_supply hs i r : supplies (deliver i hs r) = 0.
Proof.
  unfold supplies. replace (List.filter _ (deliver i hs r)) with (@nil event); [reflexivity|].
  symmetry. assert (H := deliver_shape hs i r). revert H. generalize (deliver i hs r). intros l H.
  induction l as [|x l IH]; [reflexivity|]. cbn. destruct (H x (or_introl eq_refl)) as [[k ->]|[b ->]];
  apply IH; intros y Hy; apply H; right; exact Hy.
Qed.

Lemma deliver_no_filter hs i r : filter_calls (deliver i hs r) = [].
Proof.
  assert (H := deliver_shape hs i r). revert H. generalize (deliver i hs r). intros l H.
  induction l as [|x l IH]; [reflexivity|]. cbn. destruct (H x (or_introl eq_refl)) as [[k ->]|[b ->]];
  apply IH; intros y Hy; apply H; right; exact Hy.
Qed.

Lemma log_pack_wrapped ws : forall lg scoped tid now sev pat pack sup,
  log_pack (wrapped ws) lg scoped tid now sev pat pack sup = consume lg scoped tid now sev pat (pack ++ ws) sup.
Proof.
  induction ws as [|w ws IH]; intros; cbn [wrapped fold_right log_pack].
  - rewrite app_nil_r. reflexivity.
  - fold (wrapped ws). rewrite IH, <- app_assoc. reflexivity.
Qed.

Lemma log_plain_wrapped ws lg scoped tid now sev pat :
  log_plain (wrapped ws) lg scoped tid now sev pat = consume lg scoped tid now sev pat ws null_message.
Proof. destruct ws as [|w ws]; [reflexivity|]. cbn [wrapped fold_right log_plain]. fold (wrapped ws). apply log_pack_wrapped. Qed.

Lemma rejected_lemma lg scoped tid now sev pat pack sup :
  let r := Rec pat pat sev 0%Z tid (pack ++ scoped) in
  i_filter lg r = Ret false ->
  let o := consume lg scoped tid now sev pat pack sup in
  o_exit o = Ret tt /\ o_events o = [EvFilter r].
Proof. intros r H. cbv zeta. unfold consume. cbv zeta. unfold record_new. fold r. rewrite H. split; reflexivity. Qed.

Lemma accepted_lemma lg scoped tid now sev pat pack v :
  let r := Rec pat pat sev 0%Z tid (pack ++ scoped) in
  let r' := Rec pat (text_of pat v) sev now tid (pack ++ scoped) in
  i_filter lg r = Ret true ->
  let o := consume lg scoped tid now sev pat pack (Ret v) in
  o_exit o = Ret tt /\
  deliveries (o_events o) = map (fun i => (i, r')) (seq 0 (length (i_handlers lg))) /\
  printed (o_events o) = flat_map (fun h => diagnostic (h r')) (i_handlers lg) /\
  filter_calls (o_events o) = [r] /\ supplies (o_events o) = 1 /\
  exists rest, o_events o = EvFilter r :: EvSupply :: rest.
Proof.
  intros r r' H. cbv zeta. unfold consume, record_new. cbv zeta. fold r. rewrite H. cbn [o_exit o_events].
  assert (E : activate r v now = r') by (destruct v; reflexivity). rewrite E.
  repeat split.
  - cbn. apply deliver_deliveries.
  - cbn. apply deliver_printed.
  - cbn. fold (filter_calls (deliver 0 (i_handlers lg) r')). rewrite deliver_no_filter. reflexivity.
  - unfold supplies. cbn [List.filter length]. f_equal. apply deliver_no_supply.
  - eauto.
Qed.

Lemma diagnostics_adjacent_lemma lg scoped tid now sev pat pack v i h :
  let r := Rec pat pat sev 0%Z tid (pack ++ scoped) in
  let r' := Rec pat (text_of pat v) sev now tid (pack ++ scoped) in
  i_filter lg r = Ret true -> nth_error (i_handlers lg) i = Some h ->
  exists t1 t2, o_events (consume lg scoped tid now sev pat pack (Ret v))
    = t1 ++ EvHandle i r' :: map EvPrint (diagnostic (h r')) ++ t2
    /\ length (deliveries t1) = i.
Proof.
  intros r r' H Hn. unfold consume, record_new. cbv zeta. fold r. rewrite H. cbn [o_events].
  assert (E : activate r v now = r') by (destruct v; reflexivity). rewrite E.
  apply nth_error_split in Hn as (h1 & h2 & Eh & El). rewrite Eh.
  assert (Hd : forall k hs1 hs2, deliver k (hs1 ++ hs2) r' = deliver k hs1 r' ++ deliver (k + length hs1) hs2 r').
  { intros k hs1; revert k. induction hs1 as [|x hs1 IH]; intros k hs2; cbn [deliver app length].
    - rewrite Nat.add_0_r. reflexivity.
    - rewrite IH. replace (S k + length hs1) with (k + S (length hs1)) by lia. destruct (x r'); reflexivity. }
  exists (EvFilter r :: EvSupply :: deliver 0 h1 r'), (deliver (S i) h2 r').
  split.
  - rewrite Hd. cbn [deliver app]. rewrite El, Nat.add_0_l.
    destruct (h r') as [u|[w|n]]; cbn [diagnostic map app]; reflexivity.
  - cbn. fold (deliveries (deliver 0 h1 r')). rewrite deliver_deliveries, map_length, seq_length. exact El.
Qed.

Lemma filter_throws_lemma lg scoped tid now sev pat pack sup e :
  let r := Rec pat pat sev 0%Z tid (pack ++ scoped) in
  i_filter lg r = Throw e ->
  let o := consume lg scoped tid now sev pat pack sup in
  o_exit o = Throw e /\ o_events o = [EvFilter r].
Proof. intros r H. cbv zeta. unfold consume, record_new. cbv zeta. fold r. rewrite H. split; reflexivity. Qed.

Lemma supplier_throws_lemma lg scoped tid now sev pat pack e :
  let r := Rec pat pat sev 0%Z tid (pack ++ scoped) in
  i_filter lg r = Ret true ->
  let o := consume lg scoped tid now sev pat pack (Throw e) in
  o_exit o = Throw e /\ o_events o = [EvFilter r; EvSupply].
Proof. intros r H. cbv zeta. unfold consume, record_new. cbv zeta. fold r. rewrite H. split; reflexivity. Qed.

Lemma exit_source_lemma lg scoped tid now sev pat pack sup e :
  o_exit (consume lg scoped tid now sev pat pack sup) = Throw e ->
  i_filter lg (Rec pat pat sev 0%Z tid (pack ++ scoped)) = Throw e \/ sup = Throw e.
Proof.
  unfold consume, record_new. cbv zeta.
  destruct (i_filter lg _) as [[|]|e']; [destruct sup as [s|e']| |]; cbn; intros E; inversion E; auto.
Qed.

Lemma active_lemma lg scoped tid now sev pat pack sup i r :
  now <> 0%Z -> In (EvHandle i r) (o_events (consume lg scoped tid now sev pat pack sup)) -> is_active r = true.
Proof.
  intros Hn. unfold consume. cbv zeta.
  destruct (i_filter lg _) as [[|]|e']; [destruct sup as [s|e']| |]; cbn [o_events]; intros H;
    try (repeat (destruct H as [H|H]; try discriminate H); contradiction).
  destruct H as [H|[H|H]]; try discriminate.
  apply deliver_shape in H as [[k E]|[l E]]; inversion E; subst.
  unfold is_active. cbn. apply negb_true_iff, Z.eqb_neq. exact Hn.
Qed.

Lemma builder_lemma adds : i_handlers (builder_build adds) = adds /\ forall r, i_filter (builder_build adds) r = Ret true.
Proof.
  split; [|reflexivity]. cbn.
  assert (H : forall acc, fold_left builder_add adds acc = acc ++ adds).
  { induction adds as [|a l IH]; intros acc; cbn; [symmetry; apply app_nil_r|]. rewrite IH. unfold builder_add. rewrite <- app_assoc. reflexivity. }
  apply H.
Qed.

(** Lookup. *)
Lemma find_in_list_spec name l v : find_in_list name l = Some v <-> first_binding name l v.
Proof.
  unfold first_binding, binds. induction l as [|[k w] l IH]; cbn [find_in_list].
  - split; [discriminate|]. intros (l1 & l2 & E & _). destruct l1; discriminate.
  - destruct (bytes_eqb k name) eqn:Ek.
    + apply bytes_eqb_eq in Ek. subst k. split.
      * intros E. inversion E; subst. exists [], l. split; [reflexivity|]. intros [x []].
      * intros ([|[a b] l1] & l2 & E & Hn); cbn in E; inversion E; subst; [reflexivity|].
        exfalso. apply Hn. exists b. left. reflexivity.
    + apply bytes_eqb_neq in Ek. rewrite IH. split.
      * intros (l1 & l2 & -> & Hn). exists ((k, w) :: l1), l2. split; [reflexivity|].
        intros [x [E|Hin]]; [inversion E; contradiction|]. apply Hn. eauto.
      * intros ([|[a b] l1] & l2 & E & Hn); cbn in E; inversion E; subst; [contradiction|].
        exists l1, l2. split; [reflexivity|]. intros [x Hx]. apply Hn. exists x. right. exact Hx.
Qed.

Lemma find_in_list_none name l : find_in_list name l = None <-> ~ binds name l.
Proof.
  unfold binds. induction l as [|[k w] l IH]; cbn [find_in_list].
  - split; [intros _ [v []]|reflexivity].
  - destruct (bytes_eqb k name) eqn:Ek.
    + apply bytes_eqb_eq in Ek. subst k. split; [discriminate|]. intros H. exfalso. apply H. exists w. left. reflexivity.
    + apply bytes_eqb_neq in Ek. rewrite IH. split.
      * intros H [v [E|Hin]]; [inversion E; contradiction|]. apply H. eauto.
      * intros H [v Hv]. apply H. exists v. right. exact Hv.
Qed.

Lemma find_spec name pack v : find name pack = Some v <->
  exists p1 l p2, pack = p1 ++ l :: p2 /\ (forall x, In x p1 -> ~ binds name x) /\ first_binding name l v.
Proof.
  induction pack as [|l pack IH]; cbn [find].
  - split; [discriminate|]. intros (p1 & l & p2 & E & _). destruct p1; discriminate.
  - destruct (find_in_list name l) as [w|] eqn:El.
    + split.
      * intros E; inversion E; subst. exists [], l, pack. split; [reflexivity|]. split; [intros x []|]. apply find_in_list_spec, El.
      * intros ([|x p1] & y & p2 & E & Hn & Hf); cbn in E; inversion E; subst.
        -- apply find_in_list_spec in Hf. congruence.
        -- exfalso. apply (Hn x); [left; reflexivity|]. apply find_in_list_spec in El as (a & b & -> & _).
           exists w. apply in_or_app. right. left. reflexivity.
    + rewrite IH. split.
      * intros (p1 & y & p2 & -> & Hn & Hf). exists (l :: p1), y, p2. split; [reflexivity|]. split; [|exact Hf].
        intros x [<-|Hx]; [apply find_in_list_none, El|apply Hn, Hx].
      * intros ([|x p1] & y & p2 & E & Hn & Hf); cbn in E; inversion E; subst.
        -- apply find_in_list_spec in Hf. congruence.
        -- exists p1, y, p2. split; [reflexivity|]. split; [|exact Hf]. intros z Hz. apply Hn. right. exact Hz.
Qed.

Lemma find_none name pack : find name pack = None <-> forall l, In l pack -> ~ binds name l.
Proof.
  induction pack as [|l pack IH]; cbn [find].
  - split; [intros _ l []|reflexivity].
  - destruct (find_in_list name l) as [w|] eqn:El.
    + split; [discriminate|]. intros H. exfalso. apply (H l); [left; reflexivity|].
      apply find_in_list_spec in El as (a & b & -> & _). exists w. apply in_or_app. right. left. reflexivity.
    + rewrite IH. split; [intros H x [<-|Hx]; [apply find_in_list_none, El|apply H, Hx]|].
      intros H x Hx. apply H. right. exact Hx.
Qed.

Lemma pack_lemma ws lg scoped tid now sev pat pack sup i r :
  In (EvHandle i r) (o_events (log_pack (wrapped ws) lg scoped tid now sev pat pack sup)) ->
  r_attributes r = pack ++ ws ++ scoped.
Proof.
  rewrite log_pack_wrapped. unfold consume. cbv zeta.
  destruct (i_filter lg _) as [[|]|e']; [destruct sup as [s|e']| |]; cbn [o_events]; intros H;
    try (repeat (destruct H as [H|H]; try discriminate H); contradiction).
  destruct H as [H|[H|H]]; try discriminate.
  apply deliver_shape in H as [[k E]|[l E]]; inversion E; subst.
  cbn. rewrite <- app_assoc. reflexivity.
Qed.

Lemma pack_after_lemma ws lg scoped tid now sev pat pack sup :
  o_pack (log_pack (wrapped ws) lg scoped tid now sev pat pack sup) = pack ++ ws ++ scoped.
Proof.
  rewrite log_pack_wrapped. unfold consume. cbv zeta.
  destruct (i_filter lg _) as [[|]|e']; [destruct sup as [s|e']| |]; cbn [o_pack]; rewrite <- app_assoc; reflexivity.
Qed.

Lemma plain_pack_lemma ws lg scoped tid now sev msg :
  log_plain (wrapped ws) lg scoped tid now sev msg = log_pack (wrapped ws) lg scoped tid now sev msg [] (Ret SNull).
Proof. rewrite log_plain_wrapped, log_pack_wrapped. reflexivity. Qed.
