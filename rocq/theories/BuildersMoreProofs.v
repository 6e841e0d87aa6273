(** Proofs about the builders: documents for programs, and programs for documents. *)
From Verif Require Import Base Decimal Values ConfigModel ConfigSpec RegistryModel BuildersModel BuildersSpec BuildersProofs.
From Verif Require Import FactoriesModel FactoriesSpec FactoriesProofs.
From Verif Require StdMap FmtModel ConsoleModel FlusherModel FlusherSpec FlusherProofs FileSinkModel AsyncModel TskvModel JsonFmtModel ParserModel StrModel.

(** ---- documents without NUL ---- *)

Lemma clean_string s : no_nul s -> clean (JString s).
Proof. intros N. split; intros x I; inversion I; subst. exact N. Qed.
Lemma clean_leaf v : match v with JNull | JBool _ | JInt _ | JReal _ => True | _ => False end -> clean v.
Proof. intros H. split; intros x I; inversion I; subst; destruct H. Qed.
Lemma clean_array l : Forall clean l -> clean (JArray l).
Proof.
  intros F. rewrite Forall_forall in F. split; intros x I; inversion I; subst;
    match goal with IN : In ?w l, IW : inside ?w _ |- _ => destruct (F _ IN) as [K1 K2]; eauto end.
Qed.
Lemma clean_object l : Forall (fun m => no_nul (fst m) /\ clean (snd m)) l -> clean (JObject l).
Proof.
  intros F. rewrite Forall_forall in F.
  assert (K : forall u, inside (JObject l) u -> u = JObject l \/ exists k w, In (k, w) l /\ inside w u).
  { intros u I. remember (JObject l) as v eqn:E. destruct I; subst; [left; reflexivity|discriminate E|]. injection E as ->. right. eauto. }
  split; intros x I; destruct (K _ I) as [E|(k & w & IN & IW)].
  - discriminate E.
  - destruct (F _ IN) as [_ [K1 _]]. exact (K1 _ IW).
  - injection E as ->. apply Forall_forall. intros k IK. apply in_map_iff in IK. destruct IK as ([k' w] & <- & IK). exact (proj1 (F _ IK)).
  - destruct (F _ IN) as [_ [_ K2]]. exact (K2 _ IW).
Qed.
Lemma clean_strings l : Forall no_nul l -> clean (JArray (map JString l)).
Proof. intros F. apply clean_array. apply Forall_forall. intros v I. apply in_map_iff in I. destruct I as (s & <- & I). apply clean_string. rewrite Forall_forall in F. now apply F. Qed.

Ltac clean_known := apply clean_ok_clean; reflexivity.
Ltac lit := apply ok_no_nul; reflexivity.
Ltac members := apply clean_object; repeat (apply Forall_cons; [split; [lit|cbn [snd]]|]); try apply Forall_nil.

(** ---- numbers ---- *)

Lemma digit_code d : (d < 10)%N -> N_of_ascii (digit d) = (48 + d)%N.
Proof. intros L. unfold digit. destruct (N.ltb_spec d 10); [|lia]. unfold chr. apply N_ascii_embedding. lia. Qed.
Lemma numeral_dec n : FlusherSpec.Numeral (dec n) n.
Proof.
  assert (D : Forall (fun c => exists d, (d < 10)%N /\ c = digit d) (dec n)) by (apply notation_digits; lia).
  destruct (FlusherProofs.numeral_exists (dec n)) as (m & H).
  - apply forallb_forall. intros c I. rewrite Forall_forall in D. destruct (D _ I) as (d & L & ->).
    unfold FlusherModel.is_digit. rewrite digit_code by exact L. apply andb_true_intro. split; apply N.leb_le; lia.
  - apply notation_nonempty.
  - assert (m = n); [|now subst]. rewrite (FlusherProofs.numeral_fold _ _ H). etransitivity; [|exact (dec_value n)]. unfold value_of. clear H. generalize 0%N.
    induction D as [|c l (d & L & ->) D IH]; intros acc; [reflexivity|]. cbn [fold_left]. rewrite IH. f_equal.
    unfold FlusherModel.digit_val. rewrite digit_code by exact L. destruct (N.ltb_spec (48 + d) 58); [reflexivity|lia].
Qed.
Lemma no_nul_dec n : no_nul (dec n).
Proof.
  assert (D : Forall (fun c => exists d, (d < 10)%N /\ c = digit d) (dec n)) by (apply notation_digits; lia).
  intros I. rewrite Forall_forall in D. destruct (D _ I) as (d & L & E). apply (f_equal N_of_ascii) in E. rewrite digit_code in E by exact L.
  change (N_of_ascii NUL) with 0%N in E. lia.
Qed.
Lemma no_nul_app a b : no_nul a -> no_nul b -> no_nul (a ++ b).
Proof. intros H1 H2 I. apply in_app_or in I. destruct I; [now apply H1|now apply H2]. Qed.

(** ---- documents for sinks ---- *)

Definition flush_value (f : FlusherModel.flusher_t) (v : json) : Prop :=
  (exists n, (n < 2 ^ 64)%N /\ v = JInt (Z.of_N n) /\ f = FlusherModel.FRepeat (FlusherModel.repeat_new n)) \/
  (exists n, (n < 2 ^ 64)%N /\ v = JString (dec n) /\ f = FlusherModel.FBytes (FlusherModel.bytecount_new n)).
Lemma flush_value_clean f v : flush_value f v -> clean v.
Proof. intros [(n & _ & -> & _)|(n & _ & -> & _)]; [now apply clean_leaf|apply clean_string, no_nul_dec]. Qed.
Lemma flush_value_config f w v : flush_value f w -> at_path v [key "flush"] w -> flush_config v f.
Proof.
  intros [(n & L & -> & ->)|(n & L & -> & ->)] A; right.
  - left. exists n. repeat split; assumption.
  - right. exists (dec n), n, 1%N. split; [exact A|]. split; [exists (dec n), []; split; [now rewrite app_nil_r|]; split; [apply numeral_dec|constructor]|].
    split; [exact L|]. rewrite N.mul_1_r. split; [exact L|reflexivity].
Qed.
Lemma flush_value_of calls f : Forall (fun n => n < 2 ^ 64)%N (flat_map file_numbers calls) ->
  last_given gives_flush (FlusherModel.FRepeat (FlusherModel.repeat_new 0)) calls f -> exists v, flush_value f v.
Proof.
  intros F L. destruct L as [calls N|before c after a G N].
  - eexists. left. exists 0%N. split; [reflexivity|]. split; reflexivity.
  - destruct G as [(u & n & -> & ->)|(n & -> & ->)].
    + eexists. right. eexists. split; [|split; reflexivity]. apply N.mod_lt. discriminate.
    + eexists. left. exists n. split; [|split; reflexivity]. rewrite flat_map_app in F. apply Forall_app in F. destruct F as [_ F]. inversion F. assumption.
Qed.

Definition console_document : json := JObject [(B "type", JString (B "console"))].
Definition file_document (path : bytes) (flush : json) (stat : bool) : json :=
  JObject ([(B "type", JString (B "file")); (B "path", JString path); (B "flush", flush)]
    ++ if stat then [(B "rotate", JObject [(B "type", JString (B "stat"))])] else []).
Definition asynchronous_document (w : json) (factor : N) : json :=
  JObject [(B "type", JString (B "asynchronous")); (B "sink", w); (B "factor", JInt (Z.of_N factor)); (B "overflow", JString (B "wait"))].

Lemma sink_document p : forall s, make_sink p = Ret s -> Forall no_nul (sink_texts p) -> Forall (fun n => n < 2 ^ 64)%N (sink_numbers p) -> plain_sink s ->
  exists v s', clean v /\ sink_config v s' /\ same_sink s s'.
Proof.
  induction p as [calls|path calls|w IH calls]; intros s E T L P.
  - injection E as <-. inversion P as [m D|path stat f|s' c P']; subst. exists console_document, (SConsole None). split; [clean_known|].
    split; [|now constructor]. apply config_console; [apply walk_found; reflexivity|]. apply walk_not_found; reflexivity.
  - cbn [sink_texts sink_numbers] in T, L. destruct (file_lemma path calls L) as (stat & flusher & E' & _ & H). rewrite E' in E. injection E as <-.
    destruct (flush_value_of calls flusher L H) as (w & W). inversion T as [|? ? NP _]; subst.
    exists (file_document path w stat), (SFile path (FileSinkModel.Config stat flusher)). split; [|split; [|constructor]].
    + unfold file_document. apply clean_object. apply Forall_app. split.
      * repeat (apply Forall_cons; [split; [lit|cbn [snd]]|]); [clean_known|now apply clean_string|now apply (flush_value_clean flusher)|apply Forall_nil].
      * destruct stat; [|constructor]. apply Forall_cons; [|apply Forall_nil]. split; [lit|clean_known].
    + apply config_file.
      * destruct stat; apply walk_found; reflexivity.
      * destruct stat; apply walk_found; reflexivity.
      * apply (flush_value_config flusher w); [exact W|]. destruct stat; apply walk_found; reflexivity.
      * destruct stat; [right; split; [apply walk_found; reflexivity|reflexivity]|left; split; [apply walk_not_found; reflexivity|reflexivity]].
  - cbn [make_sink] in E. apply bind_ret in E. destruct E as (s0 & E0 & E).
    assert (K : forall b, ab_wrapped (fold_left asynchronous_set calls b) = ab_wrapped b).
    { clear. induction calls as [|c calls IH]; intros b; [reflexivity|]. cbn [fold_left]. now rewrite IH. }
    unfold asynchronous_build in E. cbn [fst] in E. rewrite K in E. cbn [asynchronous_new ab_wrapped] in E. unfold AsyncModel.builder_build in E.
    generalize dependent (AsyncModel.b_factor (ab_rest (fold_left asynchronous_set calls (asynchronous_new s0)))). intros factor E.
    unfold AsyncModel.exp2 in E. destruct ((factor <? 2)%N || (20 <? factor)%N) eqn:EF; [discriminate E|]. injection E as <-.
    apply orb_false_iff in EF. destruct EF as [F1 F2]. apply N.ltb_ge in F1, F2.
    inversion P as [| |s1 c1 P1]; subst. destruct (IH s0 E0 T L P1) as (v & s' & C & S & M).
    exists (asynchronous_document v factor), (SAsynchronous s' (AsyncModel.Config (N.to_nat (2 ^ factor)) AsyncModel.Wait)). split; [|split; [|now constructor]].
    + unfold asynchronous_document. members; [clean_known|exact C|now apply clean_leaf|clean_known].
    + eapply config_asynchronous with (w := v) (name := B "wait"); try (apply walk_found; reflexivity); [exact S|split; assumption|right; split; reflexivity].
Qed.

(** ---- documents for formatters ---- *)

Lemma filter_in {C} (mine p : C -> bool) l : (forall c, mine c = true -> p c = true) -> filter mine (filter p l) = filter mine l.
Proof.
  intros H. induction l as [|c l IH]; [reflexivity|]. cbn [filter]. destruct (p c) eqn:E; cbn [filter]; destruct (mine c) eqn:M; rewrite IH; try reflexivity.
  rewrite (H _ M) in E. discriminate E.
Qed.
Lemma filter_out {C} (mine p : C -> bool) l : (forall c, mine c = true -> p c = false) -> filter mine (filter p l) = [].
Proof.
  intros H. induction l as [|c l IH]; [reflexivity|]. cbn [filter]. destruct (p c) eqn:E; cbn [filter]; [|exact IH]. destruct (mine c) eqn:M; [|exact IH].
  rewrite (H _ M) in E. discriminate E.
Qed.
Lemma filter_none {C} (mine : C -> bool) l : (forall c, mine c = false) -> filter mine l = [].
Proof. intros H. induction l as [|c l IH]; [reflexivity|]. cbn [filter]. now rewrite H. Qed.

Definition creates (c : TskvModel.call) := match c with TskvModel.Create n v => [(n, JString v)] | _ => [] end.
Definition renames (c : TskvModel.call) := match c with TskvModel.Rename n v => [(n, JString v)] | _ => [] end.
Definition removes (c : TskvModel.call) := match c with TskvModel.Remove n => [JString n] | _ => [] end.
Definition stamps (c : TskvModel.call) := match c with
  TskvModel.Timestamp n p g => [(n, JObject [(B "strftime", JString p); (B "gmtime", JBool g)])] | _ => [] end.
Definition tskv_document (calls : list TskvModel.call) : json := JObject
  [(B "type", JString (B "tskv")); (B "create", JObject (flat_map creates calls)); (B "rename", JObject (flat_map renames calls));
   (B "remove", JArray (flat_map removes calls)); (B "mutate", JObject (flat_map stamps calls))].

Ltac in_flat H := apply in_flat_map in H; let c := fresh "c" in let I := fresh "I" in let K := fresh "K" in destruct H as (c & I & K).
Lemma text_in {C} (texts : C -> list bytes) calls c s : Forall no_nul (flat_map texts calls) -> In c calls -> In s (texts c) -> no_nul s.
Proof. intros F I J. rewrite Forall_forall in F. apply F. apply in_flat_map. exists c. split; assumption. Qed.

Lemma tskv_document_clean calls : Forall no_nul (flat_map tskv_texts calls) -> clean (tskv_document calls).
Proof.
  intros F. unfold tskv_document. members; [clean_known| | | |].
  - apply clean_object. apply Forall_forall. intros m H. in_flat H. destruct c as [n v| | |]; try solve [destruct K].
    destruct K as [<-|[]]. split; [apply (text_in _ _ _ n F I); left; reflexivity|]. apply clean_string, (text_in _ _ _ v F I). right. left. reflexivity.
  - apply clean_object. apply Forall_forall. intros m H. in_flat H. destruct c as [|n v| |]; try solve [destruct K].
    destruct K as [<-|[]]. split; [apply (text_in _ _ _ n F I); left; reflexivity|]. apply clean_string, (text_in _ _ _ v F I). right. left. reflexivity.
  - apply clean_array. apply Forall_forall. intros m H. in_flat H. destruct c as [| |n|]; try solve [destruct K].
    destruct K as [<-|[]]. apply clean_string, (text_in _ _ _ n F I). left. reflexivity.
  - apply clean_object. apply Forall_forall. intros m H. in_flat H. destruct c as [| | |n p g]; try solve [destruct K].
    destruct K as [<-|[]]. split; [apply (text_in _ _ _ n F I); left; reflexivity|]. cbn [snd]. members; [|now apply clean_leaf].
    apply clean_string, (text_in _ _ _ p F I). right. left. reflexivity.
Qed.

Lemma tskv_document_config calls : tskv_config (tskv_document calls) (TskvModel.build calls).
Proof.
  exists (filter (kind_is tskv_kind 0) calls), (filter (kind_is tskv_kind 1) calls), (filter (kind_is tskv_kind 2) calls), (filter (kind_is tskv_kind 3) calls).
  split; [right; eexists; split; [apply walk_found; reflexivity|]|].
  { induction calls as [|[] calls IH]; cbn; try exact IH; [constructor|]. constructor; [|exact IH]. eexists. split; reflexivity. }
  split; [right; eexists; split; [apply walk_found; reflexivity|]|].
  { induction calls as [|[] calls IH]; cbn; try exact IH; [constructor|]. constructor; [|exact IH]. eexists. split; reflexivity. }
  split; [right; eexists; split; [apply walk_found; reflexivity|]|].
  { induction calls as [|[] calls IH]; cbn; try exact IH; [constructor|]. constructor; [|exact IH]. eexists. split; reflexivity. }
  split; [right; eexists; split; [apply walk_found; reflexivity|]|].
  { induction calls as [|[] calls IH]; cbn; try exact IH; [constructor|]. constructor; [|exact IH]. cbn [fst snd].
    eexists _, _. split; [apply walk_found; reflexivity|]. split; [right; apply walk_found; reflexivity|reflexivity]. }
  apply tskv_by_kind. intros k. rewrite !filter_app. change (fun c => Nat.eqb (tskv_kind c) k) with (kind_is tskv_kind k).
  assert (D : forall j, j <> k -> filter (kind_is tskv_kind k) (filter (kind_is tskv_kind j) calls) = []).
  { intros j N. apply filter_out. unfold kind_is. intros c. rewrite Nat.eqb_eq. intros ->. now apply Nat.eqb_neq, not_eq_sym. }
  assert (S : filter (kind_is tskv_kind k) (filter (kind_is tskv_kind k) calls) = filter (kind_is tskv_kind k) calls) by (apply filter_in; auto).
  destruct k as [|[|[|[|k]]]].
  1-4: rewrite S, !D by discriminate; cbn [app]; rewrite ?app_nil_r; reflexivity.
  rewrite !D by discriminate. apply filter_none. intros []; reflexivity.
Qed.

Definition json_renames (c : JsonFmtModel.call) := match c with JsonFmtModel.Rename n v => [(n, JString v)] | _ => [] end.
Definition json_formats (c : JsonFmtModel.call) := match c with JsonFmtModel.Format n v => [(n, JString v)] | _ => [] end.
Definition json_routes (c : JsonFmtModel.call) := match c with
  | JsonFmtModel.RouteRest r => [(r, JString (B "*"))] | JsonFmtModel.Route r names => [(r, JArray (map JString names))] | _ => [] end.
Definition json_mutations (c : JsonFmtModel.call) := match c with
  | JsonFmtModel.Timestamp p => [(B "timestamp", JString p)] | JsonFmtModel.Severity names => [(B "severity", JArray (map JString names))] | _ => [] end.
Definition json_document (calls : list JsonFmtModel.call) : json := JObject
  [(B "type", JString (B "json"));
   (B "unique", JBool (existsb (kind_is json_kind 3) calls)); (B "newline", JBool (existsb (kind_is json_kind 4) calls));
   (B "mapping", JObject (flat_map json_renames calls)); (B "formatting", JObject (flat_map json_formats calls));
   (B "routing", JObject (flat_map json_routes calls)); (B "mutate", JObject (flat_map json_mutations calls))].

Lemma json_document_clean calls : Forall no_nul (flat_map json_texts calls) -> clean (json_document calls).
Proof.
  intros F. unfold json_document. members; [clean_known|now apply clean_leaf|now apply clean_leaf| | | |].
  - apply clean_object. apply Forall_forall. intros m H. in_flat H. destruct c as [| |n v| | | | |]; try solve [destruct K].
    destruct K as [<-|[]]. split; [apply (text_in _ _ _ n F I); left; reflexivity|]. apply clean_string, (text_in _ _ _ v F I). right. left. reflexivity.
  - apply clean_object. apply Forall_forall. intros m H. in_flat H. destruct c as [| | | | | | |n v]; try solve [destruct K].
    destruct K as [<-|[]]. split; [apply (text_in _ _ _ n F I); left; reflexivity|]. apply clean_string, (text_in _ _ _ v F I). right. left. reflexivity.
  - apply clean_object. apply Forall_forall. intros m H. in_flat H. destruct c as [r|r names| | | | | |]; try solve [destruct K].
    + destruct K as [<-|[]]. split; [apply (text_in _ _ _ r F I); left; reflexivity|clean_known].
    + destruct K as [<-|[]]. split; [apply (text_in _ _ _ r F I); left; reflexivity|]. apply clean_strings, Forall_forall. intros s J.
      apply (text_in _ _ _ s F I). right. exact J.
  - apply clean_object. apply Forall_forall. intros m H. in_flat H. destruct c as [| | | | |names|p|]; try solve [destruct K].
    + destruct K as [<-|[]]. split; [lit|]. apply clean_strings, Forall_forall. intros s J. apply (text_in _ _ _ s F I). exact J.
    + destruct K as [<-|[]]. split; [lit|]. apply clean_string, (text_in _ _ _ p F I). left. reflexivity.
Qed.

Definition two_kinds (a b : nat) (c : JsonFmtModel.call) : bool := kind_is json_kind a c || kind_is json_kind b c.
Lemma json_document_config calls : json_config (json_document calls) (JsonFmtModel.build calls).
Proof.
  exists (if existsb (kind_is json_kind 3) calls then [JsonFmtModel.Unique] else []), (if existsb (kind_is json_kind 4) calls then [JsonFmtModel.Newline] else []),
    (filter (kind_is json_kind 2) calls), (filter (kind_is json_kind 7) calls), (filter (two_kinds 0 1) calls), (filter (two_kinds 5 6) calls).
  split. { right. destruct (existsb (kind_is json_kind 3) calls) eqn:E; [right|left]; (split; [apply walk_found; [reflexivity|cbn; now rewrite E]|reflexivity]). }
  split. { right. destruct (existsb (kind_is json_kind 4) calls) eqn:E; [right|left]; (split; [apply walk_found; [reflexivity|cbn; now rewrite E]|reflexivity]). }
  split; [right; eexists; split; [apply walk_found; reflexivity|]|].
  { induction calls as [|[] calls IH]; cbn; try exact IH; [constructor|]. constructor; [|exact IH]. eexists. split; reflexivity. }
  split; [right; eexists; split; [apply walk_found; reflexivity|]|].
  { induction calls as [|[] calls IH]; cbn; try exact IH; [constructor|]. constructor; [|exact IH]. eexists. split; reflexivity. }
  split; [right; eexists; split; [apply walk_found; reflexivity|]|].
  { induction calls as [|[] calls IH]; cbn; try exact IH; [constructor| |]; (constructor; [|exact IH]); [left; split; reflexivity|right; eexists; split; reflexivity]. }
  split; [right; eexists; split; [apply walk_found; reflexivity|]|].
  { induction calls as [|[] calls IH]; cbn; try exact IH; [constructor| |]; (constructor; [|exact IH]); [right|left]; (split; [reflexivity|]; eexists; split; reflexivity). }
  apply json_by_fields.
  - intros k N3 N4. rewrite !filter_app.
    assert (D : forall j, j <> k -> filter (kind_is json_kind k) (filter (kind_is json_kind j) calls) = []).
    { intros j N. apply filter_out. unfold kind_is. intros c. rewrite Nat.eqb_eq. intros ->. now apply Nat.eqb_neq, not_eq_sym. }
    assert (D2 : forall a b, a <> k -> b <> k -> filter (kind_is json_kind k) (filter (two_kinds a b) calls) = []).
    { intros a b NA NB. apply filter_out. unfold two_kinds, kind_is. intros c. rewrite Nat.eqb_eq. intros ->. apply orb_false_iff. split; now apply Nat.eqb_neq, not_eq_sym. }
    assert (S : filter (kind_is json_kind k) (filter (kind_is json_kind k) calls) = filter (kind_is json_kind k) calls) by (apply filter_in; auto).
    assert (S2 : forall a, filter (kind_is json_kind k) (filter (two_kinds k a) calls) = filter (kind_is json_kind k) calls /\
                           filter (kind_is json_kind k) (filter (two_kinds a k) calls) = filter (kind_is json_kind k) calls).
    { intros a. split; apply filter_in; unfold two_kinds; intros c ->; [reflexivity|apply orb_true_r]. }
    assert (Z3 : filter (kind_is json_kind k) (if existsb (kind_is json_kind 3) calls then [JsonFmtModel.Unique] else []) = []).
    { destruct (existsb (kind_is json_kind 3) calls); [|reflexivity]. cbn [filter]. unfold kind_is. cbn [json_kind]. rewrite (proj2 (Nat.eqb_neq 3 k)); [reflexivity|congruence]. }
    assert (Z4 : filter (kind_is json_kind k) (if existsb (kind_is json_kind 4) calls then [JsonFmtModel.Newline] else []) = []).
    { destruct (existsb (kind_is json_kind 4) calls); [|reflexivity]. cbn [filter]. unfold kind_is. cbn [json_kind]. rewrite (proj2 (Nat.eqb_neq 4 k)); [reflexivity|congruence]. }
    rewrite Z3, Z4. cbn [app]. destruct k as [|[|[|[|[|[|[|[|k]]]]]]]]; try congruence.
    + rewrite (proj1 (S2 1%nat)), (D 2%nat), (D 7%nat), (D2 5%nat 6%nat) by discriminate. cbn [app]. now rewrite app_nil_r.
    + rewrite (proj2 (S2 0%nat)), (D 2%nat), (D 7%nat), (D2 5%nat 6%nat) by discriminate. cbn [app]. now rewrite app_nil_r.
    + rewrite S, (D 7%nat), !D2 by discriminate. cbn [app]. now rewrite app_nil_r.
    + rewrite (proj1 (S2 6%nat)), (D 2%nat), (D 7%nat), (D2 0%nat 1%nat) by discriminate. reflexivity.
    + rewrite (proj2 (S2 5%nat)), (D 2%nat), (D 7%nat), (D2 0%nat 1%nat) by discriminate. reflexivity.
    + rewrite S, (D 2%nat), !D2 by discriminate. cbn [app]. now rewrite app_nil_r.
    + rewrite !D, !D2 by discriminate. apply filter_none. intros []; reflexivity.
  - split.
    + intros I. apply in_or_app. left. assert (E : existsb (kind_is json_kind 3) calls = true) by (apply existsb_exists; eexists; split; [exact I|reflexivity]). rewrite E. left. reflexivity.
    + intros I. destruct (existsb (kind_is json_kind 3) calls) eqn:E.
      * apply existsb_exists in E. destruct E as ([] & I' & K); try discriminate K. exact I'.
      * repeat (apply in_app_or in I; destruct I as [I|I]); try solve [destruct I]; try (destruct (existsb (kind_is json_kind 4) calls); [destruct I as [I|[]]; discriminate I|destruct I]);
          try (apply filter_In in I; destruct I as [_ I]; discriminate I).
  - split.
    + intros I. apply in_or_app. right. apply in_or_app. left. assert (E : existsb (kind_is json_kind 4) calls = true) by (apply existsb_exists; eexists; split; [exact I|reflexivity]).
      rewrite E. left. reflexivity.
    + intros I. destruct (existsb (kind_is json_kind 4) calls) eqn:E.
      * apply existsb_exists in E. destruct E as ([] & I' & K); try discriminate K. exact I'.
      * repeat (apply in_app_or in I; destruct I as [I|I]); try solve [destruct I]; try (destruct (existsb (kind_is json_kind 3) calls); [destruct I as [I|[]]; discriminate I|destruct I]);
          try (apply filter_In in I; destruct I as [_ I]; discriminate I).
Qed.

Section Documents.
Variable dbl : FmtModel.spec -> N -> bytes.
Variable lexical_double : bytes -> bool.
Variable ndebug : bool.

Definition string_document (pattern : bytes) (names : option (list bytes)) : json := JObject
  ([(B "type", JString (B "string")); (B "pattern", JString pattern)] ++
   match names with Some l => [(B "sevmap", JArray (map JString l))] | None => [] end).

Lemma formatter_document p f : make_formatter dbl lexical_double ndebug p = Ret f -> Forall no_nul (formatter_texts p) -> plain_formatter dbl f ->
  exists v f', clean v /\ formatter_config lexical_double ndebug v f' /\ same_formatter dbl f f'.
Proof.
  destruct p as [pattern mappings|calls|calls]; intros E T P.
  - destruct (string_builder_lemma dbl lexical_double ndebug _ _ _ E) as (tokens & m & -> & Et & _). cbn [formatter_texts] in T. inversion T as [|? ? NP _]; subst.
    assert (K : exists names, shows dbl m names /\ forall l, names = Some l -> Forall no_nul l).
    { inversion P; subst; [exists None|exists (Some names)]; (split; [assumption|]); intros l H; [discriminate H|]. now injection H as <-. }
    destruct K as (names & Sh & Nn). exists (string_document pattern names), (FString tokens names). split; [|split; [|now constructor]].
    + unfold string_document. apply clean_object. apply Forall_app. split.
      * repeat (apply Forall_cons; [split; [lit|cbn [snd]]|]); [clean_known|now apply clean_string|apply Forall_nil].
      * destruct names as [l|]; [|constructor]. apply Forall_cons; [|apply Forall_nil]. split; [lit|]. cbn [snd]. apply clean_strings. now apply Nn.
    + right. right. split; [destruct names; apply walk_found; reflexivity|]. exists pattern, tokens, names.
      split; [destruct names; apply walk_found; reflexivity|]. split; [exact Et|]. split; [|reflexivity].
      destruct names as [l|]; [right; exists l; split; [apply walk_found; reflexivity|reflexivity]|left; split; [apply walk_not_found; reflexivity|reflexivity]].
  - injection E as <-. exists (tskv_document calls), (FTskv (TskvModel.build calls)). split; [now apply tskv_document_clean|]. split; [|constructor].
    left. split; [apply walk_found; reflexivity|]. eexists. split; [apply tskv_document_config|reflexivity].
  - injection E as <-. exists (json_document calls), (FJson (JsonFmtModel.build calls)). split; [now apply json_document_clean|]. split; [|constructor].
    right. left. split; [apply walk_found; reflexivity|]. eexists. split; [apply json_document_config|reflexivity].
Qed.

Lemma in_added s calls : In s (added calls) <-> In (AddSink s) calls.
Proof.
  induction calls as [|[f|s'] calls IH]; cbn [added In]; [reflexivity| |].
  - rewrite IH. split; [intros I; right; exact I|]. intros [E|I]; [discriminate E|exact I].
  - rewrite IH. split; (intros [E|I]; [left; congruence|right; exact I]).
Qed.

Lemma handler_document p h : make_handler dbl lexical_double ndebug p = Ret h -> Forall no_nul (texts p) -> Forall (fun n => n < 2 ^ 64)%N (numbers p) ->
  plain_handler dbl h -> exists v h', clean v /\ handler_config lexical_double ndebug v h' /\ same_handler dbl h h'.
Proof.
  destruct p as [calls|]; intros E T L P; [|injection E as <-; inversion P].
  destruct (handler_lemma2 dbl lexical_double ndebug _ _ E) as (f & sinks & -> & S & F). inversion P as [f0 sinks0 Pf Ps]; subst.
  destruct F as [[F _]|(p & f1 & F & _ & I & M)]; [discriminate F|]. injection F as <-. cbn [texts numbers] in T, L.
  assert (TF : Forall no_nul (formatter_texts p)).
  { apply Forall_forall. intros s J. rewrite Forall_forall in T. apply T. apply in_flat_map. exists (SetFormatter p). split; assumption. }
  destruct (formatter_document p f0 M TF Pf) as (w & f' & Cw & Kw & Sf).
  assert (K : exists l sinks', clean (JArray l) /\ Forall2 sink_config l sinks' /\ Forall2 same_sink sinks sinks').
  { assert (TS : forall s, In s (added calls) -> Forall no_nul (sink_texts s) /\ Forall (fun n => n < 2 ^ 64)%N (sink_numbers s)).
    { intros s J. apply in_added in J. split; apply Forall_forall; intros x Jx; [rewrite Forall_forall in T; apply T|rewrite Forall_forall in L; apply L];
        apply in_flat_map; exists (AddSink s); (split; assumption). }
    clear - S Ps TS. assert (W : exists l sinks', Forall clean l /\ Forall2 sink_config l sinks' /\ Forall2 same_sink sinks sinks').
    { induction S as [|q s ps sinks Es S IH]; [exists [], []; repeat split; constructor|]. inversion Ps as [|? ? Ps1 Ps2]; subst.
      destruct (IH Ps2) as (l & sinks' & C & A1 & A2); [intros x J; apply TS; right; exact J|].
      destruct (TS q (or_introl eq_refl)) as [T1 T2]. destruct (sink_document q s Es T1 T2 Ps1) as (v & s' & Cv & Kv & Sv).
      exists (v :: l), (s' :: sinks'). repeat split; constructor; assumption. }
    destruct W as (l & sinks' & C & A1 & A2). exists l, sinks'. split; [now apply clean_array|]. split; assumption. }
  destruct K as (l & sinks' & C & A1 & A2).
  exists (JObject [(B "type", JString (B "blocking")); (B "formatter", w); (B "sinks", JArray l)]), (HBlocking f' sinks').
  split; [|split; [|now constructor]].
  - members; [clean_known|exact Cw|exact C].
  - exists w, f', l, sinks'. split; [left; apply walk_found; reflexivity|]. split; [apply walk_found; reflexivity|]. split; [exact Kw|].
    split; [apply walk_found; reflexivity|]. split; [exact A1|reflexivity].
Qed.

Lemma logger_document name ps hs : make_logger dbl lexical_double ndebug ps = Ret hs -> no_nul name -> Forall (fun p => Forall no_nul (texts p)) ps ->
  Forall (fun p => Forall (fun n => n < 2 ^ 64)%N (numbers p)) ps -> Forall (plain_handler dbl) hs ->
  exists v hs', clean v /\ logger dbl lexical_double ndebug v name = Ret hs' /\ Forall2 (same_handler dbl) hs hs'.
Proof.
  intros E Nn T L P. apply make_logger_lemma in E.
  assert (W : exists l hs', Forall clean l /\ Forall2 (handler_config lexical_double ndebug) l hs' /\ Forall2 (same_handler dbl) hs hs').
  { induction E as [|p h ps hs Eh E IH]; [exists [], []; repeat split; constructor|]. inversion T; inversion L; inversion P; subst.
    destruct IH as (l & hs' & C & A1 & A2); [assumption..|].
    destruct (handler_document p h Eh) as (v & h' & Cv & Kv & Sv); [assumption..|]. exists (v :: l), (h' :: hs'). repeat split; constructor; assumption. }
  destruct W as (l & hs' & C & A1 & A2). assert (Cv : clean (JObject [(name, JArray l)])).
  { apply clean_object. apply Forall_cons; [|apply Forall_nil]. split; [exact Nn|]. now apply clean_array. }
  exists (JObject [(name, JArray l)]), hs'. split; [exact Cv|]. split; [|exact A2]. apply logger_lemma; [exact Cv|exact Nn|].
  exists l. split; [|exact A1]. eapply at_below; [|apply at_here]. apply (child_key []). intros [].
Qed.
End Documents.
