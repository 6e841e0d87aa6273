(** Proofs about the builders. *)
From Verif Require Import Base Decimal Values ConfigModel ConfigSpec RegistryModel BuildersModel BuildersSpec.
From Verif Require Import FactoriesModel FactoriesSpec FactoriesProofs.
From Verif Require StdMap FmtModel ConsoleModel FlusherModel FlusherSpec FlusherProofs FileSinkModel AsyncModel TskvModel JsonFmtModel ParserModel StrModel.

(** ---- folds ---- *)

Lemma fold_proj {D C A} (call : D -> C -> D) (proj : D -> A) (step : A -> C -> A) l : (forall d c, proj (call d c) = step (proj d) c) ->
  forall d, proj (fold_left call l d) = fold_left step l (proj d).
Proof. intros H. induction l as [|c l IH]; intros d; [reflexivity|]. cbn [fold_left]. now rewrite IH, H. Qed.

Lemma fold_filter {C A} (step : A -> C -> A) (mine : C -> bool) l : (forall a c, mine c = false -> step a c = a) ->
  forall a, fold_left step l a = fold_left step (filter mine l) a.
Proof.
  intros H. induction l as [|c l IH]; intros a; [reflexivity|]. cbn [fold_left filter]. destruct (mine c) eqn:E; cbn [fold_left].
  - apply IH.
  - rewrite H by exact E. apply IH.
Qed.

Lemma fold_mine {D C A} (call : D -> C -> D) (proj : D -> A) (step : A -> C -> A) (mine : C -> bool) l l' d :
  (forall d c, proj (call d c) = step (proj d) c) -> (forall a c, mine c = false -> step a c = a) ->
  filter mine l = filter mine l' -> proj (fold_left call l d) = proj (fold_left call l' d).
Proof.
  intros H1 H2 E. rewrite !(fold_proj call proj step) by exact H1. rewrite (fold_filter step mine l), (fold_filter step mine l') by exact H2. now rewrite E.
Qed.

Definition kind_is {C} (kind : C -> nat) (k : nat) (c : C) : bool := Nat.eqb (kind c) k.

Lemma tskv_by_kind l l' : same_by_kind tskv_kind l l' -> TskvModel.build l = TskvModel.build l'.
Proof.
  intros E. unfold TskvModel.build.
  assert (P : forall d d' : TskvModel.tskv_data, TskvModel.d_removed d = TskvModel.d_removed d' -> TskvModel.d_renamed d = TskvModel.d_renamed d' ->
    TskvModel.d_attributes d = TskvModel.d_attributes d' -> TskvModel.d_timestamps d = TskvModel.d_timestamps d' -> d = d').
  { intros [? ? ? ?] [? ? ? ?]. cbn. intros -> -> -> ->. reflexivity. }
  apply P.
  - apply (fold_mine TskvModel.builder_call TskvModel.d_removed (fun a c => match c with TskvModel.Remove n => StdMap.set_insert n a | _ => a end) (kind_is tskv_kind 2)).
    + intros d []; reflexivity. + intros a []; try reflexivity; discriminate. + apply E.
  - apply (fold_mine TskvModel.builder_call TskvModel.d_renamed (fun a c => match c with TskvModel.Rename x y => StdMap.map_set x y a | _ => a end) (kind_is tskv_kind 1)).
    + intros d []; reflexivity. + intros a []; try reflexivity; discriminate. + apply E.
  - apply (fold_mine TskvModel.builder_call TskvModel.d_attributes (fun a c => match c with TskvModel.Create x y => StdMap.map_set x y a | _ => a end) (kind_is tskv_kind 0)).
    + intros d []; reflexivity. + intros a []; try reflexivity; discriminate. + apply E.
  - apply (fold_mine TskvModel.builder_call TskvModel.d_timestamps (fun a c => match c with TskvModel.Timestamp n p g => StdMap.map_set n (p, g) a | _ => a end) (kind_is tskv_kind 3)).
    + intros d []; reflexivity. + intros a []; try reflexivity; discriminate. + apply E.
Qed.

(** The fields of the JSON formatter's properties, each by the calls of its kind; the flags need only be asked for once. *)
Lemma json_by_fields l l' :
  (forall k, k <> 3%nat -> k <> 4%nat -> filter (kind_is json_kind k) l = filter (kind_is json_kind k) l') ->
  (In JsonFmtModel.Unique l <-> In JsonFmtModel.Unique l') -> (In JsonFmtModel.Newline l <-> In JsonFmtModel.Newline l') ->
  JsonFmtModel.build l = JsonFmtModel.build l'.
Proof.
  intros E U N. unfold JsonFmtModel.build.
  assert (P : forall d d' : JsonFmtModel.properties, JsonFmtModel.p_unique d = JsonFmtModel.p_unique d' -> JsonFmtModel.p_newline d = JsonFmtModel.p_newline d' ->
    JsonFmtModel.p_timestamp d = JsonFmtModel.p_timestamp d' -> JsonFmtModel.p_severity d = JsonFmtModel.p_severity d' ->
    JsonFmtModel.p_specified d = JsonFmtModel.p_specified d' -> JsonFmtModel.p_unspecified d = JsonFmtModel.p_unspecified d' ->
    JsonFmtModel.p_mapping d = JsonFmtModel.p_mapping d' -> JsonFmtModel.p_formatting d = JsonFmtModel.p_formatting d' -> d = d').
  { intros [? ? ? ? ? ? ? ?] [? ? ? ? ? ? ? ?]. cbn. intros -> -> -> -> -> -> -> ->. reflexivity. }
  assert (FU : forall l b, fold_left (fun a c => match c with JsonFmtModel.Unique => true | _ => a end) l b = true <-> b = true \/ In JsonFmtModel.Unique l).
  { clear. induction l as [|c l IH]; intros b; cbn [fold_left In]; [tauto|]. rewrite IH. destruct c; intuition discriminate. }
  assert (FN : forall l b, fold_left (fun a c => match c with JsonFmtModel.Newline => true | _ => a end) l b = true <-> b = true \/ In JsonFmtModel.Newline l).
  { clear. induction l as [|c l IH]; intros b; cbn [fold_left In]; [tauto|]. rewrite IH. destruct c; intuition discriminate. }
  assert (BE : forall a b : bool, (a = true <-> b = true) -> a = b) by (intros [] [] [H1 H2]; try reflexivity; [symmetry; now apply H1|now apply H2]).
  apply P.
  - rewrite !(fold_proj JsonFmtModel.builder_call JsonFmtModel.p_unique (fun a c => match c with JsonFmtModel.Unique => true | _ => a end)) by (intros [] []; reflexivity).
    apply BE. rewrite !FU. tauto.
  - rewrite !(fold_proj JsonFmtModel.builder_call JsonFmtModel.p_newline (fun a c => match c with JsonFmtModel.Newline => true | _ => a end)) by (intros [] []; reflexivity).
    apply BE. rewrite !FN. tauto.
  - apply (fold_mine JsonFmtModel.builder_call JsonFmtModel.p_timestamp (fun a c => match c with JsonFmtModel.Timestamp p => Some p | _ => a end) (kind_is json_kind 6)).
    + intros [] []; reflexivity. + intros a []; try reflexivity; discriminate. + apply E; discriminate.
  - apply (fold_mine JsonFmtModel.builder_call JsonFmtModel.p_severity (fun a c => match c with JsonFmtModel.Severity p => p | _ => a end) (kind_is json_kind 5)).
    + intros [] []; reflexivity. + intros a []; try reflexivity; discriminate. + apply E; discriminate.
  - apply (fold_mine JsonFmtModel.builder_call JsonFmtModel.p_specified (fun a c => match c with JsonFmtModel.Route r n => StdMap.map_set r n a | _ => a end) (kind_is json_kind 1)).
    + intros [] []; reflexivity. + intros a []; try reflexivity; discriminate. + apply E; discriminate.
  - apply (fold_mine JsonFmtModel.builder_call JsonFmtModel.p_unspecified (fun a c => match c with JsonFmtModel.RouteRest r => r | _ => a end) (kind_is json_kind 0)).
    + intros [] []; reflexivity. + intros a []; try reflexivity; discriminate. + apply E; discriminate.
  - apply (fold_mine JsonFmtModel.builder_call JsonFmtModel.p_mapping (fun a c => match c with JsonFmtModel.Rename x y => StdMap.map_set x y a | _ => a end) (kind_is json_kind 2)).
    + intros [] []; reflexivity. + intros a []; try reflexivity; discriminate. + apply E; discriminate.
  - apply (fold_mine JsonFmtModel.builder_call JsonFmtModel.p_formatting (fun a c => match c with JsonFmtModel.Format x y => StdMap.map_set x y a | _ => a end) (kind_is json_kind 7)).
    + intros [] []; reflexivity. + intros a []; try reflexivity; discriminate. + apply E; discriminate.
Qed.

Lemma json_by_kind l l' : same_by_kind json_kind l l' -> JsonFmtModel.build l = JsonFmtModel.build l'.
Proof.
  intros E. apply json_by_fields.
  - intros k _ _. apply E.
  - pose proof (E 3%nat) as H. split; intros I; [assert (J : In JsonFmtModel.Unique (filter (fun c => Nat.eqb (json_kind c) 3) l)) by (apply filter_In; auto); rewrite H in J
      |assert (J : In JsonFmtModel.Unique (filter (fun c => Nat.eqb (json_kind c) 3) l')) by (apply filter_In; auto); rewrite <- H in J]; now apply filter_In in J.
  - pose proof (E 4%nat) as H. split; intros I; [assert (J : In JsonFmtModel.Newline (filter (fun c => Nat.eqb (json_kind c) 4) l)) by (apply filter_In; auto); rewrite H in J
      |assert (J : In JsonFmtModel.Newline (filter (fun c => Nat.eqb (json_kind c) 4) l')) by (apply filter_In; auto); rewrite <- H in J]; now apply filter_In in J.
Qed.

(** ---- last calls ---- *)

Lemma last_snoc {C A} (gives : C -> A -> Prop) (i a : A) l c : gives c a -> last_given gives i (l ++ [c]) a.
Proof. intros H. apply given_last; [exact H|]. intros c' a' []. Qed.
Lemma last_skip {C A} (gives : C -> A -> Prop) (i a : A) l c : (forall a', ~ gives c a') -> last_given gives i l a -> last_given gives i (l ++ [c]) a.
Proof.
  intros N H. destruct H as [l H|before c0 after a G H].
  - apply given_never. intros c' a' I. apply in_app_or in I. destruct I as [I|[<-|[]]]; [now apply H|apply N].
  - rewrite <- app_assoc. cbn [app]. apply given_last; [exact G|]. intros c' a' I. apply in_app_or in I. destruct I as [I|[<-|[]]]; [now apply (H c')|apply N].
Qed.
Lemma fold_last {D C A} (call : D -> C -> D) (proj : D -> A) (gives : C -> A -> Prop) d :
  (forall d c, (exists a, gives c a /\ proj (call d c) = a) \/ ((forall a, ~ gives c a) /\ proj (call d c) = proj d)) ->
  forall l, last_given gives (proj d) l (proj (fold_left call l d)).
Proof.
  intros H l. induction l as [|c l IH] using rev_ind.
  - apply given_never. intros c a [].
  - rewrite fold_left_app. cbn [fold_left]. destruct (H (fold_left call l d) c) as [(a & G & ->)|[N ->]].
    + now apply last_snoc.
    + now apply last_skip.
Qed.
(** A function of the calls, in fact. *)
Lemma last_unique {C A} (gives : C -> A -> Prop) (i : A) l a b : (forall c a b, gives c a -> gives c b -> a = b) ->
  last_given gives i l a -> last_given gives i l b -> a = b.
Proof.
  intros U H1. revert b. destruct H1 as [l H|before c after a G H]; intros b H2.
  - destruct H2 as [l H'|before' c' after' b G' H']; [reflexivity|]. exfalso. apply (H c' b); [|exact G']. apply in_or_app. right. left. reflexivity.
  - remember (before ++ c :: after) as l eqn:E. destruct H2 as [l H'|before' c' after' b G' H'].
    + exfalso. apply (H' c a); [|exact G]. subst l. apply in_or_app. right. left. reflexivity.
    + assert (K : c' = c); [|subst c'; eapply U; eassumption].
      revert before' E. induction before as [|x before IH]; intros [|y before'] E; cbn [app] in E; injection E as Ex E; subst.
      * reflexivity.
      * exfalso. apply (H c' b); [|exact G']. apply in_or_app. right. left. reflexivity.
      * exfalso. apply (H' c a); [|exact G]. apply in_or_app. right. left. reflexivity.
      * now apply (IH before').
Qed.

Lemma console_lemma calls : exists err mapping, make_sink (PConsole calls) = Ret (KConsole err mapping) /\
  last_given gives_stream false calls err /\
  forall r, exists color, mapping r = Some color /\ last_given (gives_colour r) ConsoleModel.default_color calls color.
Proof.
  eexists _, _. split; [reflexivity|]. split.
  - apply (fold_last console_set cb_err gives_stream console_new). intros d c. destruct c as [| |x]; cbn.
    + left. exists false. split; [left; split; reflexivity|reflexivity].
    + left. exists true. split; [right; split; reflexivity|reflexivity].
    + right. split; [intros a [[E _]|[E _]]; discriminate E|]. destruct x; reflexivity.
  - intros r.
    pose proof (fold_last console_set (fun b => cb_mapping b r) (fun c o => exists a, o = Some a /\ gives_colour r c a) console_new) as K.
    cbn beta in K. change (cb_mapping console_new r) with (Some ConsoleModel.default_color) in K.
    assert (Q : forall d c, (exists a, (exists a0, a = Some a0 /\ gives_colour r c a0) /\ cb_mapping (console_set d c) r = a) \/
      ((forall a, ~ exists a0, a = Some a0 /\ gives_colour r c a0) /\ cb_mapping (console_set d c) r = cb_mapping d r)).
    { intros d c. destruct c as [| |[s color|f]]; cbn.
      - right. split; [|reflexivity]. intros a (a0 & _ & [E|(f & E & _)]); discriminate E.
      - right. split; [|reflexivity]. intros a (a0 & _ & [E|(f & E & _)]); discriminate E.
      - destruct (Z.eqb_spec s (r_severity r)) as [->|NE].
        + left. exists (Some color). split; [|reflexivity]. exists color. split; [reflexivity|]. left. reflexivity.
        + right. split; [|reflexivity]. intros a (a0 & _ & [E|(f & E & _)]); [injection E as E1 E2; congruence|discriminate E].
      - left. exists (Some (f r)). split; [|reflexivity]. exists (f r). split; [reflexivity|]. right. exists f. split; reflexivity. }
    specialize (K Q calls). change (cb_mapping (fold_left console_set calls console_new) r) with
      ((fun b => cb_mapping b r) (fold_left console_set calls console_new)) in *. cbn beta in *.
    remember (cb_mapping (fold_left console_set calls console_new) r) as o eqn:EO. clear EO.
    remember (Some ConsoleModel.default_color) as i eqn:EI in K.
    destruct K as [l H|before c after a (a0 & -> & G) H].
    + exists ConsoleModel.default_color. split; [exact EI|]. apply given_never. intros c a I G. apply (H c (Some a) I). exists a. split; [reflexivity|exact G].
    + exists a0. split; [reflexivity|]. apply given_last; [exact G|]. intros c' a' I G'. apply (H c' (Some a') I). exists a'. split; [reflexivity|exact G'].
Qed.

Lemma to_bytes_ok u n : (n < 2 ^ 64)%N -> to_bytes u n = ((n * bytes_in u) mod 2 ^ 64)%N.
Proof.
  intros L. destruct u; cbn [to_bytes ratio bytes_in]; unfold wrap64, two64; try reflexivity.
  rewrite N.mul_1_r, N.mod_small by exact L. reflexivity.
Qed.

Lemma file_lemma path calls : Forall (fun n => n < 2 ^ 64)%N (flat_map file_numbers calls) ->
  exists stat flusher, make_sink (PFile path calls) = Ret (KFile path (Some stat) (Some flusher)) /\
  last_given gives_stat false calls stat /\ last_given gives_flush (FlusherModel.FRepeat (FlusherModel.repeat_new 0)) calls flusher.
Proof.
  intros L. cbn [make_sink file_build fst].
  assert (K : exists stat flusher, fold_left file_set calls (file_new path) = FileBuilder path (Some stat) (Some flusher) /\
    last_given gives_stat false calls stat /\ last_given gives_flush (FlusherModel.FRepeat (FlusherModel.repeat_new 0)) calls flusher).
  { induction calls as [|c calls IH] using rev_ind.
    - eexists _, _. split; [reflexivity|]. split; apply given_never; intros c a [].
    - rewrite flat_map_app in L. apply Forall_app in L. destruct L as [L1 L2]. cbn [flat_map] in L2. rewrite app_nil_r in L2.
      destruct (IH L1) as (stat & flusher & E & H1 & H2). rewrite fold_left_app. cbn [fold_left]. rewrite E.
      destruct c as [u n|n|]; cbn [file_set fb_path fb_stat fb_flush].
      + exists stat, (FlusherModel.FBytes (FlusherModel.bytecount_new (to_bytes u n))). split; [reflexivity|]. split.
        * apply last_skip; [intros a [E1 _]; discriminate E1|exact H1].
        * apply last_snoc. left. exists u, n. split; [reflexivity|]. rewrite to_bytes_ok; [reflexivity|]. now inversion L2.
      + eexists stat, _. split; [reflexivity|]. split.
        * apply last_skip; [intros a [E1 _]; discriminate E1|exact H1].
        * apply last_snoc. right. exists n. split; reflexivity.
      + exists true, flusher. split; [reflexivity|]. split.
        * apply last_snoc. split; reflexivity.
        * apply last_skip; [|exact H2]. intros a [(u & n & E1 & _)|(n & E1 & _)]; discriminate E1. }
  destruct K as (stat & flusher & -> & H1 & H2). exists stat, flusher. split; [reflexivity|]. split; assumption.
Qed.

(** ---- handlers and loggers ---- *)

Section Handlers.
Variable dbl : FmtModel.spec -> N -> bytes.
Variable lexical_double : bytes -> bool.
Variable ndebug : bool.
Local Notation make_formatter := (make_formatter dbl lexical_double ndebug).
Local Notation make_handler := (make_handler dbl lexical_double ndebug).
Local Notation make_logger := (make_logger dbl lexical_double ndebug).
Local Notation blocking_call := (blocking_call dbl lexical_double ndebug).

Lemma string_builder_lemma pattern mappings f : make_formatter (PString pattern mappings) = Ret f ->
  exists tokens m, f = KString tokens m /\ ParserModel.tokenize lexical_double ndebug pattern = Some (ParserModel.Tokens tokens) /\
  last_given eq (StrModel.number_map dbl) mappings m.
Proof.
  intros E. cbn [BuildersModel.make_formatter] in E.
  assert (F : fold_left string_set mappings (string_new pattern) = StringBuilder pattern (last (map Some mappings) None)).
  { clear. induction mappings as [|m l IH] using rev_ind; [reflexivity|]. rewrite fold_left_app. cbn [fold_left]. rewrite IH, map_app. cbn [map].
    now rewrite last_last. }
  rewrite F in E. unfold string_build in E. cbn [fst sb_pattern sb_mapping] in E.
  destruct (ParserModel.tokenize lexical_double ndebug pattern) as [[ts|[]]|]; try discriminate E. injection E as <-. eexists ts, _. split; [reflexivity|].
  split; [reflexivity|]. destruct mappings as [|m l] using rev_ind.
  - apply given_never. intros c a [].
  - rewrite map_app. cbn [map]. rewrite last_last. now apply last_snoc.
Qed.

Lemma for_each_app {A S} (f : S -> A -> outcome S) l l' s :
  for_each f s (l ++ l') (fun s => Ret s) = bind (for_each f s l (fun s => Ret s)) (fun s => for_each f s l' (fun s => Ret s)).
Proof. revert s. induction l as [|a l IH]; intros s; [reflexivity|]. cbn [app for_each]. destruct (f s a); cbn [bind]; [apply IH|reflexivity|reflexivity]. Qed.
Lemma for_each_then {A S T} (f : S -> A -> outcome S) (k : S -> outcome T) l s :
  for_each f s l k = bind (for_each f s l (fun s => Ret s)) k.
Proof. revert s. induction l as [|a l IH]; intros s; [reflexivity|]. cbn [for_each]. destruct (f s a); cbn [bind]; [apply IH|reflexivity|reflexivity]. Qed.

Lemma blocking_lemma calls b : for_each blocking_call blocking_new calls (fun b => Ret b) = Ret b ->
  Forall2 (fun p s => make_sink p = Ret s) (added calls) (bb_sinks b) /\
  ((bb_formatter b = None /\ forall f, ~ In (SetFormatter f) calls) \/
   exists p f, bb_formatter b = Some f /\ last_given gives_formatter p calls p /\ In (SetFormatter p) calls /\ make_formatter p = Ret f).
Proof.
  revert b. induction calls as [|c calls IH] using rev_ind; intros b E.
  - injection E as <-. split; [constructor|]. left. split; [reflexivity|]. intros f [].
  - rewrite for_each_app in E. apply bind_ret in E. destruct E as (b0 & E0 & E). destruct (IH b0 E0) as [S F]. cbn [for_each] in E.
    assert (AD : forall l, added (l ++ [c]) = added l ++ added [c]).
    { clear. induction l as [|x l IH]; [reflexivity|]. cbn [app]. destruct x; cbn [added]; rewrite IH; reflexivity. }
    rewrite AD. apply bind_ret in E. destruct E as (b1 & E & E1). injection E1 as <-. destruct c as [p|p]; cbn [BuildersModel.blocking_call] in E.
    + apply bind_ret in E. destruct E as (f & Ef & E). injection E as <-. cbn [added blocking_set bb_sinks bb_formatter]. rewrite app_nil_r. split; [exact S|].
      right. exists p, f. split; [reflexivity|]. split; [apply last_snoc; reflexivity|]. split; [apply in_or_app; right; left; reflexivity|exact Ef].
    + apply bind_ret in E. destruct E as (s & Es & E). injection E as <-. cbn [added blocking_add bb_sinks bb_formatter]. split.
      * apply Forall2_app; [exact S|]. constructor; [exact Es|constructor].
      * destruct F as [[F N]|(p0 & f & F & L & I & M)].
        -- left. split; [exact F|]. intros f I. apply in_app_or in I. destruct I as [I|[I|[]]]; [now apply (N f)|discriminate I].
        -- right. exists p0, f. split; [exact F|]. split; [apply last_skip; [intros a G; discriminate G|exact L]|].
           split; [apply in_or_app; left; exact I|exact M].
Qed.

Lemma handler_lemma2 calls h : make_handler (PBlocking calls) = Ret h -> exists f sinks, h = KBlocking f sinks /\
  Forall2 (fun p s => make_sink p = Ret s) (added calls) sinks /\
  ((f = None /\ forall p, ~ In (SetFormatter p) calls) \/
   exists p f0, f = Some f0 /\ last_given gives_formatter p calls p /\ In (SetFormatter p) calls /\ make_formatter p = Ret f0).
Proof.
  intros E. cbn [BuildersModel.make_handler] in E. rewrite for_each_then in E. apply bind_ret in E. destruct E as (b & E & E1). injection E1 as <-.
  destruct (blocking_lemma _ _ E) as [S F]. exists (bb_formatter b), (bb_sinks b). split; [reflexivity|]. split; [exact S|exact F].
Qed.

Lemma make_logger_lemma ps hs : make_logger ps = Ret hs <-> Forall2 (fun p h => make_handler p = Ret h) ps hs.
Proof.
  unfold BuildersModel.make_logger.
  assert (K : forall l acc hs, for_each (fun hs p => bind (make_handler p) (fun h => Ret (hs ++ [h]))) acc l (fun hs => Ret hs) = Ret hs <->
    exists new, hs = acc ++ new /\ Forall2 (fun p h => make_handler p = Ret h) l new).
  { clear. induction l as [|p l IH]; intros acc hs; cbn [for_each].
    - split.
      + intros E. injection E as <-. exists []. split; [now rewrite app_nil_r|constructor].
      + intros (new & -> & F). inversion F. now rewrite app_nil_r.
    - destruct (make_handler p) as [h|e|] eqn:E; cbn [bind].
      + rewrite IH. split.
        * intros (new & -> & F). exists (h :: new). split; [now rewrite <- app_assoc|]. constructor; assumption.
        * intros (new & -> & F). inversion F as [|? h' ? new' E' F']; subst. rewrite E in E'. injection E' as <-. exists new'. split; [now rewrite <- app_assoc|exact F'].
      + split; [discriminate|]. intros (new & _ & F). inversion F. congruence.
      + split; [discriminate|]. intros (new & _ & F). inversion F. congruence. }
  rewrite K. split.
  - intros (new & -> & F). exact F.
  - intros F. exists hs. split; [reflexivity|exact F].
Qed.
End Handlers.
