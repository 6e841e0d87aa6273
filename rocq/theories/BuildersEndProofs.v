(** Proofs about the builders: programs for documents, chains, uses, and second builds. *)
From Verif Require Import Base Decimal Values ConfigModel ConfigSpec RegistryModel BuildersModel BuildersSpec BuildersProofs BuildersMoreProofs.
From Verif Require Import FactoriesModel FactoriesSpec FactoriesProofs.
From Verif Require RegistrySpec StdMap FmtModel ConsoleModel FlusherModel FlusherSpec FlusherProofs FileSinkModel AsyncModel TskvModel JsonFmtModel ParserModel StrModel.

(** ---- programs for sinks ---- *)

Lemma flush_call f0 o : flush_from o = Ret f0 -> exists c, (c = [] /\ f0 = FlusherModel.FRepeat (FlusherModel.repeat_new 0)) \/
  (exists n, c = [FlushEveryEvents n] /\ f0 = FlusherModel.FRepeat (FlusherModel.repeat_new n)) \/
  (exists n, c = [FlushEveryBytes Bytes n] /\ f0 = FlusherModel.FBytes (FlusherModel.bytecount_new n)).
Proof.
  unfold flush_from. destruct o as [m|]; [|intros E; injection E as <-; eexists; left; split; reflexivity].
  destruct (is_uint64 (n_value m)).
  { intros E. apply bind_ret in E. destruct E as (k & _ & E). injection E as <-. eexists. right. left. eexists. split; reflexivity. }
  destruct (is_string (n_value m)); [|intros E; injection E as <-; eexists; left; split; reflexivity].
  intros E. apply bind_ret in E. destruct E as (s & _ & E). destruct (FlusherModel.parse_dunit s); try discriminate E. injection E as <-.
  eexists. right. right. eexists. split; reflexivity.
Qed.

Section Programs.
Variable dbl : FmtModel.spec -> N -> bytes.
Variable lexical_double : bytes -> bool.
Variable ndebug : bool.
Local Notation make_formatter := (make_formatter dbl lexical_double ndebug).
Local Notation make_handler := (make_handler dbl lexical_double ndebug).
Local Notation make_logger := (make_logger dbl lexical_double ndebug).

Ltac unbind E := apply bind_ret in E; let x := fresh "x" in let H := fresh "H" in destruct E as (x & H & E).

(** What each factory can make. *)
Lemma sink_shape v c f s : sink_from dbl v c f = Ret s ->
  (exists o, s = SConsole o) \/
  (exists path stat o fl, s = SFile path (FileSinkModel.Config stat fl) /\ flush_from o = Ret fl) \/
  s = SNull \/ (exists h p, s = STcp h p) \/ (exists h p, s = SUdp h p) \/ (exists l, s = SSyslog l) \/
  (exists w cw f' s' factor capacity policy, sink_from dbl w cw f' = Ret s' /\ AsyncModel.exp2 factor = Some capacity /\
     s = SAsynchronous s' (AsyncModel.Config capacity policy)).
Proof.
  intros E. destruct f; try (destruct v; discriminate E).
  - do 6 right. rewrite sink_asynchronous in E. unfold asynchronous_from in E.
    unbind E. destruct x as [t|]; [|discriminate E]. unbind E. unbind E. destruct x0 as [factor|]; [|discriminate E].
    unbind E. destruct x0 as [name|]; [|discriminate E]. destruct (AsyncModel.create_policy name) as [policy|]; [|discriminate E].
    destruct (node_key (Node v c) (B "sink")) as [m|]; [|discriminate E]. unbind E.
    destruct (AsyncModel.exp2 factor) as [capacity|] eqn:X; [|discriminate E]. injection E as <-.
    eexists _, _, _, _, factor, capacity, policy. split; [eassumption|]. split; [exact X|reflexivity].
  - left. assert (E' : console_from dbl (Node v c) = Ret s) by (destruct v; exact E). clear E. unfold console_from in E'.
    unbind E'. destruct x as [t|]; [|injection E' as <-; eexists; reflexivity]. unbind E'. destruct (node_key (Node v c) (B "filter")); [|discriminate E'].
    unbind E'. injection E' as <-. eexists. reflexivity.
  - right. left. assert (E' : file_from (Node v c) = Ret s) by (destruct v; exact E). clear E. unfold file_from in E'.
    unbind E'. destruct x as [path|]; [|discriminate E']. unbind E'. unbind E'. injection E' as <-. eexists path, _, _, _. split; [reflexivity|eassumption].
  - right. right. left. destruct v; injection E as <-; reflexivity.
  - do 3 right. left. assert (E' : socket_from STcp (Node v c) = Ret s) by (destruct v; exact E). clear E. unfold socket_from in E'.
    unbind E'. destruct x as [h|]; [|discriminate E']. unbind E'. destruct x as [p|]; [|discriminate E']. injection E' as <-. eexists _, _. reflexivity.
  - do 4 right. left. assert (E' : socket_from SUdp (Node v c) = Ret s) by (destruct v; exact E). clear E. unfold socket_from in E'.
    unbind E'. destruct x as [h|]; [|discriminate E']. unbind E'. destruct x as [p|]; [|discriminate E']. injection E' as <-. eexists _, _. reflexivity.
  - do 5 right. left. assert (E' : syslog_from (Node v c) = Ret s) by (destruct v; exact E). clear E. unfold syslog_from in E'.
    destruct (node_key (Node v c) (B "priorities")); [|injection E' as <-; eexists; reflexivity]. unbind E'. unbind E'. injection E' as <-. eexists. reflexivity.
Qed.

Lemma sink_program_of s : buildable s -> forall v c f, sink_from dbl v c f = Ret s -> exists p k, make_sink p = Ret k /\ same_sink k s.
Proof.
  induction 1 as [|path cfg|s capacity H IH]; intros v c f E.
  - exists (PConsole []). eexists. split; [reflexivity|]. constructor. reflexivity.
  - destruct (sink_shape v c f _ E) as [[? X]|[(path' & stat & o & fl & X & Fl)|[X|[(? & ? & X)|[(? & ? & X)|[[? X]|(? & ? & ? & ? & ? & ? & ? & _ & _ & X)]]]]]];
      try discriminate X. injection X as -> ->. clear E.
    destruct (flush_call _ _ Fl) as (cs & K). exists (PFile path' ((if stat then [RotateCheckingStat] else []) ++ cs)).
    eexists. split; [reflexivity|].
    destruct K as [[-> ->]|[(n & -> & ->)|(n & -> & ->)]]; destruct stat; constructor.
  - destruct (sink_shape v c f _ E) as [[? X]|[(path' & stat & o & fl & X & Fl)|[X|[(? & ? & X)|[(? & ? & X)|[[? X]|(w & cw & f' & s' & factor & cap & policy & W & Ex & X)]]]]]];
      try discriminate X. injection X as <- <- <-. destruct (IH w cw f' W) as (p & k & M & S).
    exists (PAsynchronous p [AsyncModel.SetFactor factor]). eexists. split.
    + cbn [make_sink]. rewrite M. cbn [bind fold_left]. unfold asynchronous_build, asynchronous_set. cbn [fst ab_rest ab_wrapped asynchronous_new AsyncModel.builder_call].
      unfold AsyncModel.builder_build. cbn [AsyncModel.b_factor]. rewrite Ex. reflexivity.
    + now constructor.
Qed.

(** ---- programs for formatters ---- *)

Lemma ret_eq {A} (a b : A) : Ret a = Ret b -> a = b.
Proof. intros E. now injection E. Qed.

Lemma for_each_inv {A S} (Inv : S -> Prop) (f : S -> A -> outcome S) l : (forall s a s', Inv s -> f s a = Ret s' -> Inv s') ->
  forall s s', Inv s -> for_each f s l (fun s => Ret s) = Ret s' -> Inv s'.
Proof.
  intros H. induction l as [|a l IH]; intros s s' I E; cbn [for_each] in E; [now injection E as <-|].
  apply bind_ret in E. destruct E as (s1 & E1 & E). exact (IH _ _ (H _ _ _ I E1) E).
Qed.
Lemma section_map_inv {S} (Inv : S -> Prop) o (f : S -> bytes * node -> outcome S) s s' : section_map o f s = Ret s' ->
  (forall s a s', Inv s -> f s a = Ret s' -> Inv s') -> Inv s -> Inv s'.
Proof.
  intros E H I. destruct o as [m|]; cbn [section_map] in E; [|now injection E as <-]. apply bind_ret in E. destruct E as (l & _ & E).
  exact (for_each_inv Inv f l H s s' I E).
Qed.
Lemma section_each_inv {S} (Inv : S -> Prop) o (f : S -> node -> outcome S) s s' : section_each o f s = Ret s' ->
  (forall s a s', Inv s -> f s a = Ret s' -> Inv s') -> Inv s -> Inv s'.
Proof.
  intros E H I. destruct o as [m|]; cbn [section_each] in E; [|now injection E as <-]. apply bind_ret in E. destruct E as (l & _ & E).
  exact (for_each_inv Inv f l H s s' I E).
Qed.

Definition tskv_called (d : TskvModel.tskv_data) : Prop := exists calls, d = fold_left TskvModel.builder_call calls TskvModel.builder_init.
Lemma tskv_called_more d c : tskv_called d -> tskv_called (TskvModel.builder_call d c).
Proof. intros (calls & ->). exists (calls ++ [c]). now rewrite fold_left_app. Qed.
Definition json_called (d : JsonFmtModel.properties) : Prop := exists calls, d = fold_left JsonFmtModel.builder_call calls JsonFmtModel.builder_init.
Lemma json_called_more d c : json_called d -> json_called (JsonFmtModel.builder_call d c).
Proof. intros (calls & ->). exists (calls ++ [c]). now rewrite fold_left_app. Qed.

Lemma formatter_program_of b n f : formatter_from lexical_double ndebug b n = Ret f ->
  exists p k, make_formatter p = Ret k /\ same_formatter dbl k f.
Proof.
  intros E. destruct b; try discriminate E; cbn [formatter_from] in E.
  - assert (K : exists d, f = FJson d /\ json_called d).
    { unfold json_from in E. unbind E. unbind E. unbind E. unbind E. unbind E. unbind E. injection E as <-. eexists. split; [reflexivity|].
      assert (FL : forall name c d d', json_called d -> json_flag n name c d = Ret d' -> json_called d').
      { intros name c d d' I F. unfold json_flag in F. unbind F. apply ret_eq in F. rewrite <- F. destruct x5 as [[]|]; try exact I. now apply json_called_more. }
      apply (section_map_inv json_called _ _ _ _ H4).
      { intros d [k w] d' I F. destruct (bytes_eqb k (B "timestamp")); [unbind F; apply ret_eq in F; rewrite <- F; now apply json_called_more|].
        destruct (bytes_eqb k (B "severity")); [|discriminate F]. unbind F. unbind F. apply ret_eq in F. rewrite <- F. now apply json_called_more. }
      apply (section_map_inv json_called _ _ _ _ H3).
      { intros d [k w] d' I F. destruct (node_string w) as [s|e|].
        - apply ret_eq in F. rewrite <- F. now apply json_called_more.
        - unbind F. unbind F. apply ret_eq in F. rewrite <- F. now apply json_called_more.
        - unbind F. unbind F. apply ret_eq in F. rewrite <- F. now apply json_called_more. }
      apply (section_map_inv json_called _ _ _ _ H2).
      { intros d [k w] d' I F. unbind F. apply ret_eq in F. rewrite <- F. now apply json_called_more. }
      apply (section_map_inv json_called _ _ _ _ H1).
      { intros d [k w] d' I F. unbind F. apply ret_eq in F. rewrite <- F. now apply json_called_more. }
      apply (FL _ _ _ _) with (2 := H0). apply (FL _ _ _ _) with (2 := H). exists []. reflexivity. }
    destruct K as (d & -> & calls & ->). exists (PJson calls). eexists. split; [reflexivity|constructor].
  - unfold string_from in E. unbind E. destruct x as [pattern|]; [|discriminate E]. unbind E.
    destruct (ParserModel.tokenize lexical_double ndebug pattern) as [[ts|[]]|] eqn:T; try discriminate E. injection E as <-.
    destruct x as [names|].
    + exists (PString pattern [StrModel.list_map dbl names]). cbn [BuildersModel.make_formatter fold_left]. unfold string_build. cbn [fst sb_pattern sb_mapping string_set string_new].
      rewrite T. eexists. split; [reflexivity|]. constructor. intros severity spec. reflexivity.
    + exists (PString pattern []). cbn [BuildersModel.make_formatter fold_left]. unfold string_build. cbn [fst sb_pattern sb_mapping string_set string_new].
      rewrite T. eexists. split; [reflexivity|]. constructor. intros severity spec. reflexivity.
  - assert (K : exists d, f = FTskv d /\ tskv_called d).
    { unfold tskv_from in E. unbind E. unbind E. unbind E. unbind E. injection E as <-. eexists. split; [reflexivity|].
      apply (section_map_inv tskv_called _ _ _ _ H2).
      { intros d [k w] d' I F. destruct (node_key w (B "strftime")); [|now injection F as <-]. unbind F. unbind F. apply ret_eq in F. rewrite <- F. now apply tskv_called_more. }
      apply (section_each_inv tskv_called _ _ _ _ H1).
      { intros d w d' I F. unbind F. apply ret_eq in F. rewrite <- F. now apply tskv_called_more. }
      apply (section_map_inv tskv_called _ _ _ _ H0).
      { intros d [k w] d' I F. unbind F. apply ret_eq in F. rewrite <- F. now apply tskv_called_more. }
      apply (section_map_inv tskv_called _ _ _ _ H).
      { intros d [k w] d' I F. unbind F. apply ret_eq in F. rewrite <- F. now apply tskv_called_more. }
      exists []. reflexivity. }
    destruct K as (d & -> & calls & ->). exists (PTskv calls). eexists. split; [reflexivity|constructor].
Qed.

(** ---- programs for handlers and loggers ---- *)

Lemma collect_made {A} (f : node -> outcome A) nodes : forall acc x,
  for_each (fun l n => bind (f n) (fun a => Ret (l ++ [a]))) acc nodes (fun l => Ret l) = Ret x ->
  exists l, x = acc ++ l /\ Forall2 (fun n a => f n = Ret a) nodes l.
Proof.
  induction nodes as [|n nodes IH]; intros acc x E; cbn [for_each] in E.
  - injection E as <-. exists []. split; [now rewrite app_nil_r|constructor].
  - apply bind_ret in E. destruct E as (s & E1 & E). apply bind_ret in E1. destruct E1 as (a & Ea & E1). injection E1 as <-.
    destruct (IH _ _ E) as (l & -> & F). exists (a :: l). split; [now rewrite <- app_assoc|]. constructor; assumption.
Qed.

Lemma blocking_make fp f ps ks : make_formatter fp = Ret f -> Forall2 (fun p k => make_sink p = Ret k) ps ks ->
  make_handler (PBlocking (SetFormatter fp :: map AddSink ps)) = Ret (KBlocking (Some f) ks).
Proof.
  intros Ef F. cbn [BuildersModel.make_handler for_each BuildersModel.blocking_call]. rewrite Ef. cbn [bind].
  assert (K : forall b, for_each (BuildersModel.blocking_call dbl lexical_double ndebug) b (map AddSink ps) (fun b => Ret (fst (blocking_build b))) =
    Ret (KBlocking (bb_formatter b) (bb_sinks b ++ ks))).
  { induction F as [|p k ps ks E F IH]; intros b; cbn [map for_each]; [rewrite app_nil_r; reflexivity|].
    cbn [BuildersModel.blocking_call]. rewrite E. cbn [bind]. rewrite IH. cbn [blocking_add bb_formatter bb_sinks]. now rewrite <- app_assoc. }
  rewrite K. reflexivity.
Qed.

Lemma handler_program_of n h : blocking_from dbl lexical_double ndebug n = Ret h -> buildable_handler h ->
  exists p k, make_handler p = Ret k /\ same_handler dbl k h.
Proof.
  intros E Bh. unfold blocking_from in E. unbind E. destruct x as [t|]; [|discriminate E]. unbind E.
  destruct (node_key n (B "formatter")) as [m|]; [|discriminate E]. unbind E. unbind E. unbind E. injection E as <-.
  destruct (formatter_program_of _ _ _ H1) as (fp & f & Ef & Sf). unfold collect in H3. destruct (collect_made _ _ _ _ H3) as (l & -> & F). cbn [app] in *.
  cbn [buildable_handler] in Bh.
  assert (K : exists ps ks, Forall2 (fun p k => make_sink p = Ret k) ps ks /\ Forall2 same_sink ks l).
  { clear - F Bh. induction F as [|n s nodes l Es F IH]; [exists [], []; split; constructor|]. inversion Bh as [|? ? B1 B2]; subst.
    destruct (IH B2) as (ps & ks & A1 & A2). unfold sink_entry in Es. apply bind_ret in Es. destruct Es as (o & _ & Es). destruct o as [t|]; [|discriminate Es].
    apply bind_ret in Es. destruct Es as (f & _ & Es). destruct (sink_program_of _ B1 _ _ _ Es) as (p & k & M & S).
    exists (p :: ps), (k :: ks). split; constructor; assumption. }
  destruct K as (ps & ks & A1 & A2). eexists _, _. split; [exact (blocking_make _ _ _ _ Ef A1)|]. now constructor.
Qed.

Lemma logger_program_of v name hs : logger dbl lexical_double ndebug v name = Ret hs -> Forall buildable_handler hs ->
  exists ps ks, make_logger ps = Ret ks /\ Forall2 (same_handler dbl) ks hs.
Proof.
  intros E Bh. unfold logger, build in E. apply bind_ret in E. destruct E as (nodes & _ & E). destruct (collect_made _ _ _ _ E) as (l & -> & F). cbn [app] in *.
  assert (K : exists ps ks, Forall2 (fun p k => make_handler p = Ret k) ps ks /\ Forall2 (same_handler dbl) ks l).
  { clear - F Bh. induction F as [|n h nodes l Es F IH]; [exists [], []; split; constructor|]. inversion Bh as [|? ? B1 B2]; subst.
    destruct (IH B2) as (ps & ks & A1 & A2). unfold build_handler in Es. apply bind_ret in Es. destruct Es as (o & _ & Es).
    apply bind_ret in Es. destruct Es as (f & _ & Es). unfold handler_from in Es. destruct f; try discriminate Es.
    destruct (handler_program_of _ _ Es B1) as (p & k & M & S). exists (p :: ps), (k :: ks). split; constructor; assumption. }
  destruct K as (ps & ks & A1 & A2). exists ps, ks. split; [|exact A2]. now apply make_logger_lemma.
Qed.

(** ---- chains ---- *)

Local Notation chain_run := (chain_run dbl lexical_double ndebug).
Local Notation chain_step := (chain_step dbl lexical_double ndebug).
Local Notation blocking_call := (blocking_call dbl lexical_double ndebug).

Lemma chain_cons s c rest : rest <> [] -> chain_run s (c :: rest) =
  match chain_step s c with
  | Some (Ret s') => chain_run s' rest
  | Some (Throw e) => Some (Throw e)
  | Some Undefined => Some Undefined
  | None => None
  end.
Proof. intros N. destruct rest; [contradiction|]. destruct c; reflexivity. Qed.

Definition after_outcome {A C} (o : outcome A) (k : A -> option (outcome C)) : option (outcome C) :=
  match o with Ret a => k a | Throw e => Some (Throw e) | Undefined => Some Undefined end.

Lemma not_nil_app {A} (l r : list A) : r <> [] -> l ++ r <> [].
Proof. destruct l; [auto|discriminate]. Qed.

Lemma chain_blocking hs c l rest : chained_call c l -> rest <> [] -> forall b,
  chain_run (AtBlocking hs b) (l ++ rest) = after_outcome (blocking_call b c) (fun b' => chain_run (AtBlocking hs b') rest).
Proof.
  intros K N b. destruct K as [pattern mappings|].
  - cbn [app]. rewrite chain_cons by (rewrite <- app_assoc; apply not_nil_app; discriminate). cbn [BuildersModel.chain_step].
    cbn [BuildersModel.blocking_call BuildersModel.make_formatter]. generalize (string_new pattern). 
    induction mappings as [|m mappings IH]; intros sb; cbn [map app fold_left].
    + rewrite chain_cons by exact N. cbn [BuildersModel.chain_step]. destruct (fst (string_build dbl lexical_double ndebug sb)); reflexivity.
    + rewrite chain_cons by (rewrite <- app_assoc; apply not_nil_app; discriminate). cbn [BuildersModel.chain_step]. apply IH.
  - cbn [app]. rewrite chain_cons by discriminate. cbn [BuildersModel.chain_step]. rewrite chain_cons by exact N. cbn [BuildersModel.chain_step]. reflexivity.
Qed.

Lemma chain_blockings hs cs ls rest : Forall2 chained_call cs ls -> rest <> [] -> forall b,
  chain_run (AtBlocking hs b) (concat ls ++ rest) = after_outcome (for_each blocking_call b cs (fun b => Ret b)) (fun b' => chain_run (AtBlocking hs b') rest).
Proof.
  intros F N. induction F as [|c l cs ls K F IH]; intros b; cbn [concat for_each]; [reflexivity|].
  rewrite <- app_assoc, (chain_blocking hs c l _ K) by now apply not_nil_app. destruct (blocking_call b c); cbn [after_outcome bind]; [apply IH|reflexivity|reflexivity].
Qed.

Lemma chain_handler hs p l rest : chained p l -> rest <> [] ->
  chain_run (AtLogger hs) (l ++ rest) = after_outcome (make_handler p) (fun h => chain_run (AtLogger (hs ++ [h])) rest).
Proof.
  intros K N. destruct K as [calls ls F|].
  - cbn [app]. rewrite chain_cons by (rewrite <- app_assoc; apply not_nil_app; discriminate). cbn [BuildersModel.chain_step]. rewrite <- app_assoc.
    rewrite (chain_blockings hs calls ls _ F) by discriminate. cbn [BuildersModel.make_handler]. rewrite (for_each_then _ (fun b => Ret (fst (blocking_build b)))).
    destruct (for_each blocking_call blocking_new calls (fun b => Ret b)); cbn [after_outcome bind]; [|reflexivity|reflexivity].
    cbn [app]. rewrite chain_cons by exact N. reflexivity.
  - cbn [app]. rewrite chain_cons by discriminate. cbn [BuildersModel.chain_step]. rewrite chain_cons by exact N. reflexivity.
Qed.

Lemma chain_lemma ps ls : Forall2 chained ps ls -> chain_run (AtLogger []) (concat ls ++ [Build]) = Some (make_logger ps).
Proof.
  intros F. unfold BuildersModel.make_logger.
  assert (G : forall hs, chain_run (AtLogger hs) (concat ls ++ [Build]) =
    Some (for_each (fun hs p => bind (make_handler p) (fun h => Ret (hs ++ [h]))) hs ps (fun hs => Ret hs))); [|apply G].
  induction F as [|p l ps ls K F IH]; intros hs; cbn [concat for_each]; [reflexivity|].
  rewrite <- app_assoc, (chain_handler hs p l _ K) by (apply not_nil_app; discriminate).
  destruct (make_handler p); cbn [after_outcome bind]; [apply IH|reflexivity|reflexivity].
Qed.

(** What has been written when a chain is somewhere. *)
Definition in_blocking (pre : list chain_call) : Prop := exists ps ls cs ks, Forall2 chained ps ls /\ Forall2 chained_call cs ks /\
  pre = concat ls ++ HandlerBlocking :: concat ks.
Definition written (s : chain) (pre : list chain_call) : Prop :=
  match s with
  | AtLogger _ => exists ps ls, Forall2 chained ps ls /\ pre = concat ls
  | AtBlocking _ _ => in_blocking pre
  | AtDev _ => exists ps ls, Forall2 chained ps ls /\ pre = concat ls ++ [HandlerDev]
  | AtString _ _ _ => exists pre' pattern ms, in_blocking pre' /\ pre = pre' ++ SetString pattern :: map Mapping ms
  | AtConsole _ _ _ => exists pre', in_blocking pre' /\ pre = pre' ++ [AddConsole]
  end.

Lemma concat_snoc {A} (ls : list (list A)) l : concat (ls ++ [l]) = concat ls ++ l.
Proof. rewrite concat_app. cbn [concat]. now rewrite app_nil_r. Qed.

Lemma in_blocking_more pre c l : in_blocking pre -> chained_call c l -> in_blocking (pre ++ l).
Proof.
  intros (ps & ls & cs & ks & F & G & ->) K. exists ps, ls, (cs ++ [c]), (ks ++ [l]). split; [exact F|].
  split; [apply Forall2_app; [exact G|constructor; [exact K|constructor]]|]. rewrite concat_snoc, <- app_assoc. reflexivity.
Qed.

Lemma written_step s pre c s' : written s pre -> chain_step s c = Some (Ret s') -> written s' (pre ++ [c]).
Proof.
  intros W E. destruct s as [hs|hs b|hs|hs b sb|hs b cb], c; try discriminate E; cbn [BuildersModel.chain_step] in E.
  - injection E as <-. destruct W as (ps & ls & F & ->). exists ps, ls, [], []. repeat split; [exact F|constructor].
  - injection E as <-. destruct W as (ps & ls & F & ->). exists ps, ls. split; [exact F|reflexivity].
  - injection E as <-. exists pre, pattern, []. split; [exact W|reflexivity].
  - injection E as <-. exists pre. split; [exact W|reflexivity].
  - injection E as <-. destruct W as (ps & ls & cs & ks & F & G & ->). exists (ps ++ [PBlocking cs]), (ls ++ [HandlerBlocking :: concat ks ++ [Build]]).
    split; [apply Forall2_app; [exact F|constructor; [now constructor|constructor]]|]. now rewrite concat_snoc, <- app_assoc.
  - injection E as <-. destruct W as (ps & ls & F & ->). exists (ps ++ [PDev]), (ls ++ [[HandlerDev; Build]]).
    split; [apply Forall2_app; [exact F|constructor; [constructor|constructor]]|]. now rewrite concat_snoc, <- app_assoc.
  - injection E as <-. destruct W as (pre' & pattern & ms & W & ->). exists pre', pattern, (ms ++ [m]). split; [exact W|].
    rewrite map_app, <- app_assoc. reflexivity.
  - destruct (fst (string_build dbl lexical_double ndebug sb)) as [f| |]; try discriminate E. injection E as <-.
    destruct W as (pre' & pattern & ms & W & ->). rewrite <- app_assoc. cbn [app]. exact (in_blocking_more _ _ _ W (chained_string pattern ms)).
  - injection E as <-. destruct W as (pre' & W & ->). rewrite <- app_assoc. exact (in_blocking_more _ _ _ W chained_console).
Qed.

Lemma chain_written calls : forall s pre hs, written s pre -> chain_run s calls = Some (Ret hs) ->
  exists ps ls, Forall2 chained ps ls /\ pre ++ calls = concat ls ++ [Build].
Proof.
  induction calls as [|c calls IH]; intros s pre hs W E; [discriminate E|].
  destruct calls as [|c' calls].
  - cbn [BuildersModel.chain_run] in E. destruct c; try (destruct (chain_step s _) as [[| |]|]; discriminate E). destruct s; try discriminate E.
    destruct W as (ps & ls & F & ->). exists ps, ls. split; [exact F|reflexivity].
  - rewrite chain_cons in E by discriminate. destruct (chain_step s c) as [[s'| |]|] eqn:S; try discriminate E.
    destruct (IH s' (pre ++ [c]) hs (written_step _ _ _ _ W S) E) as (ps & ls & F & X). exists ps, ls. split; [exact F|]. rewrite <- app_assoc in X. exact X.
Qed.

Lemma chain_only calls hs : chain_run (AtLogger []) calls = Some (Ret hs) ->
  exists ps ls, Forall2 chained ps ls /\ calls = concat ls ++ [Build] /\ make_logger ps = Ret hs.
Proof.
  intros E. destruct (chain_written calls (AtLogger []) [] hs) as (ps & ls & F & X).
  - exists [], []. split; [constructor|reflexivity].
  - exact E.
  - cbn [app] in X. exists ps, ls. split; [exact F|]. split; [exact X|]. rewrite X, (chain_lemma ps ls F) in E. now injection E.
Qed.

(** ---- uses ---- *)

Lemma sink_works p : forall k tty r, make_sink p = Ret k -> use_sink tty r k = Works.
Proof.
  induction p as [calls|path calls|w IH calls]; intros k tty r E.
  - destruct (console_lemma calls) as (err & m & E' & _ & K). rewrite E' in E. injection E as <-. cbn [use_sink]. destruct tty; [|reflexivity].
    destruct (K r) as (color & -> & _). reflexivity.
  - cbn [make_sink file_build fst] in E. injection E as <-. cbn [use_sink].
    assert (K : forall b, fb_stat b <> None -> fb_flush b <> None -> fb_stat (fold_left file_set calls b) <> None /\ fb_flush (fold_left file_set calls b) <> None).
    { induction calls as [|c calls IH]; intros b H1 H2; [split; assumption|]. cbn [fold_left]. apply IH; destruct c; cbn; congruence. }
    destruct (K (file_new path)) as [H1 H2]; [discriminate|discriminate|].
    destruct (fb_stat _); [|contradiction]. destruct (fb_flush _); [reflexivity|contradiction].
  - cbn [make_sink] in E. apply bind_ret in E. destruct E as (s & Es & E).
    assert (K : forall b, ab_wrapped (fold_left asynchronous_set calls b) = ab_wrapped b).
    { clear. induction calls as [|c calls IH]; intros b; [reflexivity|]. cbn [fold_left]. now rewrite IH. }
    unfold asynchronous_build in E. cbn [fst] in E. rewrite K in E. cbn [asynchronous_new ab_wrapped] in E.
    destruct (AsyncModel.builder_build _); try discriminate E. injection E as <-. cbn [use_sink]. now rewrite (IH s tty r Es).
Qed.

Lemma sinks_work ps ks tty r : Forall2 (fun p k => make_sink p = Ret k) ps ks -> use_sinks tty r ks = Works.
Proof. induction 1 as [|p k ps ks E F IH]; [reflexivity|]. cbn [use_sinks]. now rewrite (sink_works p k tty r E). Qed.

Lemma handler_works p h tty r : make_handler p = Ret h ->
  use_handler tty r h = match p with
                        | PDev => Works
                        | PBlocking calls => if existsb (fun c => match c with SetFormatter _ => true | _ => false end) calls then Works else Crashes
                        end.
Proof.
  intros E. destruct p as [calls|]; [|injection E as <-; reflexivity].
  destruct (handler_lemma2 dbl lexical_double ndebug _ _ E) as (f & sinks & -> & S & F). cbn [use_handler].
  destruct F as [[-> N]|(p & f0 & -> & _ & I & _)].
  - destruct (existsb _ calls) eqn:X; [|reflexivity]. apply existsb_exists in X. destruct X as ([p|] & I & Y); [|discriminate Y]. now elim (N p).
  - assert (X : existsb (fun c => match c with SetFormatter _ => true | _ => false end) calls = true) by (apply existsb_exists; eexists; split; [exact I|reflexivity]).
    rewrite X. apply (sinks_work _ _ tty r S).
Qed.
End Programs.

(** ---- second builds ---- *)

Lemma rebuilt_lemma :
  (forall b r, use_sink true r (fst (console_build (snd (console_build b)))) = Raises /\ use_sink false r (fst (console_build (snd (console_build b)))) = Works) /\
  (forall b tty r, use_sink tty r (fst (file_build (snd (file_build b)))) = Crashes) /\
  (forall b tty r k, fst (asynchronous_build (snd (asynchronous_build b))) = Ret k -> use_sink tty r k = Crashes) /\
  (forall b tty r, use_handler tty r (fst (blocking_build (snd (blocking_build b)))) = Crashes) /\
  (forall dbl ld nd b f, fst (string_build dbl ld nd b) = Ret f -> exists tokens m, f = KString tokens m /\
     fst (string_build dbl ld nd (snd (string_build dbl ld nd b))) = Ret (KString tokens (StrModel.number_map dbl))) /\
  (forall d, exists d', fst (tskv_build (snd (tskv_build d))) = KTskv d' /\
     TskvModel.d_attributes d' = [] /\ TskvModel.d_renamed d' = [] /\ TskvModel.d_removed d' = [] /\ TskvModel.d_timestamps d' = []) /\
  (forall d, exists d', fst (json_build (snd (json_build d))) = KJson d' /\
     d' = fold_left JsonFmtModel.builder_call ((if JsonFmtModel.p_unique d then [JsonFmtModel.Unique] else []) ++ (if JsonFmtModel.p_newline d then [JsonFmtModel.Newline] else []))
       JsonFmtModel.builder_init).
Proof.
  split; [intros b r; split; reflexivity|]. split; [reflexivity|]. split.
  { intros b tty r k E. unfold asynchronous_build in E. cbn [fst snd ab_rest ab_wrapped] in E. destruct (AsyncModel.builder_build (ab_rest b)); try discriminate E.
    injection E as <-. reflexivity. }
  split; [reflexivity|]. split.
  { intros dbl ld nd b f E. unfold string_build in *. cbn [fst snd sb_pattern sb_mapping] in *.
    destruct (ParserModel.tokenize ld nd (sb_pattern b)) as [[ts|[]]|]; try discriminate E. injection E as <-. eexists _, _. split; reflexivity. }
  split; [intros d; eexists; split; [reflexivity|]; repeat split|].
  intros d. eexists. split; [reflexivity|]. unfold json_build. cbn [snd fst JsonFmtModel.p_unique JsonFmtModel.p_newline].
  destruct (JsonFmtModel.p_unique d), (JsonFmtModel.p_newline d); reflexivity.
Qed.

(** ---- units ---- *)

Lemma unit_lemma path calls u n after : (0 < n)%N -> (n * bytes_in u < 2 ^ 64)%N ->
  Forall (fun n => n < 2 ^ 64)%N (flat_map file_numbers (calls ++ FlushEveryBytes u n :: after)) -> (forall c f, In c after -> ~ gives_flush c f) ->
  exists stat f, make_sink (PFile path (calls ++ FlushEveryBytes u n :: after)) = Ret (KFile path (Some stat) (Some f)) /\
  forall sizes i size, (forall m, In m sizes -> m + n * bytes_in u <= 2 ^ 64)%N -> nth_error sizes i = Some size ->
    nth_error (fst (FlusherModel.flusher_run f sizes)) i =
      Some (if FlusherSpec.total (firstn i sizes) / (n * bytes_in u) <? FlusherSpec.total (firstn (S i) sizes) / (n * bytes_in u)
            then FlusherModel.Flush else FlusherModel.Idle)%N.
Proof.
  intros P L F N. destruct (file_lemma path _ F) as (stat & f & E & _ & G). exists stat, f. split; [exact E|].
  assert (X : f = FlusherModel.FBytes (FlusherModel.bytecount_new (n * bytes_in u))).
  { apply (last_unique gives_flush (FlusherModel.FRepeat (FlusherModel.repeat_new 0)) (calls ++ FlushEveryBytes u n :: after)); [|exact G|].
    - intros c a b [(u1 & n1 & -> & ->)|(n1 & -> & ->)] [(u2 & n2 & E2 & ->)|(n2 & E2 & ->)]; try discriminate E2; injection E2; intros; subst; reflexivity.
    - apply given_last; [|exact N]. left. exists u, n. split; [reflexivity|]. now rewrite N.mod_small. }
  intros sizes i size S I. assert (K : FlusherSpec.limit_of (n * bytes_in u) = (n * bytes_in u)%N).
  { unfold FlusherSpec.limit_of. destruct (N.eqb_spec (n * bytes_in u) 0) as [Z|]; [|reflexivity]. exfalso. destruct u; cbn [bytes_in] in Z; lia. }
  rewrite X. rewrite <- K in S. rewrite (FlusherProofs.bytes_flush_exact_lemma _ sizes i size L S I), K. reflexivity.
Qed.

Lemma unit_text u name n : FlusherSpec.Unit name (bytes_in u) -> (n < 2 ^ 64)%N ->
  FlusherModel.parse_dunit (dec n ++ name) = FlusherModel.DOk ((n * bytes_in u) mod 2 ^ 64).
Proof.
  intros U L. pose proof (numeral_dec n) as Hn. destruct (FlusherProofs.numeral_digits _ _ Hn) as [Hd Hne]. assert (Hh := FlusherProofs.unit_head _ _ U).
  unfold FlusherModel.parse_dunit. rewrite FlusherProofs.span_digits_app; [|exact Hd|destruct name; [exact I|apply Hh]].
  change (2 ^ 64)%N with two64 in *. destruct name as [|c name].
  - rewrite app_nil_r, (FlusherProofs.lexical_numeral _ n Hn), (proj2 (N.ltb_lt _ _) L).
    assert (X : bytes_in u = 1%N) by (inversion U; reflexivity). rewrite X, N.mul_1_r, N.mod_small by exact L. reflexivity.
  - destruct Hh as [_ ->]. rewrite (FlusherProofs.lexical_numeral _ n Hn), (proj2 (N.ltb_lt _ _) L).
    rewrite (FlusherProofs.unit_find_unit _ _ U) by discriminate. reflexivity.
Qed.

Lemma unit_name_plain name m : FlusherSpec.Unit name m -> no_nul name.
Proof. intros U. destruct U; try lit. Qed.

Lemma unit_same dbl u name n path c : FlusherSpec.Unit name (bytes_in u) -> (n < 2 ^ 64)%N -> no_nul path ->
  exists k s, make_sink (PFile path [FlushEveryBytes u n]) = Ret k /\ same_sink k s /\
  sink_entry dbl (Node (JObject [(B "type", JString (B "file")); (B "path", JString path); (B "flush", JString (dec n ++ name))]) c) = Ret s.
Proof.
  intros U L P. destruct (file_lemma path [FlushEveryBytes u n]) as (stat & f & E & Gs & G); [cbn; constructor; [exact L|constructor]|].
  assert (X : f = FlusherModel.FBytes (FlusherModel.bytecount_new ((n * bytes_in u) mod 2 ^ 64))).
  { apply (last_unique gives_flush (FlusherModel.FRepeat (FlusherModel.repeat_new 0)) [FlushEveryBytes u n]); [|exact G|].
    - intros c0 a b [(u1 & n1 & -> & ->)|(n1 & -> & ->)] [(u2 & n2 & E2 & ->)|(n2 & E2 & ->)]; try discriminate E2; injection E2; intros; subst; reflexivity.
    - apply (given_last _ _ [] _ []); [|intros c' a' []]. left. exists u, n. split; reflexivity. }
  assert (Y : stat = false).
  { apply (last_unique gives_stat false [FlushEveryBytes u n]); [|exact Gs|].
    - intros c0 a b [_ ->] [_ ->]. reflexivity.
    - apply given_never. intros c0 a [<-|[]] [Z _]. discriminate Z. }
  subst. eexists _, _. split; [exact E|]. split; [constructor|].
  set (v := JObject [(B "type", JString (B "file")); (B "path", JString path); (B "flush", JString (dec n ++ name))]).
  assert (C : clean v).
  { unfold v. members; [clean_known|now apply clean_string|]. apply clean_string, no_nul_app; [apply no_nul_dec|exact (unit_name_plain _ _ U)]. }
  rewrite (entry_from dbl v c (B "file") File C); [|apply walk_found; reflexivity|unfold RegistrySpec.library, In; repeat (first [left; reflexivity|right])].
  change (sink_from dbl v c File) with (file_from (Node v c)). unfold file_from.
  rewrite (string_at v c (B "path") path C); [|apply walk_found; reflexivity|exact PL]. cbn [bind].
  rewrite (key_at v c (B "flush") (JString (dec n ++ name))); [|apply walk_found; reflexivity|exact PL].
  unfold flush_from. cbn [n_value is_uint64 is_string]. rewrite string_node.
  2: { apply clean_string, no_nul_app; [apply no_nul_dec|exact (unit_name_plain _ _ U)]. }
  cbn [bind]. rewrite (unit_text u name n U L). cbn [bind].
  rewrite (key_missing v c (B "rotate")); [|apply walk_not_found; reflexivity|exact PL]. reflexivity.
Qed.

Lemma unit_wraps : exists f, make_sink (PFile (B "log") [FlushEveryBytes Kibibytes (2 ^ 54 + 1)]) = Ret (KFile (B "log") (Some false) (Some f)) /\
  fst (FlusherModel.flusher_run f [1024%N]) = [FlusherModel.Flush].
Proof. eexists. split; [reflexivity|]. vm_compute. reflexivity. Qed.

(** ---- what only one of the two ways can make ---- *)

Lemma only_stderr : exists ps, forall dbl ld nd, exists hs, make_logger dbl ld nd ps = Ret hs /\
  forall v name hs', logger dbl ld nd v name = Ret hs' -> ~ Forall2 (same_handler dbl) hs hs'.
Proof.
  exists [PBlocking [SetFormatter (PTskv []); AddSink (PConsole [Stderr])]]. intros dbl ld nd. eexists. split; [reflexivity|]. intros v name hs' _ F.
  inversion F as [|? ? ? ? H _]; subst. inversion H as [? ? ? ? _ S]; subst. inversion S as [|? ? ? ? K _]; subst. inversion K.
Qed.
Lemma only_colours : exists ps, forall dbl ld nd, exists hs, make_logger dbl ld nd ps = Ret hs /\
  forall v name hs', logger dbl ld nd v name = Ret hs' -> ~ Forall2 (same_handler dbl) hs hs'.
Proof.
  exists [PBlocking [SetFormatter (PTskv []); AddSink (PConsole [Colorize (ConsoleModel.BySeverity 3 ConsoleModel.red)])]].
  intros dbl ld nd. eexists. split; [reflexivity|]. intros v name hs' _ F.
  inversion F as [|? ? ? ? H _]; subst. inversion H as [? ? ? ? _ S]; subst. inversion S as [|? ? ? ? K _]; subst. inversion K as [? D| |]; subst.
  specialize (D (Rec [] [] 3 0 0 [])). discriminate D.
Qed.
Lemma only_dev : exists ps, forall dbl ld nd, exists hs, make_logger dbl ld nd ps = Ret hs /\
  forall v name hs', logger dbl ld nd v name = Ret hs' -> ~ Forall2 (same_handler dbl) hs hs'.
Proof.
  exists [PDev]. intros dbl ld nd. eexists. split; [reflexivity|]. intros v name hs' _ F. inversion F as [|? ? ? ? H _]; subst. inversion H.
Qed.

Lemma async_waits p : forall k, make_sink p = Ret k -> forall s c, same_sink k (SAsynchronous s c) -> AsyncModel.c_policy c = AsyncModel.Wait.
Proof.
  destruct p as [calls|path calls|w calls]; intros k E s c S; inversion S; subst.
  - discriminate E.
  - discriminate E.
  - cbn [make_sink] in E. apply bind_ret in E. destruct E as (s1 & _ & E). unfold asynchronous_build, AsyncModel.builder_build in E. cbn [fst] in E.
    destruct (AsyncModel.exp2 _); [|discriminate E]. injection E as _ <-. reflexivity.
Qed.

Definition sink_in_logger (sink : json) : json := JObject [(B "root", JArray [JObject
  [(B "formatter", JObject [(B "type", JString (B "tskv"))]); (B "sinks", JArray [sink])]])].
Lemma only_drop : exists v, forall dbl ld nd, exists hs, logger dbl ld nd v (B "root") = Ret hs /\
  forall ps ks, make_logger dbl ld nd ps = Ret ks -> ~ Forall2 (same_handler dbl) ks hs.
Proof.
  exists (sink_in_logger (JObject [(B "type", JString (B "asynchronous")); (B "factor", JInt 2); (B "overflow", JString (B "drop"));
    (B "sink", JObject [(B "type", JString (B "console"))])])).
  intros dbl ld nd. eexists. split; [reflexivity|]. intros ps ks E F. apply make_logger_lemma in E.
  inversion F as [|k ? ? ? H N]; subst. inversion N; subst. inversion E as [|p ? ? ? Ep _]; subst. inversion H as [f ? sinks ? _ S]; subst.
  destruct p as [calls|]; [|discriminate Ep]. destruct (handler_lemma2 dbl ld nd _ _ Ep) as (f' & sinks' & X & M & _). injection X as <- <-.
  inversion S as [|s ? ? ? K N2]; subst. inversion N2; subst. inversion M as [|q ? ? ? Eq _]; subst. pose proof (async_waits q s Eq _ _ K) as W. discriminate W.
Qed.
Lemma only_socket : exists v, forall dbl ld nd, exists hs, logger dbl ld nd v (B "root") = Ret hs /\
  forall ps ks, make_logger dbl ld nd ps = Ret ks -> ~ Forall2 (same_handler dbl) ks hs.
Proof.
  exists (sink_in_logger (JObject [(B "type", JString (B "tcp")); (B "host", JString (B "localhost")); (B "port", JInt 80)])).
  intros dbl ld nd. eexists. split; [reflexivity|]. intros ps ks _ F.
  inversion F as [|? ? ? ? H _]; subst. inversion H as [? ? ? ? _ S]; subst. inversion S as [|? ? ? ? K _]; subst. inversion K.
Qed.

Lemma tskv_same dbl ld nd calls calls' : same_by_kind tskv_kind calls calls' -> make_formatter dbl ld nd (PTskv calls) = make_formatter dbl ld nd (PTskv calls').
Proof. intros H. apply tskv_by_kind in H. cbn [make_formatter tskv_build fst]. unfold TskvModel.build in H. now rewrite H. Qed.
Lemma json_same dbl ld nd calls calls' : same_by_kind json_kind calls calls' -> make_formatter dbl ld nd (PJson calls) = make_formatter dbl ld nd (PJson calls').
Proof. intros H. apply json_by_kind in H. cbn [make_formatter json_build fst]. unfold JsonFmtModel.build in H. now rewrite H. Qed.

Lemma built_works dbl ld nd p h tty r : make_handler dbl ld nd p = Ret h ->
  (forall calls, p = PBlocking calls -> exists f, In (SetFormatter f) calls) -> use_handler tty r h = Works.
Proof.
  intros E F. rewrite (handler_works dbl ld nd p h tty r E). destruct p as [calls|]; [|reflexivity]. destruct (F calls eq_refl) as (f & I).
  assert (X : existsb (fun c => match c with SetFormatter _ => true | _ => false end) calls = true) by (apply existsb_exists; eexists; split; [exact I|reflexivity]).
  now rewrite X.
Qed.
Lemma built_crashes dbl ld nd calls h tty r : (forall f, ~ In (SetFormatter f) calls) ->
  make_handler dbl ld nd (PBlocking calls) = Ret h -> use_handler tty r h = Crashes.
Proof.
  intros N E. rewrite (handler_works dbl ld nd _ h tty r E). destruct (existsb _ calls) eqn:X; [|reflexivity].
  apply existsb_exists in X. destruct X as ([p|] & I & Y); [|discriminate Y]. now elim (N p).
Qed.
Lemma no_formatter_lemma : exists calls, forall dbl ld nd, exists h, make_handler dbl ld nd (PBlocking calls) = Ret h /\ forall tty r, use_handler tty r h = Crashes.
Proof. exists [AddSink (PConsole [])]. intros dbl ld nd. eexists. split; [reflexivity|]. intros tty r. reflexivity. Qed.
Lemma rebuilt_file_lemma : exists b, forall tty r,
  use_sink tty r (fst (file_build b)) = Works /\ use_sink tty r (fst (file_build (snd (file_build b)))) = Crashes.
Proof. exists (file_new (B "a")). intros tty r. split; reflexivity. Qed.
