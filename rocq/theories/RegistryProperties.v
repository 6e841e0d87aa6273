(** C43, C44: the registry and the builder. *)
From Verif Require Import Base ConfigModel ConfigSpec ConfigProofs RegistryModel RegistrySpec RegistryProofs.

(** C43. A lookup finds the last factory registered for that kind and type, whatever else was registered. *)
Theorem C43_lookup : forall F dbl (h : list (kind * bytes * F)) k t f,
  lookup dbl (after empty h) k t = Ret f <-> registered h k t f.
Proof. exact @lookup_lemma. Qed.
Print Assumptions C43_lookup.

(** C43. Without one, the error says which kind and type was looked for, for every text. *)
Theorem C43_unknown : forall F dbl (h : list (kind * bytes * F)) k t, (~ exists f, registered h k t f) ->
  lookup dbl (after empty h) k t = Throw (not_registered k t).
Proof. exact @unknown_lemma. Qed.
Print Assumptions C43_unknown.

Definition case_history : list (kind * bytes * nat) :=
  [(SinkKind, B "file", 1%nat); (FilterKind, B "file", 2%nat); (SinkKind, B "file", 3%nat); (SinkKind, B "x", 4%nat)].
Example C43_case : registered case_history SinkKind (B "file") 3%nat /\ (~ exists f, registered case_history HandlerKind (B "file") f) /\
  (forall dbl, lookup dbl (after empty case_history) SinkKind (B "file") = Ret 3%nat) /\
  (forall dbl, lookup dbl (after empty case_history) FilterKind (B "file") = Ret 2%nat) /\
  (forall dbl, lookup dbl (after empty case_history) HandlerKind (B "{}") = Throw (OutOfRange (B "handler with type ""{}"" is not registered"))).
Proof.
  refine (conj _ (conj _ (conj _ (conj _ _)))); try (intros; vm_compute; reflexivity).
  - exists [(SinkKind, B "file", 1%nat); (FilterKind, B "file", 2%nat)], [(SinkKind, B "x", 4%nat)]. split; [reflexivity|].
    intros g [H|[]]. discriminate.
  - intros [f (pre & post & E & _)]. assert (I : In (HandlerKind, B "file", f) case_history) by (rewrite E; apply in_or_app; right; left; reflexivity).
    repeat destruct I as [I|I]; try discriminate. destruct I.
Qed.

(** C43. The configured registry has the components of the library under their types, and nothing else. *)
Theorem C43_configured : forall dbl k t f, lookup dbl configured k t = Ret f <-> In (k, t, f) library.
Proof. exact configured_lemma. Qed.
Print Assumptions C43_configured.
Example C43_configured_case : forall dbl, lookup dbl configured SinkKind (B "syslog") = Ret Syslog.
Proof. intros. vm_compute. reflexivity. Qed.

(** C43, refuted: not all of them ("all available components in the library", registry.hpp:89-90). *)
Theorem C43_all_components_refuted : exists k t, In (k, t) components /\
  forall dbl, lookup dbl configured k t = Throw (OutOfRange (B "handler with type ""dev"" is not registered")).
Proof. exists HandlerKind, (B "dev"). exact (conj (proj1 (configured_dev (fun _ _ => []))) (fun dbl => proj2 (configured_dev dbl))). Qed.
Print Assumptions C43_all_components_refuted.

(** C44. A logger has one handler per entry of its list, in order, each made by the factory of its type. *)
Theorem C44_handlers : forall F H dbl (make : F -> node -> outcome H) h v name l hs,
  no_nul name -> at_path v [Key name] (JArray l) -> Forall typed l -> length l = length hs ->
  (forall j e x, nth_error l j = Some e -> nth_error hs j = Some x -> entry make h e [Key name; Index (N.of_nat j)] (Ret x)) ->
  build dbl make (after empty h) (root v) name = Ret hs.
Proof. exact @build_lemma. Qed.
Print Assumptions C44_handlers.

(** C44. The first entry that fails ends the construction with its error. *)
Theorem C44_first_error : forall F H dbl (make : F -> node -> outcome H) h v name pre e post hs o o',
  no_nul name -> at_path v [Key name] (JArray (pre ++ e :: post)) -> Forall typed (pre ++ [e]) -> length pre = length hs ->
  (forall j e x, nth_error pre j = Some e -> nth_error hs j = Some x -> entry make h e [Key name; Index (N.of_nat j)] (Ret x)) ->
  entry make h e [Key name; Index (N.of_nat (length pre))] o -> failed o = Some o' ->
  build dbl make (after empty h) (root v) name = o'.
Proof. exact @build_error_lemma. Qed.
Print Assumptions C44_first_error.

(** C44. A logger that is no list is an error that says so. *)
Theorem C44_not_a_list : forall F H dbl (make : F -> node -> outcome H) r v name w kind_name,
  no_nul name -> at_path v [Key name] w -> (forall l, w <> JArray l) -> named w kind_name ->
  build dbl make r (root v) name = Throw (TypeMismatch (B "/" ++ name) (B "array") kind_name).
Proof. exact @build_not_array_lemma. Qed.
Print Assumptions C44_not_a_list.

Definition case_factories : list (kind * bytes * nat) := [(HandlerKind, B "blocking", 1%nat); (HandlerKind, B "mine", 2%nat)].
Definition case_make (f : nat) (n : node) : outcome (nat * bytes) :=
  match f with 1%nat | 2%nat => Ret (f, n_cursor n) | _ => Throw BadCast end.
Definition case_config : json :=
  JObject [(B "root", JArray [JObject []; JObject [(B "type", JString (B "mine"))]]);
           (B "other", JArray [JNull; JObject [(B "type", JString (B "none"))]; JNull]);
           (B "bad", JObject [])].
Example C44_case : forall dbl,
  build dbl case_make (after empty case_factories) (root case_config) (B "root") = Ret [(1%nat, B "/root/0"); (2%nat, B "/root/1")] /\
  build dbl case_make (after empty case_factories) (root case_config) (B "other") =
    Throw (OutOfRange (B "handler with type ""none"" is not registered")) /\
  build dbl case_make (after empty case_factories) (root case_config) (B "bad") = Throw (TypeMismatch (B "/bad") (B "array") (B "object")).
Proof. intros. vm_compute. repeat split. Qed.
Example C44_case_meets : at_path case_config [Key (B "root")] (JArray [JObject []; JObject [(B "type", JString (B "mine"))]]) /\
  Forall typed [JObject []; JObject [(B "type", JString (B "mine"))]] /\
  entry case_make case_factories (JObject []) [Key (B "root"); Index 0] (Ret (1%nat, B "/root/0")) /\
  entry case_make case_factories (JObject [(B "type", JString (B "mine"))]) [Key (B "root"); Index 1] (Ret (2%nat, B "/root/1")).
Proof.
  assert (E : forall w, ~ at_path (JObject []) [Key (B "type")] w).
  { intros w A. assert (X := walk_at (JObject []) _ w plain_type A). discriminate. }
  assert (A : at_path (JObject [(B "type", JString (B "mine"))]) [Key (B "type")] (JString (B "mine"))).
  { econstructor; [apply (child_key []); intros []|constructor]. }
  refine (conj _ (conj _ (conj _ _))).
  - econstructor; [apply (child_key []); intros []|constructor].
  - repeat apply Forall_cons; [| |constructor]; intros s H; [elim (E _ H)|].
    assert (X := walk_at _ _ _ plain_type H). vm_compute in X. injection X as <-. intros I. vm_compute in I. intuition discriminate.
  - apply (entry_default case_make case_factories (JObject []) [Key (B "root"); Index 0] 1%nat); [intros [w H]; elim (E w H)|].
    exists [], [(HandlerKind, B "mine", 2%nat)]. split; [reflexivity|]. intros g [H|[]]. discriminate.
  - apply (entry_made case_make case_factories _ [Key (B "root"); Index 1] (B "mine") 2%nat A).
    exists [(HandlerKind, B "blocking", 1%nat)], []. split; [reflexivity|]. intros g [].
Qed.

(** C44, refuted: asking for a logger that is not configured is no error: the logger has no handlers and loses everything. *)
Theorem C44_not_configured_refuted : exists v name, (~ exists w, at_path v [Key name] w) /\
  forall F H dbl (make : F -> node -> outcome H) r, build dbl make r (root v) name = Ret [].
Proof.
  exists (JObject [(B "root", JArray [])]), (B "rooot").
  assert (N : ~ exists w, at_path (JObject [(B "root", JArray [])]) [Key (B "rooot")] w).
  { apply walk_missing; [|reflexivity]. repeat constructor. intros I. vm_compute in I. intuition discriminate. }
  split; [exact N|]. intros. apply build_missing_lemma; [|exact N]. intros I. vm_compute in I. intuition discriminate.
Qed.
Print Assumptions C44_not_configured_refuted.

(** C44. It is so for every name that is missing. *)
Theorem C44_not_configured : forall F H dbl (make : F -> node -> outcome H) r v name,
  no_nul name -> (~ exists w, at_path v [Key name] w) -> build dbl make r (root v) name = Ret [].
Proof. exact @build_missing_lemma. Qed.
Print Assumptions C44_not_configured.
