(** Proofs for C73-C77. *)
From Verif Require Import Base ConfigModel ConfigSpec ConfigProofs RegistryModel RegistrySpec RegistryProofs FactoriesModel FactoriesSpec.
From Verif Require FmtModel FlusherModel FlusherSpec FlusherProofs FileSinkModel AsyncModel DeliveryModel TskvModel JsonFmtModel ParserModel.

(** ---- reading ---- *)

Lemma plain_lit s : existsb (Ascii.eqb NUL) s = false -> plain_access (Key s).
Proof.
  intros E. cbn. unfold no_nul. intros I. rewrite <- Bool.not_true_iff_false in E. apply E.
  apply existsb_exists. exists NUL. split; [exact I|reflexivity].
Qed.

Ltac lit := exact (plain_lit _ eq_refl).
Arguments plain_lit s & E.
Notation PL := (plain_lit _ eq_refl).

Lemma key_at v c k w : at_path v [Key k] w -> plain_access (Key k) -> node_key (Node v c) k = Some (Node w (c ++ B "/" ++ k)).
Proof.
  intros A P. pose proof (walk_iff [Key k] v c (Node w (c ++ path_text [Key k])) (Forall_cons _ P (Forall_nil _))) as [_ H].
  specialize (H (conj A eq_refl)). cbn [fold_left opt_access opt_key] in H. rewrite H. cbn [path_text]. rewrite app_nil_r. reflexivity.
Qed.

Lemma key_missing v c k : missing v [Key k] -> plain_access (Key k) -> node_key (Node v c) k = None.
Proof.
  intros M P. destruct (node_key (Node v c) k) as [n|] eqn:E; [|reflexivity]. elim M. exists (n_value n).
  apply (walk_iff [Key k] v c n (Forall_cons _ P (Forall_nil _))). exact E.
Qed.

Lemma key_found v c k n : plain_access (Key k) -> node_key (Node v c) k = Some n -> at_path v [Key k] (n_value n).
Proof. intros P E. apply (walk_iff [Key k] v c n (Forall_cons _ P (Forall_nil _))). exact E. Qed.

Lemma at_one v a w : at_path v [a] w <-> child v a w.
Proof.
  split.
  - intros A. inversion A as [|? ? u ? ? C A']; subst. inversion A'; subst. exact C.
  - intros C. econstructor; [exact C|constructor].
Qed.

Lemma at_two v a b u : at_path v [a; b] u <-> exists w, at_path v [a] w /\ at_path w [b] u.
Proof.
  split.
  - intros A. inversion A as [|? ? w ? ? C A']; subst. exists w. split; [apply at_one; exact C|exact A'].
  - intros (w & A & C). apply at_one in A. econstructor; [exact A|exact C].
Qed.

Lemma at_same v a w u : plain_access a -> at_path v [a] w -> at_path v [a] u -> w = u.
Proof.
  intros P A C. pose proof (walk_iff [a] v [] (Node w (path_text [a])) (Forall_cons _ P (Forall_nil _))) as [_ H].
  pose proof (walk_iff [a] v [] (Node u (path_text [a])) (Forall_cons _ P (Forall_nil _))) as [_ H'].
  specialize (H (conj A eq_refl)). specialize (H' (conj C eq_refl)). rewrite H in H'. injection H' as ->. reflexivity.
Qed.

Lemma child_inside v a w : child v a w -> forall u, inside w u -> inside v u.
Proof.
  intros C u I. inversion C; subst.
  - apply (inside_array u _ w); [apply in_or_app; right; left; reflexivity|exact I].
  - apply (inside_object u _ k w); [apply in_or_app; right; left; reflexivity|exact I].
Qed.

Lemma at_inside v path w : at_path v path w -> forall u, inside w u -> inside v u.
Proof.
  intros A. induction A as [v|v a w path u C A IH]; intros x I; [exact I|]. apply (child_inside v a w C), IH, I.
Qed.

Lemma clean_at v path w : clean v -> at_path v path w -> clean w.
Proof.
  intros [S K] A. split.
  - intros s I. apply S. exact (at_inside v path w A _ I).
  - intros l I. apply K. exact (at_inside v path w A _ I).
Qed.

Lemma clean_element l w : clean (JArray l) -> In w l -> clean w.
Proof. intros [S K] I. split; intros x J; [apply S|apply K]; exact (inside_array _ _ _ I J). Qed.

Lemma clean_member l k w : clean (JObject l) -> In (k, w) l -> clean w /\ no_nul k.
Proof.
  intros [S K] I. split; [split; intros x J; [apply S|apply K]; exact (inside_object _ _ _ _ I J)|].
  pose proof (K l (inside_here _)) as F. rewrite Forall_forall in F. apply F. exact (in_map fst l (k, w) I).
Qed.

Lemma clean_text s : clean (JString s) -> no_nul s.
Proof. intros [S _]. apply S. constructor. Qed.

Lemma string_node s c : clean (JString s) -> node_string (Node (JString s) c) = Ret s.
Proof. intros C. unfold node_string. cbn [n_value]. rewrite (cstr_id s (clean_text s C)). reflexivity. Qed.

Lemma string_at v c k s : clean v -> text v [Key k] s -> plain_access (Key k) -> opt_string (node_key (Node v c) k) = Ret (Some s).
Proof.
  intros C T P. rewrite (key_at v c k _ T P). unfold opt_string, opt_to. rewrite (string_node s _ (clean_at v _ _ C T)). reflexivity.
Qed.

Lemma string_missing v c k : missing v [Key k] -> plain_access (Key k) -> opt_string (node_key (Node v c) k) = Ret None.
Proof. intros M P. rewrite (key_missing v c k M P). reflexivity. Qed.

Lemma string_at2 v c k k2 s : clean v -> text v [Key k; Key k2] s -> plain_access (Key k) -> plain_access (Key k2) ->
  opt_string (opt_key (node_key (Node v c) k) k2) = Ret (Some s).
Proof.
  intros C T P P2. apply at_two in T as (w & A & T). rewrite (key_at v c k w A P). cbn [opt_key].
  exact (string_at w _ k2 s (clean_at v _ _ C A) T P2).
Qed.

Lemma uint_at v c k n : at_path v [Key k] (JInt (Z.of_N n)) -> plain_access (Key k) -> opt_uint64 (node_key (Node v c) k) = Ret (Some n).
Proof.
  intros T P. rewrite (key_at v c k _ T P). unfold opt_uint64, opt_to, node_uint64. cbn [n_value].
  destruct (Z.leb_spec 0 (Z.of_N n)); [|lia]. rewrite N2Z.id. reflexivity.
Qed.

Lemma sint_node z c : (z < 2 ^ 63)%Z -> node_sint64 (Node (JInt z) c) = Ret z.
Proof. intros R. unfold node_sint64. cbn [n_value]. destruct (Z.ltb_spec z (2 ^ 63)); [reflexivity|lia]. Qed.

Lemma lib dbl k t f : In (k, t, f) library -> lookup dbl configured k t = Ret f.
Proof. apply configured_lemma. Qed.

Ltac inlib := apply lib; unfold library, In; repeat (first [left; reflexivity | right]).

(** ---- loops ---- *)

Lemma collect_all {A} (f : node -> outcome A) nodes l : Forall2 (fun n a => f n = Ret a) nodes l -> collect f nodes = Ret l.
Proof.
  intros F. unfold collect. pose proof (for_each_app f nodes [] l F []) as E. rewrite app_nil_r in E. rewrite E. reflexivity.
Qed.

Lemma elements_forall2 {A} (R : json -> A -> Prop) (f : node -> outcome A) : forall n l la,
  Forall2 R l la -> (forall w a c, In w l -> R w a -> f (Node w c) = Ret a) ->
  forall i, Forall2 (fun n a => f n = Ret a) (elements_from n i l) la.
Proof.
  intros n l la F. induction F as [|w a l la H F IH]; intros Q i; [constructor|]. cbn [elements_from]. constructor.
  - apply Q; [left; reflexivity|exact H].
  - apply IH. intros w' a' c I. apply Q. right. exact I.
Qed.

Lemma for_each_calls {A C S} (step : S -> C -> S) (f : S -> A -> outcome S) l calls :
  Forall2 (fun a c => forall s, f s a = Ret (step s c)) l calls ->
  forall s, for_each f s l (fun s => Ret s) = Ret (fold_left step calls s).
Proof.
  intros F. induction F as [|a c l calls H F IH]; intros s; [reflexivity|]. cbn [for_each fold_left]. rewrite H. cbn [bind]. apply IH.
Qed.

Lemma strings_node names c : clean (JArray (map JString names)) ->
  bind (node_each (Node (JArray (map JString names)) c)) (fun nodes => collect node_string nodes) = Ret names.
Proof.
  intros C. unfold node_each. cbn [n_value bind]. apply collect_all.
  assert (G : forall n i, Forall2 (fun n a => node_string n = Ret a) (elements_from n i (map JString names)) names); [|apply G].
  assert (Q : forall s, In s names -> clean (JString s)).
  { intros s I. apply (clean_element _ _ C). apply in_map. exact I. }
  clear C. intros n. induction names as [|s names IH]; intros i; [constructor|]. cbn [map elements_from]. constructor.
  - apply string_node. apply Q. left. reflexivity.
  - apply IH. intros s' I. apply Q. right. exact I.
Qed.

Lemma ints_node l c : Forall (fun z => - 2 ^ 31 <= z < 2 ^ 31)%Z l ->
  bind (node_each (Node (JArray (map JInt l)) c)) (fun nodes => collect node_sint64 nodes) = Ret l.
Proof.
  intros F. unfold node_each. cbn [n_value bind]. apply collect_all.
  assert (G : forall n i, Forall2 (fun n a => node_sint64 n = Ret a) (elements_from n i (map JInt l)) l); [|apply G].
  intros n. induction F as [|z l H F IH]; intros i; [constructor|]. cbn [map elements_from]. constructor; [|apply IH].
  apply sint_node. lia.
Qed.

(** ---- sinks ---- *)

Section Made.
Variable dbl : FmtModel.spec -> N -> bytes.

Lemma sink_asynchronous v c : sink_from dbl v c Asynchronous = asynchronous_from dbl (Node v c)
  (match node_key (Node v c) (B "sink") with Some m => Some (sink_from dbl (n_value m) (n_cursor m)) | None => None end).
Proof.
  destruct v as [| | | | | |l]; try reflexivity. cbn [sink_from]. f_equal.
  unfold node_key. cbn [n_value]. change (FmtModel.c_string (B "sink")) with (B "sink").
  generalize (advance_key (Node (JObject l) c) (B "sink")) as c'. intros c'.
  induction l as [|[k w] l IH]; [reflexivity|]. cbn [find_member]. destruct (bytes_eqb k (B "sink")); [reflexivity|exact IH].
Qed.

Lemma missing_below v a b : missing v [a] -> missing v [a; b].
Proof. intros M [u A]. apply at_two in A as (w & A & _). apply M. exists w. exact A. Qed.

Lemma flush_lemma v c f : clean v -> flush_config v f -> flush_from (node_key (Node v c) (B "flush")) = Ret f.
Proof.
  intros C [[M ->]|[(n & R & A & ->)|(s & n & m & A & D & R & R' & ->)]].
  - rewrite (key_missing v c _ M PL); reflexivity.
  - rewrite (key_at v c (B "flush") _ A PL). cbn [flush_from n_value is_uint64]. unfold node_uint64. cbn [n_value].
    destruct (Z.leb_spec 0 (Z.of_N n)); [|lia]. rewrite N2Z.id. reflexivity.
  - rewrite (key_at v c _ _ A PL). cbn [flush_from n_value is_uint64 is_string].
    rewrite (string_node s _ (clean_at v _ _ C A)). cbn [bind]. rewrite (FlusherProofs.parse_dunit_value_lemma s n m D R R'). reflexivity.
Qed.

Lemma rotate_lemma v c stat : clean v -> rotate_config v stat -> rotate_from (node_key (Node v c) (B "rotate")) = Ret stat.
Proof.
  intros C [[M ->]|[T ->]].
  - rewrite (key_missing v c _ M PL); reflexivity.
  - apply at_two in T as (w & A & T). rewrite (key_at v c _ _ A PL). cbn [rotate_from].
    rewrite (string_at w _ (B "type") (B "stat") (clean_at v _ _ C A) T PL). cbn [bind]. reflexivity.
Qed.

Lemma to_int_small z : (- 2 ^ 31 <= z < 2 ^ 31)%Z -> DeliveryModel.to_int z = z.
Proof. intros R. unfold DeliveryModel.to_int. rewrite Z.mod_small; lia. Qed.

Definition type_of (s : sink) : bytes * builtin :=
  match s with
  | SNull => (B "null", Null) | SConsole _ => (B "console", Console) | SFile _ _ => (B "file", File)
  | STcp _ _ => (B "tcp", Tcp) | SUdp _ _ => (B "udp", Udp) | SSyslog _ => (B "syslog", Syslog)
  | SAsynchronous _ _ => (B "asynchronous", Asynchronous)
  end.

Lemma config_type v s : sink_config v s -> text v [key "type"] (fst (type_of s)).
Proof. destruct 1; assumption. Qed.

Lemma type_lookup s : lookup dbl configured SinkKind (fst (type_of s)) = Ret (snd (type_of s)).
Proof. destruct s; cbn [type_of fst snd]; inlib. Qed.

Lemma socket_lemma (make : bytes -> N -> sink) v c host port : clean v -> text v [key "host"] host ->
  at_path v [key "port"] (JInt (Z.of_N port)) -> (port < 2 ^ 16)%N -> socket_from make (Node v c) = Ret (make host port).
Proof.
  intros C H P R. unfold socket_from. rewrite (string_at v c _ _ C H PL). cbn [bind].
  rewrite (uint_at v c _ port P PL). cbn [bind]. rewrite N.mod_small by exact R. reflexivity.
Qed.

Lemma sink_lemma v s : sink_config v s -> clean v -> forall c, sink_from dbl v c (snd (type_of s)) = Ret s.
Proof.
  intros K. induction K as [v T|v T M|v t T F A R|v path flush stat T P F Ro|v host port T H P R|v host port T H P R|v l T A F|
    v w wrapped factor name policy T A K IH Fa R O Po]; intros C c; cbn [type_of snd].
  - destruct v; reflexivity.
  - assert (E : console_from dbl (Node v c) = Ret (SConsole None)); [|destruct v; exact E].
    unfold console_from. rewrite (key_missing v c _ M PL). reflexivity.
  - assert (E : console_from dbl (Node v c) = Ret (SConsole (Some t))); [|destruct v; exact E].
    unfold console_from. rewrite (string_at2 v c _ _ _ C F PL PL). cbn [bind].
    rewrite (lib dbl FilterKind (B "severity") Severity) by (left; reflexivity). cbn [bind].
    apply at_two in A as (w & A & At). rewrite (key_at v c _ w A PL). cbn [filter_from]. unfold severity_from.
    rewrite (key_at w _ _ _ At PL). cbn [opt_sint64 opt_to]. unfold opt_sint64, opt_to. rewrite sint_node by lia. reflexivity.
  - assert (E : file_from (Node v c) = Ret (SFile path (FileSinkModel.Config stat flush))); [|destruct v; exact E].
    unfold file_from. rewrite (string_at v c _ _ C P PL). cbn [bind]. rewrite (flush_lemma v c flush C F). cbn [bind].
    rewrite (rotate_lemma v c stat C Ro). reflexivity.
  - pose proof (socket_lemma STcp v c host port C H P R) as E. destruct v; exact E.
  - pose proof (socket_lemma SUdp v c host port C H P R) as E. destruct v; exact E.
  - assert (E : syslog_from (Node v c) = Ret (SSyslog l)); [|destruct v; exact E].
    unfold syslog_from. rewrite (key_at v c _ _ A PL). pose proof (ints_node l (c ++ B "/" ++ B "priorities") F) as E.
    destruct (node_each (Node (JArray (map JInt l)) (c ++ B "/" ++ B "priorities"))) as [nodes| |]; cbn [bind] in E |- *; try discriminate.
    rewrite E. cbn [bind]. do 2 f_equal. unfold DeliveryModel.config_priorities. clear -F. induction F as [|z l H F IH]; [reflexivity|].
    cbn [map]. rewrite IH, to_int_small by exact H. reflexivity.
  - rewrite sink_asynchronous. unfold asynchronous_from.
    assert (TW : text v [key "sink"; key "type"] (fst (type_of wrapped))) by (apply at_two; exists w; split; [exact A|apply config_type; exact K]).
    rewrite (string_at2 v c _ _ _ C TW PL PL). cbn [bind]. rewrite type_lookup. cbn [bind].
    rewrite (uint_at v c _ factor Fa PL). cbn [bind]. rewrite (string_at v c _ _ C O PL). cbn [bind].
    assert (E : AsyncModel.create_policy name = Some policy) by (destruct Po as [[-> ->]|[-> ->]]; reflexivity).
    rewrite E, (key_at v c _ w A PL). cbn [n_value n_cursor]. rewrite (IH (clean_at v _ _ C A)). cbn [bind].
    unfold AsyncModel.exp2. destruct (N.ltb_spec factor 2); [lia|]. destruct (N.ltb_spec 20 factor); [lia|]. reflexivity.
Qed.

Lemma sink_made v s c : clean v -> sink_config v s -> sink_entry dbl (Node v c) = Ret s.
Proof.
  intros C K. unfold sink_entry. rewrite (string_at v c _ _ C (config_type v s K) PL). cbn [bind].
  rewrite type_lookup. cbn [bind n_value n_cursor]. exact (sink_lemma v s K C c).
Qed.

(** ---- formatters ---- *)
Variable lexical_double : bytes -> bool.
Variable ndebug : bool.


Lemma forall2_map {X Y Z} (g : X -> Y) (P : Y -> Z -> Prop) l lz : Forall2 (fun x z => P (g x) z) l lz -> Forall2 P (map g l) lz.
Proof. induction 1; cbn [map]; constructor; assumption. Qed.

Lemma forall2_in {X Z} (P Q : X -> Z -> Prop) l lz : Forall2 P l lz -> (forall x z, In x l -> P x z -> Q x z) -> Forall2 Q l lz.
Proof.
  induction 1 as [|x z l lz H F IH]; intros K; constructor; [apply K; [left; reflexivity|exact H]|].
  apply IH. intros x' z' I. apply K. right. exact I.
Qed.

Lemma member_section {C S} (step : S -> C -> S) (f : S -> bytes * node -> outcome S) v c k R calls :
  clean v -> by_member v (Key k) R calls -> plain_access (Key k) ->
  (forall name w call c' s, clean w -> R name w call -> f s (name, Node w c') = Ret (step s call)) ->
  forall s, section_map (node_key (Node v c) k) f s = Ret (fold_left step calls s).
Proof.
  intros Cl [[M ->]|(l & A & F)] P H s.
  - rewrite (key_missing v c k M P). reflexivity.
  - rewrite (key_at v c k _ A P). cbn [section_map]. unfold node_each_map. cbn [n_value bind].
    apply for_each_calls. pose proof (clean_at v _ _ Cl A) as Co. apply forall2_map.
    apply (forall2_in _ _ l calls F). intros [name w] call I Hr s'. destruct (clean_member l name w Co I) as [Cw Nn].
    cbn [fst snd] in Hr |- *. rewrite (cstr_id name Nn). apply H; assumption.
Qed.

Lemma element_section {C S} (step : S -> C -> S) (f : S -> node -> outcome S) v c k R calls :
  clean v -> by_element v (Key k) R calls -> plain_access (Key k) ->
  (forall w call c' s, clean w -> R w call -> f s (Node w c') = Ret (step s call)) ->
  forall s, section_each (node_key (Node v c) k) f s = Ret (fold_left step calls s).
Proof.
  intros Cl [[M ->]|(l & A & F)] P H s.
  - rewrite (key_missing v c k M P). reflexivity.
  - rewrite (key_at v c k _ A P). cbn [section_each]. unfold node_each. cbn [n_value bind].
    apply for_each_calls. pose proof (clean_at v _ _ Cl A) as Co.
    assert (G : forall n i, Forall2 (fun a call => forall s, f s a = Ret (step s call)) (elements_from n i l) calls); [|apply G].
    assert (Q : forall w, In w l -> clean w) by (intros w I; exact (clean_element l w Co I)).
    clear -F H Q. intros n. induction F as [|w call l calls Hr F IH]; intros i; [constructor|]. cbn [elements_from]. constructor.
    + intros s. apply H; [apply Q; left; reflexivity|exact Hr].
    + apply IH. intros w' I. apply Q. right. exact I.
Qed.

Lemma bool_at v c k b : at_path v [Key k] (JBool b) -> plain_access (Key k) -> opt_bool (node_key (Node v c) k) = Ret (Some b).
Proof. intros A P. rewrite (key_at v c k _ A P). reflexivity. Qed.

Lemma flag_section v c k call calls : by_flag v (Key k) call calls -> plain_access (Key k) ->
  forall b, json_flag (Node v c) k call b = Ret (fold_left JsonFmtModel.builder_call calls b).
Proof.
  intros F P b. unfold json_flag. destruct F as [[M ->]|[[A ->]|[A ->]]].
  - rewrite (key_missing v c k M P). reflexivity.
  - rewrite (bool_at v c k _ A P). reflexivity.
  - rewrite (bool_at v c k _ A P). reflexivity.
Qed.

Lemma tskv_lemma v c d : clean v -> tskv_config v d -> tskv_from (Node v c) = Ret (FTskv d).
Proof.
  intros C (create & rename & remove & mutate & K1 & K2 & K3 & K4 & ->). unfold tskv_from.
  rewrite (member_section TskvModel.builder_call _ v c _ _ create C K1 PL).
  2:{ intros name w call c' s Cw (t & -> & ->). rewrite (string_node t c' Cw). reflexivity. }
  cbn [bind]. rewrite (member_section TskvModel.builder_call _ v c _ _ rename C K2 PL).
  2:{ intros name w call c' s Cw (t & -> & ->). rewrite (string_node t c' Cw). reflexivity. }
  cbn [bind]. rewrite (element_section TskvModel.builder_call _ v c _ _ remove C K3 PL).
  2:{ intros w call c' s Cw (t & -> & ->). rewrite (string_node t c' Cw). reflexivity. }
  cbn [bind]. rewrite (member_section TskvModel.builder_call _ v c _ _ mutate C K4 PL).
  2:{ intros name w call c' s Cw (pattern & g & T & G & ->).
      rewrite (key_at w c' _ _ T PL). destruct G as [[M ->]|A].
      - rewrite (key_missing w c' _ M PL). cbn [opt_bool opt_to bind]. unfold opt_bool, opt_to. cbn [bind].
        rewrite (string_node pattern _ (clean_at w _ _ Cw T)). reflexivity.
      - rewrite (bool_at w c' _ _ A PL). cbn [bind]. rewrite (string_node pattern _ (clean_at w _ _ Cw T)). reflexivity. }
  cbn [bind]. unfold TskvModel.build. rewrite !fold_left_app. reflexivity.
Qed.

Lemma strings_bind {X} names c (k : list bytes -> outcome X) : clean (JArray (map JString names)) ->
  bind (node_each (Node (JArray (map JString names)) c)) (fun nodes => bind (collect node_string nodes) k) = k names.
Proof.
  intros C. pose proof (strings_node names c C) as E.
  destruct (node_each (Node (JArray (map JString names)) c)) as [nodes| |]; cbn [bind] in E |- *; try discriminate. rewrite E. reflexivity.
Qed.

Lemma json_lemma v c d : clean v -> json_config v d -> json_from (Node v c) = Ret (FJson d).
Proof.
  intros C (unique & newline & mapping & formatting & routing & mutate & K1 & K2 & K3 & K4 & K5 & K6 & ->). unfold json_from.
  rewrite (flag_section v c _ _ unique K1 PL). cbn [bind]. rewrite (flag_section v c _ _ newline K2 PL). cbn [bind].
  rewrite (member_section JsonFmtModel.builder_call _ v c _ _ mapping C K3 PL).
  2:{ intros name w call c' s Cw (t & -> & ->). rewrite (string_node t c' Cw). reflexivity. }
  cbn [bind]. rewrite (member_section JsonFmtModel.builder_call _ v c _ _ formatting C K4 PL).
  2:{ intros name w call c' s Cw (t & -> & ->). rewrite (string_node t c' Cw). reflexivity. }
  cbn [bind]. rewrite (member_section JsonFmtModel.builder_call _ v c _ _ routing C K5 PL).
  2:{ intros name w call c' s Cw [[-> ->]|(names & -> & ->)].
      - rewrite (string_node _ c' Cw). reflexivity.
      - cbn [node_string n_value]. unfold node_string. cbn [n_value]. unfold mismatch. rewrite (strings_bind names c' _ Cw). reflexivity. }
  cbn [bind]. rewrite (member_section JsonFmtModel.builder_call _ v c _ _ mutate C K6 PL).
  2:{ intros name w call c' s Cw [[-> (t & -> & ->)]|[-> (names & -> & ->)]].
      - rewrite (string_node _ c' Cw). reflexivity.
      - change (bytes_eqb (B "severity") (B "timestamp")) with false. change (bytes_eqb (B "severity") (B "severity")) with true. cbn match.
        rewrite (strings_bind names c' _ Cw). reflexivity. }
  cbn [bind]. unfold JsonFmtModel.build. rewrite !fold_left_app. reflexivity.
Qed.

Definition formatter_type (f : formatter) : bytes * builtin :=
  match f with FString _ _ => (B "string", String) | FTskv _ => (B "tskv", Tskv) | FJson _ => (B "json", Json) end.

Lemma formatter_lemma v f : clean v -> formatter_config lexical_double ndebug v f ->
  text v [key "type"] (fst (formatter_type f)) /\ forall c, formatter_from lexical_double ndebug (snd (formatter_type f)) (Node v c) = Ret f.
Proof.
  intros C [[T (d & K & ->)]|[[T (d & K & ->)]|[T (pattern & tokens & sevmap & P & E & K & ->)]]]; cbn [formatter_type fst snd formatter_from];
    (split; [exact T|]); intros c.
  - exact (tskv_lemma v c d C K).
  - exact (json_lemma v c d C K).
  - unfold string_from. rewrite (string_at v c _ _ C P PL). cbn [bind]. destruct K as [[M ->]|(names & A & ->)].
    + rewrite (key_missing v c _ M PL). cbn [bind]. rewrite E. reflexivity.
    + rewrite (key_at v c _ _ A PL). rewrite (strings_bind names _ _ (clean_at v _ _ C A)). cbn [bind]. rewrite E. reflexivity.
Qed.

Lemma formatter_made v f c : clean v -> formatter_config lexical_double ndebug v f -> exists t b,
  text v [key "type"] t /\ lookup dbl configured FormatterKind t = Ret b /\ formatter_from lexical_double ndebug b (Node v c) = Ret f.
Proof.
  intros C K. destruct (formatter_lemma v f C K) as [T E]. exists (fst (formatter_type f)), (snd (formatter_type f)).
  split; [exact T|]. split; [|apply E]. destruct f; cbn [formatter_type fst snd]; inlib.
Qed.

(** ---- handlers and loggers ---- *)

Lemma sinks_lemma l sinks : Forall2 sink_config l sinks -> (forall w, In w l -> clean w) ->
  forall n i, Forall2 (fun n s => sink_entry dbl n = Ret s) (elements_from n i l) sinks.
Proof.
  intros F Q n i. apply (elements_forall2 sink_config); [exact F|]. intros w s c I K. exact (sink_made w s c (Q w I) K).
Qed.

Lemma handler_lemma v h c : clean v -> handler_config lexical_double ndebug v h -> blocking_from dbl lexical_double ndebug (Node v c) = Ret h.
Proof.
  intros C (w & f & l & sinks & _ & A & K & As & F & ->). unfold blocking_from.
  destruct (formatter_made w f (c ++ B "/" ++ B "formatter") (clean_at v _ _ C A) K) as (t & b & T & L & E).
  assert (T2 : text v [key "formatter"; key "type"] t) by (apply at_two; exists w; split; assumption).
  rewrite (string_at2 v c _ _ _ C T2 PL PL). cbn [bind]. rewrite L. cbn [bind]. rewrite (key_at v c _ w A PL), E. cbn [bind].
  rewrite (key_at v c _ _ As PL). cbn [opt_each]. unfold node_each. cbn [n_value bind].
  pose proof (clean_at v _ _ C As) as Cs.
  rewrite (collect_all (sink_entry dbl) _ sinks); [reflexivity|].
  apply sinks_lemma; [exact F|]. intros u I. exact (clean_element l u Cs I).
Qed.

Lemma handler_built v h c : clean v -> handler_config lexical_double ndebug v h ->
  build_handler dbl (handler_from dbl lexical_double ndebug) configured (Node v c) = Ret h.
Proof.
  intros C K. pose proof (handler_lemma v h c C K) as E. destruct K as (w & f & l & sinks & T & _). unfold build_handler.
  destruct T as [T|M].
  - rewrite (string_at v c _ _ C T PL). cbn [bind].
    rewrite (lib dbl HandlerKind (B "blocking") Blocking) by (unfold library, In; repeat (first [left; reflexivity|right])). exact E.
  - rewrite (string_missing v c _ M PL). cbn [bind].
    rewrite (lib dbl HandlerKind (B "blocking") Blocking) by (unfold library, In; repeat (first [left; reflexivity|right])). exact E.
Qed.

Lemma logger_lemma v name hs : clean v -> no_nul name -> logger_config lexical_double ndebug v name hs ->
  logger dbl lexical_double ndebug v name = Ret hs.
Proof.
  intros C Nn (l & A & F). unfold logger, build, root. rewrite (key_at v [] name _ A Nn). cbn [opt_each]. unfold node_each. cbn [n_value bind].
  pose proof (clean_at v _ _ C A) as Cl.
  apply (collect_all (build_handler dbl (handler_from dbl lexical_double ndebug) configured)).
  apply (elements_forall2 (handler_config lexical_double ndebug)); [exact F|]. intros w h c I K.
  exact (handler_built w h c (clean_element l w Cl I) K).
Qed.

(** ---- required options ---- *)

Definition throws {A} (o : outcome A) : Prop := exists e, o = Throw e.
Definition sane {A} (o : outcome A) : Prop := o <> Undefined.

Lemma throws_not_made {A} (o : outcome A) : sane o -> (forall a, o <> Ret a) -> throws o.
Proof. intros H N. destruct o as [a|e|]; [elim (N a); reflexivity|exists e; reflexivity|elim H; reflexivity]. Qed.

Lemma bind_throws {A C} (o : outcome A) (f : A -> outcome C) : throws o -> throws (bind o f).
Proof. intros [e ->]. exists e. reflexivity. Qed.

Lemma bind_throws_after {A C} (o : outcome A) (f : A -> outcome C) : sane o -> (forall a, throws (f a)) -> throws (bind o f).
Proof. intros H F. destruct o as [a|e|]; [apply F|exists e; reflexivity|elim H; reflexivity]. Qed.

Lemma bind_sane {A C} (o : outcome A) (f : A -> outcome C) : sane o -> (forall a, sane (f a)) -> sane (bind o f).
Proof. intros H F. destruct o as [a|e|]; [apply F|discriminate|elim H; reflexivity]. Qed.

Lemma bind_ret {A C} (o : outcome A) (f : A -> outcome C) x : bind o f = Ret x -> exists a, o = Ret a /\ f a = Ret x.
Proof. destruct o as [a| |]; [|discriminate|discriminate]. intros E. exists a. split; [reflexivity|exact E]. Qed.

Lemma string_sane n : sane (node_string n).
Proof. unfold node_string, mismatch. destruct (n_value n); discriminate. Qed.
Lemma bool_sane n : sane (node_bool n).
Proof. unfold node_bool, mismatch. destruct (n_value n); discriminate. Qed.
Lemma uint_sane n : sane (node_uint64 n).
Proof. unfold node_uint64, mismatch. destruct (n_value n) as [| |z| | | |]; try discriminate. destruct (0 <=? z)%Z; discriminate. Qed.
Lemma sint_sane n : sane (node_sint64 n).
Proof. unfold node_sint64, mismatch. destruct (n_value n) as [| |z| | | |]; try discriminate. destruct (z <? 2 ^ 63)%Z; discriminate. Qed.
Lemma each_sane n : sane (node_each n).
Proof. unfold node_each, mismatch. destruct (n_value n); discriminate. Qed.
Lemma each_map_sane n : sane (node_each_map n).
Proof. unfold node_each_map, mismatch. destruct (n_value n); discriminate. Qed.
Lemma opt_sane {A} (f : node -> outcome A) o : (forall n, sane (f n)) -> sane (opt_to f o).
Proof. intros H. destruct o as [n|]; [|discriminate]. cbn [opt_to]. apply bind_sane; [apply H|discriminate]. Qed.

Lemma entry_from v c t f : clean v -> text v [key "type"] t -> In (SinkKind, t, f) library -> sink_entry dbl (Node v c) = sink_from dbl v c f.
Proof.
  intros C T I. unfold sink_entry. rewrite (string_at v c _ _ C T PL). cbn [bind]. rewrite (lib dbl _ _ _ I). reflexivity.
Qed.

Ltac inl := unfold library, In; repeat (first [left; reflexivity|right]).

Lemma socket_no_host make v c : missing v [key "host"] -> throws (socket_from make (Node v c)).
Proof. intros M. unfold socket_from. rewrite (string_missing v c _ M PL). eexists. reflexivity. Qed.

Lemma socket_no_port make v c : missing v [key "port"] -> throws (socket_from make (Node v c)).
Proof.
  intros M. unfold socket_from. apply bind_throws_after; [apply opt_sane, string_sane|]. intros [h|]; [|eexists; reflexivity].
  rewrite (key_missing v c _ M PL). eexists. reflexivity.
Qed.

Lemma required_lemma v c t k : clean v -> In (t, k) required -> k <> key "factor" -> k <> key "overflow" -> k <> key "priorities" ->
  text v [key "type"] t -> missing v [k] -> throws (sink_entry dbl (Node v c)).
Proof.
  intros C I N1 N2 N3 T M.
  unfold required, In in I.
  destruct I as [E|[E|[E|[E|[E|[E|[E|[E|[E|[]]]]]]]]]]; injection E as <- <-.
  - rewrite (entry_from v c _ File C T) by inl. assert (G : throws (file_from (Node v c))); [|destruct v; exact G].
    unfold file_from. rewrite (string_missing v c _ M PL). eexists. reflexivity.
  - rewrite (entry_from v c _ Tcp C T) by inl. pose proof (socket_no_host STcp v c M) as G. destruct v; exact G.
  - rewrite (entry_from v c _ Tcp C T) by inl. pose proof (socket_no_port STcp v c M) as G. destruct v; exact G.
  - rewrite (entry_from v c _ Udp C T) by inl. pose proof (socket_no_host SUdp v c M) as G. destruct v; exact G.
  - rewrite (entry_from v c _ Udp C T) by inl. pose proof (socket_no_port SUdp v c M) as G. destruct v; exact G.
  - elim N3. reflexivity.
  - rewrite (entry_from v c _ Asynchronous C T) by inl. rewrite sink_asynchronous. unfold asynchronous_from.
    rewrite (key_missing v c _ M PL). eexists. reflexivity.
  - elim N1. reflexivity.
  - elim N2. reflexivity.
Qed.

Lemma no_type_lemma v c : missing v [key "type"] -> sink_entry dbl (Node v c) = Throw (InvalidArgument (B "each sink must have a type")).
Proof. intros M. unfold sink_entry. rewrite (string_missing v c _ M PL). reflexivity. Qed.

Lemma opt_key_missing v c k k2 : missing v [Key k; Key k2] -> plain_access (Key k) -> plain_access (Key k2) -> opt_key (node_key (Node v c) k) k2 = None.
Proof.
  intros M P P2. destruct (node_key (Node v c) k) as [[w cw]|] eqn:E; [|reflexivity]. cbn [opt_key].
  apply key_missing; [|exact P2]. intros [u A]. apply M. exists u. apply at_two. exists w. split; [|exact A].
  pose proof (key_found v c k _ P E) as F. exact F.
Qed.

Lemma no_formatter_lemma v c : missing v [key "formatter"; key "type"] ->
  blocking_from dbl lexical_double ndebug (Node v c) = Throw (InvalidArgument (B "each handler must have a formatter with type")).
Proof. intros M. unfold blocking_from. rewrite (opt_key_missing v c _ _ M PL PL). reflexivity. Qed.

Lemma no_threshold_lemma v c : clean v -> text v [key "type"] (B "console") -> text v [key "filter"; key "type"] (B "severity") ->
  missing v [key "filter"; key "threshold"] -> sink_entry dbl (Node v c) = Throw (InvalidArgument (B "field 'threshold' is required")).
Proof.
  intros C T F M. rewrite (entry_from v c _ Console C T) by inl.
  assert (E : console_from dbl (Node v c) = Throw (InvalidArgument (B "field 'threshold' is required"))); [|destruct v; exact E].
  unfold console_from. rewrite (string_at2 v c _ _ _ C F PL PL). cbn [bind].
  rewrite (lib dbl FilterKind (B "severity") Severity) by (left; reflexivity). cbn [bind].
  apply at_two in F as (w & A & _). rewrite (key_at v c _ w A PL). cbn [filter_from]. unfold severity_from.
  rewrite key_missing; [reflexivity| |exact PL]. intros [u Au]. apply M. exists u. apply at_two. exists w. split; assumption.
Qed.

(** ---- wrong options ---- *)

Lemma string_ret w c s : node_string (Node w c) = Ret s -> is_text w.
Proof. unfold node_string, mismatch. cbn [n_value]. destruct w; try discriminate. intros _. eexists. reflexivity. Qed.
Lemma bool_ret w c s : node_bool (Node w c) = Ret s -> is_flag w.
Proof. unfold node_bool, mismatch. cbn [n_value]. destruct w; try discriminate. intros _. eexists. reflexivity. Qed.

Lemma opt_ret {A} (f : node -> outcome A) (P : json -> Prop) v c k w x : (forall c a, f (Node w c) = Ret a -> P w) ->
  at_path v [Key k] w -> plain_access (Key k) -> opt_to f (node_key (Node v c) k) = Ret x -> P w.
Proof.
  intros H At Pl E. rewrite (key_at v c k w At Pl) in E. cbn [opt_to] in E. apply bind_ret in E as (a & E & _). exact (H _ _ E).
Qed.

Lemma for_each_ret {A S} (f : S -> A -> outcome S) l : forall s x, for_each f s l (fun s => Ret s) = Ret x ->
  Forall (fun a => exists s s', f s a = Ret s') l.
Proof.
  induction l as [|a l IH]; intros s x E; [constructor|]. cbn [for_each] in E. apply bind_ret in E as (s' & E1 & E2).
  constructor; [exists s, s'; exact E1|exact (IH s' x E2)].
Qed.

Lemma for_each_sane {A S} (f : S -> A -> outcome S) l : (forall s a, sane (f s a)) -> forall s, sane (for_each f s l (fun s => Ret s)).
Proof. intros H. induction l as [|a l IH]; intros s; [discriminate|]. cbn [for_each]. apply bind_sane; [apply H|exact IH]. Qed.

Lemma collect_sane {A} (f : node -> outcome A) l : (forall n, sane (f n)) -> sane (collect f l).
Proof. intros H. apply for_each_sane. intros s a. apply bind_sane; [apply H|discriminate]. Qed.

Lemma collect_ret {A} (f : node -> outcome A) l x : collect f l = Ret x -> Forall (fun n => exists a, f n = Ret a) l.
Proof.
  intros E. apply for_each_ret in E. eapply Forall_impl; [|exact E]. intros n (s & s' & H). apply bind_ret in H as (a & H & _). exists a. exact H.
Qed.

Lemma forall_elements (P : node -> Prop) (Q : json -> Prop) : (forall w c, P (Node w c) -> Q w) ->
  forall n l i, Forall P (elements_from n i l) -> Forall Q l.
Proof.
  intros H n l. induction l as [|w l IH]; intros i F; [constructor|]. cbn [elements_from] in F. inversion F as [|? ? F1 F2]; subst.
  constructor; [exact (H _ _ F1)|exact (IH _ F2)].
Qed.

Lemma forall_members (P : bytes * node -> Prop) (Q : json -> Prop) : (forall k w c, P (k, Node w c) -> Q w) ->
  forall n l, Forall P (map (fun m => let k := FmtModel.c_string (fst m) in (k, Node (snd m) (advance_key n k))) l) -> Forall (fun m => Q (snd m)) l.
Proof.
  intros H n l. induction l as [|[k w] l IH]; intros F; [constructor|]. cbn [map] in F. inversion F as [|? ? F1 F2]; subst.
  constructor; [exact (H _ _ _ F1)|exact (IH F2)].
Qed.

Lemma strings_ret {X} w c (k : list bytes -> outcome X) x :
  bind (node_each (Node w c)) (fun nodes => bind (collect node_string nodes) k) = Ret x -> list_of is_text w.
Proof.
  intros E. apply bind_ret in E as (nodes & E & E2). apply bind_ret in E2 as (names & E2 & _).
  unfold node_each, mismatch in E. cbn [n_value] in E. destruct w as [| | | | |l|]; try discriminate. injection E as <-.
  exists l. split; [reflexivity|]. apply collect_ret in E2. refine (forall_elements _ _ _ _ l _ E2).
  intros u cu (a & H). exact (string_ret u cu a H).
Qed.

Lemma sints_ret {X} w c (k : list Z -> outcome X) x : parsed w ->
  bind (node_each (Node w c)) (fun nodes => bind (collect node_sint64 nodes) k) = Ret x -> list_of (is_integer (- 2 ^ 63) (2 ^ 63)) w.
Proof. clear lexical_double ndebug.
  intros V E. apply bind_ret in E as (nodes & E & E2). apply bind_ret in E2 as (names & E2 & _).
  unfold node_each, mismatch in E. cbn [n_value] in E. destruct w as [| | | | |l|]; try discriminate. injection E as <-.
  exists l. split; [reflexivity|]. apply collect_ret in E2.
  assert (F : Forall (fun u => exists z, u = JInt z /\ (z < 2 ^ 63)%Z) l).
  { refine (forall_elements _ _ _ _ l _ E2). intros u cu (a & H). unfold node_sint64, mismatch in H. cbn [n_value] in H.
    destruct u as [| |z| | | |]; try discriminate. destruct (Z.ltb_spec z (2 ^ 63)); [|discriminate]. exists z. split; [reflexivity|assumption]. }
  rewrite Forall_forall in F |- *. intros u I. destruct (F u I) as (z & -> & R). exists z. split; [reflexivity|]. split; [|exact R].
  apply in_split in I as (pre & post & ->). apply (V [Index (N.of_nat (length pre))] z). apply at_one. constructor.
Qed.

Lemma section_map_sane {S} (f : S -> bytes * node -> outcome S) o : (forall s a, sane (f s a)) -> forall s, sane (section_map o f s).
Proof. intros H s. destruct o as [n|]; [|discriminate]. cbn [section_map]. apply bind_sane; [apply each_map_sane|]. intros l. apply for_each_sane, H. Qed.
Lemma section_each_sane {S} (f : S -> node -> outcome S) o : (forall s a, sane (f s a)) -> forall s, sane (section_each o f s).
Proof. intros H s. destruct o as [n|]; [|discriminate]. cbn [section_each]. apply bind_sane; [apply each_sane|]. intros l. apply for_each_sane, H. Qed.

Lemma section_map_ret {S} (f : S -> bytes * node -> outcome S) (Q : json -> Prop) v c k w s x :
  (forall name u cu s s', f s (name, Node u cu) = Ret s' -> Q u) -> at_path v [Key k] w -> plain_access (Key k) ->
  section_map (node_key (Node v c) k) f s = Ret x -> object_of Q w.
Proof.
  intros H A P E. rewrite (key_at v c k w A P) in E. cbn [section_map] in E. apply bind_ret in E as (l & E & E2).
  unfold node_each_map, mismatch in E. cbn [n_value] in E. destruct w as [| | | | | |m]; try discriminate. injection E as <-.
  exists m. split; [reflexivity|]. apply for_each_ret in E2. refine (forall_members _ _ _ _ m E2).
  intros name u cu (s1 & s2 & E). exact (H _ _ _ _ _ E).
Qed.

Lemma section_each_ret {S} (f : S -> node -> outcome S) (Q : json -> Prop) v c k w s x :
  (forall u cu s s', f s (Node u cu) = Ret s' -> Q u) -> at_path v [Key k] w -> plain_access (Key k) ->
  section_each (node_key (Node v c) k) f s = Ret x -> list_of Q w.
Proof.
  intros H A P E. rewrite (key_at v c k w A P) in E. cbn [section_each] in E. apply bind_ret in E as (l & E & E2).
  unfold node_each, mismatch in E. cbn [n_value] in E. destruct w as [| | | | |m|]; try discriminate. injection E as <-.
  exists m. split; [reflexivity|]. apply for_each_ret in E2. refine (forall_elements _ _ _ _ m _ E2).
  intros u cu (s1 & s2 & E). exact (H _ _ _ _ E).
Qed.

Ltac sane_string := intros; apply bind_sane; [apply string_sane|discriminate].

Lemma tskv_sane n : sane (tskv_from n).
Proof.
  unfold tskv_from. apply bind_sane; [apply section_map_sane; intros s [k w]; sane_string|]. intros b1.
  apply bind_sane; [apply section_map_sane; intros s [k w]; sane_string|]. intros b2.
  apply bind_sane; [apply section_each_sane; intros s w; sane_string|]. intros b3.
  apply bind_sane; [|discriminate]. apply section_map_sane. intros s [k w].
  destruct (node_key w (B "strftime")); [|discriminate]. apply bind_sane; [apply opt_sane, bool_sane|]. intros g. sane_string.
Qed.

Lemma flag_sane n k call b : sane (json_flag n k call b).
Proof. unfold json_flag. apply bind_sane; [apply opt_sane, bool_sane|discriminate]. Qed.

Lemma json_sane n : sane (json_from n).
Proof.
  assert (ST : forall w (X : Type) (k : list bytes -> outcome X), (forall a, sane (k a)) ->
    sane (bind (node_each w) (fun nodes => bind (collect node_string nodes) k))).
  { intros w X k H. apply bind_sane; [apply each_sane|]. intros nodes. apply bind_sane; [apply collect_sane, string_sane|exact H]. }
  unfold json_from. apply bind_sane; [apply flag_sane|]. intros b1. apply bind_sane; [apply flag_sane|]. intros b2.
  apply bind_sane; [apply section_map_sane; intros s [k w]; sane_string|]. intros b3.
  apply bind_sane; [apply section_map_sane; intros s [k w]; sane_string|]. intros b4.
  apply bind_sane.
  { apply section_map_sane. intros s [k w]. destruct (node_string w); [discriminate| |]; (apply ST; discriminate). }
  intros b5. apply bind_sane; [|discriminate]. apply section_map_sane. intros s [k w].
  destruct (bytes_eqb k (B "timestamp")); [sane_string|]. destruct (bytes_eqb k (B "severity")); [|discriminate]. apply ST. discriminate.
Qed.

Ltac step E b := apply bind_ret in E as (b & ?E & E).
Ltac text_step := intros ? u cu s s' H; apply bind_ret in H as (? & H & _); exact (string_ret u cu _ H).

Lemma flag_ret v c k call b w x : at_path v [Key k] w -> plain_access (Key k) -> json_flag (Node v c) k call b = Ret x -> is_flag w.
Proof.
  intros A P E. unfold json_flag in E. apply bind_ret in E as (o & E & _).
  exact (opt_ret node_bool is_flag v c k w o (fun c a => bool_ret w c a) A P E).
Qed.

Lemma formatter_options_lemma v c t f k P w : clean v -> In (t, k, P) formatter_options -> lookup dbl configured FormatterKind t = Ret f ->
  (t = B "string" -> exists u, at_path v [key "pattern"] u) -> at_path v [k] w -> ~ P w ->
  throws (formatter_from lexical_double ndebug f (Node v c)).
Proof.
  intros C I L Pat A N. unfold formatter_options, In in I. apply configured_lemma in L.
  assert (FT : (t = B "string" -> f = String) /\ (t = B "tskv" -> f = Tskv) /\ (t = B "json" -> f = Json)).
  { unfold library, In in L. repeat split; intros ->; repeat (destruct L as [L|L]; [try discriminate; injection L as <-; reflexivity|]); destruct L. }
  destruct FT as (F1 & F2 & F3). clear L.
  destruct I as [E|[E|[E|[E|[E|[E|[E|[E|[E|[E|[]]]]]]]]]]]; injection E as <- <- <-;
    first [rewrite (F1 eq_refl)|rewrite (F2 eq_refl)|rewrite (F3 eq_refl)]; cbn [formatter_from]; clear F1 F2 F3.
  - destruct (Pat eq_refl) as [u Pu]. unfold string_from. rewrite (key_at v c _ u Pu PL). unfold opt_string, opt_to.
    pose proof (string_sane (Node u (c ++ B "/" ++ B "pattern"))) as Sn.
    destruct (node_string (Node u (c ++ B "/" ++ B "pattern"))) as [p|e|]; [|eexists; reflexivity|elim Sn; reflexivity]. cbn [bind].
    apply bind_throws. rewrite (key_at v c _ w A PL). apply throws_not_made.
    + apply bind_sane; [apply each_sane|]. intros nodes. apply bind_sane; [apply collect_sane, string_sane|discriminate].
    + intros x E. apply N. exact (strings_ret w _ _ x E).
  - unfold string_from. apply bind_throws. apply throws_not_made; [apply opt_sane, string_sane|]. intros x E. apply N.
    exact (opt_ret node_string is_text v c _ w x (fun c a => string_ret w c a) A PL E).
  - apply throws_not_made; [apply tskv_sane|]. intros x E. apply N. unfold tskv_from in E. step E b.
    refine (section_map_ret _ is_text v c _ w _ b _ A PL E0). text_step.
  - apply throws_not_made; [apply tskv_sane|]. intros x E. apply N. unfold tskv_from in E. step E b. step E b1.
    refine (section_map_ret _ is_text v c _ w _ b1 _ A PL E1). text_step.
  - apply throws_not_made; [apply tskv_sane|]. intros x E. apply N. unfold tskv_from in E. step E b. step E b1. step E b2.
    refine (section_each_ret _ is_text v c _ w _ b2 _ A PL E2). intros u cu s s' H; apply bind_ret in H as (? & H & _); exact (string_ret u cu _ H).
  - apply throws_not_made; [apply json_sane|]. intros x E. apply N. unfold json_from in E. step E b.
    exact (flag_ret v c _ _ _ w b A PL E0).
  - apply throws_not_made; [apply json_sane|]. intros x E. apply N. unfold json_from in E. step E b. step E b1.
    exact (flag_ret v c _ _ _ w b1 A PL E1).
  - apply throws_not_made; [apply json_sane|]. intros x E. apply N. unfold json_from in E. step E b. step E b1. step E b2.
    refine (section_map_ret _ is_text v c _ w _ b2 _ A PL E2). text_step.
  - apply throws_not_made; [apply json_sane|]. intros x E. apply N. unfold json_from in E. step E b. step E b1. step E b2. step E b3.
    refine (section_map_ret _ is_text v c _ w _ b3 _ A PL E3). text_step.
  - apply throws_not_made; [apply json_sane|]. intros x E. apply N. unfold json_from in E. step E b. step E b1. step E b2. step E b3. step E b4.
    refine (section_map_ret _ _ v c _ w _ b4 _ A PL E4). intros name u cu s s' H.
    destruct (node_string (Node u cu)) as [t| |] eqn:Et; [left; exact (string_ret u cu t Et)|right; exact (strings_ret u cu _ s' H)|right; exact (strings_ret u cu _ s' H)].
Qed.

Lemma uint_ret w c n : parsed w -> node_uint64 (Node w c) = Ret n -> is_integer 0 (2 ^ 64) w.
Proof. clear lexical_double ndebug.
  intros V E. unfold node_uint64, mismatch in E. cbn [n_value] in E. destruct w as [| |z| | | |]; try discriminate.
  destruct (Z.leb_spec 0 z); [|discriminate]. exists z. split; [reflexivity|]. specialize (V [] z (at_here _)). lia.
Qed.

Lemma at_app v p w q u : at_path v p w -> at_path w q u -> at_path v (p ++ q) u.
Proof. intros A C. induction A as [v|v a w' path x Ch A IH]; [exact C|]. cbn [app]. econstructor; [exact Ch|exact (IH C)]. Qed.

Lemma parsed_at v path w : parsed v -> at_path v path w -> parsed w.
Proof. intros V A q z Q. exact (V (path ++ q) z (at_app v path w q _ A Q)). Qed.

Lemma socket_host_wrong make v c w : at_path v [key "host"] w -> ~ is_text w -> throws (socket_from make (Node v c)).
Proof.
  intros A N. unfold socket_from. apply bind_throws, throws_not_made; [apply opt_sane, string_sane|]. intros x E. apply N.
  exact (opt_ret node_string is_text v c _ w x (fun c a => string_ret w c a) A PL E).
Qed.

Lemma socket_port_wrong make v c w : parsed v -> at_path v [key "port"] w -> ~ is_integer 0 (2 ^ 64) w -> throws (socket_from make (Node v c)).
Proof. clear lexical_double ndebug.
  intros V A N. unfold socket_from. apply bind_throws_after; [apply opt_sane, string_sane|]. intros [h|]; [|eexists; reflexivity].
  apply bind_throws, throws_not_made; [apply opt_sane, uint_sane|]. intros x E. apply N.
  exact (opt_ret node_uint64 _ v c _ w x (fun c a => uint_ret w c a (parsed_at v _ w V A)) A PL E).
Qed.

Lemma sink_options_lemma v c t k P w : clean v -> parsed v -> In (t, k, P) sink_options -> text v [key "type"] t ->
  at_path v [k] w -> ~ P w -> throws (sink_entry dbl (Node v c)).
Proof. clear lexical_double ndebug.
  intros C V I T A N. unfold sink_options, In in I.
  destruct I as [E|[E|[E|[E|[E|[E|[]]]]]]]; injection E as <- <- <-.
  - rewrite (entry_from v c _ File C T) by inl. assert (G : throws (file_from (Node v c))); [|destruct v; exact G].
    unfold file_from. apply bind_throws, throws_not_made; [apply opt_sane, string_sane|]. intros x E. apply N.
    exact (opt_ret node_string is_text v c _ w x (fun c a => string_ret w c a) A PL E).
  - rewrite (entry_from v c _ Tcp C T) by inl. pose proof (socket_host_wrong STcp v c w A N) as G. destruct v; exact G.
  - rewrite (entry_from v c _ Tcp C T) by inl. pose proof (socket_port_wrong STcp v c w V A N) as G. destruct v; exact G.
  - rewrite (entry_from v c _ Udp C T) by inl. pose proof (socket_host_wrong SUdp v c w A N) as G. destruct v; exact G.
  - rewrite (entry_from v c _ Udp C T) by inl. pose proof (socket_port_wrong SUdp v c w V A N) as G. destruct v; exact G.
  - rewrite (entry_from v c _ Syslog C T) by inl. assert (G : throws (syslog_from (Node v c))); [|destruct v; exact G].
    unfold syslog_from. rewrite (key_at v c _ w A PL). apply throws_not_made.
    + apply bind_sane; [apply each_sane|]. intros nodes. apply bind_sane; [apply collect_sane, sint_sane|discriminate].
    + intros x E. apply N. exact (sints_ret w _ _ x (parsed_at v _ w V A) E).
Qed.

Lemma sink_unknown_lemma v c t : clean v -> text v [key "type"] t -> (forall f, ~ In (SinkKind, t, f) library) ->
  sink_entry dbl (Node v c) = Throw (not_registered SinkKind t).
Proof. clear lexical_double ndebug.
  intros C T N. unfold sink_entry. rewrite (string_at v c _ _ C T PL). cbn [bind].
  assert (E : lookup dbl configured SinkKind t = Throw (not_registered SinkKind t)).
  { pose proof (fun f => proj1 (configured_lemma dbl SinkKind t f)) as H. rewrite lookup_map in H |- *.
    destruct (StdMap.map_get t (the_map configured SinkKind)) as [f|]; [|reflexivity]. elim (N f). apply H. reflexivity. }
  rewrite E. reflexivity.
Qed.

(** ---- passed over ---- *)

Lemma flush_ignored v c path w : clean v -> text v [key "type"] (B "file") -> text v [key "path"] path -> missing v [key "rotate"] ->
  at_path v [key "flush"] w -> (forall n, w <> JInt (Z.of_N n)) -> ~ is_text w ->
  sink_entry dbl (Node v c) = Ret (SFile path (FileSinkModel.Config false (FlusherModel.FRepeat (FlusherModel.repeat_new 0)))).
Proof. clear lexical_double ndebug.
  intros C T P M A N1 N2. rewrite (entry_from v c _ File C T) by inl.
  match goal with |- _ = ?r => assert (E : file_from (Node v c) = r); [|destruct v; exact E] end.
  unfold file_from. rewrite (string_at v c _ _ C P PL). cbn [bind]. rewrite (key_at v c _ w A PL). cbn [flush_from n_value].
  assert (E1 : is_uint64 w = false).
  { destruct w as [| |z| | | |]; try reflexivity. cbn [is_uint64]. destruct (Z.leb_spec 0 z); [|reflexivity].
    elim (N1 (Z.to_N z)). rewrite Z2N.id by lia. reflexivity. }
  assert (E2 : is_string w = false). { destruct w; try reflexivity. elim N2. eexists. reflexivity. }
  rewrite E1, E2. cbn [bind]. rewrite (key_missing v c _ M PL). reflexivity.
Qed.

Lemma rotate_ignored v c path : clean v -> text v [key "type"] (B "file") -> text v [key "path"] path -> missing v [key "flush"] ->
  missing v [key "rotate"; key "type"] ->
  sink_entry dbl (Node v c) = Ret (SFile path (FileSinkModel.Config false (FlusherModel.FRepeat (FlusherModel.repeat_new 0)))).
Proof. clear lexical_double ndebug.
  intros C T P M R. rewrite (entry_from v c _ File C T) by inl.
  match goal with |- _ = ?r => assert (E : file_from (Node v c) = r); [|destruct v; exact E] end.
  unfold file_from. rewrite (string_at v c _ _ C P PL). cbn [bind]. rewrite (key_missing v c _ M PL). cbn [flush_from bind].
  pose proof (opt_key_missing v c _ _ R PL PL) as E. destruct (node_key (Node v c) (B "rotate")) as [m|]; [|reflexivity].
  cbn [opt_key] in E. cbn [rotate_from]. rewrite E. reflexivity.
Qed.

Lemma filter_ignored v c : clean v -> text v [key "type"] (B "console") -> missing v [key "filter"; key "type"] ->
  sink_entry dbl (Node v c) = Ret (SConsole None).
Proof. clear lexical_double ndebug.
  intros C T R. rewrite (entry_from v c _ Console C T) by inl.
  assert (E : console_from dbl (Node v c) = Ret (SConsole None)); [|destruct v; exact E].
  unfold console_from. rewrite (opt_key_missing v c _ _ R PL PL). reflexivity.
Qed.

Lemma port_cut v c host port : clean v -> text v [key "type"] (B "tcp") -> text v [key "host"] host ->
  at_path v [key "port"] (JInt (Z.of_N port)) -> sink_entry dbl (Node v c) = Ret (STcp host (port mod 2 ^ 16)).
Proof. clear lexical_double ndebug.
  intros C T H P. rewrite (entry_from v c _ Tcp C T) by inl.
  assert (E : socket_from STcp (Node v c) = Ret (STcp host (port mod 2 ^ 16))); [|destruct v; exact E].
  unfold socket_from. rewrite (string_at v c _ _ C H PL). cbn [bind]. rewrite (uint_at v c _ port P PL). reflexivity.
Qed.

Lemma no_sinks v c w f : clean v -> at_path v [key "formatter"] w -> formatter_config lexical_double ndebug w f -> missing v [key "sinks"] ->
  blocking_from dbl lexical_double ndebug (Node v c) = Ret (HBlocking f []).
Proof.
  intros C A K M. unfold blocking_from.
  destruct (formatter_made w f (c ++ B "/" ++ B "formatter") (clean_at v _ _ C A) K) as (t & b & T & L & E).
  assert (T2 : text v [key "formatter"; key "type"] t) by (apply at_two; exists w; split; assumption).
  rewrite (string_at2 v c _ _ _ C T2 PL PL). cbn [bind]. rewrite L. cbn [bind]. rewrite (key_at v c _ w A PL), E. cbn [bind].
  rewrite (key_missing v c _ M PL). reflexivity.
Qed.
End Made.

(** ---- examples ---- *)

(** A check for [clean]. *)
Fixpoint clean_ok (v : json) : bool :=
  match v with
  | JString s => negb (existsb (Ascii.eqb NUL) s)
  | JArray l => forallb clean_ok l
  | JObject l => forallb (fun m => negb (existsb (Ascii.eqb NUL) (fst m)) && clean_ok (snd m)) l
  | _ => true
  end.

Lemma ok_no_nul s : negb (existsb (Ascii.eqb NUL) s) = true -> no_nul s.
Proof. intros H. apply negb_true_iff in H. exact (plain_lit s H). Qed.

Lemma clean_ok_inside v u : inside v u -> clean_ok v = true -> clean_ok u = true.
Proof.
  intros I. induction I as [v|v l w Iw I IH|v l k w Iw I IH]; intros H; [exact H| |]; apply IH; cbn in H; rewrite forallb_forall in H.
  - apply H. exact Iw.
  - specialize (H _ Iw). apply andb_prop in H as [_ H]. exact H.
Qed.

Lemma clean_ok_clean v : clean_ok v = true -> clean v.
Proof.
  intros H. split.
  - intros s I. apply ok_no_nul. exact (clean_ok_inside v _ I H).
  - intros l I. apply (clean_ok_inside v _ I) in H. cbn in H. rewrite forallb_forall in H. apply Forall_forall. intros k K.
    apply in_map_iff in K as ([k' w] & <- & K). specialize (H _ K). apply andb_prop in H as [H _]. exact (ok_no_nul _ H).
Qed.

(** What is at a path, by walking. *)
Lemma walk_found v path w : forallb (fun a => match a with Key k => negb (existsb (Ascii.eqb NUL) k) | _ => true end) path = true ->
  option_map n_value (walk v path) = Some w -> at_path v path w.
Proof.
  intros P E. assert (Pl : plain_path path).
  { rewrite forallb_forall in P. apply Forall_forall. intros [i|k] I; [exact Logic.I|]. exact (ok_no_nul _ (P _ I)). }
  destruct (walk v path) as [n|] eqn:W; [|discriminate]. injection E as <-. apply (found_lemma v path n Pl) in W. tauto.
Qed.

Lemma walk_not_found v path : forallb (fun a => match a with Key k => negb (existsb (Ascii.eqb NUL) k) | _ => true end) path = true ->
  walk v path = None -> missing v path.
Proof.
  intros P E. apply walk_missing; [|exact E].
  rewrite forallb_forall in P. apply Forall_forall. intros [i|k] I; [exact Logic.I|]. exact (ok_no_nul _ (P _ I)).
Qed.

Definition file_with (more : list (bytes * json)) : json := JObject ([(B "type", JString (B "file")); (B "path", JString (B "/log"))] ++ more).
Definition default_file : sink := SFile (B "/log") (FileSinkModel.Config false (FlusherModel.FRepeat (FlusherModel.repeat_new 0))).

Lemma flush_refuted_lemma : exists v w, text v [key "type"] (B "file") /\ at_path v [key "flush"] w /\
  (forall f, ~ flush_config v f) /\ forall dbl c, sink_entry dbl (Node v c) = Ret default_file.
Proof.
  exists (file_with [(B "flush", JInt (-1))]), (JInt (-1)). split; [|split; [|split]].
  - apply walk_found; reflexivity.
  - apply walk_found; reflexivity.
  - assert (A : at_path (file_with [(B "flush", JInt (-1))]) [key "flush"] (JInt (-1))) by (apply walk_found; reflexivity).
    intros f [[M _]|[(n & R & A' & _)|(s & n & m & A' & _)]].
    + apply M. eexists. exact A.
    + pose proof (at_same _ _ _ _ (plain_lit (B "flush") eq_refl) A A') as E. injection E as E. lia.
    + pose proof (at_same _ _ _ _ (plain_lit (B "flush") eq_refl) A A') as E. discriminate.
  - intros dbl c. apply (flush_ignored dbl _ c _ (JInt (-1))); try (apply walk_found; reflexivity); try (apply walk_not_found; reflexivity).
    + apply clean_ok_clean. reflexivity.
    + intros n E. injection E as E. lia.
    + intros [s E]. discriminate.
Qed.

Lemma rotate_refuted_lemma : exists v, text v [key "type"] (B "file") /\ at_path v [key "rotate"] (JString (B "stat")) /\
  forall dbl c, sink_entry dbl (Node v c) = Ret default_file.
Proof.
  exists (file_with [(B "rotate", JString (B "stat"))]). split; [|split].
  - apply walk_found; reflexivity.
  - apply walk_found; reflexivity.
  - intros dbl c. apply rotate_ignored; try (apply walk_found; reflexivity); try (apply walk_not_found; reflexivity).
    apply clean_ok_clean. reflexivity.
Qed.

Definition console_misspelled : json :=
  JObject [(B "type", JString (B "console")); (B "filter", JObject [(B "tpye", JString (B "severity")); (B "threshold", JInt 3)])].

Lemma filter_refuted_lemma : exists v, text v [key "type"] (B "console") /\ at_path v [key "filter"; key "threshold"] (JInt 3) /\
  forall dbl c, sink_entry dbl (Node v c) = Ret (SConsole None).
Proof.
  exists console_misspelled. split; [|split].
  - apply walk_found; reflexivity.
  - apply walk_found; reflexivity.
  - intros dbl c. apply filter_ignored; try (apply walk_found; reflexivity); try (apply walk_not_found; reflexivity).
    apply clean_ok_clean. reflexivity.
Qed.

Lemma other_filter_refuted_lemma : exists v, text v [key "filter"; key "type"] (B "severity") /\ at_path v [key "filter"; key "threshold"] (JInt 3) /\
  forall dbl c, sink_entry dbl (Node v c) = Ret default_file.
Proof.
  exists (file_with [(B "filter", JObject [(B "type", JString (B "severity")); (B "threshold", JInt 3)])]).
  split; [|split].
  - apply walk_found; reflexivity.
  - apply walk_found; reflexivity.
  - intros dbl c. apply rotate_ignored; try (apply walk_found; reflexivity); try (apply walk_not_found; reflexivity).
    apply clean_ok_clean. reflexivity.
Qed.

Definition socket (port : Z) : json :=
  JObject [(B "type", JString (B "tcp")); (B "host", JString (B "localhost")); (B "port", JInt port)].

Lemma port_refuted_lemma : exists v, at_path v [key "port"] (JInt 65616) /\ forall dbl c, sink_entry dbl (Node v c) = Ret (STcp (B "localhost") 80).
Proof.
  exists (socket 65616). split; [apply walk_found; reflexivity|]. intros dbl c.
  change (80%N) with (65616 mod 2 ^ 16)%N. apply port_cut; try (apply walk_found; reflexivity). apply clean_ok_clean. reflexivity.
Qed.

Lemma priority_refuted_lemma : exists v, at_path v [key "priorities"; Index 0] (JInt (2 ^ 32 + 3)) /\
  forall dbl c, sink_entry dbl (Node v c) = Ret (SSyslog [3%Z]).
Proof.
  exists (JObject [(B "type", JString (B "syslog")); (B "priorities", JArray [JInt (2 ^ 32 + 3)])]).
  split; [apply walk_found; reflexivity|]. intros dbl c. reflexivity.
Qed.

Lemma routing_refuted_lemma : exists v, text v [key "routing"; key "fields"] (B "level") /\
  forall lexical_double ndebug c, formatter_from lexical_double ndebug Json (Node v c) = Ret (FJson (JsonFmtModel.build [JsonFmtModel.RouteRest (B "fields")])).
Proof.
  exists (JObject [(B "routing", JObject [(B "fields", JString (B "level"))])]). split; [apply walk_found; reflexivity|].
  intros. reflexivity.
Qed.

Lemma mutate_refuted_lemma : exists v, text v [key "mutate"; key "timestamp"; key "format"] (B "%H") /\
  forall lexical_double ndebug c, formatter_from lexical_double ndebug Tskv (Node v c) = Ret (FTskv (TskvModel.build [])).
Proof.
  exists (JObject [(B "mutate", JObject [(B "timestamp", JObject [(B "format", JString (B "%H"))])])]).
  split; [apply walk_found; reflexivity|]. intros. reflexivity.
Qed.

Definition asynchronous (more : list (bytes * json)) : json :=
  JObject ([(B "type", JString (B "asynchronous")); (B "sink", JObject [(B "type", JString (B "null"))])] ++ more).

Lemma factor_refuted_lemma : exists v, clean v /\ text v [key "type"] (B "asynchronous") /\ missing v [key "factor"] /\
  forall dbl c, sink_entry dbl (Node v c) = Undefined.
Proof.
  exists (asynchronous [(B "overflow", JString (B "wait"))]). split; [apply clean_ok_clean; reflexivity|].
  split; [apply walk_found; reflexivity|]. split; [apply walk_not_found; reflexivity|]. intros. reflexivity.
Qed.

Lemma overflow_refuted_lemma : exists v, clean v /\ text v [key "type"] (B "asynchronous") /\ missing v [key "overflow"] /\
  forall dbl c, sink_entry dbl (Node v c) = Undefined.
Proof.
  exists (asynchronous [(B "factor", JInt 10)]). split; [apply clean_ok_clean; reflexivity|].
  split; [apply walk_found; reflexivity|]. split; [apply walk_not_found; reflexivity|]. intros. reflexivity.
Qed.

Lemma pattern_refuted_lemma : exists v, clean v /\ text v [key "type"] (B "string") /\ missing v [key "pattern"] /\
  forall lexical_double ndebug c, formatter_from lexical_double ndebug String (Node v c) = Undefined.
Proof.
  exists (JObject [(B "type", JString (B "string"))]). split; [apply clean_ok_clean; reflexivity|].
  split; [apply walk_found; reflexivity|]. split; [apply walk_not_found; reflexivity|]. intros. reflexivity.
Qed.

Lemma sinks_refuted_lemma : exists v, clean v /\ missing v [key "sinks"] /\ forall dbl lexical_double ndebug c,
  blocking_from dbl lexical_double ndebug (Node v c) = Ret (HBlocking (FJson (JsonFmtModel.build [])) []).
Proof.
  exists (JObject [(B "formatter", JObject [(B "type", JString (B "json"))])]). split; [apply clean_ok_clean; reflexivity|].
  split; [apply walk_not_found; reflexivity|]. intros dbl ld nd c. reflexivity.
Qed.

Lemma priorities_refuted_lemma : exists v, clean v /\ text v [key "type"] (B "syslog") /\ missing v [key "priorities"] /\
  forall dbl c, sink_entry dbl (Node v c) = Ret (SSyslog []).
Proof.
  exists (JObject [(B "type", JString (B "syslog"))]). split; [apply clean_ok_clean; reflexivity|].
  split; [apply walk_found; reflexivity|]. split; [apply walk_not_found; reflexivity|]. intros. reflexivity.
Qed.

Lemma route_refuted_lemma : exists v, text v [key "type"] (B "json") /\ text v [key "route"; key "/fields"] (B "*") /\
  forall lexical_double ndebug c, formatter_from lexical_double ndebug Json (Node v c) = Ret (FJson (JsonFmtModel.build [])).
Proof.
  exists (JObject [(B "type", JString (B "json")); (B "route", JObject [(B "/fields", JString (B "*"))])]).
  split; [apply walk_found; reflexivity|]. split; [apply walk_found; reflexivity|]. intros. reflexivity.
Qed.
