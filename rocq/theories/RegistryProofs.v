(** Proofs for C43 and C44. *)
From Verif Require Import Base StdMap ConfigModel ConfigSpec ConfigProofs RegistryModel RegistrySpec.
From Verif Require FmtModel FmtSpec FmtProofs FmtSubProofs MetaFormatModel MetaFormatProofs.

Definition the_map {F} (r : registry F) (k : kind) : list (bytes * F) :=
  match k with
  | SinkKind => r_sinks r | FilterKind => r_filters r
  | HandlerKind => r_handlers r | FormatterKind => r_formatters r
  end.

Lemma the_map_add {F} (r : registry F) k t f k' :
  the_map (add r k t f) k' = if match k, k' with
    | SinkKind, SinkKind | FilterKind, FilterKind | HandlerKind, HandlerKind | FormatterKind, FormatterKind => true
    | _, _ => false end then map_set t f (the_map r k') else the_map r k'.
Proof. destruct k, k'; reflexivity. Qed.

Lemma get_add {F} (r : registry F) k t f k' t' :
  map_get t' (the_map (add r k t f) k') = if (if bytes_dec t' t then true else false) then
      (match k, k' with
      | SinkKind, SinkKind | FilterKind, FilterKind | HandlerKind, HandlerKind | FormatterKind, FormatterKind => Some f
      | _, _ => map_get t' (the_map r k') end)
    else map_get t' (the_map r k').
Proof.
  rewrite the_map_add. destruct (bytes_dec t' t) as [->|N].
  - destruct k, k'; try reflexivity; apply map_get_set_same.
  - destruct k, k'; try reflexivity; apply map_get_set_other; exact N.
Qed.

Lemma kind_dec (a b : kind) : {a = b} + {a <> b}.
Proof. decide equality. Qed.

Lemma get_add_same {F} (r : registry F) k t f : map_get t (the_map (add r k t f) k) = Some f.
Proof. rewrite get_add. destruct (bytes_dec t t) as [_|N]; [|elim N; reflexivity]. destruct k; reflexivity. Qed.

Lemma get_add_other {F} (r : registry F) k t f k' t' : (k', t') <> (k, t) -> map_get t' (the_map (add r k t f) k') = map_get t' (the_map r k').
Proof. intros N. rewrite get_add. destruct (bytes_dec t' t) as [->|_]; [|reflexivity]. destruct k, k'; try reflexivity; elim N; reflexivity. Qed.

Lemma snoc_inj {A} (x y : list A) a b : x ++ [a] = y ++ [b] -> x = y /\ a = b.
Proof. intros E. apply app_inj_tail in E. exact E. Qed.

Lemma registered_snoc_same {F} h k t (f g : F) : registered (h ++ [(k, t, g)]) k t f <-> f = g.
Proof.
  split.
  - intros (pre & post & E & N). destruct post as [|p post] using rev_ind.
    + apply snoc_inj in E as [_ E]. congruence.
    + clear IHpost. rewrite app_comm_cons, app_assoc in E. apply snoc_inj in E as [_ E]. subst p. elim (N g). apply in_or_app. right. left. reflexivity.
  - intros ->. exists h, []. split; [reflexivity|intros ? []].
Qed.

Lemma registered_snoc_other {F} h k t (f : F) k' t' g : (k', t') <> (k, t) ->
  (registered (h ++ [(k', t', g)]) k t f <-> registered h k t f).
Proof.
  intros D. split.
  - intros (pre & post & E & N). destruct post as [|p post] using rev_ind.
    + apply snoc_inj in E as [_ E]. congruence.
    + clear IHpost. rewrite app_comm_cons, app_assoc in E. apply snoc_inj in E as [E _].
      exists pre, post. split; [exact E|]. intros x I. apply (N x). apply in_or_app. left. exact I.
  - intros (pre & post & -> & N). exists pre, (post ++ [(k', t', g)]). split; [rewrite <- app_assoc; reflexivity|].
    intros x I. apply in_app_or in I as [I|[I|[]]]; [exact (N x I)|]. apply D. congruence.
Qed.

Lemma get_after {F} (h : list (kind * bytes * F)) k t f : map_get t (the_map (after empty h) k) = Some f <-> registered h k t f.
Proof.
  induction h as [|[[k' t'] g] h IH] using rev_ind.
  - split.
    + destruct k; cbn; discriminate.
    + intros (pre & post & E & _). destruct pre; discriminate.
  - unfold after. rewrite fold_left_app. cbn [fold_left]. fold (after empty h).
    destruct (kind_dec k' k) as [Ek|Nk]; [destruct (bytes_dec t' t) as [Et|Nt]|].
    + subst k' t'. rewrite get_add_same, registered_snoc_same. split; congruence.
    + rewrite get_add_other, registered_snoc_other by congruence. exact IH.
    + rewrite get_add_other, registered_snoc_other by congruence. exact IH.
Qed.


Definition before_type (k : kind) : bytes := word k ++ B " with type """.
Definition after_type : bytes := B """ is not registered".

Lemma message_pieces k : message k = FmtSpec.format_text [FmtSpec.Text (before_type k); FmtSpec.Next None; FmtSpec.Text after_type].
Proof. destruct k; vm_compute; reflexivity. Qed.

Lemma plain_texts k : ~ In NUL (before_type k) /\ ~ In NUL after_type.
Proof.
  assert (H : forall s, existsb (Ascii.eqb NUL) s = false -> ~ In NUL s).
  { intros s E I. rewrite <- Bool.not_true_iff_false in E. apply E. apply existsb_exists. exists NUL. split; [exact I|reflexivity]. }
  split; apply H; destruct k; vm_compute; reflexivity.
Qed.

Lemma string_argument dbl (t : bytes) :
  FmtModel.format_arg dbl FmtModel.empty_spec (FmtModel.AString (Some (t ++ [NUL])) (FmtModel.length_N t)) = FmtModel.Ok t.
Proof.
  destruct t as [|c t]; [vm_compute; reflexivity|]. cbn [FmtModel.format_arg].
  rewrite MetaFormatProofs.write_string_sized by (unfold FmtModel.length_N; rewrite app_length; cbn [length]; lia).
  unfold FmtModel.length_N. rewrite Nat2N.id, firstn_app, firstn_all, Nat.sub_diag. cbn [firstn]. rewrite app_nil_r. reflexivity.
Qed.

Lemma write_message dbl k t :
  FmtModel.write dbl (message k) [FmtModel.AString (Some (t ++ [NUL])) (FmtModel.length_N t)] = FmtModel.Ok (word k ++ B " with type """ ++ t ++ B """ is not registered").
Proof.
  rewrite message_pieces. destruct (plain_texts k) as [N1 N2].
  rewrite FmtSubProofs.write_pieces.
  - cbn [FmtSpec.pairing FmtSpec.in_turn]. rewrite string_argument. unfold before_type. rewrite <- app_assoc, app_nil_r. reflexivity.
  - cbn. lia.
  - cbn [FmtSpec.pairing]. repeat constructor; assumption.
Qed.

Lemma lookup_map {F} dbl (r : registry F) k t : lookup dbl r k t =
  match map_get t (the_map r k) with Some f => Ret f | None => Throw (not_registered k t) end.
Proof. unfold lookup, the_map. destruct (map_get t _); [reflexivity|]. rewrite write_message. reflexivity. Qed.

Lemma lookup_lemma {F} dbl (h : list (kind * bytes * F)) k t f : lookup dbl (after empty h) k t = Ret f <-> registered h k t f.
Proof. rewrite lookup_map, <- get_after. destruct (map_get t (the_map (after empty h) k)); split; congruence. Qed.

Lemma unknown_lemma {F} dbl (h : list (kind * bytes * F)) k t : (~ exists f, registered h k t f) ->
  lookup dbl (after empty h) k t = Throw (not_registered k t).
Proof.
  intros N. rewrite lookup_map. destruct (map_get t (the_map (after empty h) k)) as [f|] eqn:E; [|reflexivity].
  elim N. exists f. apply get_after. exact E.
Qed.

Lemma configured_after : configured = after empty library.
Proof. reflexivity. Qed.

Lemma configured_lemma dbl k t f : lookup dbl configured k t = Ret f <-> In (k, t, f) library.
Proof.
  rewrite configured_after, lookup_lemma. split.
  - intros (pre & post & -> & _). apply in_or_app. right. left. reflexivity.
  - intros I. apply get_after. unfold library in I.
    repeat (destruct I as [I|I]; [injection I as <- <- <-; vm_compute; reflexivity|]). destruct I.
Qed.

Lemma configured_dev dbl : In (HandlerKind, B "dev") components /\
  lookup dbl configured HandlerKind (B "dev") = Throw (OutOfRange (B "handler with type ""dev"" is not registered")).
Proof. split; [vm_compute; intuition|]. vm_compute. reflexivity. Qed.

(** ---- the builder ---- *)

Lemma type_walk e c : opt_string (node_key (Node e c) (B "type")) =
  match walk e [Key (B "type")] with
  | Some n => match node_string (Node (n_value n) (c ++ B "/type")) with Ret s => Ret (Some s) | Throw x => Throw x | Undefined => Undefined end
  | None => Ret None
  end.
Proof.
  unfold walk, root. cbn [fold_left opt_access opt_key]. unfold node_key, opt_string. cbn [n_value].
  destruct e; try reflexivity. destruct (find_member l _); reflexivity.
Qed.

Lemma plain_type : plain_path [Key (B "type")].
Proof. repeat constructor. intros I. vm_compute in I. intuition discriminate. Qed.

Lemma entry_outcome {F H} dbl (make : F -> node -> outcome H) h e path o : path <> [] -> typed e ->
  entry make h e path o -> build_handler dbl make (after empty h) (Node e (path_text path)) = o.
Proof.
  intros NP T E. unfold build_handler. rewrite type_walk.
  assert (NUL_STR : forall s c, at_path e [Key (B "type")] (JString s) -> node_string (Node (JString s) c) = Ret s).
  { intros s c A. unfold node_string. cbn [n_value]. rewrite (cstr_id s (T s A)). reflexivity. }
  destruct E as [t f A R|f A R|t A R|A R|w name A N Nm].
  - rewrite (walk_at e _ _ plain_type A). cbn [n_value]. rewrite (NUL_STR t _ A). cbn [bind].
    apply (lookup_lemma dbl) in R. rewrite R. reflexivity.
  - apply (walk_missing e _ plain_type) in A. rewrite A. cbn [bind]. apply (lookup_lemma dbl) in R. rewrite R. reflexivity.
  - rewrite (walk_at e _ _ plain_type A). cbn [n_value]. rewrite (NUL_STR t _ A). cbn [bind].
    rewrite (unknown_lemma dbl h HandlerKind t R). reflexivity.
  - apply (walk_missing e _ plain_type) in A. rewrite A. cbn [bind]. rewrite (unknown_lemma dbl h HandlerKind _ R). reflexivity.
  - rewrite (walk_at e _ _ plain_type A). cbn [n_value].
    assert (P : path_text path ++ B "/type" = path_text (path ++ [Key (B "type")])) by (rewrite path_text_app; reflexivity).
    rewrite P. assert (Q : place (path ++ [Key (B "type")]) = path_text (path ++ [Key (B "type")])) by (destruct path; reflexivity).
    destruct w; try (elim (N s); reflexivity);
    unfold node_string; cbn [n_value]; rewrite (mismatch_at _ _ _ name Nm), Q; reflexivity.
Qed.

Lemma for_each_app {H} (f : node -> outcome H) nodes : forall acc hs, Forall2 (fun n h => f n = Ret h) nodes hs ->
  forall rest, for_each (fun handlers n => bind (f n) (fun h => Ret (handlers ++ [h]))) acc (nodes ++ rest) (fun handlers => Ret handlers) =
  for_each (fun handlers n => bind (f n) (fun h => Ret (handlers ++ [h]))) (acc ++ hs) rest (fun handlers => Ret handlers).
Proof.
  induction nodes as [|n nodes IH]; intros acc hs A rest; inversion A as [|? h ? hs' E A']; subst.
  - cbn. rewrite app_nil_r. reflexivity.
  - cbn [app for_each]. rewrite E. cbn [bind]. rewrite (IH (acc ++ [h]) hs' A'), <- app_assoc. reflexivity.
Qed.

Definition entry_nodes (path : list access) (i : nat) (l : list json) : list node :=
  elements_from (Node (JArray l) (path_text path)) (N.of_nat i) l.

Lemma nodes_of v path l : plain_path path -> at_path v path (JArray l) ->
  opt_each (walk v path) = Ret (elements_from (Node (JArray l) (path_text path)) 0 l).
Proof. intros P A. rewrite (walk_at v path _ P A). reflexivity. Qed.

Lemma build_walk {F H} dbl (make : F -> node -> outcome H) r v name : build dbl make r (root v) name =
  bind (opt_each (walk v [Key name])) (fun nodes =>
    for_each (fun handlers n => bind (build_handler dbl make r n) (fun h => Ret (handlers ++ [h]))) [] nodes (fun handlers => Ret handlers)).
Proof. reflexivity. Qed.

Lemma elements_split c l : forall i pre e post, l = pre ++ e :: post ->
  exists x y, elements_from c i l = x ++ Node e (advance_index c (i + N.of_nat (length pre))) :: y /\
    x = elements_from c i pre /\ y = elements_from c (i + N.of_nat (length pre) + 1) post.
Proof.
  intros i pre. revert l i. induction pre as [|p pre IH]; intros l i e post ->.
  - exists [], (elements_from c (i + 1) post). cbn. rewrite N.add_0_r. split; [reflexivity|]. split; [reflexivity|]. f_equal.
  - destruct (IH (pre ++ e :: post) (i + 1)%N e post eq_refl) as (x & y & E & Ex & Ey).
    exists (Node p (advance_index c i) :: x), y. cbn [app elements_from length]. rewrite E.
    replace (i + 1 + N.of_nat (length pre))%N with (i + N.of_nat (S (length pre)))%N by lia.
    split; [reflexivity|]. split; [rewrite Ex; reflexivity|]. rewrite Ey. f_equal. lia.
Qed.

Lemma elements_made {F H} dbl (make : F -> node -> outcome H) h name l0 l hs : forall i,
  (forall j e, nth_error l j = Some e -> typed e) ->
  length l = length hs ->
  (forall j e x, nth_error l j = Some e -> nth_error hs j = Some x -> entry make h e [Key name; Index (i + N.of_nat j)] (Ret x)) ->
  Forall2 (fun n x => build_handler dbl make (after empty h) n = Ret x) (elements_from (Node (JArray l0) (path_text [Key name])) i l) hs.
Proof.
  revert hs. induction l as [|e l IH]; intros [|x hs] i T L A; try discriminate; [constructor|]. cbn [elements_from]. constructor.
  - assert (Q : advance_index (Node (JArray l0) (path_text [Key name])) i = path_text [Key name; Index (i + N.of_nat 0)]).
    { unfold advance_index. cbn [n_cursor path_text]. rewrite N.add_0_r, !app_nil_r, <- app_assoc. reflexivity. }
    rewrite Q. apply entry_outcome; [discriminate|exact (T 0%nat e eq_refl)|exact (A 0%nat e x eq_refl eq_refl)].
  - apply IH.
    + intros j e' E. exact (T (S j) e' E).
    + injection L as L. exact L.
    + intros j e' x' E1 E2. specialize (A (S j) e' x' E1 E2). replace (i + 1 + N.of_nat j)%N with (i + N.of_nat (S j))%N by lia. exact A.
Qed.

Lemma build_lemma {F H} dbl (make : F -> node -> outcome H) h v name l hs :
  no_nul name -> at_path v [Key name] (JArray l) -> Forall typed l -> length l = length hs ->
  (forall j e x, nth_error l j = Some e -> nth_error hs j = Some x -> entry make h e [Key name; Index (N.of_nat j)] (Ret x)) ->
  build dbl make (after empty h) (root v) name = Ret hs.
Proof.
  intros NN A T L E. rewrite build_walk, (nodes_of v [Key name] l) by (try exact A; repeat constructor; exact NN). cbn [bind].
  rewrite <- (app_nil_r (elements_from _ 0 l)).
  rewrite (for_each_app _ _ [] hs); [reflexivity|].
  apply elements_made; [|exact L|exact E].
  intros j e Ej. apply nth_error_In in Ej. exact (proj1 (Forall_forall _ _) T e Ej).
Qed.


Lemma build_error_lemma {F H} dbl (make : F -> node -> outcome H) h v name pre e post hs o o' :
  no_nul name -> at_path v [Key name] (JArray (pre ++ e :: post)) -> Forall typed (pre ++ [e]) -> length pre = length hs ->
  (forall j e x, nth_error pre j = Some e -> nth_error hs j = Some x -> entry make h e [Key name; Index (N.of_nat j)] (Ret x)) ->
  entry make h e [Key name; Index (N.of_nat (length pre))] o -> failed o = Some o' ->
  build dbl make (after empty h) (root v) name = o'.
Proof.
  intros NN A T L E1 E2 Fo. apply Forall_app in T as [T1 T2]. inversion T2 as [|? ? Te _]; subst.
  rewrite build_walk, (nodes_of v [Key name] (pre ++ e :: post)) by (try exact A; repeat constructor; exact NN). cbn [bind].
  set (c := Node (JArray (pre ++ e :: post)) (path_text [Key name])).
  destruct (elements_split c (pre ++ e :: post) 0 pre e post eq_refl) as (x & y & -> & Ex & Ey).
  rewrite (for_each_app _ x [] hs).
  - cbn [for_each app].
    assert (Q : advance_index c (0 + N.of_nat (length pre)) = path_text [Key name; Index (N.of_nat (length pre))]).
    { unfold advance_index, c. cbn [n_cursor path_text]. rewrite N.add_0_l, !app_nil_r, <- app_assoc. reflexivity. }
    rewrite Q, (entry_outcome dbl make h e _ o) by (try exact E2; try exact Te; discriminate).
    destruct o; cbn in Fo |- *; [discriminate| |]; injection Fo as <-; reflexivity.
  - rewrite Ex. apply elements_made; [|exact L|exact E1].
    intros j e' Ej. apply nth_error_In in Ej. exact (proj1 (Forall_forall _ _) T1 e' Ej).
Qed.

Lemma build_not_array_lemma {F H} dbl (make : F -> node -> outcome H) r v name w kind_name :
  no_nul name -> at_path v [Key name] w -> (forall l, w <> JArray l) -> named w kind_name ->
  build dbl make r (root v) name = Throw (TypeMismatch (B "/" ++ name) (B "array") kind_name).
Proof.
  intros NN A N Nm. assert (P : plain_path [Key name]) by (repeat constructor; exact NN).
  rewrite build_walk. destruct (each_lemma v [Key name] P) as (_ & _ & E). rewrite (E w kind_name A N Nm). cbn [bind place path_text].
  rewrite app_nil_r. reflexivity.
Qed.

Lemma build_missing_lemma {F H} dbl (make : F -> node -> outcome H) r v name :
  no_nul name -> (~ exists w, at_path v [Key name] w) -> build dbl make r (root v) name = Ret [].
Proof.
  intros NN A. assert (P : plain_path [Key name]) by (repeat constructor; exact NN).
  rewrite build_walk. apply (walk_missing v _ P) in A. rewrite A. reflexivity.
Qed.
