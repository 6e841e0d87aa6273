(** Proofs for C42. *)
From Verif Require Import Base Decimal ConfigModel ConfigSpec.
From Verif Require FmtModel.

Lemma cstr_id s : no_nul s -> FmtModel.c_string s = s.
Proof.
  unfold no_nul. induction s as [|c s IH]; intros H; [reflexivity|]. cbn.
  destruct (Ascii.eqb_spec c NUL) as [->|N]; [elim H; left; reflexivity|].
  f_equal. apply IH. intros I. apply H. right. exact I.
Qed.

Lemma find_some l k v : find_member l k = Some v <-> exists pre post, l = pre ++ (k, v) :: post /\ ~ In k (map fst pre).
Proof.
  split.
  - revert v. induction l as [|[k' v'] l IH]; intros v; cbn; [discriminate|].
    destruct (bytes_eqb k' k) eqn:E; intros H.
    + injection H as <-. apply bytes_eqb_eq in E as ->. exists [], l. split; [reflexivity|intros []].
    + destruct (IH v H) as (pre & post & -> & N). exists ((k', v') :: pre), post. split; [reflexivity|].
      cbn. intros [Q|Q]; [|exact (N Q)]. subst. rewrite bytes_eqb_refl in E. discriminate.
  - intros (pre & post & -> & N). induction pre as [|[k' v'] pre IH]; cbn; [rewrite bytes_eqb_refl; reflexivity|].
    destruct (bytes_eqb k' k) eqn:E; [apply bytes_eqb_eq in E as ->; elim N; left; reflexivity|].
    apply IH. intros I. apply N. right. exact I.
Qed.

Definition step_text (a : access) : bytes := match a with Index i => B "/" ++ dec i | Key k => B "/" ++ k end.

Lemma access_iff v c a n : plain_access a ->
  (opt_access (Some (Node v c)) a = Some n <-> child v a (n_value n) /\ n_cursor n = c ++ step_text a).
Proof.
  intros P. destruct a as [i|k]; cbn [opt_access opt_index opt_key node_index node_key n_value].
  - unfold node_index. cbn [n_value]. split.
    + destruct v as [| | | | |l|]; try discriminate.
      destruct (nth_error l (N.to_nat i)) as [w|] eqn:E; [|discriminate]. intros [= <-]. cbn [n_value n_cursor].
      split; [|reflexivity]. apply nth_error_split in E as (pre & post & -> & L).
      replace i with (N.of_nat (length pre)) by (rewrite L; apply N2Nat.id). constructor.
    + intros [C T]. destruct n as [w c']. cbn [n_value n_cursor] in C, T. inversion C; subst.
      rewrite Nat2N.id, nth_error_app2, Nat.sub_diag by lia. cbn. reflexivity.
  - unfold node_key. cbn [n_value]. rewrite (cstr_id k P). split.
    + destruct v as [| | | | | |l]; try discriminate.
      destruct (find_member l k) as [w|] eqn:E; [|discriminate]. intros [= <-]. cbn [n_value n_cursor].
      split; [|reflexivity]. apply find_some in E as (pre & post & -> & N). constructor. exact N.
    + intros [C T]. destruct n as [w c']. cbn [n_value n_cursor] in C, T. inversion C as [|pre k' w' post N]; subst.
      assert (E : find_member (pre ++ (k, w) :: post) k = Some w) by (apply find_some; eauto).
      rewrite E. reflexivity.
Qed.

Lemma fold_none path : fold_left opt_access path None = None.
Proof. induction path as [|[i|k] path IH]; [reflexivity| |]; exact IH. Qed.

Lemma walk_iff path : forall v c n, plain_path path ->
  (fold_left opt_access path (Some (Node v c)) = Some n <-> at_path v path (n_value n) /\ n_cursor n = c ++ path_text path).
Proof.
  induction path as [|a path IH]; intros v c n P.
  - cbn. split.
    + intros [= <-]. cbn. split; [constructor|symmetry; apply app_nil_r].
    + intros [A T]. destruct n as [w c']. cbn in A, T. inversion A; subst. rewrite app_nil_r. reflexivity.
  - inversion P as [|? ? Pa Pp]; subst. cbn [fold_left]. destruct (opt_access (Some (Node v c)) a) as [m|] eqn:E.
    + apply (access_iff v c a m Pa) in E as E'. destruct E' as [C T]. destruct m as [w c']. cbn [n_value n_cursor] in C, T.
      rewrite (IH w c' n Pp). subst c'.
      assert (Q : (c ++ step_text a) ++ path_text path = c ++ path_text (a :: path)).
      { destruct a; cbn [step_text path_text]; rewrite <- !app_assoc; reflexivity. }
      rewrite Q. split; intros [A B]; (split; [|exact B]).
      * exact (at_below v a w path _ C A).
      * inversion A as [|? ? w' ? ? C' A']; subst.
        assert (X : w' = w).
        { assert (E1 : opt_access (Some (Node v c)) a = Some (Node w' (c ++ step_text a)))
            by (apply access_iff; [exact Pa|split; [exact C'|reflexivity]]).
          rewrite E in E1. injection E1 as ->. reflexivity. }
        subst w'. exact A'.
    + rewrite fold_none. split; [discriminate|]. intros [A _]. inversion A as [|? ? w' ? ? C' A']; subst.
      assert (E1 : opt_access (Some (Node v c)) a = Some (Node w' (c ++ step_text a)))
        by (apply access_iff; [exact Pa|split; [exact C'|reflexivity]]).
      rewrite E in E1. discriminate.
Qed.

Lemma found_lemma v path n : plain_path path ->
  (walk v path = Some n <-> at_path v path (n_value n) /\ n_cursor n = path_text path).
Proof. intros P. exact (walk_iff path v [] n P). Qed.

Lemma walk_at v path w : plain_path path -> at_path v path w -> walk v path = Some (Node w (path_text path)).
Proof. intros P A. apply found_lemma; [exact P|]. split; [exact A|reflexivity]. Qed.

Lemma walk_missing v path : plain_path path -> ((~ exists w, at_path v path w) <-> walk v path = None).
Proof.
  intros P. split.
  - intros H. destruct (walk v path) as [n|] eqn:E; [|reflexivity]. elim H. exists (n_value n). apply found_lemma in E; [tauto|exact P].
  - intros E [w A]. rewrite (walk_at v path w P A) in E. discriminate.
Qed.

Lemma place_text path : match path_text path with [] => B "/" | c => c end = place path.
Proof. destruct path as [|[i|k] path]; reflexivity. Qed.

Lemma mismatch_at {A} w path expected name : named w name ->
  @mismatch A (Node w (path_text path)) expected = Throw (TypeMismatch (place path) expected name).
Proof.
  intros N. unfold mismatch. cbn [n_cursor n_value]. rewrite place_text.
  replace (type_name w) with name by (destruct w; cbn in N |- *; congruence). reflexivity.
Qed.

Lemma reads_lemma {A} (read : node -> outcome A) (means : json -> A -> Prop) expected v path : plain_path path ->
  (forall w a, at_path v path w -> means w a -> forall c, read (Node w c) = Ret a) ->
  (forall w, at_path v path w -> (~ exists a, means w a) -> forall c, read (Node w c) = mismatch (Node w c) expected) ->
  reads (opt_to read) means expected v path.
Proof.
  intros P H1 H2. split; [|split].
  - intros w a At M. rewrite (walk_at v path w P At). cbn [opt_to]. rewrite (H1 w a At M). reflexivity.
  - intros N. apply (walk_missing v path P) in N. rewrite N. reflexivity.
  - intros w name At M Nm. rewrite (walk_at v path w P At). cbn [opt_to]. rewrite (H2 w At M), (mismatch_at w path expected name Nm). reflexivity.
Qed.

Lemma convert_lemma v path : parsed v -> plain_path path -> (forall s, at_path v path (JString s) -> no_nul s) ->
  reads opt_bool is_bool_of (B "bool") v path /\
  reads opt_sint64 is_sint64_of (B "int64") v path /\
  reads opt_uint64 is_uint64_of (B "uint64") v path /\
  reads opt_double is_double_of (B "double") v path /\
  reads opt_string is_string_of (B "string") v path.
Proof.
  intros V P S.
  refine (conj _ (conj _ (conj _ (conj _ _)))); apply reads_lemma; try exact P.
  - intros w a _ H c. red in H. subst w. reflexivity.
  - intros w _ M c. unfold node_bool. cbn [n_value]. destruct w; try reflexivity. elim M. eexists. reflexivity.
  - intros w a _ [-> R] c. unfold node_sint64. cbn [n_value]. destruct (Z.ltb_spec a (2 ^ 63)); [reflexivity|lia].
  - intros w At M c. unfold node_sint64. cbn [n_value]. destruct w; try reflexivity.
    destruct (Z.ltb_spec z (2 ^ 63)); [|reflexivity]. elim M. exists z. split; [reflexivity|]. specialize (V path z At). lia.
  - intros w a _ [-> R] c. unfold node_uint64. cbn [n_value]. destruct (Z.leb_spec 0 (Z.of_N a)); [|lia]. rewrite N2Z.id. reflexivity.
  - intros w At M c. unfold node_uint64. cbn [n_value]. destruct w; try reflexivity.
    destruct (Z.leb_spec 0 z); [|reflexivity]. elim M. exists (Z.to_N z). specialize (V path z At).
    split; [rewrite Z2N.id by lia; reflexivity|]. apply N2Z.inj_lt. rewrite Z2N.id by lia. change (Z.of_N (2 ^ 64)) with (2 ^ 64)%Z. lia.
  - intros w a _ H c. red in H. subst w. reflexivity.
  - intros w _ M c. unfold node_double. cbn [n_value]. destruct w; try reflexivity. elim M. eexists. reflexivity.
  - intros w a At H c. red in H. subst w. unfold node_string. cbn [n_value]. rewrite (cstr_id a (S a At)). reflexivity.
  - intros w _ M c. unfold node_string. cbn [n_value]. destruct w; try reflexivity. elim M. eexists. reflexivity.
Qed.

Lemma elements_nth n l : forall i k, nth_error (elements_from n i l) k =
  option_map (fun w => Node w (advance_index n (i + N.of_nat k))) (nth_error l k).
Proof.
  induction l as [|w l IH]; intros i [|k]; cbn [elements_from nth_error option_map]; try reflexivity.
  - rewrite N.add_0_r. reflexivity.
  - rewrite IH. replace (i + 1 + N.of_nat k)%N with (i + N.of_nat (S k))%N by lia. reflexivity.
Qed.

Lemma elements_values n l : forall i, map n_value (elements_from n i l) = l.
Proof. induction l as [|w l IH]; intros i; [reflexivity|]. cbn. f_equal. apply IH. Qed.

Lemma path_text_app p q : path_text (p ++ q) = path_text p ++ path_text q.
Proof. induction p as [|[i|k] p IH]; cbn [app path_text]; rewrite ?IH, <- ?app_assoc; reflexivity. Qed.

Lemma each_lemma v path : plain_path path ->
  (forall l, at_path v path (JArray l) -> exists nodes, opt_each (walk v path) = Ret nodes /\ map n_value nodes = l /\
     forall i n, nth_error nodes i = Some n -> n_cursor n = path_text (path ++ [Index (N.of_nat i)])) /\
  ((~ exists w, at_path v path w) -> opt_each (walk v path) = Ret []) /\
  (forall w name, at_path v path w -> (forall l, w <> JArray l) -> named w name ->
     opt_each (walk v path) = Throw (TypeMismatch (place path) (B "array") name)).
Proof.
  intros P. split; [|split].
  - intros l A. rewrite (walk_at v path _ P A). cbn [opt_each]. unfold node_each. cbn [n_value].
    eexists. split; [reflexivity|]. split.
    + apply elements_values.
    + intros i n E. rewrite elements_nth in E. destruct (nth_error l i); cbn in E; [|discriminate]. injection E as <-.
      cbn [n_cursor]. rewrite path_text_app. cbn [path_text]. rewrite app_nil_r, N.add_0_l. reflexivity.
  - intros N. apply (walk_missing v path P) in N. rewrite N. reflexivity.
  - intros w name A N Nm. rewrite (walk_at v path _ P A). cbn [opt_each]. unfold node_each. cbn [n_value].
    destruct w; try exact (mismatch_at _ path _ name Nm). elim (N l). reflexivity.
Qed.

Lemma each_map_lemma v path : plain_path path ->
  (forall l, at_path v path (JObject l) -> Forall no_nul (map fst l) -> exists nodes, opt_each_map (walk v path) = Ret nodes /\
     map (fun p => (fst p, n_value (snd p))) nodes = l /\
     Forall (fun p => n_cursor (snd p) = path_text (path ++ [Key (fst p)])) nodes) /\
  ((~ exists w, at_path v path w) -> opt_each_map (walk v path) = Ret []) /\
  (forall w name, at_path v path w -> (forall l, w <> JObject l) -> named w name ->
     opt_each_map (walk v path) = Throw (TypeMismatch (place path) (B "object") name)).
Proof.
  intros P. split; [|split].
  - intros l A F. rewrite (walk_at v path _ P A). cbn [opt_each_map]. unfold node_each_map. cbn [n_value].
    eexists. split; [reflexivity|]. clear A. split.
    + unfold advance_key. cbn [n_cursor]. induction l as [|[k w] l IH]; [reflexivity|]. cbn [map fst] in F. inversion F as [|? ? Fk Fl]; subst.
      cbn [map]. rewrite (IH Fl). cbn. rewrite (cstr_id k Fk). reflexivity.
    + apply Forall_forall. intros [k n] I. apply in_map_iff in I as ([k0 w0] & E & I). cbn in E. injection E as <- <-.
      cbn [snd fst n_cursor]. unfold advance_key. cbn [n_cursor]. rewrite path_text_app. cbn [path_text]. rewrite app_nil_r. reflexivity.
  - intros N. apply (walk_missing v path P) in N. rewrite N. reflexivity.
  - intros w name A N Nm. rewrite (walk_at v path _ P A). cbn [opt_each_map]. unfold node_each_map. cbn [n_value].
    destruct w; try exact (mismatch_at _ path _ name Nm). elim (N l). reflexivity.
Qed.

Lemma child_k pre k v post : ~ In k (map fst pre) -> child (JObject (pre ++ (k, v) :: post)) (Key k) v.
Proof. apply child_key. Qed.

Lemma same_place_lemma : exists v p1 p2, plain_path p1 /\ plain_path p2 /\ at_path v p1 (JInt 1) /\ at_path v p2 (JInt 2) /\
  opt_string (walk v p1) = opt_string (walk v p2) /\ (exists e, opt_string (walk v p1) = Throw e).
Proof.
  exists (JObject [(B "a/b", JInt 1); (B "a", JObject [(B "b", JInt 2)])]), [Key (B "a/b")], [Key (B "a"); Key (B "b")].
  split; [|split; [|split; [|split; [|split]]]].
  - repeat constructor. intros H. vm_compute in H. intuition discriminate.
  - repeat constructor; intros H; vm_compute in H; intuition discriminate.
  - econstructor; [|constructor]. apply (child_key []). intros [].
  - econstructor; [apply (child_key [(B "a/b", JInt 1)])|econstructor; [apply (child_key []); intros []|constructor]].
    intros [H|[]]. discriminate.
  - vm_compute. reflexivity.
  - eexists. vm_compute. reflexivity.
Qed.

Lemma root_place_lemma : exists v p1 p2, p1 <> p2 /\ plain_path p1 /\ plain_path p2 /\
  (exists e, opt_each (walk v p1) = Throw e /\ opt_each (walk v p2) = Throw e).
Proof.
  exists (JObject [([], JObject [])]), [], [Key []]. split; [discriminate|]. split; [constructor|]. split.
  - repeat constructor. intros [].
  - eexists. split; vm_compute; reflexivity.
Qed.

Lemma nul_value_lemma : exists v s t, at_path v [] (JString s) /\ opt_string (walk v []) = Ret (Some t) /\ t <> s.
Proof. exists (JString (B "a" ++ NUL :: B "b")), (B "a" ++ NUL :: B "b"), (B "a"). split; [constructor|]. split; [vm_compute; reflexivity|discriminate]. Qed.

Lemma nul_key_lemma : exists v path w, at_path v path w /\ walk v path = None.
Proof.
  exists (JObject [(B "a" ++ NUL :: B "b", JInt 1)]), [Key (B "a" ++ NUL :: B "b")], (JInt 1). split; [|vm_compute; reflexivity].
  econstructor; [|constructor]. apply (child_key []). intros [].
Qed.

Lemma nul_other_lemma : exists v path w, (~ exists u, at_path v path u) /\ exists n, walk v path = Some n /\ n_value n = w.
Proof.
  exists (JObject [(B "a", JInt 1)]), [Key (B "a" ++ NUL :: B "b")], (JInt 1). split.
  - intros [u A]. inversion A as [|? ? w ? ? C ?]; subst. inversion C as [|pre k v post N E F]; subst.
    destruct pre as [|p [|q pre]]; cbn in E; try discriminate.
  - eexists. split; vm_compute; reflexivity.
Qed.

(** A check for [parsed]. *)
Fixpoint ints_ok (v : json) : bool :=
  match v with
  | JInt z => (- 2 ^ 63 <=? z)%Z && (z <? 2 ^ 64)%Z
  | JArray l => forallb ints_ok l
  | JObject l => forallb (fun m => ints_ok (snd m)) l
  | _ => true
  end.

Lemma ints_ok_parsed v : ints_ok v = true -> parsed v.
Proof.
  intros H path z A. remember (JInt z) as u. revert H Hequ. induction A as [v|v a w path u C A IH]; intros H E.
  - subst v. cbn in H. apply andb_prop in H as [H1 H2]. lia.
  - apply IH; [|exact E]. inversion C; subst; cbn in H; rewrite forallb_app in H; apply andb_prop in H as [_ H];
      cbn in H; apply andb_prop in H as [H _]; exact H.
Qed.
