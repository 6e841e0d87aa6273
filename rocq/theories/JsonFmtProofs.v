From Verif Require Import Base Decimal Values StdMap JsonFmtModel JsonFmtSpec.
From Coq Require Import Sorted.

(** ** Pointers *)

Lemma unescape_token_text t : unescape_token (token_text t) = Some t.
Proof.
  induction t as [|c t IH]; [reflexivity|]. cbn [token_text flat_map]. fold (token_text t).
  destruct (Ascii.eqb_spec c "~") as [->|N1]; [cbn; rewrite IH; reflexivity|].
  destruct (Ascii.eqb_spec c "/") as [->|N2]; [cbn; rewrite IH; reflexivity|].
  cbn [app unescape_token]. rewrite (proj2 (Ascii.eqb_neq c "~")) by exact N1. rewrite IH. reflexivity.
Qed.

Lemma token_text_no_slash t : ~ In "/"%char (token_text t).
Proof.
  intros H. apply in_flat_map in H as (c & _ & H).
  destruct (Ascii.eqb_spec c "~"); [cbv in H; intuition discriminate|].
  destruct (Ascii.eqb_spec c "/"); [cbv in H; intuition discriminate|]. destruct H as [H|[]]. congruence.
Qed.

Lemma split_slash_app f t : ~ In "/"%char f ->
  split_slash (f ++ t) = match split_slash t with g :: gs => (f ++ g) :: gs | [] => [] end.
Proof.
  induction f as [|c f IH]; intros H; cbn [app split_slash].
  - destruct (split_slash t); reflexivity.
  - rewrite IH by (intros X; apply H; right; exact X). destruct (split_slash t) as [|g gs]; [reflexivity|].
    rewrite (proj2 (Ascii.eqb_neq c "/")) by (intros ->; apply H; left; reflexivity). reflexivity.
Qed.

Lemma split_pointer t p : split_slash (token_text t ++ pointer_text p) = token_text t :: map token_text p.
Proof.
  revert t. induction p as [|u p IH]; intros t; rewrite split_slash_app by apply token_text_no_slash.
  - cbn. rewrite app_nil_r. reflexivity.
  - cbn [pointer_text flat_map app]. fold (pointer_text p). cbn [split_slash]. rewrite IH. cbn. rewrite app_nil_r. reflexivity.
Qed.

Lemma unescape_tokens_text p : unescape_tokens (map token_text p) = Some p.
Proof. induction p as [|t p IH]; [reflexivity|]. cbn. rewrite unescape_token_text, IH. reflexivity. Qed.

Lemma pointer_lemma p : pointer_tokens (pointer_text p) = Some p.
Proof.
  destruct p as [|t p]; [reflexivity|].
  change (pointer_text (t :: p)) with ("/"%char :: token_text t ++ pointer_text p). cbn [pointer_tokens].
  change (Ascii.eqb "/" "/") with true. cbv iota. rewrite split_pointer.
  exact (unescape_tokens_text (t :: p)).
Qed.

Lemma not_numeric_index t : ~ numeric t -> token_index t = None.
Proof.
  intros H. destruct t as [|c t]; [reflexivity|]. unfold token_index.
  destruct (forallb is_digit (c :: t)) eqn:E; [|reflexivity]. destruct H. split; [discriminate|].
  apply Forall_forall. intros x Hx. rewrite forallb_forall in E. specialize (E x Hx).
  unfold is_digit in E. apply andb_true_iff in E as [E1 E2]. apply N.leb_le in E1, E2. lia.
Qed.

(** ** Configuration *)

Lemma last_such_app {A B} (f : A -> option B) l x :
  last_such f (l ++ [x]) = match f x with Some y => Some y | None => last_such f l end.
Proof.
  induction l as [|y l IH]; cbn; [destruct (f x); reflexivity|]. rewrite IH. destruct (f x); reflexivity.
Qed.

Lemma map_get_set {V} k n (v : V) m : map_get n (map_set k v m) = if bytes_dec k n then Some v else map_get n m.
Proof.
  destruct (bytes_dec k n) as [->|N]; [apply map_get_set_same|apply map_get_set_other; congruence].
Qed.

Definition settings (calls : list call) (d : properties) : Prop :=
  (p_unique d = true <-> In Unique calls) /\
  (p_newline d = true <-> In Newline calls) /\
  p_timestamp d = pattern_of calls /\
  p_severity d = severities calls /\
  (sorted_keys (p_specified d) /\ forall r, or_else (map_get r (p_specified d)) [] = names_of calls r) /\
  p_unspecified d = default_route calls /\
  (forall n, or_else (map_get n (p_mapping d)) n = new_name calls n) /\
  (forall n, map_get n (p_formatting d) = format_of calls n).

Lemma in_snoc {A} (x y : A) l : In x (l ++ [y]) <-> In x l \/ y = x.
Proof. rewrite in_app_iff. cbn. intuition. Qed.

Lemma settings_lemma calls : settings calls (build calls).
Proof.
  induction calls as [|c calls IH] using rev_ind.
  - repeat split; try discriminate; try contradiction; try constructor.
  - assert (E : build (calls ++ [c]) = builder_call (build calls) c) by (unfold build; rewrite fold_left_app; reflexivity).
    rewrite E. clear E. revert IH. generalize (build calls). intros [u n t s sp un m f] (U & Nl & T & Sv & [So Sp] & Un & Mp & Fm).
    cbn in U, Nl, T, Sv, So, Sp, Un, Mp, Fm. unfold settings, pattern_of, severities, names_of, default_route, new_name, format_of in *.
    destruct c; cbn [builder_call p_unique p_newline p_timestamp p_severity p_specified p_unspecified p_mapping p_formatting];
      rewrite !in_snoc;
      (split; [rewrite ?U; intuition discriminate|]);
      (split; [rewrite ?Nl; intuition discriminate|]);
      (split; [rewrite last_such_app; auto|]);
      (split; [rewrite last_such_app; auto|]);
      (split; [split; [auto using map_set_sorted|intros r; rewrite last_such_app; (apply Sp || (rewrite map_get_set; match goal with |- context [bytes_dec ?a ?b] => destruct (bytes_dec a b); [reflexivity|apply Sp] end))]|]);
      (split; [rewrite last_such_app; auto|]);
      (split; [intros k; rewrite last_such_app; (apply Mp || (rewrite map_get_set; match goal with |- context [bytes_dec ?a ?b] => destruct (bytes_dec a b); [reflexivity|apply Mp] end))|intros k; rewrite last_such_app; (apply Fm || (rewrite map_get_set; match goal with |- context [bytes_dec ?a ?b] => destruct (bytes_dec a b); [reflexivity|apply Fm] end))]).
Qed.

Lemma map_get_insert {V} k n (v : V) m : map_get n (map_insert k v m) =
  match map_get n m with Some x => Some x | None => if bytes_dec k n then Some v else None end.
Proof.
  unfold map_insert. destruct (map_get k m) eqn:E.
  - destruct (map_get n m) eqn:E2; [reflexivity|]. destruct (bytes_dec k n) as [->|]; [congruence|reflexivity].
  - rewrite map_get_set. destruct (bytes_dec k n) as [->|]; [rewrite E; reflexivity|destruct (map_get n m); reflexivity].
Qed.

Lemma insert_names (names : list bytes) (r n : bytes) : forall m, map_get n (fold_left (fun m name => map_insert name r m) names m) =
  match map_get n m with Some x => Some x | None => if in_dec bytes_dec n names then Some r else None end.
Proof.
  induction names as [|k names IH]; intros m; cbn [fold_left]; [cbn [in_dec]; destruct (map_get n m); reflexivity|].
  rewrite IH, map_get_insert. destruct (map_get n m); [reflexivity|].
  destruct (bytes_dec k n) as [E|NE].
  - destruct (in_dec bytes_dec n (k :: names)) as [_|X]; [reflexivity|destruct X; left; exact E].
  - destruct (in_dec bytes_dec n names) as [I|I]; destruct (in_dec bytes_dec n (k :: names)) as [J|J]; try reflexivity.
    + destruct J. right. exact I.
    + destruct J as [J|J]; contradiction.
Qed.

Fixpoint first_route (n : bytes) (sp : list (bytes * list bytes)) : option bytes :=
  match sp with
  | [] => None
  | (r, names) :: sp' => if in_dec bytes_dec n names then Some r else first_route n sp'
  end.

Lemma routing_first (n : bytes) (sp : list (bytes * list bytes)) : forall m,
  map_get n (fold_left (fun m (route : bytes * list bytes) => fold_left (fun m name => map_insert name (fst route) m) (snd route) m) sp m) =
  match map_get n m with Some x => Some x | None => first_route n sp end.
Proof.
  induction sp as [|[r names] sp IH]; intros m; cbn [fold_left first_route fst snd]; [destruct (map_get n m); reflexivity|].
  rewrite IH, insert_names. destruct (map_get n m); [reflexivity|]. destruct (in_dec bytes_dec n names); reflexivity.
Qed.

Lemma first_route_least n sp : sorted_keys sp ->
  match first_route n sp with
  | Some r => In n (or_else (map_get r sp) []) /\ forall r', In n (or_else (map_get r' sp) []) -> r' = r \/ bytes_ltb r r' = true
  | None => forall r', ~ In n (or_else (map_get r' sp) [])
  end.
Proof.
  induction sp as [|[r names] sp IH]; intros S; cbn [first_route]; [intros r' []|].
  apply StronglySorted_inv in S as [S F]. specialize (IH S). rewrite Forall_forall in F.
  destruct (in_dec bytes_dec n names) as [I|I].
  - cbn [map_get]. rewrite bytes_eqb_refl. split; [exact I|]. intros r'. destruct (bytes_eqb r' r) eqn:E.
    + intros _. left. apply bytes_eqb_eq. exact E.
    + intros H. right. destruct (map_get r' sp) eqn:G; [|destruct H]. apply map_get_In in G. apply F in G. exact G.
  - destruct (first_route n sp) as [r0|].
    + destruct IH as [H1 H2]. cbn [map_get].
      assert (NE : bytes_eqb r0 r = false).
      { destruct (map_get r0 sp) eqn:G; [|destruct H1]. apply map_get_In in G. apply F in G. cbn in G.
        apply bytes_eqb_neq. intros ->. rewrite bytes_ltb_irrefl in G. discriminate. }
      rewrite NE. split; [exact H1|]. intros r'. destruct (bytes_eqb r' r); [cbn; contradiction|apply H2].
    + intros r'. cbn [map_get]. destruct (bytes_eqb r' r); [exact I|apply IH].
Qed.

Lemma route_routed calls n : routed calls n (route_of (build calls) n).
Proof.
  destruct (settings_lemma calls) as (_ & _ & _ & _ & [So Sp] & Un & _).
  unfold route_of, routing. rewrite routing_first. cbn [map_get].
  pose proof (first_route_least n (p_specified (build calls)) So) as H.
  destruct (first_route n (p_specified (build calls))) as [r|].
  - destruct H as [H1 H2]. apply routed_to; [rewrite <- Sp; exact H1|]. intros r' Hr. apply H2. rewrite Sp. exact Hr.
  - rewrite Un. apply routed_default. intros r' Hr. apply (H r'). rewrite Sp. exact Hr.
Qed.

Lemma routed_fun calls n a b : routed calls n a -> routed calls n b -> a = b.
Proof.
  intros [r H1 H2|H1] [r' H3 H4|H3]; try reflexivity.
  - destruct (H2 _ H3) as [|L1]; [congruence|]. destruct (H4 _ H1) as [|L2]; [congruence|].
    pose proof (bytes_ltb_trans _ _ _ L1 L2) as X. rewrite bytes_ltb_irrefl in X. discriminate.
  - destruct (H3 _ H1).
  - destruct (H1 _ H3).
Qed.

(** ** Placing one field *)

Lemma prefix_nil {A} (p : list A) : is_prefix [] p.
Proof. exists p. reflexivity. Qed.

Lemma prefix_cons {A} (x y : A) p q : is_prefix (x :: p) (y :: q) <-> x = y /\ is_prefix p q.
Proof.
  split.
  - intros [c E]. injection E as <- ->. split; [reflexivity|exists c; reflexivity].
  - intros [-> [c ->]]. exists c. reflexivity.
Qed.

Lemma prefix_of_nil {A} (p : list A) : is_prefix p [] -> p = [].
Proof. intros [c E]. symmetry in E. apply app_eq_nil in E. tauto. Qed.

Lemma prefix_refl {A} (p : list A) : is_prefix p p.
Proof. exists []. rewrite app_nil_r. reflexivity. Qed.

Lemma prefix_trans {A} (a b c : list A) : is_prefix a b -> is_prefix b c -> is_prefix a c.
Proof. intros [x ->] [y ->]. exists (x ++ y). apply app_assoc_reverse. Qed.

Lemma prefix_dec (p q : list bytes) : {is_prefix p q} + {~ is_prefix p q}.
Proof.
  revert q. induction p as [|x p IH]; intros q; [left; apply prefix_nil|].
  destruct q as [|y q]; [right; intros H; apply prefix_of_nil in H; discriminate|].
  destruct (bytes_dec x y) as [->|N]; [|right; rewrite prefix_cons; tauto].
  destruct (IH q); [left; apply prefix_cons; auto|right; rewrite prefix_cons; tauto].
Qed.

Definition step_nodes (k : bytes) (p : list bytes) (ms : list (bytes * json)) : list json :=
  flat_map (fun m => if bytes_dec (fst m) k then nodes p (snd m) else []) ms.

Lemma nodes_cons k p ms : nodes (k :: p) (JObj ms) = step_nodes k p ms.
Proof. reflexivity. Qed.

Lemma step_nodes_app k p a b : step_nodes k p (a ++ b) = step_nodes k p a ++ step_nodes k p b.
Proof. apply flat_map_app. Qed.

Lemma step_nodes_cons k p k' c ms : step_nodes k p ((k', c) :: ms) = (if bytes_dec k' k then nodes p c else []) ++ step_nodes k p ms.
Proof. reflexivity. Qed.

Lemma step_nodes_other k p ms : ~ In k (map fst ms) -> step_nodes k p ms = [].
Proof.
  induction ms as [|[k' c] ms IH]; intros H; [reflexivity|]. rewrite step_nodes_cons.
  destruct (bytes_dec k' k) as [->|N]; [destruct H; left; reflexivity|]. apply IH. intros X. apply H. right. exact X.
Qed.

Lemma in_member_absent child t ms : ~ In t (map fst ms) ->
  in_member child t ms = match child true (JLeaf LNull) with Some c => Some (ms ++ [(t, c)]) | None => None end.
Proof.
  induction ms as [|[k c] ms IH]; intros H; cbn [in_member]; [reflexivity|].
  rewrite (proj2 (bytes_eqb_neq k t)) by (intros ->; apply H; left; reflexivity).
  rewrite IH by (intros X; apply H; right; exact X). destruct (child true (JLeaf LNull)); reflexivity.
Qed.

Lemma in_member_present child t a c b : ~ In t (map fst a) ->
  in_member child t (a ++ (t, c) :: b) = match child false c with Some c' => Some (a ++ (t, c') :: b) | None => None end.
Proof.
  induction a as [|[k x] a IH]; intros H; cbn [app in_member].
  - rewrite bytes_eqb_refl. reflexivity.
  - rewrite (proj2 (bytes_eqb_neq k t)) by (intros ->; apply H; left; reflexivity).
    rewrite IH by (intros X; apply H; right; exact X). destruct (child false c); reflexivity.
Qed.

Lemma scalars_app a b : scalars (a ++ b) = scalars a ++ scalars b.
Proof. induction a as [|[k [l| |]] a IH]; cbn [app scalars]; rewrite ?IH; reflexivity. Qed.

(** What is at the prefixes of [q] before: nothing or one object. *)
Definition clear (q : list bytes) (t : json) : Prop :=
  forall p, is_prefix p q -> nodes p t = [] \/ exists ms, nodes p t = [JObj ms].

Definition placed (q : list bytes) (k : bytes) (l : leaf) (t t' : json) : Prop :=
  forall p,
    (is_prefix p q -> exists ms ms', (nodes p t = [] /\ ms = [] \/ nodes p t = [JObj ms]) /\ nodes p t' = [JObj ms'] /\
       scalars ms' = scalars ms ++ (if path_eqb q p then [(k, l)] else [])) /\
    (~ is_prefix p q -> nodes p t' = nodes p t ++ (if path_eqb (q ++ [k]) p then [JLeaf l] else [])).

Lemma path_eqb_eq a b : path_eqb a b = true <-> a = b.
Proof. unfold path_eqb. destruct (list_eq_dec bytes_dec a b); split; congruence. Qed.

Lemma path_eqb_refl a : path_eqb a a = true.
Proof. apply path_eqb_eq. reflexivity. Qed.

Lemma path_eqb_neq a b : a <> b -> path_eqb a b = false.
Proof. intros H. destruct (path_eqb a b) eqn:E; [apply path_eqb_eq in E; contradiction|reflexivity]. Qed.

Lemma path_eqb_cons x a b : path_eqb (x :: a) (x :: b) = path_eqb a b.
Proof.
  destruct (path_eqb a b) eqn:E.
  - apply path_eqb_eq in E as ->. apply path_eqb_refl.
  - apply path_eqb_neq. intros X. injection X as ->. rewrite path_eqb_refl in E. discriminate.
Qed.

Lemma scalar_or_object_nodes t ms : clear [t] (JObj ms) ->
  ~ In t (map fst ms) \/ exists a cs b, ms = a ++ (t, JObj cs) :: b /\ ~ In t (map fst a) /\ ~ In t (map fst b).
Proof.
  intros H. destruct (in_dec bytes_dec t (map fst ms)) as [I|I]; [right|left; exact I].
  assert (X : forall l : list (bytes * json), In t (map fst l) -> exists a c b, l = a ++ (t, c) :: b /\ ~ In t (map fst a)).
  { clear. induction l as [|[k c] l IH]; intros H; [destruct H|]. destruct (bytes_dec k t) as [->|N].
    - exists [], c, l. split; [reflexivity|intros []].
    - destruct H as [H|H]; [contradiction|]. destruct (IH H) as (a & c' & b & -> & Ha). exists ((k, c) :: a), c', b.
      split; [reflexivity|]. intros [X|X]; contradiction. }
  destruct (X _ I) as (a & c & b & -> & Ha). specialize (H [t] (prefix_refl _)).
  rewrite nodes_cons, step_nodes_app, step_nodes_cons, (step_nodes_other t [] a Ha) in H.
  destruct (bytes_dec t t) as [_|N]; [|congruence]. cbn [app nodes] in H.
  assert (Hb : ~ In t (map fst b)).
  { intros Hb. destruct (X _ Hb) as (a' & c' & b' & -> & Ha'). rewrite step_nodes_app, step_nodes_cons, (step_nodes_other _ _ _ Ha') in H.
    destruct (bytes_dec t t); [|congruence]. cbn [app nodes] in H. destruct H as [H|[ms H]]; discriminate. }
  destruct H as [H|[cs H]]; [discriminate|]. injection H as -> _. exists a, cs, b. auto.
Qed.

Lemma fresh_child q use : (match q with t :: _ => ~ numeric t | [] => True end) ->
  at_pointer q use true (JLeaf LNull) = at_pointer q use false (JObj []).
Proof. destruct q as [|t q]; intros H; [reflexivity|]. cbn [at_pointer]. rewrite not_numeric_index by exact H. reflexivity. Qed.

Lemma place_lemma q k l : forall ms, Forall (fun t => ~ numeric t) (tl q) -> clear q (JObj ms) ->
  exists ms', at_pointer q (add_member k l) false (JObj ms) = Some (JObj ms') /\ placed q k l (JObj ms) (JObj ms').
Proof.
  induction q as [|t q IH]; intros ms Hn Hc.
  - exists (ms ++ [(k, JLeaf l)]). split; [reflexivity|]. intros p. split.
    + intros Hp. apply prefix_of_nil in Hp as ->. exists ms, (ms ++ [(k, JLeaf l)]). cbn [nodes].
      split; [right; reflexivity|]. split; [reflexivity|]. rewrite scalars_app, path_eqb_refl. reflexivity.
    + intros Hp. destruct p as [|x p]; [destruct Hp; apply prefix_nil|].
      rewrite !nodes_cons, step_nodes_app, step_nodes_cons. cbn [app]. f_equal. change (step_nodes x p []) with (@nil json). rewrite app_nil_r.
      destruct (bytes_dec k x) as [->|N].
      * rewrite path_eqb_cons. destruct p; reflexivity.
      * rewrite path_eqb_neq by congruence. reflexivity.
  - cbn [tl] in Hn. cbn [at_pointer].
    assert (Hn' : Forall (fun t => ~ numeric t) (tl q)) by (destruct q; [constructor|inversion Hn; assumption]).
    assert (Hh : match q with t :: _ => ~ numeric t | [] => True end) by (destruct q; [exact I|inversion Hn; assumption]).
    destruct (scalar_or_object_nodes t ms) as [Ha|(a & cs & b & -> & Ha & Hb)].
    { intros p Hp. apply Hc. eapply prefix_trans; [exact Hp|]. exists q. reflexivity. }
    + rewrite in_member_absent by exact Ha. rewrite fresh_child by exact Hh.
      destruct (IH []) as (cs & E & P); [exact Hn'| |].
      { intros p _. destruct p; [right; exists []; reflexivity|left; reflexivity]. }
      rewrite E. exists (ms ++ [(t, JObj cs)]). split; [reflexivity|]. intros p. destruct p as [|x p].
      * split; [intros _|intros X; destruct X; apply prefix_nil]. exists ms, (ms ++ [(t, JObj cs)]). cbn [nodes].
        split; [right; reflexivity|]. split; [reflexivity|]. rewrite scalars_app. reflexivity.
      * rewrite !nodes_cons, step_nodes_app, step_nodes_cons. change (step_nodes x p []) with (@nil json). rewrite app_nil_r, prefix_cons.
        destruct (bytes_dec t x) as [<-|N].
        -- rewrite (step_nodes_other _ _ _ Ha). cbn [app]. rewrite !path_eqb_cons. destruct (P p) as [P1 P2]. split.
           ++ intros [_ Hp]. destruct (P1 Hp) as (m & m' & O & E1 & E2). exists [], m'. split; [left; split; reflexivity|].
              split; [exact E1|]. rewrite E2. f_equal. destruct O as [[_ ->]|O]; [reflexivity|].
              destruct p; [injection O as <-; reflexivity|discriminate].
           ++ intros Hp. rewrite P2 by (intros X; apply Hp; auto). destruct p; [|reflexivity].
              destruct Hp. split; [reflexivity|apply prefix_nil].
        -- split; [intros [X _]; congruence|]. intros _. cbn [app]. rewrite path_eqb_neq by congruence. reflexivity.
    + rewrite in_member_present by exact Ha.
      destruct (IH cs) as (cs' & E & P); [exact Hn'| |].
      { intros p Hp. specialize (Hc (t :: p)). rewrite nodes_cons, step_nodes_app, step_nodes_cons in Hc.
        rewrite (step_nodes_other _ _ _ Ha), (step_nodes_other _ _ _ Hb) in Hc.
        destruct (bytes_dec t t); [|congruence]. cbn [app] in Hc. rewrite app_nil_r in Hc. apply Hc. apply prefix_cons. auto. }
      rewrite E. exists (a ++ (t, JObj cs') :: b). split; [reflexivity|]. intros p. destruct p as [|x p].
      * split; [intros _|intros X; destruct X; apply prefix_nil].
        exists (a ++ (t, JObj cs) :: b), (a ++ (t, JObj cs') :: b). cbn [nodes].
        split; [right; reflexivity|]. split; [reflexivity|]. rewrite !scalars_app. cbn [scalars].
        rewrite path_eqb_neq by discriminate. rewrite app_nil_r. reflexivity.
      * rewrite !nodes_cons, !step_nodes_app, !step_nodes_cons, prefix_cons.
        destruct (bytes_dec t x) as [<-|N].
        -- rewrite (step_nodes_other _ _ _ Ha), (step_nodes_other _ _ _ Hb). cbn [app]. rewrite !app_nil_r, !path_eqb_cons. destruct (P p) as [P1 P2]. split.
           ++ intros [_ Hp]. exact (P1 Hp).
           ++ intros Hp. apply P2. intros X. apply Hp. auto.
        -- cbn [app]. split; [intros [X _]; congruence|]. intros _. rewrite path_eqb_neq by congruence. rewrite app_nil_r. reflexivity.
Qed.

(** ** All fields *)

Lemma holds_empty : holds_exactly (JObj []) [].
Proof.
  intros p. split.
  - intros [->|(f & [] & _)]. exists []. split; reflexivity.
  - intros N _. destruct p; [contradiction|reflexivity].
Qed.

Lemma prefixes_objects t fs p : holds_exactly t fs -> (p = [] \/ exists f, In f fs /\ is_prefix p (f_path f)) ->
  exists ms, nodes p t = [JObj ms] /\ scalars ms = fields_at p fs.
Proof. intros H. apply (H p). Qed.

Lemma route_dec (fs : list field) p : (exists f, In f fs /\ is_prefix p (f_path f)) \/ (forall f, In f fs -> ~ is_prefix p (f_path f)).
Proof.
  induction fs as [|f fs IH]; [right; intros f []|].
  destruct (prefix_dec p (f_path f)) as [Hp|Hp]; [left; exists f; split; [left; reflexivity|exact Hp]|].
  destruct IH as [(g & Hg & Hx)|IH]; [left; exists g; split; [right; exact Hg|exact Hx]|].
  right. intros g [<-|Hg]; auto.
Qed.

Lemma holds_step t fs f : holds_exactly t fs -> no_conflict (fs ++ [f]) ->
  exists t', at_pointer (f_path f) (add_member (f_key f) (f_value f)) false t = Some t' /\ holds_exactly t' (fs ++ [f]).
Proof.
  intros H [C N].
  assert (If : In f (fs ++ [f])) by (apply in_app_iff; right; left; reflexivity).
  assert (Ig : forall g, In g fs -> In g (fs ++ [f])) by (intros; apply in_app_iff; left; assumption).
  destruct (proj1 (H []) (or_introl eq_refl)) as (ms & E & _). cbn in E. injection E as ->.
  assert (Hc : clear (f_path f) (JObj ms)).
  { intros p Hp. destruct p as [|x p]; [right; exists ms; reflexivity|].
    destruct (route_dec fs (x :: p)) as [R|R].
    - destruct (proj1 (H (x :: p)) (or_intror R)) as (m & E & _). right. exists m. exact E.
    - left. rewrite (proj2 (H (x :: p))); [|discriminate|exact R].
      assert (F : filter (fun g => path_eqb (f_path g ++ [f_key g]) (x :: p)) fs = []); [|rewrite F; reflexivity].
      clear -C Hp If Ig. induction fs as [|g fs IH]; [reflexivity|]. cbn [filter].
      destruct (path_eqb (f_path g ++ [f_key g]) (x :: p)) eqn:E.
      + apply path_eqb_eq in E. exfalso. apply (C g f); [apply Ig; left; reflexivity|exact If|]. rewrite E. exact Hp.
      + apply IH.
        * intros a b Ha Hb. apply C; apply in_app_iff; [apply in_app_iff in Ha as [Ha|Ha]|apply in_app_iff in Hb as [Hb|Hb]]; auto; left; right; assumption.
        * apply in_app_iff. right. left. reflexivity.
        * intros. apply in_app_iff. left. assumption. }
  destruct (place_lemma (f_path f) (f_key f) (f_value f) ms (N f If) Hc) as (ms' & E & P).
  exists (JObj ms'). split; [exact E|]. intros p. destruct (P p) as [P1 P2]. unfold fields_at. rewrite !filter_app, !map_app. split.
  - intros Hp. destruct (prefix_dec p (f_path f)) as [Hf|Hf].
    + destruct (P1 Hf) as (m & m' & O & E1 & E2). exists m'. split; [exact E1|]. rewrite E2. f_equal.
      * destruct O as [[O ->]|O].
        -- assert (Z : filter (fun g => path_eqb (f_path g) p) fs = []); [|rewrite Z; reflexivity].
           destruct (filter (fun g => path_eqb (f_path g) p) fs) as [|g l] eqn:G; [reflexivity|exfalso].
           assert (Hg : In g (filter (fun g => path_eqb (f_path g) p) fs)) by (rewrite G; left; reflexivity).
           apply filter_In in Hg as [Hg Eg]. apply path_eqb_eq in Eg.
           destruct (proj1 (H p)) as (x & Ex & _); [right; exists g; split; [exact Hg|rewrite Eg; apply prefix_refl]|]. congruence.
        -- destruct p as [|x p].
           ++ destruct (proj1 (H [])) as (y & Ey & Sy); [left; reflexivity|]. rewrite O in Ey. injection Ey as ->. exact Sy.
           ++ destruct (route_dec fs (x :: p)) as [R|R].
              ** destruct (proj1 (H (x :: p)) (or_intror R)) as (y & Ey & Sy). rewrite O in Ey. injection Ey as ->. exact Sy.
              ** rewrite (proj2 (H (x :: p))) in O; [|discriminate|exact R]. exfalso.
                 destruct (filter (fun g => path_eqb (f_path g ++ [f_key g]) (x :: p)) fs) as [|g ?]; discriminate.
      * cbn [filter]. destruct (path_eqb (f_path f) p); reflexivity.
    + assert (R : p = [] \/ exists g, In g fs /\ is_prefix p (f_path g)).
      { destruct Hp as [->|(g & Hg & Hx)]; [left; reflexivity|]. apply in_app_iff in Hg as [Hg|[<-|[]]]; [right; exists g; auto|contradiction]. }
      destruct (proj1 (H p) R) as (m & Em & Sm). rewrite P2, Em by exact Hf.
      exists m. split.
      * destruct (path_eqb (f_path f ++ [f_key f]) p) eqn:Q; [|reflexivity]. apply path_eqb_eq in Q. exfalso. subst p.
        destruct R as [R|(g & Hg & Hx)]; [destruct (f_path f); discriminate|]. apply (C f g); auto.
      * rewrite Sm. cbn [filter]. rewrite (path_eqb_neq (f_path f) p); [rewrite app_nil_r; reflexivity|].
        intros X. subst p. apply Hf, prefix_refl.
  - intros Np R. rewrite P2 by (apply R; exact If). rewrite (proj2 (H p)); [|exact Np|intros g Hg; apply R; auto].
    f_equal. cbn [filter]. destruct (path_eqb (f_path f ++ [f_key f]) p); reflexivity.
Qed.

Lemma c_string_full s : ~ In NUL s -> c_string s = s.
Proof.
  induction s as [|c s IH]; intros H; [reflexivity|]. cbn [c_string].
  rewrite (proj2 (Ascii.eqb_neq c NUL)), IH; [reflexivity| |]; intros X; apply H; [right|left]; exact X.
Qed.

Lemma c_string_cut s t : ~ In NUL s -> c_string (s ++ NUL :: t) = s.
Proof.
  induction s as [|c s IH]; intros H; cbn [app c_string]; [reflexivity|].
  rewrite (proj2 (Ascii.eqb_neq c NUL)), IH; [reflexivity| |]; intros X; apply H; [right; exact X|left; exact X].
Qed.

Lemma apply_field fmt calls attr n v f root : field_of fmt calls attr (n, v) f ->
  apply fmt (build calls) attr n v root =
  match at_pointer (f_path f) (add_member (f_key f) (f_value f)) false root with Some t => Done t | None => Undefined end.
Proof.
  destruct (settings_lemma calls) as (_ & _ & _ & _ & _ & _ & Mp & Fm). intros H. unfold apply, formatted_leaf.
  rewrite Fm. change (renamed (build calls) n) with (or_else (map_get n (p_mapping (build calls))) n). rewrite Mp.
  remember (n, v) as nv eqn:Env. destruct H as [attr n' v' p r F R E|n' v' p r spec t F T R E|n' v' p r spec t F T R E];
    injection Env as -> ->; rewrite (routed_fun _ _ _ _ (route_routed calls n) R), E, pointer_lemma, F; cbn [f_path f_key f_value].
  - destruct v; reflexivity.
  - rewrite T. reflexivity.
  - destruct T as [t T|b t T|z t T|k t T|b t T|s t Hs T|s s' t Hs T|t]; rewrite ?c_string_full, ?c_string_cut, ?T by exact Hs; reflexivity.
Qed.

Lemma apply_all_lemma fmt calls attr l : forall fs root done, Forall2 (field_of fmt calls attr) l fs ->
  holds_exactly root done -> no_conflict (done ++ fs) ->
  exists t, apply_all fmt (build calls) attr l root = Done t /\ holds_exactly t (done ++ fs).
Proof.
  induction l as [|[n v] l IH]; intros fs root done F H C; inversion F as [|? f ? fs' Ff F']; subst; cbn [apply_all].
  - exists root. rewrite app_nil_r. auto.
  - rewrite (apply_field _ _ _ _ _ _ root Ff).
    replace (done ++ f :: fs') with ((done ++ [f]) ++ fs') in C |- * by (rewrite <- app_assoc; reflexivity).
    destruct (holds_step root done f H) as (t & E & Ht).
    { destruct C as [C1 C2]. split; [intros a b Ha Hb; apply C1; apply in_app_iff; left; assumption|].
      intros a Ha. apply C2. apply in_app_iff. left. assumption. }
    rewrite E. apply IH; assumption.
Qed.

Lemma severity_lemma names z v : (- 2 ^ 31 <= z < 2 ^ 31)%Z -> (Z.of_nat (length names) <= 2 ^ 63)%Z ->
  severity_field names z v -> severity_value names z = v.
Proof.
  intros Hz Hl H. unfold severity_value. destruct H as [i name E|z Hr].
  - assert (L : (i < length names)%nat) by (apply nth_error_Some; congruence).
    rewrite Z.mod_small by lia. replace (Z.to_N (Z.of_nat i)) with (N.of_nat i) by lia. rewrite Nnat.Nat2N.id.
    destruct names as [|a names]; [destruct i; discriminate|]. cbn [orb].
    destruct (N.leb_spec (N.of_nat (length (a :: names))) (N.of_nat i)); [lia|].
    f_equal. apply nth_error_nth. exact E.
  - destruct names as [|a names]; [reflexivity|]. cbn [orb].
    destruct (N.leb_spec (N.of_nat (length (a :: names))) (Z.to_N (z mod 2 ^ 64))) as [|L]; [reflexivity|exfalso].
    revert L Hl Hr. generalize (length (a :: names)). intros len L Hl Hr. destruct Hr as [Hr|Hr].
    + replace (z mod 2 ^ 64)%Z with (z + 2 ^ 64)%Z in L; [lia|].
      apply (Z.mod_unique_pos _ _ (-1)); lia.
    + rewrite Z.mod_small in L by lia. lia.
Qed.

Lemma severity_total names z : exists v, severity_field names z v.
Proof.
  destruct (Z.ltb_spec z 0); [exists (VInt z); constructor; lia|].
  destruct (nth_error names (Z.to_nat z)) as [name|] eqn:E.
  - exists (VString name). rewrite <- (Z2Nat.id z) by lia. constructor. exact E.
  - exists (VInt z). constructor. apply nth_error_None in E. lia.
Qed.

Lemma unseen_lemma l : forall seen s l', (forall n, set_has n s = true <-> In n seen) -> first_of_each seen l l' -> unseen s l = l'.
Proof.
  induction l as [|[n v] l IH]; intros seen s l' Hs H; inversion H as [|? ? ? ? ? Hn Hr|? ? ? ? ? Hn Hr]; subst; cbn [unseen]; [reflexivity| |].
  - rewrite (proj2 (Hs n) Hn). eapply IH; eassumption.
  - destruct (set_has n s) eqn:E; [destruct Hn; apply Hs; exact E|]. f_equal. eapply IH; [|exact Hr].
    intros k. rewrite set_has_insert, orb_true_iff, bytes_eqb_eq, Hs. cbn. intuition.
Qed.

Lemma document_lemma fmt e calls r builtins attrs fb fa :
  (- 2 ^ 31 <= r_severity r < 2 ^ 31)%Z -> (Z.of_nat (length (severities calls)) <= 2 ^ 63)%Z ->
  reported e calls r builtins attrs ->
  Forall2 (field_of fmt calls false) builtins fb -> Forall2 (field_of fmt calls true) attrs fa ->
  no_conflict (fb ++ fa) ->
  exists t, document fmt e (build calls) r = Done t /\ holds_exactly t (fb ++ fa).
Proof.
  intros Hz Hl R Fb Fa C. destruct R as [sev attrs Sv U1 U2].
  destruct (settings_lemma calls) as (U & _ & T & Se & _).
  assert (Eb : builtin_fields e (build calls) r = [(B "message", VString (r_formatted r)); (B "lwp", VUint (e_lwp e)); (B "thread", VString (B "0x" ++ hex (r_tid r)));
       (B "process", VUint (e_pid e)); (B "severity", sev);
       (B "timestamp", match pattern_of calls with Some p => VString (e_stamp e p) | None => VInt (e_micros e) end)]).
  { unfold builtin_fields. rewrite T, Se, (severity_lemma _ _ _ Hz Hl Sv). reflexivity. }
  assert (Ea : attribute_fields (build calls) r = attrs).
  { unfold attribute_fields. destruct (p_unique (build calls)).
    - apply (unseen_lemma _ [] []); [cbn; split; [discriminate|contradiction]|]. apply U1. apply U. reflexivity.
    - symmetry. apply U2. intros X. apply U in X. discriminate. }
  unfold document. rewrite Eb, Ea.
  destruct (apply_all_lemma fmt calls false _ fb (JObj []) [] Fb holds_empty) as (t & E & H).
  { destruct C as [C1 C2]. split; [intros a b Ha Hb; apply C1; apply in_app_iff; left; assumption|].
    intros a Ha. apply C2. apply in_app_iff. left. assumption. }
  rewrite E. apply apply_all_lemma; assumption.
Qed.

(** ** Uniqueness *)

Lemma first_of_each_subset seen l l' : first_of_each seen l l' -> forall n, In n (map fst l') -> ~ In n seen /\ In n (map fst l).
Proof.
  induction 1 as [|seen n v l l' Hn H IH|seen n v l l' Hn H IH]; intros m Hm; [destruct Hm| |].
  - destruct (IH m Hm). split; [assumption|right; assumption].
  - destruct Hm as [<-|Hm]; [split; [exact Hn|left; reflexivity]|]. destruct (IH m Hm) as [H1 H2].
    split; [intros X; apply H1; right; exact X|right; exact H2].
Qed.

Lemma first_of_each_nodup seen l l' : first_of_each seen l l' -> NoDup (map fst l').
Proof.
  induction 1 as [|seen n v l l' Hn H IH|seen n v l l' Hn H IH]; [constructor|exact IH|].
  cbn. constructor; [|exact IH]. intros X. apply (first_of_each_subset _ _ _ H) in X as [X _]. apply X. left. reflexivity.
Qed.

(** For every name that occurs the first value is there, and no other. *)
Lemma first_of_each_first seen l l' : first_of_each seen l l' -> forall n v,
  In (n, v) l' <-> ~ In n seen /\ exists a b, l = a ++ (n, v) :: b /\ ~ In n (map fst a).
Proof.
  induction 1 as [|seen m w l l' Hm H IH|seen m w l l' Hm H IH]; intros n v.
  - split; [intros []|]. intros (_ & a & b & E & _). destruct a; discriminate.
  - rewrite IH. split.
    + intros (Hn & a & b & -> & Ha). split; [exact Hn|]. exists ((m, w) :: a), b. split; [reflexivity|].
      intros [X|X]; [cbn in X; congruence|contradiction].
    + intros (Hn & a & b & E & Ha). split; [exact Hn|]. destruct a as [|[m' w'] a]; injection E; intros; subst; [contradiction|].
      exists a, b. split; [reflexivity|]. intros X. apply Ha. right. exact X.
  - cbn [In]. rewrite IH. split.
    + intros [E|(Hn & a & b & -> & Ha)].
      * injection E as <- <-. split; [exact Hm|]. exists [], l. split; [reflexivity|intros []].
      * split; [intros X; apply Hn; right; exact X|]. exists ((m, w) :: a), b. split; [reflexivity|].
        intros [X|X]; [apply Hn; left; exact X|contradiction].
    + intros (Hn & a & b & E & Ha). destruct a as [|[m' w'] a]; injection E; intros; subst; [left; reflexivity|right].
      split; [intros [X|X]; [apply Ha; left; exact X|contradiction]|]. exists a, b. split; [reflexivity|]. intros X. apply Ha. right. exact X.
Qed.

Lemma first_of_each_total l : forall seen, exists l', first_of_each seen l l'.
Proof.
  induction l as [|[n v] l IH]; intros seen; [exists []; constructor|].
  destruct (in_dec bytes_dec n seen) as [I|I].
  - destruct (IH seen) as [l' H]. exists l'. constructor; assumption.
  - destruct (IH (n :: seen)) as [l' H]. exists ((n, v) :: l'). constructor; assumption.
Qed.

Lemma reported_total e calls r : exists builtins attrs, reported e calls r builtins attrs.
Proof.
  destruct (severity_total (severities calls) (r_severity r)) as [sev Sv].
  destruct (first_of_each_total (concat (r_attributes r)) []) as [l' H].
  destruct (settings_lemma calls) as (U & _). destruct (p_unique (build calls)).
  - eexists. exists l'. econstructor; [exact Sv|intros _; exact H|]. intros X. destruct X. apply U. reflexivity.
  - eexists. exists (concat (r_attributes r)). econstructor; [exact Sv| |reflexivity]. intros X. apply U in X. discriminate.
Qed.

(** The keys of all members of an object. *)
Lemma key_is_scalar_or_object t fs p ms k : holds_exactly t fs -> (p = [] \/ exists f, In f fs /\ is_prefix p (f_path f)) ->
  nodes p t = [JObj ms] -> In k (map fst ms) ->
  (exists f, In f fs /\ f_path f = p /\ f_key f = k) \/ (exists f, In f fs /\ is_prefix (p ++ [k]) (f_path f)).
Proof.
  intros H R E I.
  assert (X : nodes (p ++ [k]) t <> []).
  { assert (G : forall q u, nodes (q ++ [k]) u = flat_map (nodes [k]) (nodes q u)).
    { induction q as [|x q IH]; intros u; [cbn [app nodes flat_map]; rewrite app_nil_r; reflexivity|].
      cbn [app nodes]. destruct u as [|us|]; [reflexivity| |reflexivity]. 
      induction us as [|[k' c] us IHu]; [reflexivity|]. cbn [flat_map fst snd]. rewrite flat_map_app, IHu. f_equal.
      destruct (bytes_dec k' x); [apply IH|reflexivity]. }
    rewrite G, E. cbn [flat_map]. rewrite app_nil_r. clear -I. cbn [nodes].
    induction ms as [|[k' c] ms IH]; [destruct I|]. cbn [flat_map fst snd]. destruct (bytes_dec k' k) as [->|N]; [discriminate|].
    destruct I as [I|I]; [contradiction|]. exact (IH I). }
  destruct (route_dec fs (p ++ [k])) as [D|D]; [right; exact D|left].
  rewrite (proj2 (H (p ++ [k]))) in X; [|destruct p; discriminate|exact D].
  destruct (filter (fun f => path_eqb (f_path f ++ [f_key f]) (p ++ [k])) fs) as [|f l] eqn:F; [contradiction|].
  assert (I2 : In f (filter (fun f => path_eqb (f_path f ++ [f_key f]) (p ++ [k])) fs)) by (rewrite F; left; reflexivity).
  apply filter_In in I2 as [I2 Q]. apply path_eqb_eq in Q. apply app_inj_tail in Q as [Q1 Q2]. exists f. auto.
Qed.

(** Occurrences of a key. *)
Lemma nodes_count ms k : flat_map (nodes [k]) [JObj ms] = map snd (filter (fun m => if bytes_dec (fst m) k then true else false) ms).
Proof.
  cbn [flat_map nodes]. rewrite app_nil_r. induction ms as [|[k' c] ms IH]; [reflexivity|].
  cbn [flat_map filter fst snd]. destruct (bytes_dec k' k); cbn [map snd app]; rewrite IH; reflexivity.
Qed.

Lemma nodes_snoc k q : forall u, nodes (q ++ [k]) u = flat_map (nodes [k]) (nodes q u).
Proof.
  induction q as [|x q IH]; intros u; [cbn [app nodes flat_map]; rewrite app_nil_r; reflexivity|].
  cbn [app nodes]. destruct u as [|us|]; [reflexivity| |reflexivity]. 
  induction us as [|[k' c] us IHu]; [reflexivity|]. cbn [flat_map fst snd]. rewrite flat_map_app, IHu. f_equal.
  destruct (bytes_dec k' x); [apply IH|reflexivity].
Qed.

Lemma nodup_by_count (ms : list (bytes * json)) :
  (forall k, (length (filter (fun m => if bytes_dec (fst m) k then true else false) ms) <= 1)%nat) -> NoDup (map fst ms).
Proof.
  induction ms as [|[k c] ms IH]; intros H; [constructor|]. cbn. constructor.
  - intros I. specialize (H k). cbn [filter fst] in H. destruct (bytes_dec k k); [|congruence]. cbn [length] in H.
    apply in_map_iff in I as ([k' c'] & E & I). cbn in E. subst k'.
    assert (X : In (k, c') (filter (fun m => if bytes_dec (fst m) k then true else false) ms))
      by (apply filter_In; split; [exact I|cbn; destruct (bytes_dec k k); congruence]).
    destruct (filter (fun m : bytes * json => if bytes_dec (fst m) k then true else false) ms); [destruct X|cbn in H; lia].
  - apply IH. intros k'. specialize (H k'). cbn [filter fst] in H. destruct (bytes_dec k k'); cbn [length] in H; lia.
Qed.

Lemma filter_at_most_one {A} (f : A -> bool) (key : A -> list bytes) (x : list bytes) l :
  NoDup (map key l) -> (forall a, f a = true -> key a = x) -> (length (filter f l) <= 1)%nat.
Proof.
  intros N H. induction l as [|a l IH]; [cbn; lia|]. cbn [map] in N. apply NoDup_cons_iff in N as [Na N]. specialize (IH N).
  cbn [filter]. destruct (f a) eqn:E; [|exact IH]. cbn [length].
  assert (Z : filter f l = []); [|rewrite Z; cbn; lia].
  destruct (filter f l) as [|b r] eqn:F; [reflexivity|exfalso].
  assert (I : In b (filter f l)) by (rewrite F; left; reflexivity). apply filter_In in I as [I Eb].
  apply Na. apply in_map_iff. exists b. split; [|exact I]. rewrite (H _ E), (H _ Eb). reflexivity.
Qed.

(** Every object, found by any path: its keys are distinct if no two fields have the same place. *)
Lemma distinct_keys_lemma t fs p ms : holds_exactly t fs -> no_conflict fs -> NoDup (map (fun f => f_path f ++ [f_key f]) fs) ->
  In (JObj ms) (nodes p t) -> NoDup (map fst ms).
Proof.
  intros H C N I.
  assert (R : p = [] \/ exists f, In f fs /\ is_prefix p (f_path f)).
  { destruct p as [|x p]; [left; reflexivity|]. destruct (route_dec fs (x :: p)) as [R|R]; [right; exact R|].
    rewrite (proj2 (H (x :: p))) in I; [|discriminate|exact R]. apply in_map_iff in I as (f & E & _). discriminate. }
  destruct (proj1 (H p) R) as (ms' & E & _). rewrite E in I. destruct I as [I|[]]. injection I as ->.
  apply nodup_by_count. intros k.
  assert (L : length (filter (fun m : bytes * json => if bytes_dec (fst m) k then true else false) ms) = length (nodes (p ++ [k]) t)).
  { rewrite nodes_snoc, E, nodes_count. rewrite map_length. reflexivity. }
  rewrite L. destruct (route_dec fs (p ++ [k])) as [D|D].
  - destruct (proj1 (H (p ++ [k])) (or_intror D)) as (m & Em & _). rewrite Em. cbn. lia.
  - rewrite (proj2 (H (p ++ [k]))); [|destruct p; discriminate|exact D]. rewrite map_length.
    apply (filter_at_most_one _ (fun f => f_path f ++ [f_key f]) (p ++ [k])); [exact N|].
    intros f Q. apply path_eqb_eq. exact Q.
Qed.
