(** Proofs about code of the user within log calls. *)
From Verif Require Import Base ReenterModel ReenterSpec.

Lemma upd_same {A} (f : nat -> A) k v : upd f k v k = v.
Proof. unfold upd. rewrite Nat.eqb_refl. reflexivity. Qed.
Lemma upd_other {A} (f : nat -> A) k v x : x <> k -> upd f k v x = f x.
Proof. intros N. unfold upd. destruct (Nat.eqb_spec x k); [contradiction|reflexivity]. Qed.

Definition count (o : oid) (cells : list oid) : nat := count_occ Nat.eq_dec cells o.
Definition is (o x : oid) : nat := if Nat.eq_dec o x then 1 else 0.
#[local] Arguments count : simpl never.
#[local] Arguments is : simpl never.
Lemma is_same o : is o o = 1%nat.
Proof. unfold is. destruct (Nat.eq_dec o o); [reflexivity|contradiction]. Qed.
Lemma is_other o x : o <> x -> is o x = 0%nat.
Proof. intros N. unfold is. destruct (Nat.eq_dec o x); [contradiction|reflexivity]. Qed.

Lemma count_replace x o : forall l n old, nth_error l n = Some old -> (count x (replace_nth n o l) + is old x = count x l + is o x)%nat.
Proof.
  induction l as [|y l IH]; intros [|n] old E; cbn in E; try discriminate E.
  - injection E as <-. unfold count. cbn. unfold is. destruct (Nat.eq_dec y x), (Nat.eq_dec o x); lia.
  - specialize (IH _ _ E). unfold count in *. cbn. destruct (Nat.eq_dec y x); lia.
Qed.
Lemma replace_length {A} (x : A) l : forall n, length (replace_nth n x l) = length l.
Proof. induction l as [|y l IH]; intros [|n]; cbn; try reflexivity. rewrite IH. reflexivity. Qed.
Lemma count_in cells l o : nth_error cells l = Some o -> (0 < count o cells)%nat.
Proof. intros E. apply count_occ_In. exact (nth_error_In _ _ E). Qed.

(** Pointers held in the midst of calls. *)
Definition add (o : oid) (extra : oid -> nat) : oid -> nat := fun x => (is o x + extra x)%nat.

Record ok (n : nat) (extra : oid -> nat) (s : state) : Prop := Ok {
  k_length : length (s_cells s) = n;
  k_owners : forall o, s_owners s o = (count o (s_cells s) + extra o)%nat;
  k_alive : forall o, s_objects s o <> None <-> (0 < s_owners s o)%nat;
  k_next : forall o, (s_next s <= o)%nat -> s_owners s o = 0%nat
}.

(** Objects keep their handlers and do not come back. *)
Definition keeps (s s' : state) : Prop :=
  (s_next s <= s_next s')%nat /\
  forall o f' hs, (o < s_next s)%nat -> s_objects s' o = Some (f', hs) -> exists f, s_objects s o = Some (f, hs).
Lemma keeps_refl s : keeps s s.
Proof. split; [lia|]. intros o f' hs _ E. eauto. Qed.
Lemma keeps_trans a b c : keeps a b -> keeps b c -> keeps a c.
Proof.
  intros (N1 & K1) (N2 & K2). split; [lia|]. intros o f' hs L E. destruct (K2 o f' hs ltac:(lia) E) as (f & F). exact (K1 o f hs L F).
Qed.
Lemma keeps_same a b : s_objects b = s_objects a -> (s_next a <= s_next b)%nat -> keeps a b.
Proof. intros E N. split; [exact N|]. intros o f' hs _ F. rewrite E in F. eauto. Qed.

Definition good (n : nat) (extra : oid -> nat) (s : state) (r : result) : Prop :=
  match r with
  | Done s' | Threw s' => ok n extra s' /\ s_held s' = s_held s /\ keeps s s'
  | Undefined => False
  | Terminated | Deadlock | OutOfFuel => True
  end.
Lemma good_from n extra s s1 r : keeps s s1 -> s_held s1 = s_held s -> good n extra s1 r -> good n extra s r.
Proof. intros K H G. destruct r; cbn in *; try exact G; (destruct G as (A & B & C); split; [exact A|]; split; [congruence|exact (keeps_trans _ _ _ K C)]). Qed.
Lemma good_bind n extra s r g : good n extra s r -> (forall s1, ok n extra s1 -> s_held s1 = s_held s -> keeps s s1 -> good n extra s1 (g s1)) -> good n extra s (bind r g).
Proof.
  intros G H. destruct r; cbn in *; try exact G. destruct G as (A & B & C). exact (good_from _ _ _ _ _ C B (H _ A B C)).
Qed.
Lemma good_noexcept n extra s r : good n extra s r -> good n extra s (noexcept r).
Proof. destruct r; cbn; tauto. Qed.
Lemma good_caught n extra s r : good n extra s r -> good n extra s (caught r).
Proof. destruct r; cbn; tauto. Qed.
Lemma good_finally n ex1 ex2 s r g : good n ex1 s r -> (forall s1, ok n ex1 s1 -> s_held s1 = s_held s -> keeps s s1 -> good n ex2 s1 (g s1)) -> good n ex2 s (finally r g).
Proof.
  intros G H. destruct r as [s1|s1| | | |]; cbn in *; try exact G; destruct G as (A & B & C); pose proof (good_noexcept _ _ _ _ (good_from _ _ _ _ _ C B (H _ A B C))) as X; [exact X|].
  destruct (noexcept (g s1)); exact X.
Qed.

Lemma ok_same n extra a b : s_cells b = s_cells a -> s_objects b = s_objects a -> s_owners b = s_owners a -> s_next b = s_next a -> ok n extra a -> ok n extra b.
Proof. intros E1 E2 E3 E4 [A B C D]. constructor; rewrite ?E1, ?E2, ?E3, ?E4; assumption. Qed.

Lemma ok_acquire n extra o s : ok n extra s -> (0 < s_owners s o)%nat -> ok n (add o extra) (acquire o s).
Proof.
  intros [A B C D] P. constructor; cbn.
  - exact A.
  - intros x. unfold add. destruct (Nat.eq_dec x o) as [->|N]; [rewrite upd_same, is_same; specialize (B o); lia|]. rewrite upd_other by exact N. rewrite is_other by congruence. rewrite B. lia.
  - intros x. destruct (Nat.eq_dec x o) as [->|N]; [rewrite upd_same, C; lia|]. rewrite upd_other by exact N. apply C.
  - intros x L. rewrite upd_other; [exact (D _ L)|]. intros ->. rewrite (D _ L) in P. lia.
Qed.

Lemma ok_add_alive n extra o s : ok n (add o extra) s -> (0 < s_owners s o)%nat.
Proof. intros K. rewrite (k_owners _ _ _ K). unfold add. rewrite is_same. lia. Qed.
Lemma ok_add_object n extra o s : ok n (add o extra) s -> exists f hs, s_objects s o = Some (f, hs).
Proof. intros K. pose proof (proj2 (k_alive _ _ _ K o) (ok_add_alive _ _ _ _ K)) as N. destruct (s_objects s o) as [[f hs]|]; [eauto|contradiction]. Qed.
Lemma ok_old n extra o s : ok n extra s -> s_objects s o <> None -> (o < s_next s)%nat.
Proof.
  intros K N. apply (k_alive _ _ _ K) in N. destruct (Nat.lt_ge_cases o (s_next s)) as [L|L]; [exact L|]. rewrite (k_next _ _ _ K _ L) in N. lia.
Qed.

Lemma skipn_cons {A} (al : list A) : forall k h hs, skipn k al = h :: hs -> nth_error al k = Some h /\ skipn (S k) al = hs.
Proof.
  induction al as [|a al IH]; intros [|k] h hs E; cbn in E; try discriminate E; [injection E as -> ->; split; reflexivity|]. exact (IH _ _ _ E).
Qed.

Section Level.
Variable u : user.
Variable level : nat.
Variable go : state -> list cmd -> result.
Variable n : nat.
Hypothesis KNOWN : forall e, Forall (uses n) (u_code u e).
Hypothesis GO : forall extra s cs, ok n extra s -> Forall (uses n) cs -> good n extra s (go s cs).

Lemma user_good extra e s : ok n extra s -> good n extra s (run_user u level go e s).
Proof.
  intros K. unfold run_user. set (s0 := with_trace s _).
  assert (G : good n extra s (go s0 (u_code u e))).
  { apply (good_from _ _ _ s0); [apply keeps_same; [reflexivity|cbn; lia]|reflexivity|].
    apply GO; [|apply KNOWN]. apply (ok_same _ _ s); [reflexivity|reflexivity|reflexivity|reflexivity|exact K]. }
  destruct (go s0 (u_code u e)); [|destruct (u_catches u e)| | | |]; try exact G; destruct (u_throws u e); exact G.
Qed.
Lemma drop_good extra e s : ok n extra s -> good n extra s (run_drop u level go e s).
Proof. intros K. apply good_noexcept. exact (user_good _ _ _ K). Qed.
Lemma each_good extra es : forall s, ok n extra s -> good n extra s (run_each u level go es s).
Proof.
  induction es as [|e es IH]; intros s K; cbn [run_each]; [cbn; split; [exact K|split; [reflexivity|apply keeps_refl]]|].
  eapply good_bind; [apply drop_good; exact K|]. intros s1 K1 _ _. exact (IH _ K1).
Qed.
Lemma each_throws es : forall s s', run_each u level go es s <> Threw s'.
Proof.
  induction es as [|e es IH]; intros s s'; cbn [run_each]; [discriminate|]. unfold run_drop. destruct (run_user u level go e s); cbn; try discriminate. apply IH.
Qed.
Lemma release_throws o s s' : release u level go o s <> Threw s'.
Proof. unfold release. destruct (s_owners s o) as [|[|m]]; try discriminate. destruct (s_objects s o) as [(f & hs)|]; [apply each_throws|discriminate]. Qed.
Lemma run_drop_throws e s s' : run_drop u level go e s <> Threw s'.
Proof. unfold run_drop. destruct (run_user u level go e s); discriminate. Qed.

Lemma release_good extra o s : ok n (add o extra) s -> good n extra s (release u level go o s).
Proof.
  intros K. pose proof (ok_add_alive _ _ _ _ K) as P. destruct (ok_add_object _ _ _ _ K) as (f & hs & F). destruct K as [A B C D]. unfold release.
  destruct (s_owners s o) as [|[|m]] eqn:E; [lia| |].
  - rewrite F. set (s1 := with_objects _ _).
    assert (K1 : ok n extra s1).
    { constructor; cbn.
      - exact A.
      - intros x. specialize (B x). unfold add in B. destruct (Nat.eq_dec x o) as [->|N]; [rewrite upd_same; rewrite E, is_same in B; lia|].
        rewrite upd_other by exact N. rewrite is_other in B by congruence. lia.
      - intros x. destruct (Nat.eq_dec x o) as [->|N]; [rewrite !upd_same; split; [congruence|lia]|]. rewrite !upd_other by exact N. apply C.
      - intros x L. destruct (Nat.eq_dec x o) as [->|N]; [apply upd_same|]. rewrite upd_other by exact N. exact (D _ L). }
    apply (good_from _ _ _ s1); [|reflexivity|exact (each_good _ _ _ K1)]. split; [cbn; lia|]. cbn. intros x f' hs' L E1.
    destruct (Nat.eq_dec x o) as [->|N]; [rewrite upd_same in E1; discriminate E1|]. rewrite upd_other in E1 by exact N. eauto.
  - cbn. split; [|split; [reflexivity|apply keeps_same; [reflexivity|cbn; lia]]]. constructor; cbn.
    + exact A.
    + intros x. specialize (B x). unfold add in B. destruct (Nat.eq_dec x o) as [->|N]; [rewrite upd_same; rewrite E, is_same in B; lia|].
      rewrite upd_other by exact N. rewrite is_other in B by congruence. lia.
    + intros x. destruct (Nat.eq_dec x o) as [->|N]; [rewrite upd_same, C, E; lia|]. rewrite upd_other by exact N. apply C.
    + intros x L. destruct (Nat.eq_dec x o) as [->|N]; [rewrite (D _ L) in E; lia|]. rewrite upd_other by exact N. exact (D _ L).
Qed.

Lemma take_cases x s : take x s = Deadlock \/ take x s = Done (with_held s (x :: s_held s)).
Proof. unfold take. destruct (existsb _ _); auto. Qed.

(** A section within a lock. *)
Lemma locked_good ex1 ex2 x s body : ok n ex1 s ->
  (forall s1, s_cells s1 = s_cells s -> s_objects s1 = s_objects s -> s_next s1 = s_next s -> s_held s1 = x :: s_held s -> ok n ex1 s1 ->
     match body s1 with Done s2 | Threw s2 => ok n ex2 s2 /\ s_held s2 = s_held s /\ keeps s s2 | Undefined => False | _ => True end) ->
  good n ex2 s (bind (take x s) body).
Proof.
  intros K H. destruct (take_cases x s) as [->| ->]; cbn [bind]; [exact Logic.I|].
  assert (K1 : ok n ex1 (with_held s (x :: s_held s))) by (apply (ok_same _ _ s); [reflexivity|reflexivity|reflexivity|reflexivity|exact K]).
  exact (H (with_held s (x :: s_held s)) eq_refl eq_refl eq_refl eq_refl K1).
Qed.
Lemma drop_after ex x s r : 
  (forall s1, r = Done s1 -> ok n ex s1 /\ s_held s1 = x :: s_held s /\ keeps s s1) -> r <> Undefined -> (forall s1, r <> Threw s1) ->
  match bind r drop with Done s2 | Threw s2 => ok n ex s2 /\ s_held s2 = s_held s /\ keeps s s2 | Undefined => False | _ => True end.
Proof.
  intros H N NT. destruct r as [s1|s1| | | |]; cbn; try exact Logic.I; [|destruct (NT s1 eq_refl)|contradiction]. destruct (H _ eq_refl) as (A & B & C).
  split; [(apply (ok_same _ _ s1); [reflexivity|reflexivity|reflexivity|reflexivity|exact A])|]. split; [rewrite B; reflexivity|].
  apply (keeps_trans _ s1); [exact C|]. apply keeps_same; [reflexivity|cbn; lia].
Qed.

Lemma load_good extra l s g : ok n extra s -> (l < n)%nat ->
  (forall o s1, nth_error (s_cells s) l = Some o -> s_objects s1 = s_objects s -> ok n (add o extra) s1 -> s_held s1 = s_held s -> keeps s s1 -> good n extra s1 (g o s1)) ->
  good n extra s (load l s g).
Proof.
  intros K L H. unfold load. destruct (take_cases (OfLogger l) s) as [->| ->]; cbn [bind]; [exact Logic.I|]. cbn [s_cells with_held].
  destruct (nth_error (s_cells s) l) as [o|] eqn:E; [|apply nth_error_None in E; rewrite (k_length _ _ _ K) in E; lia].
  cbn [bind drop]. set (s2 := with_held (acquire o (with_held s (OfLogger l :: s_held s))) _).
  assert (P : (0 < s_owners s o)%nat) by (rewrite (k_owners _ _ _ K); pose proof (count_in _ _ _ E); lia).
  assert (K2 : ok n (add o extra) s2) by (apply (ok_same _ _ (acquire o s)); [reflexivity|reflexivity|reflexivity|reflexivity|exact (ok_acquire _ _ _ _ K P)]).
  assert (KS : keeps s s2) by (apply keeps_same; [reflexivity|cbn; lia]).
  apply (good_from _ _ _ s2); [exact KS|reflexivity|]. exact (H o s2 eq_refl eq_refl K2 eq_refl KS).
Qed.

Lemma store_good extra l o s : ok n (add o extra) s -> (l < n)%nat -> good n extra s (store u level go l o s).
Proof.
  intros K L. unfold store. apply (locked_good (add o extra)); [exact K|]. intros s1 E1 E2 E3 E4 K1. rewrite E1.
  destruct (nth_error (s_cells s) l) as [old|] eqn:E; [|apply nth_error_None in E; rewrite (k_length _ _ _ K) in E; lia].
  set (s2 := with_cells s1 _).
  assert (K2 : ok n (add old extra) s2).
  { destruct K1 as [A B C D]. constructor; cbn.
    - rewrite replace_length. rewrite <- E1. exact A.
    - intros x. specialize (B x). rewrite E1 in B. pose proof (count_replace x o _ _ _ E) as Q. unfold add in *. lia.
    - exact C.
    - exact D. }
  apply drop_after with (OfLogger l).
  - intros s3 E5. pose proof (release_good _ _ _ K2) as G. rewrite E5 in G. destruct G as (A & B & C). split; [exact A|]. split; [rewrite B; exact E4|].
    apply (keeps_trans _ s2); [|exact C]. apply keeps_same; [exact E2|cbn; lia].
  - intros E5. pose proof (release_good _ _ _ K2) as G. rewrite E5 in G. exact G.
  - intros s3. apply release_throws.
Qed.

Lemma copy_good extra o s g : ok n (add o extra) s ->
  (forall f s1, ok n (add o extra) s1 -> good n (add o extra) s1 (g f s1)) ->
  good n (add o extra) s (copy_filter u level go o s g).
Proof.
  intros K H. unfold copy_filter. apply (locked_good (add o extra)); [exact K|]. intros s1 E1 E2 E3 E4 K1.
  destruct (ok_add_object _ _ _ _ K) as (f & hs & F). rewrite E2, F.
  pose proof (user_good _ (CopyFilter f) _ K1) as G.
  destruct (run_user u level go (CopyFilter f) s1) as [s2|s2| | | |]; cbn [finally bind drop noexcept]; cbn in G; try exact G;
  destruct G as (A & B & C); set (s3 := with_held s2 _);
  assert (K3 : ok n (add o extra) s3) by (apply (ok_same _ _ s2); [reflexivity|reflexivity|reflexivity|reflexivity|exact A]);
  assert (H3 : s_held s3 = s_held s) by (cbn; rewrite B, E4; reflexivity);
  assert (KS : keeps s s3) by (apply (keeps_trans _ s1); [apply keeps_same; [exact E2|lia]|]; apply (keeps_trans _ s2); [exact C|]; apply keeps_same; [reflexivity|cbn; lia]).
  - pose proof (good_from _ _ _ _ _ KS H3 (H f s3 K3)) as X. exact X.
  - split; [exact K3|]. split; [exact H3|exact KS].
Qed.

Lemma set_good extra o f s : ok n (add o extra) s -> good n (add o extra) s (set_filter u level go o f s).
Proof.
  intros K. unfold set_filter. apply (locked_good (add o extra)); [exact K|]. intros s1 E1 E2 E3 E4 K1.
  destruct (ok_add_object _ _ _ _ K) as (old & hs & F). rewrite E2, F. set (s2 := with_objects s1 _).
  assert (K2 : ok n (add o extra) s2).
  { destruct K1 as [A B C D]. constructor; cbn; [exact A|exact B| |exact D]. intros x. destruct (Nat.eq_dec x o) as [->|N].
    - rewrite upd_same. split; [intros _|discriminate]. apply C. rewrite E2, F. discriminate.
    - rewrite upd_other by exact N. rewrite <- E2. apply C. }
  assert (KS : keeps s s2).
  { split; [cbn; lia|]. cbn. intros x f' hs' L E. destruct (Nat.eq_dec x o) as [->|N]; [rewrite upd_same in E; injection E as <- <-; eauto|].
    rewrite upd_other in E by exact N. eauto. }
  pose proof (drop_good _ (DropFilter old) _ K2) as G.
  apply drop_after with (OfObject o).
  - intros s3 E5. rewrite E5 in G. destruct G as (A & B & C). split; [exact A|]. split; [rewrite B; exact E4|exact (keeps_trans _ _ _ KS C)].
  - intros E5. rewrite E5 in G. exact G.
  - intros s3. apply run_drop_throws.
Qed.
Lemma set_throws o f s s' : set_filter u level go o f s <> Threw s'.
Proof.
  unfold set_filter. destruct (take_cases (OfObject o) s) as [->| ->]; cbn [bind]; [discriminate|]. cbn [s_objects with_held].
  destruct (s_objects s o) as [(old & hs)|]; [|discriminate]. set (s1 := with_objects _ _). pose proof (run_drop_throws (DropFilter old) s1) as N.
  destruct (run_drop u level go (DropFilter old) s1); try discriminate. destruct (N s0 eq_refl).
Qed.

Lemma handle_good extra o : forall hs k s all, ok n (add o extra) s -> (exists f, s_objects s o = Some (f, all)) -> skipn k all = hs ->
  good n (add o extra) s (handle_each u level go o k hs s).
Proof.
  induction hs as [|h hs IH]; intros k s al K (f & F) SK; cbn [handle_each]; [cbn; split; [exact K|split; [reflexivity|apply keeps_refl]]|].
  rewrite F. destruct (skipn_cons _ _ _ _ SK) as (N & SK'). rewrite N.
  eapply good_bind; [apply good_caught, user_good; exact K|]. intros s1 K1 _ KS. apply IH with al; [exact K1| |].
  - destruct (ok_add_object _ _ _ _ K1) as (f1 & hs1 & F1). destruct KS as (_ & KS).
    destruct (KS o f1 hs1) as (f2 & F2); [apply (ok_old _ _ _ _ K); congruence|exact F1|]. rewrite F in F2. injection F2 as -> ->. eauto.
  - exact SK'.
Qed.

Lemma log_good extra l m s : ok n extra s -> (l < n)%nat -> good n extra s (log u level go l m s).
Proof.
  intros K L. unfold log. apply load_good; [exact K|exact L|]. intros o s1 _ _ K1 _ _.
  apply good_finally with (add o extra); [|intros s7 K7 _ _; exact (release_good _ _ _ K7)]. apply copy_good; [exact K1|]. intros f s2 K2.
  apply good_finally with (add o extra); [|intros s6 K6 _ _; exact (drop_good _ _ _ K6)].
  apply good_bind; [apply user_good; exact K2|]. intros s3 K3 _ _.
  destruct (u_accepts u f); [|cbn; split; [exact K3|split; [reflexivity|apply keeps_refl]]].
  apply good_bind; [apply user_good; exact K3|]. intros s4 K4 _ _. destruct (ok_add_object _ _ _ _ K4) as (f4 & hs4 & F4). rewrite F4.
  apply handle_good with hs4; [exact K4|eauto|reflexivity].
Qed.

Lemma one_good extra c s : ok n extra s -> uses n c -> good n extra s (one u level go c s).
Proof.
  intros K U. destruct c as [l m|l f|dst src|l f hs]; cbn [one uses] in *.
  - exact (log_good _ _ _ _ K U).
  - unfold filter. apply load_good; [exact K|exact U|]. intros o s1 _ _ K1 _ _.
    pose proof (set_good _ _ f _ K1) as G. pose proof (set_throws o f s1) as N. destruct (set_filter u level go o f s1) as [s2|s2| | | |]; try exact G; [|destruct (N s2 eq_refl)].
    destruct G as (K2 & H2 & KS2). exact (good_from _ _ _ _ _ KS2 H2 (store_good _ _ _ _ K2 U)).
  - unfold assign. destruct (Nat.eqb dst src); [cbn; split; [exact K|split; [reflexivity|apply keeps_refl]]|]. destruct U as (U1 & U2).
    apply load_good; [exact K|exact U2|]. intros o s1 _ _ K1 _ _. pose proof (ok_acquire _ _ _ _ K1 (ok_add_alive _ _ _ _ K1)) as K2.
    apply (good_from _ _ _ (acquire o s1)); [apply keeps_same; [reflexivity|cbn; lia]|reflexivity|].
    eapply good_finally; [apply store_good; [exact K2|exact U1]|]. intros s3 K3 _ _. exact (release_good _ _ _ K3).
  - unfold replace. set (o := s_next s). set (s1 := with_next _ _).
    pose proof (k_next _ _ _ K o (le_n _)) as Z. pose proof (k_owners _ _ _ K o) as ZO.
    assert (K1 : ok n (add o (add o extra)) s1).
    { destruct K as [A B C D]. constructor; cbn.
      - exact A.
      - intros x. unfold add. destruct (Nat.eq_dec x o) as [->|N]; [rewrite upd_same, is_same; lia|]. rewrite upd_other by exact N. rewrite is_other by congruence. rewrite B. lia.
      - intros x. destruct (Nat.eq_dec x o) as [->|N]; [rewrite !upd_same; split; [lia|discriminate]|]. rewrite !upd_other by exact N. apply C.
      - intros x LX. rewrite upd_other by lia. apply D. lia. }
    assert (KS : keeps s s1).
    { split; [cbn; lia|]. cbn. intros x f' hs' LX E. rewrite upd_other in E by lia. eauto. }
    apply (good_from _ _ _ (acquire o s1)); [apply (keeps_trans _ s1); [exact KS|apply keeps_same; [reflexivity|cbn; lia]]|reflexivity|].
    pose proof (ok_acquire _ _ _ _ K1 (ok_add_alive _ _ _ _ K1)) as K2.
    apply good_finally with (add o extra).
    + eapply good_finally; [apply store_good; [exact K2|exact U]|]. intros s3 K3 _ _. exact (release_good _ _ _ K3).
    + intros s4 K4 _ _. exact (release_good _ _ _ K4).
Qed.
Lemma all_good extra cs : forall s, ok n extra s -> Forall (uses n) cs -> good n extra s (all u level go cs s).
Proof.
  induction cs as [|c cs IH]; intros s K U; cbn [all]; [cbn; split; [exact K|split; [reflexivity|apply keeps_refl]]|].
  inversion U as [|? ? U1 U2]; subst. eapply good_bind; [exact (one_good _ _ _ K U1)|]. intros s1 K1 _ _. exact (IH _ K1 U2).
Qed.
End Level.

Lemma exec_good u n : (forall e, Forall (uses n) (u_code u e)) ->
  forall fuel extra s cs, ok n extra s -> Forall (uses n) cs -> good n extra s (exec u fuel s cs).
Proof.
  intros KN. induction fuel as [|fuel IH]; intros extra s cs K U; cbn [exec].
  - destruct cs; [cbn; split; [exact K|split; [reflexivity|apply keeps_refl]]|exact Logic.I].
  - apply all_good; [exact KN|exact IH|exact K|exact U].
Qed.

Lemma start_ok objects : ok (length objects) (fun _ => 0%nat) (start objects).
Proof.
  constructor; cbn -[Nat.ltb].
  - apply seq_length.
  - intros o. rewrite Nat.add_0_r. unfold count. destruct (Nat.ltb_spec o (length objects)) as [L|L].
    + symmetry. apply NoDup_count_occ'; [apply seq_NoDup|]. apply in_seq. lia.
    + symmetry. apply count_occ_not_In. rewrite in_seq. lia.
  - intros o. destruct (Nat.ltb_spec o (length objects)) as [L|L]; [split; [lia|intros _; apply nth_error_Some; exact L]|].
    split; [intros N; apply nth_error_Some in N; lia|lia].
  - intros o L. destruct (Nat.ltb_spec o (length objects)); [lia|reflexivity].
Qed.
