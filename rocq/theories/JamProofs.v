(** Proofs about the asynchronous sink whose copies may throw. *)
From Verif Require Import Base AsyncModel JamModel JamSpec.

Lemma upd_same {A} (f : nat -> A) k v : upd f k v k = v.
Proof. unfold upd. rewrite Nat.eqb_refl. reflexivity. Qed.
Lemma upd_other {A} (f : nat -> A) k v x : x <> k -> upd f k v x = f x.
Proof. intros N. unfold upd. destruct (Nat.eqb_spec x k); [contradiction|reflexivity]. Qed.

Definition owner (c : jcell) : producer * msg := match c with Filling p m | Filled p m | Left p m => (p, m) end.
Fixpoint view (pos : nat) (cells : list jcell) : list (nat * producer * msg) :=
  match cells with [] => [] | c :: r => (pos, fst (owner c), snd (owner c)) :: view (S pos) r end.
Lemma view_app cells1 : forall pos cells2, view pos (cells1 ++ cells2) = view pos cells1 ++ view (pos + length cells1) cells2.
Proof.
  induction cells1 as [|c r IH]; intros pos cells2; cbn; [rewrite Nat.add_0_r; reflexivity|]. rewrite IH. do 3 f_equal. lia.
Qed.
Lemma view_length cells : forall pos, length (view pos cells) = length cells.
Proof. induction cells as [|c r IH]; intros pos; cbn; [reflexivity|]. rewrite IH. reflexivity. Qed.
Lemma view_positions cells : forall pos, map (fun x => fst (fst x)) (view pos cells) = seq pos (length cells).
Proof. induction cells as [|c r IH]; intros pos; cbn; [reflexivity|]. rewrite IH. reflexivity. Qed.

(** The cells a producer is filling. *)
Definition mine1 (p : producer) (c : jcell) : list msg := match c with Filling p' m => if Nat.eqb p' p then [m] else [] | _ => [] end.
Definition mine (p : producer) (cells : list jcell) : list msg := flat_map (mine1 p) cells.
Definition filling (x : ppc) : list msg := match x with PFill m => [m] | _ => [] end.
#[local] Arguments mine : simpl never.
#[local] Arguments Nat.ltb : simpl never.
Lemma mine_app p a b : mine p (a ++ b) = mine p a ++ mine p b.
Proof. apply flat_map_app. Qed.

Lemma settle_spec p m r : forall cells pos, mine p cells = m :: r ->
  exists a b, cells = a ++ Filling p m :: b /\ mine p a = [] /\ filling_at cells p pos = (pos + length a)%nat /\ forall x, settle cells p x = a ++ x :: b.
Proof.
  induction cells as [|c cells IH]; intros pos E; [discriminate E|]. 
  assert (SKIP : mine1 p c = [] -> filling_at (c :: cells) p pos = filling_at cells p (S pos) -> (forall x, settle (c :: cells) p x = c :: settle cells p x) ->
    exists a b, c :: cells = a ++ Filling p m :: b /\ mine p a = [] /\ filling_at (c :: cells) p pos = (pos + length a)%nat /\ forall x, settle (c :: cells) p x = a ++ x :: b).
  { intros N F SE. unfold mine in E. cbn in E. rewrite N in E. destruct (IH (S pos) E) as (a & b & E1 & E2 & E3 & E4). exists (c :: a), b.
    split; [cbn; rewrite E1; reflexivity|]. split; [unfold mine in *; cbn; rewrite N, E2; reflexivity|]. split; [rewrite F, E3; cbn; lia|]. intros x. rewrite SE, E4. reflexivity. }
  destruct c as [p' m'|p' m'|p' m']; [|apply SKIP; reflexivity|apply SKIP; reflexivity].
  destruct (Nat.eqb p' p) eqn:Q.
  - unfold mine in E. cbn in E. rewrite Q in E. injection E as -> _. apply Nat.eqb_eq in Q. subst p'. exists [], cells. split; [reflexivity|]. split; [reflexivity|].
    cbn. rewrite Nat.eqb_refl, Nat.add_0_r. split; reflexivity.
  - apply SKIP; cbn; intros; rewrite Q; reflexivity.
Qed.

Definition pending (s : jstate) : list (nat * producer * msg) := match j_work s with JCheck (Some (p, m)) => [(pred (j_head s), p, m)] | _ => [] end.
Record inv (c : jconfig) (s : jstate) (evs : list jevent) : Prop := Inv {
  i_accepted : accepted evs = delivered evs ++ pending s ++ view (j_head s) (j_cells s);
  i_head : map (fun x => fst (fst x)) (delivered evs ++ pending s) = seq 0 (j_head s);
  i_room : (length (j_cells s) <= j_capacity c)%nat;
  i_mine : forall p, mine p (j_cells s) = filling (j_prod s p);
  i_left : forall i p m, nth_error (j_cells s) i = Some (Left p m) <-> In (JThrew (j_head s + i) p m) evs;
  i_threw : forall pos p m, In (JThrew pos p m) evs -> (j_head s <= pos)%nat
}.

Lemma accepted_app a b : accepted (a ++ b) = accepted a ++ accepted b.
Proof. apply flat_map_app. Qed.
Lemma delivered_app a b : delivered (a ++ b) = delivered a ++ delivered b.
Proof. apply flat_map_app. Qed.

Lemma inv_init c : inv c jinit [].
Proof. constructor; cbn; try reflexivity; try lia; try tauto. intros i p m. split; [destruct i; discriminate|tauto]. Qed.

(** A step that changes neither the cells nor what is accepted, delivered or lost. *)
Lemma inv_same c s evs s' more : inv c s evs -> j_head s' = j_head s -> j_cells s' = j_cells s -> pending s' = pending s -> (forall p, filling (j_prod s' p) = filling (j_prod s p)) ->
  accepted more = [] -> delivered more = [] -> (forall pos p m, ~ In (JThrew pos p m) more) -> inv c s' (evs ++ more).
Proof.
  intros [A B C D E F] H1 H2 H3 H4 N1 N2 N3.
  assert (IN : forall pos p m, In (JThrew pos p m) (evs ++ more) <-> In (JThrew pos p m) evs).
  { intros pos p m. rewrite in_app_iff. split; [|tauto]. intros [X|X]; [exact X|destruct (N3 _ _ _ X)]. }
  constructor; rewrite ?accepted_app, ?delivered_app, ?N1, ?N2, ?app_nil_r, ?H1, ?H2, ?H3; auto.
  - intros p. rewrite H4. apply D.
  - intros i p m. rewrite IN. apply E.
  - intros pos p m X. apply IN in X. exact (F _ _ _ X).
Qed.

Lemma app_cons_nth {A} (a b : list A) x i : nth_error (a ++ x :: b) i = if Nat.eqb i (length a) then Some x else nth_error (a ++ x :: b) i.
Proof. destruct (Nat.eqb_spec i (length a)) as [->|]; [|reflexivity]. rewrite nth_error_app2 by lia. rewrite Nat.sub_diag. reflexivity. Qed.
Lemma app_cons_other {A} (a b : list A) x y i : i <> length a -> nth_error (a ++ x :: b) i = nth_error (a ++ y :: b) i.
Proof.
  intros N. destruct (Nat.lt_ge_cases i (length a)) as [L|L]; [rewrite !nth_error_app1 by exact L; reflexivity|].
  rewrite !nth_error_app2 by exact L. destruct (i - length a)%nat as [|k] eqn:Q; [lia|reflexivity].
Qed.

Lemma inv_settle c s evs p m x more : inv c s evs -> j_prod s p = PFill m -> owner x = (p, m) -> (forall p' m', x <> Filling p' m') ->
  accepted more = [] -> delivered more = [] ->
  (forall pos p' m', In (JThrew pos p' m') more <-> x = Left p' m' /\ pos = filling_at (j_cells s) p (j_head s)) ->
  inv c (with_prod (with_jcells s (settle (j_cells s) p x)) p PIdle) (evs ++ more).
Proof.
  intros [A B C D E F] PF OW NF N1 N2 N3. pose proof (D p) as M. rewrite PF in M. cbn in M.
  destruct (settle_spec p m [] (j_cells s) (j_head s) M) as (a & b & E1 & E2 & E3 & E4). rewrite E4. constructor; cbn.
  - rewrite accepted_app, delivered_app, N1, N2, !app_nil_r, A. unfold pending. cbn. rewrite E1 at 1. rewrite !view_app. cbn. rewrite OW. reflexivity.
  - rewrite delivered_app, N2, app_nil_r. exact B.
  - rewrite E1 in C. rewrite app_length in *. cbn in *. exact C.
  - intros q. assert (X1 : mine1 q x = []) by (destruct x; [destruct (NF _ _ eq_refl)|reflexivity|reflexivity]).
    pose proof (D q) as Q. rewrite E1, mine_app in Q. rewrite mine_app. replace (mine q (x :: b)) with (mine q b) by (unfold mine; cbn; rewrite X1; reflexivity).
    destruct (Nat.eq_dec q p) as [->|N].
    + rewrite upd_same. cbn. rewrite E2. cbn. rewrite E1, mine_app, E2 in M. unfold mine in M. cbn in M. rewrite Nat.eqb_refl in M. injection M as M. exact M.
    + rewrite upd_other by exact N. rewrite <- Q. f_equal. unfold mine. cbn. destruct (Nat.eqb_spec p q); [congruence|reflexivity].
  - intros i p' m'. rewrite in_app_iff, N3, E3. destruct (Nat.eq_dec i (length a)) as [->|N].
    + rewrite app_cons_nth, Nat.eqb_refl. split.
      * intros Q. injection Q as ->. right. split; [reflexivity|lia].
      * intros [Q|(-> & _)]; [|reflexivity]. apply E in Q. rewrite E1, app_cons_nth, Nat.eqb_refl in Q. discriminate Q.
    + rewrite (app_cons_other a b x (Filling p m) i N), <- E1, E. split; [tauto|]. intros [Q|(_ & Q)]; [exact Q|lia].
  - intros pos p' m' X. apply in_app_iff in X. destruct X as [X|X]; [exact (F _ _ _ X)|]. apply N3 in X. destruct X as (_ & ->). rewrite E3. lia.
Qed.

Lemma step_inv c s evs a s' more : inv c s evs -> jstep c s a = Some (s', more) -> inv c s' (evs ++ more).
Proof.
  intros IV ST. destruct a as [p m|p throws| | |]; cbn in ST.
  - destruct (j_prod s p) eqn:PP; try discriminate ST. injection ST as <- <-. apply (inv_same c s); try reflexivity; [exact IV| |intros pos p' m' [X|[]]; discriminate X].
    intros q. cbn. destruct (Nat.eq_dec q p) as [->|N]; [rewrite upd_same, PP; reflexivity|rewrite upd_other by exact N; reflexivity].
  - destruct (j_prod s p) as [|m|m|m] eqn:PP; [discriminate ST| | |].
    + destruct (Nat.ltb_spec (length (j_cells s)) (j_capacity c)) as [L|L]; injection ST as <- <-.
      * destruct IV as [A B C D E F]. constructor; cbn.
        -- rewrite accepted_app, delivered_app, A. cbn. rewrite app_nil_r. unfold pending. cbn. rewrite view_app. cbn. rewrite <- !app_assoc. reflexivity.
        -- rewrite delivered_app. cbn. rewrite app_nil_r. exact B.
        -- rewrite app_length. cbn. lia.
        -- intros q. rewrite mine_app, D. unfold mine. cbn. destruct (Nat.eq_dec q p) as [->|N]; [rewrite upd_same, PP, Nat.eqb_refl; reflexivity|].
           rewrite upd_other by exact N. destruct (Nat.eqb_spec p q); [congruence|]. rewrite app_nil_r. reflexivity.
        -- intros i p' m'. rewrite in_app_iff, <- E. destruct (Nat.lt_ge_cases i (length (j_cells s))) as [LI|LI].
           ++ rewrite nth_error_app1 by exact LI. split; [tauto|]. intros [X|[X|[]]]; [exact X|discriminate X].
           ++ rewrite nth_error_app2 by exact LI. rewrite (proj2 (nth_error_None _ _) LI). split; [|intros [X|[X|[]]]; discriminate X].
              intros X. destruct (i - length (j_cells s))%nat as [|[|k]]; discriminate X.
        -- intros pos p' m' X. apply in_app_iff in X. destruct X as [X|[X|[]]]; [exact (F _ _ _ X)|discriminate X].
      * apply (inv_same c s); try reflexivity; [exact IV| |intros pos p' m' [X|[]]; discriminate X].
        intros q. cbn. destruct (Nat.eq_dec q p) as [->|N]; [rewrite upd_same, PP; reflexivity|rewrite upd_other by exact N; reflexivity].
    + destruct throws; injection ST as <- <-.
      * apply (inv_settle c s evs p m); try reflexivity; [exact IV|exact PP|discriminate|]. intros pos p' m'. cbn. split; [intros [X|[]]; injection X as -> -> ->; auto|].
        intros (X & ->). injection X as -> ->. auto.
      * apply (inv_settle c s evs p m); try reflexivity; [exact IV|exact PP|discriminate|]. intros pos p' m'. cbn. split; [intros [X|[]]; discriminate X|intros (X & _); discriminate X].
    + destruct (overflow (j_policy c)); injection ST as <- <-; (apply (inv_same c s); try reflexivity; [exact IV| |intros pos p' m' X; cbn in X; try (destruct X as [X|[]]; discriminate X); destruct X]);
        (intros q; cbn; destruct (Nat.eq_dec q p) as [->|N]; [rewrite upd_same, PP; reflexivity|rewrite upd_other by exact N; reflexivity]).
  - destruct (j_work s) as [|[(p & m)|]|] eqn:W; [| | |discriminate ST].
    + assert (NONE : forall s1, s1 = with_work s (JCheck None) -> inv c s1 (evs ++ [])).
      { intros s1 ->. apply (inv_same c s); try reflexivity; [exact IV|unfold pending; cbn; rewrite W; reflexivity|intros pos p m []]. }
      destruct (j_cells s) as [|[p m|p m|p m] r] eqn:CS.
      * injection ST as <- <-. apply NONE. reflexivity.
      * destruct (j_spins c); injection ST as <- <-; [rewrite app_nil_r; exact IV|apply NONE; reflexivity].
      * injection ST as <- <-. rewrite app_nil_r. destruct IV as [A B C D E F]. unfold pending in A, B. rewrite W, CS in A. rewrite W, app_nil_r in B. rewrite CS in C, D, E. constructor; cbn.
        -- rewrite A. unfold pending. cbn. reflexivity.
        -- unfold pending. cbn [j_work j_head pred]. rewrite map_app, B. cbn [map fst]. rewrite <- seq_S. reflexivity.
        -- cbn in C. lia.
        -- intros q. exact (D q).
        -- intros i p' m'. pose proof (E (S i) p' m') as Q. rewrite Nat.add_succ_r in Q. exact Q.
        -- intros pos p' m' X. pose proof (F _ _ _ X) as LE. destruct (Nat.eq_dec pos (j_head s)) as [->|N]; [|lia].
           rewrite <- (Nat.add_0_r (j_head s)) in X. apply E in X. discriminate X.
      * destruct (j_spins c); injection ST as <- <-; [rewrite app_nil_r; exact IV|apply NONE; reflexivity].
    + injection ST as <- <-. destruct IV as [A B C D E F]. unfold pending in A, B. rewrite W in A, B. constructor; cbn.
      * rewrite accepted_app, delivered_app, A. unfold pending. cbn. rewrite app_nil_r, <- app_assoc. reflexivity.
      * rewrite delivered_app. unfold pending. cbn. rewrite app_nil_r. exact B.
      * exact C.
      * exact D.
      * intros i p' m'. rewrite in_app_iff, E. split; [tauto|]. intros [X|[X|[]]]; [exact X|discriminate X].
      * intros pos p' m' X. apply in_app_iff in X. destruct X as [X|[X|[]]]; [exact (F _ _ _ X)|discriminate X].
    + destruct (is_stopped (j_dtor s)); injection ST as <- <-; (apply (inv_same c s); try reflexivity; [exact IV|unfold pending; cbn; rewrite W; reflexivity|intros pos p' m' X; cbn in X; try (destruct X as [X|[]]; discriminate X); destruct X]).
  - destruct (j_dtor s); try discriminate ST. injection ST as <- <-. apply (inv_same c s); try reflexivity; [exact IV|intros pos p m []].
  - destruct (j_dtor s); try discriminate ST. destruct (j_work s) eqn:W; try discriminate ST. injection ST as <- <-.
    apply (inv_same c s); try reflexivity; [exact IV|unfold pending; cbn; rewrite W; reflexivity|intros pos p m [X|[]]; discriminate X].
Qed.

Lemma run_inv c : forall acts s evs s' more, inv c s evs -> jrun c s acts = Some (s', more) -> inv c s' (evs ++ more).
Proof.
  induction acts as [|a acts IH]; intros s evs s' more IV R; cbn in R; [injection R as <- <-; rewrite app_nil_r; exact IV|].
  destruct (jstep c s a) as [(s1 & e1)|] eqn:ST; [|discriminate R]. destruct (jrun c s1 acts) as [(s2 & e2)|] eqn:R2; [|discriminate R]. injection R as <- <-.
  rewrite app_assoc. exact (IH _ _ _ _ (step_inv _ _ _ _ _ _ IV ST) R2).
Qed.
Lemma reach_inv c acts s evs : jrun c jinit acts = Some (s, evs) -> inv c s evs.
Proof. intros R. exact (run_inv _ _ _ _ _ _ (inv_init c) R). Qed.

Lemma order_lemma c acts s evs : jrun c jinit acts = Some (s, evs) ->
  (exists rest, accepted evs = delivered evs ++ rest) /\ map (fun x => fst (fst x)) (accepted evs) = seq 0 (length (accepted evs)).
Proof.
  intros R. destruct (reach_inv _ _ _ _ R) as [A B C D E F]. split; [exists (pending s ++ view (j_head s) (j_cells s)); exact A|].
  assert (L : length (delivered evs ++ pending s) = j_head s) by (rewrite <- (map_length (fun x => fst (fst x))), B; apply seq_length).
  rewrite A, app_assoc. rewrite map_app, B, view_positions, app_length, L, view_length. rewrite <- seq_app. reflexivity.
Qed.
Lemma jam_lemma c acts s evs pos p m : jrun c jinit acts = Some (s, evs) -> In (JThrew pos p m) evs ->
  In (pos, p, m) (accepted evs) /\ (length (delivered evs) <= pos)%nat /\ (length (accepted evs) <= pos + j_capacity c)%nat.
Proof.
  intros R X. destruct (reach_inv _ _ _ _ R) as [A B C D E F]. pose proof (F _ _ _ X) as LE.
  assert (L : length (delivered evs ++ pending s) = j_head s) by (rewrite <- (map_length (fun x => fst (fst x))), B; apply seq_length).
  assert (G : (length (delivered evs) <= pos)%nat) by (rewrite app_length in L; lia).
  assert (H : (length (accepted evs) <= pos + j_capacity c)%nat) by (rewrite A, app_assoc, app_length, L, view_length; lia).
  split; [|auto]. replace pos with (j_head s + (pos - j_head s))%nat in X by lia. apply E in X. rewrite A, app_assoc. apply in_or_app. right.
  apply nth_error_split in X. destruct X as (a & b & -> & LA). rewrite view_app. apply in_or_app. right. left. cbn. rewrite LA. f_equal. f_equal. lia.
Qed.

(** ** Coming to an end. *)
Definition work_left (c : jconfig) (s : jstate) : nat :=
  match j_work s with JTake => 2 * length (j_cells s) + 2 | JCheck (Some _) => 2 * length (j_cells s) + 3 | JCheck None => 1 | JExit => 0 end.
Definition never_spins (c : jconfig) (s : jstate) : Prop := j_spins c = true -> Forall (fun x => exists p m, x = Filled p m) (j_cells s).
Lemma shutdown_lemma c : forall n s, (work_left c s <= n)%nat -> never_spins c s -> j_dtor s = DStopping ->
  exists k s' evs, (k <= n)%nat /\ jrun c s (repeat DoWork k ++ [DoJoin]) = Some (s', evs) /\ j_dtor s' = DDone.
Proof.
  induction n as [|n IH]; intros s W NS DS; unfold work_left in W.
  - destruct (j_work s) as [|[g|]|] eqn:JW; try lia. exists 0%nat. cbn. rewrite DS, JW. eexists _, _. split; [lia|]. split; reflexivity.
  - destruct (j_work s) as [|[(p & m)|]|] eqn:JW.
    + assert (ST : exists s1, jstep c s DoWork = Some (s1, []) /\ (work_left c s1 <= n)%nat /\ never_spins c s1 /\ j_dtor s1 = DStopping).
      { cbn. rewrite JW. destruct (j_cells s) as [|[p m|p m|p m] r] eqn:CS.
        - eexists. split; [reflexivity|]. unfold work_left, never_spins. cbn. rewrite CS. cbn in W. split; [lia|]. split; [intros _; constructor|exact DS].
        - destruct (j_spins c) eqn:SP; [specialize (NS SP); rewrite CS in NS; inversion NS as [|? ? (p' & m' & Q) _]; discriminate Q|].
          eexists. split; [reflexivity|]. unfold work_left, never_spins. cbn in W |- *. split; [lia|]. split; [congruence|exact DS].
        - eexists. split; [reflexivity|]. unfold work_left, never_spins. cbn in W |- *. split; [lia|]. split; [|exact DS]. intros SP. specialize (NS SP). rewrite CS in NS. inversion NS; assumption.
        - destruct (j_spins c) eqn:SP; [specialize (NS SP); rewrite CS in NS; inversion NS as [|? ? (p' & m' & Q) _]; discriminate Q|].
          eexists. split; [reflexivity|]. unfold work_left, never_spins. cbn in W |- *. split; [lia|]. split; [congruence|exact DS]. }
      destruct ST as (s1 & ST & W1 & NS1 & DS1). destruct (IH s1 W1 NS1 DS1) as (k & s' & evs & LK & R & DD). exists (S k), s', evs. split; [lia|]. split; [|exact DD].
      cbn [repeat app jrun]. rewrite ST, R. reflexivity.
    + assert (ST : exists s1 e1, jstep c s DoWork = Some (s1, e1) /\ (work_left c s1 <= n)%nat /\ never_spins c s1 /\ j_dtor s1 = DStopping).
      { cbn. rewrite JW. eexists _, _. split; [reflexivity|]. unfold work_left. cbn. split; [lia|]. split; [exact NS|exact DS]. }
      destruct ST as (s1 & e1 & ST & W1 & NS1 & DS1). destruct (IH s1 W1 NS1 DS1) as (k & s' & evs & LK & R & DD). exists (S k), s', (e1 ++ evs). split; [lia|]. split; [|exact DD].
      cbn [repeat app jrun]. rewrite ST, R. reflexivity.
    + exists 1%nat. cbn. rewrite JW, DS. cbn. rewrite DS. eexists _, _. split; [lia|]. split; reflexivity.
    + exists 0%nat. cbn. rewrite DS, JW. eexists _, _. split; [lia|]. split; reflexivity.
Qed.
Lemma all_filled c s evs : inv c s evs -> no_throw evs -> (forall p, j_prod s p = PIdle) -> Forall (fun x => exists p m, x = Filled p m) (j_cells s).
Proof.
  intros [A B C D E F] NT ID. apply Forall_forall. intros x IN. apply In_nth_error in IN. destruct IN as (i & X). destruct x as [p m|p m|p m]; [| eauto|].
  - pose proof (D p) as M. rewrite ID in M. cbn in M. apply nth_error_split in X. destruct X as (a & b & Q & _). rewrite Q, mine_app in M. unfold mine in M. cbn in M. rewrite Nat.eqb_refl in M.
    destruct (flat_map (mine1 p) a); discriminate M.
  - apply E in X. destruct (NT _ _ _ X).
Qed.
Lemma ends_lemma c acts s evs : jrun c jinit acts = Some (s, evs) -> j_dtor s = DStopping -> (j_spins c = false \/ (no_throw evs /\ forall p, j_prod s p = PIdle)) ->
  exists k s' evs', (k <= 2 * length (j_cells s) + 3)%nat /\ jrun c s (repeat DoWork k ++ [DoJoin]) = Some (s', evs') /\ j_dtor s' = DDone.
Proof.
  intros R DS H. apply shutdown_lemma; [unfold work_left; destruct (j_work s) as [|[g|]|]; lia| |exact DS].
  intros SP. destruct H as [H|(NT & ID)]; [congruence|]. exact (all_filled _ _ _ (reach_inv _ _ _ _ R) NT ID).
Qed.

(** ** The jam. *)
Lemma settle_left p m r q x : settle (Left p m :: r) q x = Left p m :: settle r q x.
Proof. reflexivity. Qed.
Lemma settle_length cells : forall q x, length (settle cells q x) = length cells.
Proof. induction cells as [|[p m|p m|p m] r IH]; intros q x; cbn; [reflexivity| |rewrite IH; reflexivity|rewrite IH; reflexivity]. destruct (Nat.eqb p q); cbn; [|rewrite IH]; reflexivity. Qed.

(** The first cell was left. *)
Definition jammed (s : jstate) : Prop := exists p m r, j_cells s = Left p m :: r.
Lemma jammed_step c s a s' evs : jammed s -> jstep c s a = Some (s', evs) -> jammed s'.
Proof.
  intros (p & m & r & CS) ST. destruct a as [q n|q throws| | |]; cbn in ST; rewrite ?CS in ST.
  - destruct (j_prod s q); try discriminate ST. injection ST as <- <-. exists p, m, r. first [exact CS|reflexivity].
  - destruct (j_prod s q) as [|n|n|n]; [discriminate ST| | |].
    + destruct (_ <? _)%nat; injection ST as <- <-; [exists p, m, (r ++ [Filling q n]); reflexivity|exists p, m, r; first [exact CS|reflexivity]].
    + destruct throws; injection ST as <- <-; eexists p, m, _; reflexivity.
    + destruct (overflow (j_policy c)); injection ST as <- <-; exists p, m, r; first [exact CS|reflexivity].
  - destruct (j_work s) as [|[(p' & m')|]|]; [| | |discriminate ST].
    + destruct (j_spins c); injection ST as <- <-; exists p, m, r; first [exact CS|reflexivity].
    + injection ST as <- <-; exists p, m, r; first [exact CS|reflexivity].
    + destruct (is_stopped (j_dtor s)); injection ST as <- <-; exists p, m, r; first [exact CS|reflexivity].
  - destruct (j_dtor s); try discriminate ST. injection ST as <- <-. exists p, m, r. first [exact CS|reflexivity].
  - destruct (j_dtor s); try discriminate ST. destruct (j_work s); try discriminate ST. injection ST as <- <-. exists p, m, r. first [exact CS|reflexivity].
Qed.

(** A producer that waits for room in a full queue that is jammed. *)
Definition stuck (c : jconfig) (p : producer) (m : msg) (s : jstate) : Prop :=
  jammed s /\ (j_capacity c <= length (j_cells s))%nat /\ (j_prod s p = PTry m \/ j_prod s p = PFull m).
Lemma stuck_step c p m s a s' evs : j_policy c = Wait -> stuck c p m s -> jstep c s a = Some (s', evs) -> stuck c p m s' /\ ~ In (JReturn p m) evs.
Proof.
  intros PW (J & L & PP) ST. pose proof (jammed_step _ _ _ _ _ J ST) as J'.
  unfold stuck. destruct J as (p0 & m0 & r & CS). destruct a as [q n|q throws| | |]; cbn in ST.
  - destruct (j_prod s q) eqn:PQ; try discriminate ST. injection ST as <- <-. assert (N : p <> q) by (intros ->; destruct PP; congruence).
    split; [|intros [X|[]]; discriminate X]. split; [exact J'|]. split; [exact L|]. cbn. rewrite upd_other by exact N. exact PP.
  - destruct (Nat.eq_dec p q) as [<-|N].
    + destruct PP as [PP|PP]; rewrite PP in ST.
      * destruct (Nat.ltb_spec (length (j_cells s)) (j_capacity c)); [lia|]. injection ST as <- <-. split; [|intros [X|[]]; discriminate X]. split; [exact J'|]. split; [exact L|].
        cbn. rewrite upd_same. auto.
      * rewrite PW in ST. cbn in ST. injection ST as <- <-. split; [|intros []]. split; [exact J'|]. split; [exact L|]. cbn. rewrite upd_same. auto.
    + destruct (j_prod s q) as [|n|n|n]; [discriminate ST| | |].
      * destruct (Nat.ltb_spec (length (j_cells s)) (j_capacity c)); [lia|]. injection ST as <- <-. split; [|intros [X|[]]; discriminate X]. split; [exact J'|]. split; [exact L|].
        cbn. rewrite upd_other by exact N. exact PP.
      * destruct throws; injection ST as <- <-; (split; [split; [exact J'|]; split; [cbn; rewrite settle_length; exact L|cbn; rewrite upd_other by exact N; exact PP]|]);
          intros [X|[]]; [discriminate X|]. injection X as -> _. congruence.
      * rewrite PW in ST. cbn in ST. injection ST as <- <-. split; [|intros []]. split; [exact J'|]. split; [exact L|]. cbn. rewrite upd_other by exact N. exact PP.
  - destruct (j_work s) as [|[(p' & m')|]|]; [| | |discriminate ST].
    + rewrite CS in ST. destruct (j_spins c); injection ST as <- <-; (split; [|intros []]; split; [exact J'|]; split; [exact L|exact PP]).
    + injection ST as <- <-. split; [|intros [X|[]]; discriminate X]. split; [exact J'|]. split; [exact L|exact PP].
    + destruct (is_stopped (j_dtor s)); injection ST as <- <-; (split; [split; [exact J'|]; split; [exact L|exact PP]|]); [intros [X|[]]; discriminate X|intros []].
  - destruct (j_dtor s); try discriminate ST. injection ST as <- <-. split; [|intros []]. split; [exact J'|]. split; [exact L|exact PP].
  - destruct (j_dtor s); try discriminate ST. destruct (j_work s); try discriminate ST. injection ST as <- <-. split; [|intros [X|[]]; discriminate X]. split; [exact J'|]. split; [exact L|exact PP].
Qed.
Lemma stuck_run c p m : j_policy c = Wait -> forall acts s s' evs, stuck c p m s -> jrun c s acts = Some (s', evs) -> ~ In (JReturn p m) evs.
Proof.
  intros PW. induction acts as [|a acts IH]; intros s s' evs K R; cbn in R; [injection R as _ <-; intros []|].
  destruct (jstep c s a) as [(s1 & e1)|] eqn:ST; [|discriminate R]. destruct (jrun c s1 acts) as [(s2 & e2)|] eqn:R2; [|discriminate R]. injection R as _ <-.
  destruct (stuck_step _ _ _ _ _ _ _ PW K ST) as (K1 & N1). rewrite in_app_iff. intros [X|X]; [exact (N1 X)|exact (IH _ _ _ K1 R2 X)].
Qed.

(** The worker of a queue that tries again at such a cell. *)
Definition spinning (s : jstate) : Prop := jammed s /\ j_work s = JTake.
Lemma spinning_step c s a s' evs : j_spins c = true -> spinning s -> jstep c s a = Some (s', evs) -> spinning s' /\ ~ In JDestroyed evs.
Proof.
  intros SP (J & W) ST. pose proof (jammed_step _ _ _ _ _ J ST) as J'. destruct J as (p & m & r & CS). unfold spinning. destruct a as [q n|q throws| | |]; cbn in ST.
  - destruct (j_prod s q); try discriminate ST. injection ST as <- <-. split; [split; [exact J'|exact W]|intros [X|[]]; discriminate X].
  - destruct (j_prod s q) as [|n|n|n]; [discriminate ST| | |].
    + destruct (_ <? _)%nat; injection ST as <- <-; (split; [split; [exact J'|exact W]|intros [X|[]]; discriminate X]).
    + destruct throws; injection ST as <- <-; (split; [split; [exact J'|exact W]|intros [X|[]]; discriminate X]).
    + destruct (overflow (j_policy c)); injection ST as <- <-; (split; [split; [exact J'|exact W]|]); [intros []|intros [X|[]]; discriminate X].
  - rewrite W, CS, SP in ST. injection ST as <- <-. split; [split; [exact J'|exact W]|intros []].
  - destruct (j_dtor s); try discriminate ST. injection ST as <- <-. split; [split; [exact J'|exact W]|intros []].
  - rewrite W in ST. destruct (j_dtor s); discriminate ST.
Qed.
Lemma spinning_run c : j_spins c = true -> forall acts s s' evs, spinning s -> jrun c s acts = Some (s', evs) -> ~ In JDestroyed evs.
Proof.
  intros SP. induction acts as [|a acts IH]; intros s s' evs K R; cbn in R; [injection R as _ <-; intros []|].
  destruct (jstep c s a) as [(s1 & e1)|] eqn:ST; [|discriminate R]. destruct (jrun c s1 acts) as [(s2 & e2)|] eqn:R2; [|discriminate R]. injection R as _ <-.
  destruct (spinning_step _ _ _ _ _ SP K ST) as (K1 & N1). rewrite in_app_iff. intros [X|X]; [exact (N1 X)|exact (IH _ _ _ K1 R2 X)].
Qed.

(** ** Schedules. *)
Lemma jrun_app c : forall acts s acts' s1 e1 s2 e2, jrun c s acts = Some (s1, e1) -> jrun c s1 acts' = Some (s2, e2) -> jrun c s (acts ++ acts') = Some (s2, e1 ++ e2).
Proof.
  induction acts as [|a acts IH]; intros s acts' s1 e1 s2 e2 R1 R2; cbn in R1 |- *; [injection R1 as <- <-; exact R2|].
  destruct (jstep c s a) as [(s3 & e3)|]; [|discriminate R1]. destruct (jrun c s3 acts) as [(s4 & e4)|] eqn:R4; [|discriminate R1]. injection R1 as <- <-.
  rewrite (IH _ _ _ _ _ _ R4 R2), app_assoc. reflexivity.
Qed.
Lemma delivered_in evs pos p m : In (JDeliver pos p m) evs -> In (pos, p, m) (delivered evs).
Proof. intros IN. apply in_flat_map. exists (JDeliver pos p m). split; [exact IN|left; reflexivity]. Qed.

Lemma lost_lemma : forall spins, exists acts s evs, jrun (JConfig 4 Wait spins) jinit acts = Some (s, evs) /\ In (JReturn 2 20) evs /\ ~ In (JFull 2 20) evs /\
  forall acts' s' evs' pos, jrun (JConfig 4 Wait spins) s acts' = Some (s', evs') -> ~ In (JDeliver pos 2 20) (evs ++ evs').
Proof.
  intros spins. set (acts := [DoCall 1 10; DoGo 1 true; DoGo 1 true; DoCall 2 20; DoGo 2 false; DoGo 2 false]).
  assert (R : exists s evs, jrun (JConfig 4 Wait spins) jinit acts = Some (s, evs) /\ evs = [JCall 1 10; JAccept 0 1 10; JThrew 0 1 10; JCall 2 20; JAccept 1 2 20; JReturn 2 20])
    by (eexists _, _; split; [vm_compute; reflexivity|reflexivity]).
  destruct R as (s & evs & R & EV). exists acts, s, evs. split; [exact R|]. split; [rewrite EV; cbn; tauto|].
  split; [rewrite EV; cbn; intros [X|[X|[X|[X|[X|[X|[]]]]]]]; discriminate X|].
  intros acts' s' evs' pos R' IN. pose proof (jrun_app _ _ _ _ _ _ _ _ R R') as RR.
  assert (T : In (JThrew 0 1 10) (evs ++ evs')) by (apply in_or_app; left; rewrite EV; cbn; tauto).
  destruct (jam_lemma _ _ _ _ _ _ _ RR T) as (_ & LE & _). apply delivered_in in IN. destruct (delivered (evs ++ evs')); [destruct IN|cbn in LE; lia].
Qed.

Lemma wait_lemma : forall spins, exists acts s evs p m, jrun (JConfig 4 Wait spins) jinit acts = Some (s, evs) /\ In (JThrew 0 1 10) evs /\ In (JCall p m) evs /\
  forall acts' s' evs', jrun (JConfig 4 Wait spins) s acts' = Some (s', evs') -> ~ In (JReturn p m) (evs ++ evs').
Proof.
  intros spins. set (acts := [DoCall 1 10; DoGo 1 true; DoGo 1 true; DoCall 2 20; DoGo 2 false; DoGo 2 false; DoCall 2 21; DoGo 2 false; DoGo 2 false;
    DoCall 2 22; DoGo 2 false; DoGo 2 false; DoCall 3 30]).
  assert (R : exists s evs, jrun (JConfig 4 Wait spins) jinit acts = Some (s, evs) /\ In (JThrew 0 1 10) evs /\ In (JCall 3 30) evs /\ ~ In (JReturn 3 30) evs /\
    stuck (JConfig 4 Wait spins) 3 30 s).
  { eexists _, _. split; [vm_compute; reflexivity|]. split; [cbn; tauto|]. split; [cbn; tauto|].
    split; [cbn; intros X; repeat (destruct X as [X|X]; [discriminate X|]); exact X|]. split; [eexists _, _, _; reflexivity|]. split; [cbn; lia|]. left. reflexivity. }
  destruct R as (s & evs & R & T & CALL & NR & K). exists acts, s, evs, 3%nat, 30. split; [exact R|]. split; [exact T|]. split; [exact CALL|].
  intros acts' s' evs' R' IN. apply in_app_iff in IN. destruct IN as [IN|IN]; [exact (NR IN)|exact (stuck_run (JConfig 4 Wait spins) 3 30 eq_refl _ _ _ _ K R' IN)].
Qed.

Lemma spins_lemma : exists acts s evs, jrun (JConfig 4 Wait true) jinit acts = Some (s, evs) /\ j_dtor s = DStopping /\ (forall p, j_prod s p = PIdle) /\
  forall acts' s' evs', jrun (JConfig 4 Wait true) s acts' = Some (s', evs') -> ~ In JDestroyed (evs ++ evs').
Proof.
  exists [DoCall 1 10; DoGo 1 true; DoGo 1 true; DoStop]. eexists _, _. split; [vm_compute; reflexivity|]. split; [reflexivity|].
  split; [intros p; cbn; match goal with |- context [if ?b then _ else _] => destruct b end; reflexivity|].
  intros acts' s' evs' R' IN. apply in_app_iff in IN. destruct IN as [IN|IN]; [cbn in IN; repeat (destruct IN as [X|IN]; [discriminate X|]); exact IN|].
  refine (spinning_run (JConfig 4 Wait true) eq_refl _ _ _ _ _ R' IN). split; [eexists _, _, _; reflexivity|reflexivity].
Qed.

(** ** What the worker leaves. *)
Definition blocked (s : jstate) : Prop := match j_cells s with Filled _ _ :: _ => False | _ => True end.
Definition fine (c : jconfig) (s : jstate) : Prop := never_spins c s /\ j_dtor s = DStopping /\ (working s \/ blocked s).
Lemma leaves_lemma c : forall n s, (work_left c s <= n)%nat -> fine c s ->
  exists k s' evs, (k <= n)%nat /\ jrun c s (repeat DoWork k ++ [DoJoin]) = Some (s', evs) /\ j_dtor s' = DDone /\ j_work s' = JExit /\ blocked s' /\ j_prod s' = j_prod s /\ no_throw evs.
Proof.
  assert (END : forall s, j_work s = JExit -> fine c s -> exists s' evs, jrun c s [DoJoin] = Some (s', evs) /\ j_dtor s' = DDone /\ j_work s' = JExit /\ blocked s' /\ j_prod s' = j_prod s /\ no_throw evs).
  { intros s JW (NS & DS & BL). cbn. rewrite DS, JW. eexists _, _. split; [reflexivity|]. split; [reflexivity|]. split; [reflexivity|]. unfold working in BL. rewrite JW in BL.
    split; [destruct BL as [[]|BL]; exact BL|]. split; [reflexivity|]. intros pos p m [X|[]]. discriminate X. }
  induction n as [|n IH]; intros s W FI.
  - unfold work_left in W. destruct (j_work s) as [|[g|]|] eqn:JW; try lia. destruct (END s JW FI) as (s' & evs & H). exists 0%nat, s', evs. split; [lia|exact H].
  - assert (ST : j_work s = JExit \/ exists s1 e1, jstep c s DoWork = Some (s1, e1) /\ (work_left c s1 <= n)%nat /\ fine c s1 /\ j_prod s1 = j_prod s /\ no_throw e1).
    { destruct FI as (NS & DS & BL). unfold work_left in W. cbn. destruct (j_work s) as [|[(p & m)|]|] eqn:JW; [right|right|right|left; reflexivity].
      - assert (NO : blocked s -> (1 <= n)%nat /\ fine c (with_work s (JCheck None))) by (intros Y; split; [lia|]; split; [exact NS|split; [exact DS|right; exact Y]]).
        unfold blocked in NO. destruct (j_cells s) as [|[p m|p m|p m] r] eqn:CS.
        + destruct (NO Logic.I) as (L & FI). eexists _, _. split; [reflexivity|]. split; [exact L|]. split; [exact FI|]. split; [reflexivity|intros pos p m []].
        + destruct (j_spins c) eqn:SP; [specialize (NS SP); rewrite CS in NS; inversion NS as [|? ? (p' & m' & Q) _]; discriminate Q|].
          destruct (NO Logic.I) as (L & FI). eexists _, _. split; [reflexivity|]. split; [exact L|]. split; [exact FI|]. split; [reflexivity|intros pos p' m' []].
        + eexists _, _. split; [reflexivity|]. unfold work_left, fine, never_spins. cbn in W |- *. split; [lia|]. split; [|split; [reflexivity|intros pos p' m' []]].
          split; [intros SP; specialize (NS SP); rewrite CS in NS; inversion NS; assumption|]. split; [exact DS|]. left. exact Logic.I.
        + destruct (j_spins c) eqn:SP; [specialize (NS SP); rewrite CS in NS; inversion NS as [|? ? (p' & m' & Q) _]; discriminate Q|].
          destruct (NO Logic.I) as (L & FI). eexists _, _. split; [reflexivity|]. split; [exact L|]. split; [exact FI|]. split; [reflexivity|intros pos p' m' []].
      - eexists _, _. split; [reflexivity|]. unfold work_left. cbn. split; [lia|]. split; [|split; [reflexivity|intros pos p' m' [X|[]]; discriminate X]].
        split; [exact NS|]. split; [exact DS|]. left. exact Logic.I.
      - unfold working in BL. rewrite JW in BL. destruct BL as [[]|BL]. rewrite DS. cbn. eexists _, _. split; [reflexivity|]. unfold work_left. cbn. split; [lia|].
        split; [|split; [reflexivity|intros pos p' m' [X|[]]; discriminate X]]. split; [exact NS|]. split; [exact DS|]. right. exact BL. }
    destruct ST as [JW|(s1 & e1 & ST & W1 & FI1 & P1 & N1)].
    + destruct (END s JW FI) as (s' & evs & H). exists 0%nat, s', evs. split; [lia|exact H].
    + destruct (IH s1 W1 FI1) as (k & s' & evs & LK & R & D & X & BL & P & N). exists (S k), s', (e1 ++ evs). split; [lia|]. split; [cbn [repeat app jrun]; rewrite ST, R; reflexivity|].
      split; [exact D|]. split; [exact X|]. split; [exact BL|]. split; [rewrite P; exact P1|]. intros pos p m IN. apply in_app_iff in IN. destruct IN as [IN|IN]; [exact (N1 _ _ _ IN)|exact (N _ _ _ IN)].
Qed.
Lemma drains_lemma c acts s evs : jrun c jinit acts = Some (s, evs) -> j_dtor s = DStopping -> (forall p, j_prod s p = PIdle) -> working s -> (j_spins c = false \/ no_throw evs) ->
  exists k s' evs', jrun c s (repeat DoWork k ++ [DoJoin]) = Some (s', evs') /\ j_dtor s' = DDone /\
    forall pos p m, In (pos, p, m) (accepted evs) -> (forall pos' p' m', In (JThrew pos' p' m') evs -> (pos < pos')%nat) -> In (pos, p, m) (delivered (evs ++ evs')).
Proof.
  intros R DS ID WK H. pose proof (reach_inv _ _ _ _ R) as IV.
  assert (FI : fine c s). { split; [|split; [exact DS|left; exact WK]]. intros SP. destruct H as [H|NT]; [congruence|]. exact (all_filled _ _ _ IV NT ID). }
  destruct (leaves_lemma c _ s (le_n _) FI) as (k & s' & evs' & _ & R' & D & X & BL & P & N). exists k, s', evs'. split; [exact R'|]. split; [exact D|].
  intros pos p m AC LT. destruct (run_inv _ _ _ _ _ _ IV R') as [A _ _ M E _]. unfold pending in A. rewrite X in A. cbn in A.
  assert (AC' : In (pos, p, m) (accepted (evs ++ evs'))) by (rewrite accepted_app; apply in_or_app; left; exact AC). rewrite A in AC'. apply in_app_iff in AC'. destruct AC' as [AC'|AC']; [exact AC'|].
  exfalso. assert (GE : forall cells q, In (pos, p, m) (view q cells) -> (q <= pos)%nat).
  { induction cells as [|x cells IH]; intros q IN; [destruct IN|]. destruct IN as [IN|IN]; [injection IN as -> _ _; lia|specialize (IH _ IN); lia]. }
  pose proof (GE _ _ AC') as G. unfold blocked in BL. destruct (j_cells s') as [|[p' m'|p' m'|p' m'] r] eqn:CS; [destruct AC'| |exact BL|].
  - specialize (M p'). rewrite P, ID in M. unfold mine in M. cbn in M. rewrite Nat.eqb_refl in M. discriminate M.
  - assert (T : In (JThrew (j_head s' + 0) p' m') (evs ++ evs')) by (apply E; reflexivity). apply in_app_iff in T. destruct T as [T|T]; [|exact (N _ _ _ T)].
    specialize (LT _ _ _ T). lia.
Qed.
