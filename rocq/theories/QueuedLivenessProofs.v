(** More lemmas about loggers with asynchronous sinks: the destructor can always return. *)
From Verif Require Import Base Values RootModel FactoriesModel SystemModel SystemSpec SystemProofs ThreadsModel ThreadsSpec ThreadsProofs.
From Verif Require Import QueuedModel QueuedSpec QueuedProofs QueuedSubProofs QueuedMoreProofs QueuedEndProofs QueuedWorldProofs QueuedDefinedProofs.
From Verif Require FmtModel AsyncModel AsyncSpec.

(** ---- what the queues of one sink have left to do ---- *)

Definition wc (r : nat) (l : layer) : nat :=
  match l_worker l with
  | Taking => if l_stopped l then 2 else 0
  | Checking None => 1
  | Checking (Some _) => 5 + 7 * r
  | Emitting _ Try => 3 + 7 * r
  | Emitting _ Full => 4 + 7 * r
  | Emitting _ Fill => 3
  | Exited => 0
  end%nat.
Fixpoint lcost (L : list layer) : nat :=
  match L with [] => 0 | l :: L' => wc (length L') l + length (l_queue l) * (6 + 7 * length L') + lcost L' end%nat.

Lemma lcost_app A : forall X X', length X' = length X -> (lcost X' < lcost X)%nat -> (lcost (A ++ X') < lcost (A ++ X))%nat.
Proof. induction A as [|a A IH]; intros X X' L H; [exact H|]. cbn [app lcost]. specialize (IH X X' L H). rewrite !app_length, L. lia. Qed.

Lemma put_at {A} (l : list A) k a x b y : l = a ++ x :: b -> length a = k -> put l k y = a ++ y :: b.
Proof. intros -> <-. apply put_mid. Qed.

Lemma rcount_zero q : (forall who, rcount who q = 0%nat) -> forall who d q', q <> Reserved who d :: q'.
Proof. intros H who d q' ->. specialize (H who). unfold rcount in H. cbn in H. rewrite Nat.eqb_refl in H. discriminate. Qed.

(** Of a queue with something to do, or the ones behind it, some worker can do something, or the next record is not complete yet. *)
Lemma drain (s : state) i j (ok : Prop) : forall B A l (up : Prop) ext, g_queues s i j = A ++ l :: B -> g_dead s = false ->
  tidy ok up ext (l :: B) -> Forall (fun l => 0 < AsyncModel.c_capacity (l_config l))%nat (l :: B) ->
  l_worker l <> Exited -> (l_stopped l = true \/ l_queue l <> [] \/ l_worker l <> Taking) ->
  (forall k, exists s' tr, work s i j k = Some (s', tr)) ->
  (exists k s' tr, work s i j k = Some (s', tr) /\ (g_dead s' = true \/ (lcost (g_queues s' i j) < lcost (g_queues s i j))%nat)) \/
  exists who d q, l_queue l = Reserved who d :: q.
Proof.
  induction B as [|m B IH]; intros A l up ext EQ D T CP NX TODO WK.
  - assert (HN : nth_error (g_queues s i j) (length A) = Some l) by (rewrite EQ; apply nth_mid).
    assert (HM : nth_error (g_queues s i j) (S (length A)) = None) by (rewrite EQ, nth_next; reflexivity).
    assert (GO : forall l' tr, work s i j (length A) = Some (set_layer s i j (length A) l', tr) -> (lcost [l'] < lcost [l])%nat ->
      exists k s' tr, work s i j k = Some (s', tr) /\ (g_dead s' = true \/ (lcost (g_queues s' i j) < lcost (g_queues s i j))%nat)).
    { intros l' tr E H. do 3 eexists. split; [exact E|]. right. rewrite queues_set, at_refl, EQ, put_mid. apply lcost_app; [reflexivity|exact H]. }
    destruct (l_worker l) as [|[d|]|d p|] eqn:EW.
    + destruct (l_queue l) as [|[who d|d] q] eqn:EL.
      * left. apply (GO (set_worker l (Checking None)) []); [unfold work; rewrite HN, EW, EL; reflexivity|]. cbn [lcost]. unfold wc. cbn. rewrite EW, EL.
        destruct TODO as [->|[H|H]]; [cbn; lia|congruence|congruence].
      * right. do 3 eexists. reflexivity.
      * left. apply (GO (set_worker (set_queue l q) (Checking (Some d))) []); [unfold work; rewrite HN, EW, EL; reflexivity|]. cbn [lcost]. unfold wc. cbn. rewrite EW, EL. cbn. destruct (l_stopped l); lia.
    + left. apply (GO (set_worker l (Emitting d Try)) []); [unfold work; rewrite HN, EW; reflexivity|]. cbn [lcost]. unfold wc. cbn. rewrite EW. lia.
    + left. apply (GO (set_worker l (if l_stopped l then Exited else Taking)) []); [unfold work; rewrite HN, EW; reflexivity|]. cbn [lcost]. unfold wc. cbn. rewrite EW. destruct (l_stopped l); lia.
    + left. destruct (WK (length A)) as (s' & tr & E). exists (length A), s', tr. split; [exact E|]. unfold work in E. rewrite HN, EW in E.
      destruct (push s i j (S (length A)) 0 d p) as [[[s1 [p'| |e]] tr1]|] eqn:EP; try discriminate; injection E as <- <-.
      * apply push_pushes in EP. inversion EP; congruence.
      * right. assert (Q1 : g_queues s1 i j = g_queues s i j) by (apply push_pushes in EP; inversion EP; subst; try reflexivity; congruence).
        rewrite queues_set, at_refl, Q1, EQ, put_mid. apply lcost_app; [reflexivity|]. cbn [lcost]. unfold wc. cbn. rewrite EW. destruct p, (l_stopped l); lia.
      * left. reflexivity.
    + contradiction.
  - assert (HN : nth_error (g_queues s i j) (length A) = Some l) by (rewrite EQ; apply nth_mid).
    assert (HM : nth_error (g_queues s i j) (S (length A)) = Some m) by (rewrite EQ, nth_next; reflexivity).
    assert (GO : forall l' m' s' tr, work s i j (length A) = Some (s', tr) -> g_queues s' i j = A ++ l' :: m' :: B -> (lcost (l' :: m' :: B) < lcost (l :: m :: B))%nat ->
      exists k s' tr, work s i j k = Some (s', tr) /\ (g_dead s' = true \/ (lcost (g_queues s' i j) < lcost (g_queues s i j))%nat)).
    { intros l' m' s' tr E Q H. do 3 eexists. split; [exact E|]. right. rewrite Q, EQ. apply lcost_app; [reflexivity|exact H]. }
    assert (SET : forall l', g_queues (set_layer s i j (length A) l') i j = A ++ l' :: m :: B) by (intros l'; rewrite queues_set, at_refl, EQ, put_mid; reflexivity).
    destruct (l_worker l) as [|[d|]|d p|] eqn:EW.
    + destruct (l_queue l) as [|[who d|d] q] eqn:EL.
      * left. eapply GO; [unfold work; rewrite HN, EW, EL; reflexivity|apply SET|]. cbn [lcost length]. unfold wc. cbn [set_worker l_worker l_stopped l_queue]. rewrite EW, EL.
        destruct TODO as [->|[H|H]]; [cbn; lia|congruence|congruence].
      * right. do 3 eexists. reflexivity.
      * left. eapply GO; [unfold work; rewrite HN, EW, EL; reflexivity|apply SET|]. cbn [lcost length]. unfold wc. cbn [set_worker set_queue l_worker l_stopped l_queue length]. rewrite EW, EL. cbn [length].
        destruct (l_stopped l); lia.
    + left. eapply GO; [unfold work; rewrite HN, EW; reflexivity|apply SET|]. cbn [lcost length]. unfold wc. cbn [set_worker l_worker l_stopped l_queue]. rewrite EW. lia.
    + left. eapply GO; [unfold work; rewrite HN, EW; reflexivity|apply SET|]. cbn [lcost length]. unfold wc. cbn [set_worker l_worker l_stopped l_queue]. rewrite EW. destruct (l_stopped l); lia.
    + destruct (le_lt_dec (AsyncModel.c_capacity (l_config m)) (length (l_queue m))) as [FULL|ROOM].
      * destruct p.
        -- (* waiting for room *) left. cbn [tidy] in T. destruct T as (_ & _ & _ & _ & U). rewrite EW in U. pose proof U as (U1 & U2 & U3 & _). inversion CP as [|? ? CP1 CP2]; subst. inversion CP2 as [|? ? CP3 CP4]; subst.
           destruct (IH (A ++ [l]) m (l_worker l = Exited) (fun who => if Nat.eqb who 0 then filling (l_worker l) else 0%nat)) as [R|(who & d' & q & R)]; try assumption.
           ++ rewrite EQ, <- app_assoc. reflexivity.
           ++ rewrite EW. exact U.
           ++ intros X. specialize (U3 (U2 X)). discriminate.
           ++ right; left. intros Z. rewrite Z in FULL. cbn in FULL. lia.
           ++ exfalso. apply (rcount_zero (l_queue m)) with (who := who) (d := d') (q' := q); [|exact R]. intros v. rewrite U1. destruct (Nat.eqb v 0); reflexivity.
        -- (* the cell is filled *) left. eapply GO with (l' := set_worker l Taking) (m' := set_queue m (publish (l_queue m) 0)); [unfold work, push; rewrite HN, EW, HM; reflexivity| |].
           ++ rewrite !queues_set, !at_refl, EQ. rewrite put_next. apply put_mid.
           ++ cbn [lcost length]. unfold wc. cbn [set_worker set_queue l_worker l_stopped l_queue]. rewrite EW, publish_length. destruct (l_stopped l); lia.
        -- left. cbn [tidy] in T. destruct T as (_ & _ & _ & _ & U). rewrite EW in U. pose proof U as (U1 & U2 & U3 & _). inversion CP as [|? ? CP1 CP2]; subst. inversion CP2 as [|? ? CP3 CP4]; subst.
           destruct (IH (A ++ [l]) m (l_worker l = Exited) (fun who => if Nat.eqb who 0 then filling (l_worker l) else 0%nat)) as [R|(who & d' & q & R)]; try assumption.
           ++ rewrite EQ, <- app_assoc. reflexivity.
           ++ rewrite EW. exact U.
           ++ intros X. specialize (U3 (U2 X)). discriminate.
           ++ right; left. intros Z. rewrite Z in FULL. cbn in FULL. lia.
           ++ exfalso. apply (rcount_zero (l_queue m)) with (who := who) (d := d') (q' := q); [|exact R]. intros v. rewrite U1. destruct (Nat.eqb v 0); reflexivity.
      * left. destruct p.
        -- eapply GO with (l' := set_worker l (Emitting d Fill)) (m' := set_queue m (l_queue m ++ [Reserved 0 d])).
           ++ unfold work, push. rewrite HN, EW, HM. apply Nat.ltb_lt in ROOM. rewrite ROOM. reflexivity.
           ++ rewrite !queues_set, !at_refl, EQ. rewrite put_next. apply put_mid.
           ++ cbn [lcost length]. unfold wc at 1 3. cbn [set_worker set_queue l_worker l_stopped l_queue]. rewrite EW, app_length. cbn [length].
              change (wc (length B) (set_queue m (l_queue m ++ [Reserved 0 d]))) with (wc (length B) m). lia.
        -- eapply GO with (l' := set_worker l Taking) (m' := set_queue m (publish (l_queue m) 0)); [unfold work, push; rewrite HN, EW, HM; reflexivity| |].
           ++ rewrite !queues_set, !at_refl, EQ. rewrite put_next. apply put_mid.
           ++ cbn [lcost length]. unfold wc. cbn [set_worker set_queue l_worker l_stopped l_queue]. rewrite EW, publish_length. destruct (l_stopped l); lia.
        -- destruct (AsyncModel.c_policy (l_config m)) eqn:PO.
           ++ eapply GO; [unfold work, push; rewrite HN, EW, HM, PO; reflexivity|apply SET|]. cbn [lcost length]. unfold wc. cbn [set_worker l_worker l_stopped l_queue]. rewrite EW. destruct (l_stopped l); lia.
           ++ eapply GO; [unfold work, push; rewrite HN, EW, HM, PO; reflexivity|apply SET|]. cbn [lcost length]. unfold wc. cbn [set_worker l_worker l_stopped l_queue]. rewrite EW. destruct (l_stopped l); lia.
    + contradiction.
Qed.

(** ---- sums ---- *)

Fixpoint sum (n : nat) (f : nat -> nat) : nat := match n with O => 0 | S n' => f n' + sum n' f end%nat.
Lemma sum_le n f g : (forall x, (x < n)%nat -> (f x <= g x)%nat) -> (sum n f <= sum n g)%nat.
Proof. induction n as [|n IH]; intros H; cbn; [lia|]. specialize (IH (fun x L => H x (Nat.lt_lt_succ_r _ _ L))). specialize (H n (Nat.lt_succ_diag_r n)). lia. Qed.
Lemma sum_lt n f g p : (forall x, (x < n)%nat -> (f x <= g x)%nat) -> (p < n)%nat -> (f p < g p)%nat -> (sum n f < sum n g)%nat.
Proof.
  induction n as [|n IH]; intros H L P; cbn; [lia|]. destruct (Nat.eq_dec p n) as [->|NE].
  - pose proof (sum_le n f g (fun x L => H x (Nat.lt_lt_succ_r _ _ L))). lia.
  - assert ((p < n)%nat) by lia. specialize (IH (fun x L => H x (Nat.lt_lt_succ_r _ _ L)) H0 P). specialize (H n (Nat.lt_succ_diag_r n)). lia.
Qed.
Lemma sum_add n f g p d : (forall x, (x < n)%nat -> (f x <= g x + if Nat.eqb x p then d else 0)%nat) -> (sum n f <= sum n g + d)%nat.
Proof.
  induction n as [|n IH]; intros H; cbn; [lia|]. destruct (Nat.eq_dec n p) as [->|NE].
  - assert ((sum p f <= sum p g)%nat). { apply sum_le. intros x L. specialize (H x (Nat.lt_lt_succ_r _ _ L)). destruct (Nat.eqb_spec x p); lia. }
    specialize (H p (Nat.lt_succ_diag_r p)). rewrite Nat.eqb_refl in H. lia.
  - specialize (IH (fun x L => H x (Nat.lt_lt_succ_r _ _ L))). specialize (H n (Nat.lt_succ_diag_r n)). destruct (Nat.eqb_spec n p); [contradiction|]. lia.
Qed.
Lemma sum_one n f p : (p < n)%nat -> (f p <= sum n f)%nat.
Proof. induction n as [|n IH]; intros L; [lia|]. cbn. destruct (Nat.eq_dec p n) as [->|NE]; [lia|]. assert ((p < n)%nat) by lia. specialize (IH H). lia. Qed.

Lemma list_sum_put (f : qthread -> nat) : forall l k x y, nth_error l k = Some x -> (list_sum (map f (put l k y)) + f x = list_sum (map f l) + f y)%nat.
Proof.
  induction l as [|z l IH]; intros [|k] x y E; try discriminate E.
  - cbn in E. injection E as ->. cbn [put map list_sum fold_right]. lia.
  - cbn in E. cbn [put map list_sum fold_right]. specialize (IH k x y E). unfold list_sum in IH. lia.
Qed.

(** ---- what a thread has left to do; [m] bounds what a record in a queue adds ---- *)

Section Cost.
Variable m : nat.
Definition price : nat := (m + 10)%nat.
Fixpoint qcosts (l : list nat) : nat := match l with [] => 0 | x :: l' => x * price + 10 + qcosts l' end%nat.
Definition less (p : pushing) : nat := match p with Full => 0 | Try => 1 | Fill => m + 2 end%nat.
Definition qstage_cost (l : list nat) (st : qstage) : nat :=
  match st with
  | QIdle => 0
  | QHandling _ _ i => 1 + qcosts (skipn i l)
  | QSinking _ _ i _ j p => ((nth i l 0 - j) * price - less p) + 8 + qcosts (skipn (S i) l)
  | QPrinting _ _ i ps => length ps + 2 + qcosts (skipn (S i) l)
  end%nat.
Definition qcost (l : list nat) (x : qthread) : nat := (length (q_calls x) * (2 + qcosts l) + qstage_cost l (q_stage x))%nat.
End Cost.

(** A thread at a full queue. *)
Definition blocked (s : state) (st : qstage) (i j : nat) : Prop :=
  exists c r text p l, st = QSinking c r i text j p /\ p <> Fill /\ nth_error (g_queues s i j) 0 = Some l /\ (AsyncModel.c_capacity (l_config l) <= length (l_queue l))%nat.

Section Runs.
Variable dbl : FmtModel.spec -> N -> bytes.
Variable dbl_json : N -> bytes.
Variable double_of : bytes -> N.
Variable what : FmtModel.error -> bytes.
Variable json_fmt : bytes -> value -> option bytes.
Notation advance := (advance dbl dbl_json double_of what json_fmt).
Notation advances := (advances dbl dbl_json double_of what json_fmt).
Notation step := (step dbl dbl_json double_of what json_fmt).
Notation run := (run dbl dbl_json double_of what json_fmt).
Notation render := (render dbl dbl_json double_of what json_fmt).

Ltac blur := repeat match goal with |- context [((?a - ?b) * price ?m)%nat] => generalize ((a - b) * price m)%nat end.

(** A step of a thread that is not blocked: it has less left to do, by more than what it puts into a queue. *)
Lemma advances_cost m s t now x s' tr x' : advances s t now x s' tr -> nth_error (g_threads s) t = Some x -> nth_error (g_threads s') t = Some x' ->
  idle x = false -> (forall i j, ~ blocked s (q_stage x) i j) -> (forall i j, 6 + 7 * length (g_queues s i j) <= m)%nat ->
  exists a b d, (qcost m (sizes (g_sinks s)) x' + d < qcost m (sizes (g_sinks s)) x)%nat /\
    (lcost (g_queues s' a b) <= lcost (g_queues s a b) + d)%nat /\ forall i j, at_ i j a b = false -> g_queues s' i j = g_queues s i j.
Proof.
  intros AD HX HX' NI NB MB.
  assert (TH : forall s0 y, g_threads s0 = g_threads s -> nth_error (g_threads (set_thread s0 t y)) t = Some x' -> x' = y).
  { intros s0 y E H. cbn [set_thread g_threads] in H. rewrite E, (put_same _ _ _ _ HX) in H. congruence. }
  assert (SIZE : forall i j, lookup (g_sinks s) i j <> None -> (j < nth i (sizes (g_sinks s)) 0)%nat).
  { intros i j H. unfold lookup in H. destruct (nth_error (g_sinks s) i) as [[f l]|] eqn:EW; [|contradiction].
    assert (ES : nth_error (sizes (g_sinks s)) i = Some (length l)) by (unfold sizes; rewrite nth_error_map, EW; reflexivity).
    rewrite (nth_error_nth _ _ 0%nat ES). apply nth_error_Some. exact H. }
  assert (SPARE : forall i j p, lookup (g_sinks s) i j <> None -> ((nth i (sizes (g_sinks s)) 0 - S j) * price m + 8 <= (nth i (sizes (g_sinks s)) 0 - j) * price m - less m p)%nat).
  { intros i j p H. specialize (SIZE i j H). replace (nth i (sizes (g_sinks s)) 0 - j)%nat with (S (nth i (sizes (g_sinks s)) 0 - S j)) by lia. cbn [Nat.mul]. unfold price. destruct p; cbn [less]; lia. }
  assert (SAME : forall s1, s1 = s -> forall i j, g_queues s1 i j = g_queues s i j) by (intros s1 ->; reflexivity).
  destruct AD as [H1 H2|c rest e H1 H2 H3|c rest m0 H1 H2 H3|c r i H1 H2|c r i f l e H1 H2 H3|c r i f l text H1 H2 H3|c r i text j p H1 H2
    |c r i text j p s1 p' tr H1 H2 P|c r i text j p s1 tr H1 H2 P|c r i text j p s1 e tr H1 H2 P|c r i H1|c r i p rest H1].
  - unfold idle in NI. rewrite H1, H2 in NI. discriminate.
  - exists 0%nat, 0%nat, 0%nat. rewrite (TH s _ eq_refl HX'). split; [|split; [cbn [set_thread g_queues]; lia|reflexivity]].
    unfold qcost. rewrite H1, H2. cbn [q_calls q_stage length qstage_cost]. lia.
  - exists 0%nat, 0%nat, 0%nat. rewrite (TH s _ eq_refl HX'). split; [|split; [cbn [set_thread g_queues]; lia|reflexivity]].
    unfold qcost. rewrite H1, H2. cbn [q_calls q_stage length qstage_cost skipn]. lia.
  - exists 0%nat, 0%nat, 0%nat. rewrite (TH s _ eq_refl HX'). split; [|split; [cbn [set_thread g_queues]; lia|reflexivity]].
    unfold qcost. rewrite H1. cbn [q_calls q_stage length qstage_cost skipn]. lia.
  - exists 0%nat, 0%nat, 0%nat. rewrite (TH s _ eq_refl HX'). split; [|split; [cbn [set_thread g_queues]; lia|reflexivity]].
    assert (ES : nth_error (sizes (g_sinks s)) i = Some (length l)) by (unfold sizes; rewrite nth_error_map, H2; reflexivity).
    unfold qcost. rewrite H1. cbn [q_calls q_stage length qstage_cost]. rewrite (skipn_nth _ _ _ ES). cbn [qcosts]. pose proof (ThreadsProofs.pieces_length dbl dbl_json double_of json_fmt e). lia.
  - exists 0%nat, 0%nat, 0%nat. rewrite (TH s _ eq_refl HX'). split; [|split; [cbn [set_thread g_queues]; lia|reflexivity]].
    assert (ES : nth_error (sizes (g_sinks s)) i = Some (length l)) by (unfold sizes; rewrite nth_error_map, H2; reflexivity).
    unfold qcost. rewrite H1. cbn [q_calls q_stage length qstage_cost less]. rewrite (skipn_nth _ _ _ ES), (nth_error_nth _ _ 0%nat ES), Nat.sub_0_r. cbn [qcosts]. lia.
  - exists 0%nat, 0%nat, 0%nat. rewrite (TH s _ eq_refl HX'). split; [|split; [cbn [set_thread g_queues]; lia|reflexivity]].
    unfold qcost. rewrite H1. cbn [q_calls q_stage length qstage_cost]. lia.
  - destruct (pushes_rest _ _ _ _ _ _ _ _ _ _ P) as (R1 & _). rewrite (TH s1 _ R1 HX'). pose proof (SPARE i j Full H2) as SP. pose proof (SPARE i j Fill H2) as SP'. cbn [less] in SP, SP'.
    inversion P as [|?|?|l HN HC|l HN HC| |l HN HP|]; subst.
    + exists i, j, m. split.
      * unfold qcost. rewrite H1. cbn [q_calls q_stage qstage_cost less]. revert SP SP'. blur; intros; lia.
      * split; [|intros a b NE; cbn [set_thread g_queues]; rewrite queues_set, NE; reflexivity].
        cbn [set_thread g_queues]. rewrite queues_set, at_refl. specialize (MB i j). destruct (g_queues s i j) as [|l0 B]; [discriminate|]. cbn in HN. injection HN as ->. cbn [put lcost set_queue l_queue].
        change (wc (length B) (set_queue l (l_queue l ++ [Reserved t (Delivery t (e_tty (c_env c)) (r_severity r) text (c_circumstances c i j))]))) with (wc (length B) l).
        rewrite app_length. cbn [length] in *. lia.
    + exfalso. apply (NB i j). exists c, r, text, Try, l. split; [exact H1|]. split; [discriminate|]. auto.
    + exists i, j, 0%nat. split; [|split; [cbn [set_thread g_queues]; lia|reflexivity]]. unfold qcost. rewrite H1. cbn [q_calls q_stage qstage_cost less]. revert SP SP'. blur; intros; lia.
  - destruct (pushes_rest _ _ _ _ _ _ _ _ _ _ P) as (R1 & _). rewrite (TH s1 _ R1 HX'). pose proof (SPARE i j p H2) as SP.
    exists i, j, 0%nat. split; [unfold qcost; rewrite H1; cbn [q_calls q_stage qstage_cost less]; change (less m Try) with 1%nat in *; revert SP; blur; intros; lia|]. cbn [set_thread g_queues].
    split; [|intros a b NE; exact (pushes_queues _ _ _ _ _ _ _ _ _ _ P a b NE)].
    inversion P as [|?|? y w y' HN HL HE0| | |l HN| |l HN HP]; subst.
    + lia.
    + cbn. lia.
    + rewrite queues_set, at_refl. destruct (g_queues s i j) as [|l0 B]; [discriminate|]. cbn in HN. injection HN as ->. cbn [put lcost set_queue l_queue]. rewrite publish_length.
      change (wc (length B) (set_queue l (publish (l_queue l) t))) with (wc (length B) l). lia.
    + lia.
  - destruct (pushes_rest _ _ _ _ _ _ _ _ _ _ P) as (R1 & _). rewrite (TH s1 _ R1 HX'). pose proof (SPARE i j p H2) as SP. pose proof (ThreadsProofs.pieces_length dbl dbl_json double_of json_fmt e).
    exists i, j, 0%nat. split; [unfold qcost; rewrite H1; cbn [q_calls q_stage qstage_cost less]; change (less m Try) with 1%nat in *; revert SP; blur; intros; lia|]. cbn [set_thread g_queues].
    split; [|intros a b NE; exact (pushes_queues _ _ _ _ _ _ _ _ _ _ P a b NE)]. inversion P; subst. cbn. lia.
  - exists 0%nat, 0%nat, 0%nat. rewrite (TH s _ eq_refl HX'). split; [|split; [cbn [set_thread g_queues]; lia|reflexivity]].
    unfold qcost. rewrite H1. cbn [q_calls q_stage length qstage_cost]. lia.
  - exists 0%nat, 0%nat, 0%nat. rewrite (TH (set_base s _ _) _ eq_refl HX'). split; [|split; [cbn [set_thread set_base g_queues]; lia|reflexivity]].
    unfold qcost. rewrite H1. cbn [q_calls q_stage length qstage_cost]. lia.
Qed.

Variable hs : list FactoriesModel.handler.
Hypothesis rooms : forall i j c, In c (layers_at hs i j) -> (0 < AsyncModel.c_capacity c)%nat.

Definition handlers_n : nat := length hs.
Definition sinks_n : nat := list_max (map (fun h => match h with HBlocking _ sinks => length sinks end) hs).
Definition all_layers : nat := sum handlers_n (fun i => sum sinks_n (fun j => length (layers_at hs i j))).
Definition bound : nat := (6 + 7 * all_layers)%nat.
Definition queue_cost (s : state) : nat := sum handlers_n (fun i => sum sinks_n (fun j => lcost (g_queues s i j))).
Definition total (s : state) : nat := (list_sum (map (qcost bound (sizes (g_sinks s))) (g_threads s)) + queue_cost s + 4 * length (g_todo s))%nat.

Lemma outside i j : layers_at hs i j <> [] -> (i < handlers_n)%nat /\ (j < sinks_n)%nat.
Proof.
  unfold layers_at, handlers_n, sinks_n. intros H. destruct (nth_error hs i) as [[f sinks]|] eqn:E; [|contradiction]. destruct (nth_error sinks j) eqn:E'; [|contradiction].
  split; [apply nth_error_Some; congruence|]. assert (L : (j < length sinks)%nat) by (apply nth_error_Some; congruence).
  pose proof (proj1 (list_max_le (map (fun h => match h with HBlocking _ sinks => length sinks end) hs) _) (Nat.le_refl _)) as F. rewrite Forall_forall in F.
  specialize (F (length sinks)). eapply Nat.lt_le_trans; [exact L|]. apply F. apply in_map_iff. exists (HBlocking f sinks). split; [reflexivity|exact (nth_error_In _ _ E)].
Qed.
Lemma bounded i j : (6 + 7 * length (layers_at hs i j) <= bound)%nat.
Proof.
  unfold bound. destruct (layers_at hs i j) as [|c l] eqn:E; [cbn; lia|]. destruct (outside i j) as [LI LJ]; [congruence|].
  pose proof (sum_one sinks_n (fun j => length (layers_at hs i j)) j LJ) as P1. pose proof (sum_one handlers_n (fun i => sum sinks_n (fun j => length (layers_at hs i j))) i LI) as P2.
  cbn beta in P1, P2. rewrite E in P1. unfold all_layers. lia.
Qed.

(** The queues of one sink get more, or less. *)
Lemma queue_cost_add s s' a b d : (lcost (g_queues s' a b) <= lcost (g_queues s a b) + d)%nat -> (forall i j, at_ i j a b = false -> g_queues s' i j = g_queues s i j) ->
  (queue_cost s' <= queue_cost s + d)%nat.
Proof.
  intros H E. unfold queue_cost. apply sum_add with (p := a). intros i _. destruct (Nat.eqb_spec i a) as [->|NE].
  - apply sum_add with (p := b). intros j _. destruct (Nat.eqb_spec j b) as [->|NE]; [exact H|]. rewrite E; [lia|]. unfold at_. apply Nat.eqb_neq in NE. rewrite NE, andb_false_r. reflexivity.
  - rewrite Nat.add_0_r. apply sum_le. intros j _. rewrite E; [lia|]. unfold at_. apply Nat.eqb_neq in NE. rewrite NE. reflexivity.
Qed.
Lemma queue_cost_less s s' a b : (lcost (g_queues s' a b) < lcost (g_queues s a b))%nat -> (forall i j, at_ i j a b = false -> g_queues s' i j = g_queues s i j) ->
  (a < handlers_n)%nat -> (b < sinks_n)%nat -> (queue_cost s' < queue_cost s)%nat.
Proof.
  intros H E LA LB. unfold queue_cost. apply sum_lt with (p := a); [|exact LA|].
  - intros i _. destruct (Nat.eq_dec i a) as [->|NE].
    + apply sum_le. intros j _. destruct (Nat.eq_dec j b) as [->|NE]; [lia|]. rewrite E; [lia|]. unfold at_. apply Nat.eqb_neq in NE. rewrite NE, andb_false_r. reflexivity.
    + apply sum_le. intros j _. rewrite E; [lia|]. unfold at_. apply Nat.eqb_neq in NE. rewrite NE. reflexivity.
  - apply sum_lt with (p := b); [|exact LB|exact H]. intros j _. destruct (Nat.eq_dec j b) as [->|NE]; [lia|]. rewrite E; [lia|]. unfold at_. apply Nat.eqb_neq in NE. rewrite NE, andb_false_r. reflexivity.
Qed.

Definition progress (s : state) : Prop := exists a s' tr, step s a = Some (s', tr) /\ (g_dead s' = true \/ (total s' < total s)%nat).

Lemma work_progress s i j k s' tr : placed s -> g_dead s = false -> (i < handlers_n)%nat -> (j < sinks_n)%nat -> work s i j k = Some (s', tr) ->
  (g_dead s' = true \/ (lcost (g_queues s' i j) < lcost (g_queues s i j))%nat) -> progress s.
Proof.
  intros PL D LI LJ E H. exists (Worker i j k), s', tr. split; [unfold QueuedModel.step; rewrite D; exact E|]. destruct H as [H|H]; [left; exact H|right].
  destruct (work_local _ _ _ _ _ _ E PL D) as (_ & Q & T & TD & SH & _). unfold total. rewrite T, TD, (shape_sizes _ _ SH). pose proof (queue_cost_less _ _ _ _ H Q LI LJ). lia.
Qed.

Lemma user_progress s t x : placed s -> g_dead s = false -> nth_error (g_threads s) t = Some x -> (exists s' tr, advance s t 0%Z x = Some (s', tr)) ->
  (forall i j, length (g_queues s i j) = length (layers_at hs i j)) ->
  idle x = false -> (forall i j, ~ blocked s (q_stage x) i j) -> progress s.
Proof.
  intros PL D HX (s' & tr & E) LN NI NB. exists (User t 0), s', tr. split; [unfold QueuedModel.step; rewrite D, HX; exact E|]. right. apply advance_advances in E.
  destruct (advances_local _ _ _ _ _ _ _ _ _ _ _ E PL D) as (TD & _ & SH & T & _).
  assert (T' : exists x', nth_error (g_threads s') t = Some x' /\ g_threads s' = put (g_threads s) t x').
  { destruct T as [->|[x' ->]].
    - exists x. split; [exact HX|]. destruct (put_split x x _ _ HX) as (a & b & -> & <- & ->). reflexivity.
    - exists x'. split; [exact (put_same _ _ _ _ HX)|reflexivity]. }
  destruct T' as (x' & HX' & TE). destruct (advances_cost bound _ _ _ _ _ _ _ E HX HX' NI NB) as (a & b & d & C1 & C2 & C3).
  { intros i j. rewrite LN. apply bounded. }
  unfold total. rewrite TD, TE, (shape_sizes _ _ SH). pose proof (list_sum_put (qcost bound (sizes (g_sinks s))) _ _ _ x' HX) as LS. pose proof (queue_cost_add _ _ _ _ _ C2 C3). lia.
Qed.

Lemma tidy_nth (ok : Prop) : forall A (up : Prop) ext l B, tidy ok up ext (A ++ l :: B) -> exists (up' : Prop) ext', tidy ok up' ext' (l :: B) /\
  match rev A with [] => (up' <-> up) /\ ext' = ext | a :: _ => (up' <-> l_worker a = Exited) /\ ext' = (fun who => if Nat.eqb who 0 then filling (l_worker a) else 0%nat) end.
Proof.
  induction A as [|a A IH]; intros up ext l B T.
  - exists up, ext. split; [exact T|]. split; [reflexivity|reflexivity].
  - cbn [app tidy] in T. destruct T as (_ & _ & _ & _ & T). destruct (IH _ _ _ _ T) as (up' & ext' & T' & H). exists up', ext'. split; [exact T'|]. cbn [rev].
    destruct (rev A) as [|z Z]; exact H.
Qed.

Lemma never_stuck s tr : fine dbl dbl_json double_of what json_fmt hs s tr -> orderly hs s tr -> (forall i j, map l_config (g_queues s i j) = layers_at hs i j) ->
  g_dead s = false -> progress s \/ destroyed s.
Proof.
  intros FI (PL & LN & OR) CF D. destruct (OR D) as [TO TI]. pose proof FI as (_ & SH & GT & FL).
  assert (WK : forall i j k, exists s' tr, work s i j k = Some (s', tr)) by (intros; exact (work_some _ _ _ _ FL)).
  assert (CP : forall i j A l B, g_queues s i j = A ++ l :: B -> Forall (fun l => 0 < AsyncModel.c_capacity (l_config l))%nat (l :: B)).
  { intros i j A l B E. apply Forall_forall. intros m Hm. apply (rooms i j). rewrite <- CF, E. apply in_map. apply in_or_app. right; exact Hm. }
  assert (PLACE : forall i j A l B, g_queues s i j = A ++ l :: B -> (i < handlers_n)%nat /\ (j < sinks_n)%nat).
  { intros i j A l B E. apply outside. rewrite <- CF, E. destruct A; discriminate. }
  destruct (forallb idle (g_threads s)) eqn:AI.
  - destruct (g_todo s) as [|x rest] eqn:EX.
    + right. split; [|split; assumption]. apply Forall_forall. intros x Hx. apply idle_stage. rewrite forallb_forall in AI. exact (AI x Hx).
    + left. destruct x as [i j k|i j k].
      * exists Destroyer. destruct (nth_error (g_queues s i j) k) as [l|] eqn:EL.
        -- do 2 eexists. split; [unfold QueuedModel.step, destroy; rewrite D, AI, EX, EL; reflexivity|]. right. unfold total. cbn [set_todo set_layer g_threads g_sinks g_todo]. rewrite EX. cbn [length].
           match goal with |- (_ + queue_cost ?s1 + _ < _)%nat => assert (H : (queue_cost s1 <= queue_cost s + 2)%nat); [|lia] end.
           apply queue_cost_add with (a := i) (b := j); [|intros a b NE; cbn [set_todo g_queues]; rewrite queues_set, NE; reflexivity].
           cbn [set_todo g_queues]. rewrite queues_set, at_refl. clear -EL. revert EL. generalize (g_queues s i j). intros L. revert k. induction L as [|y L IH]; intros [|k] EL; try discriminate EL; cbn [put lcost].
           ++ cbn in EL. injection EL as ->. cbn [l_queue]. unfold wc. cbn [l_worker l_stopped]. destruct (l_worker l) as [|[d|]|d []|], (l_stopped l); lia.
           ++ cbn in EL. rewrite put_length. specialize (IH k EL). lia.
        -- do 2 eexists. split; [unfold QueuedModel.step, destroy; rewrite D, AI, EX, EL; reflexivity|]. right. unfold total. cbn [set_todo g_threads g_sinks g_todo]. rewrite EX. cbn [length].
           change (queue_cost (set_todo s rest)) with (queue_cost s). lia.
      * destruct (nth_error (g_queues s i j) k) as [l|] eqn:EL.
        2:{ exists Destroyer. do 2 eexists. split; [unfold QueuedModel.step, destroy; rewrite D, AI, EX, EL; reflexivity|]. right. unfold total. cbn [set_todo g_threads g_sinks g_todo]. rewrite EX. cbn [length].
            change (queue_cost (set_todo s rest)) with (queue_cost s). lia. }
        assert (EXITED : l_worker l = Exited -> progress s).
        { intros EW. exists Destroyer. do 2 eexists. split; [unfold QueuedModel.step, destroy; rewrite D, AI, EX, EL, EW; reflexivity|]. right. unfold total. cbn [set_todo g_threads g_sinks g_todo]. rewrite EX. cbn [length].
          change (queue_cost (set_todo s rest)) with (queue_cost s). lia. }
        destruct (nth_error_split _ _ EL) as (A & B & EQ & LA). destruct (PLACE _ _ _ _ _ EQ) as [LI LJ].
        assert (NX : l_worker l = Exited \/ l_worker l <> Exited) by (destruct (l_worker l); [right; discriminate..|left; reflexivity]). destruct NX as [EW|NX]; [exact (EXITED EW)|].
        assert (ST : l_stopped l = true).
        { destruct (TO i j) as (done & ETD & HS & _). rewrite EX in ETD. cbn [filter task_at] in ETD. rewrite at_refl in ETD.
          assert (HI : In (Stop i j k) done).
          { clear HS. revert ETD. unfold tasks. generalize 0%nat. revert done. induction (length (layers_at hs i j)) as [|n IH]; intros done z ETD; cbn [seq flat_map app] in ETD; [destruct done; discriminate|].
            destruct done as [|a [|b done]]; cbn in ETD.
            - discriminate.
            - injection ETD as -> E2 E3. left. congruence.
            - injection ETD as -> -> ETD. right; right. exact (IH done (S z) ETD). }
          destruct (HS k HI) as (l' & HN & HT). rewrite EL in HN. injection HN as <-. exact HT. }
        specialize (TI i j). rewrite EQ in TI. destruct (tidy_nth _ _ _ _ _ _ TI) as (up' & ext' & T' & H).
        destruct (drain s i j _ B A l up' ext' EQ D T' (CP _ _ _ _ _ EQ) NX (or_introl ST) (WK i j)) as [(k' & s' & tr' & E & R)|(who & d & q & R)]; [exact (work_progress _ _ _ _ _ _ PL D LI LJ E R)|].
        exfalso. apply (rcount_zero (l_queue l)) with (who := who) (d := d) (q' := q); [|exact R]. intros v. rewrite (proj1 T' v). destruct (rev A) as [|a Z] eqn:ER.
        -- destruct H as [_ ->]. apply idle_ext. exact AI.
        -- destruct H as [HU ->]. destruct T' as (_ & _ & T3 & _). apply HU in T3; [|exact ST]. rewrite T3. destruct (Nat.eqb v 0); reflexivity.
  - left. assert (NI : exists t x, nth_error (g_threads s) t = Some x /\ idle x = false).
    { clear -AI. induction (g_threads s) as [|x l IH]; [discriminate|]. cbn in AI. destruct (idle x) eqn:E; [|exists 0%nat, x; auto]. destruct (IH AI) as (t & y & H1 & H2). exists (S t), y. auto. }
    destruct NI as (t & x & HX & NI).
    assert (RUNS : forall t x, nth_error (g_threads s) t = Some x -> exists s' tr, advance s t 0%Z x = Some (s', tr)) by (intros u y HY; exact (advance_defined _ _ _ _ _ _ _ _ _ _ SH (GT _ _ HY))).
    assert (BL : (exists i j, blocked s (q_stage x) i j) \/ forall i j, ~ blocked s (q_stage x) i j).
    { destruct (q_stage x) as [|c r i|c r i text j p|c r i ps]; try (right; intros a b (c' & r' & t' & p' & l' & H & _); discriminate).
      destruct (nth_error (g_queues s i j) 0) as [l|] eqn:EL.
      - destruct p; [| right; intros a b (c' & r' & t' & p' & l' & H & H' & _); injection H; congruence|];
          (destruct (le_lt_dec (AsyncModel.c_capacity (l_config l)) (length (l_queue l))) as [F|F];
           [left; exists i, j; do 4 eexists; exists l; split; [reflexivity|]; split; [discriminate|]; auto
           |right; intros a b (c' & r' & t' & p' & l' & H & _ & H1 & H2); injection H as <- <- <- <- <- <-; rewrite EL in H1; injection H1 as <-; lia]).
      - right. intros a b (c' & r' & t' & p' & l' & H & _ & H1 & H2). injection H as <- <- <- <- <- <-. congruence. }
    destruct BL as [(i & j & c & r & text & p & l & HS & NF & HN & FULL)|NB]; [|exact (user_progress s t x PL D HX (RUNS _ _ HX) LN NI NB)].
    destruct (g_queues s i j) as [|l0 B] eqn:EQ; [discriminate|]. cbn in HN. injection HN as ->. destruct (PLACE i j [] l B EQ) as [LI LJ].
    pose proof (TI i j) as T. rewrite EQ in T. pose proof T as (T1 & T2 & T3 & _). pose proof (CP i j [] l B EQ) as CPL.
    assert (NX : l_worker l <> Exited). { intros X. specialize (T3 (T2 X)). unfold all_idle_b in T3. congruence. }
    assert (NE : l_queue l <> []). { intros Z. rewrite Z in FULL. inversion CPL; subst. cbn in FULL. lia. }
    destruct (drain s i j _ B [] l _ _ EQ D T CPL NX (or_intror (or_introl NE)) (WK i j)) as [(k' & s' & tr' & E & R)|(who & d & q & R)]; [exact (work_progress _ _ _ _ _ _ PL D LI LJ E R)|].
    specialize (T1 who). rewrite R in T1. unfold rcount in T1. cbn in T1. rewrite Nat.eqb_refl in T1. cbn in T1. unfold ext in T1. destruct (nth_error (g_threads s) who) as [y|] eqn:HY; [|discriminate].
    unfold fillc in T1. destruct (q_stage y) as [|c' r' i'|c' r' i' text' j' p'|c' r' i' ps'] eqn:EY; try discriminate. destruct p'; try discriminate.
    apply (user_progress s who y PL D HY (RUNS _ _ HY) LN).
    + unfold idle. rewrite EY. destruct (q_calls y); reflexivity.
    + intros a b (c2 & r2 & t2 & p2 & l2 & H & H' & _). rewrite EY in H. injection H as _ _ _ _ _ <-. contradiction.
Qed.

Variables (ws : list working) (w : world) (programs : list (list call)) (sched : list action) (s : state) (tr : list happening).
Hypothesis started : start_handlers (map strip hs) = Some ws.
Hypothesis sound : forall calls c now r f i, In calls programs -> In c calls -> record_of (stamp c now) r -> formatter_at hs i f ->
  match render f (c_env c) r with Text t => (Z.of_nat (length t) < 2 ^ 31)%Z | Raises _ => True | SystemModel.Undefined => False end.
Hypothesis ran : run (initial w hs ws programs) sched = Some (s, tr).

Lemma queued_ends : exists more s' tr', run s more = Some (s', tr') /\ (destroyed s' \/ g_dead s' = true).
Proof.
  assert (GO : forall n s tr, (total s <= n)%nat -> fine dbl dbl_json double_of what json_fmt hs s tr -> orderly hs s tr -> (forall i j, map l_config (g_queues s i j) = layers_at hs i j) ->
    exists more s' tr', run s more = Some (s', tr') /\ (destroyed s' \/ g_dead s' = true)).
  { induction n as [|n IH]; intros s0 tr0 LE FI OR CF; (destruct (g_dead s0) eqn:D; [exists [], s0, []; split; [reflexivity|right; exact D]|]);
      (destruct (never_stuck s0 tr0 FI OR CF D) as [(a & s1 & tr1 & E & H)|H]; [|exists [], s0, []; split; [reflexivity|left; exact H]]);
      (destruct H as [H|H]; [exists [a], s1, (tr1 ++ []); cbn [QueuedModel.run]; rewrite E; split; [reflexivity|right; exact H]|]).
    - lia.
    - destruct (IH s1 (tr0 ++ tr1)) as (more & s2 & tr2 & ER & R).
      + lia.
      + exact (fine_step _ _ _ _ _ _ _ _ _ _ _ FI E).
      + exact (orderly_step _ _ _ _ _ _ _ _ _ _ _ OR E).
      + intros i j. destruct FI as (PL & _). destruct (step_local _ _ _ _ _ _ _ _ _ E PL) as [_ LS]. destruct (LS i j) as (o & b & HL & _). rewrite (lstep_configs _ _ _ _ _ HL). apply CF.
      + exists (a :: more), s2, (tr1 ++ tr2). cbn [QueuedModel.run]. rewrite E, ER. auto. }
  apply (GO (total s) s tr); [lia| | |].
  - refine (run_keeps _ _ _ _ _ (fine dbl dbl_json double_of what json_fmt hs) (fun s tr a s' tr' A E => fine_step _ _ _ _ _ hs s tr a s' tr' A E) sched _ [] s tr _ ran).
    exact (fine_initial _ _ _ _ _ hs ws w programs started sound).
  - exact (run_orderly _ _ _ _ _ hs ws w programs sched s tr started ran).
  - destruct (run_ok _ _ _ _ _ hs ws w programs sched s tr started ran) as (_ & CF & _). exact CF.
Qed.
End Runs.

(** Whatever wraps it: each sink has an end. *)
Lemma queued_starts hs : exists ws, start_handlers (map strip hs) = Some ws.
Proof.
  assert (ONE : forall x, exists l, start (core x) = Some l) by (induction x as [| | | | | |x IH c]; cbn; try (eexists; reflexivity); exact IH).
  assert (ALL : forall l, exists r, start_all (map core l) = Some r).
  { induction l as [|x l [r IH]]; [exists []; reflexivity|]. destruct (ONE x) as [y E]. exists (y :: r). cbn. rewrite E, IH. reflexivity. }
  induction hs as [|[f sinks] hs [r IH]]; [exists []; reflexivity|]. destruct (ALL sinks) as [l E]. exists ((f, l) :: r). cbn. rewrite E, IH. reflexivity.
Qed.

Section Dead.
Variable dbl : FmtModel.spec -> N -> bytes.
Variable dbl_json : N -> bytes.
Variable double_of : bytes -> N.
Variable what : FmtModel.error -> bytes.
Variable json_fmt : bytes -> value -> option bytes.
Notation step := (step dbl dbl_json double_of what json_fmt).
Notation run := (run dbl dbl_json double_of what json_fmt).

(** Only an exception of a wrapped sink ends the process. *)
Lemma queued_dead hs ws w programs sched s tr : start_handlers (map strip hs) = Some ws -> run (initial w hs ws programs) sched = Some (s, tr) -> g_dead s = true ->
  exists i j k d e, In (Reached i j d true) tr /\ In (Terminated i j k e) tr /\ layers_at hs i j <> [].
Proof.
  intros ST. pose (P := fun (s : state) (tr : list happening) => (placed s /\ forall i j, length (g_queues s i j) = length (layers_at hs i j)) /\
    (g_dead s = true -> exists i j k d e, In (Reached i j d true) tr /\ In (Terminated i j k e) tr /\ layers_at hs i j <> [])).
  intros R. enough (H : P s ([] ++ tr)) by exact (proj2 H). revert R. apply run_keeps; [|split; [split; [exact (initial_placed _ _ _ _ ST)|intros i j; cbn; apply map_length]|discriminate]].
  clear s tr. intros s tr a s' tr' [[PL LN] HP] E. pose proof (step_placed _ _ _ _ _ _ _ _ _ E PL) as PL'. destruct (step_local _ _ _ _ _ _ _ _ _ E PL) as [_ LS].
  split; [split; [exact PL'|]|].
  { intros i j. destruct (LS i j) as (o & b & HL & _). rewrite <- LN. rewrite <- !(map_length l_config). rewrite (lstep_configs _ _ _ _ _ HL). reflexivity. }
  intros D'. unfold QueuedModel.step in E. destruct (g_dead s) eqn:D.
  { destruct (HP eq_refl) as (i & j & k & d & e & H1 & H2 & H3). exists i, j, k, d, e. rewrite !in_app_iff. auto. }
  destruct a as [t now|i j k|].
  - destruct (nth_error (g_threads s) t); [|injection E as <- <-; congruence]. apply advance_advances in E. destruct (advances_local _ _ _ _ _ _ _ _ _ _ _ E PL D) as (_ & D2 & _). congruence.
  - unfold work in E. destruct (nth_error (g_queues s i j) k) as [l|] eqn:EL; [|injection E as <- <-; congruence].
    assert (NE : layers_at hs i j <> []). { intros Z. specialize (LN i j). rewrite Z in LN. destruct (g_queues s i j); [destruct k; discriminate EL|discriminate LN]. }
    destruct (l_worker l) as [|[d|]|d p|]; try (injection E as <- <-; cbn in D'; congruence).
    + destruct (l_queue l) as [|[who d|d] q]; injection E as <- <-; cbn in D'; congruence.
    + destruct (push s i j (S k) 0 d p) as [[[s1 [p'| |e]] tr1]|] eqn:EP; [| | |discriminate E]; injection E as <- <-;
        pose proof (push_pushes _ _ _ _ _ _ _ _ _ _ EP) as PP; destruct (pushes_rest _ _ _ _ _ _ _ _ _ _ PP) as (_ & _ & R3 & _); try (cbn in D'; congruence).
      inversion PP; subst. exists i, j, k, d, e. rewrite !in_app_iff. cbn [In]. auto 8.
  - unfold destroy in E. destruct (forallb idle (g_threads s)); [|injection E as <- <-; congruence]. destruct (g_todo s) as [|[i j k|i j k] rest]; [injection E as <- <-; congruence| |];
      destruct (nth_error (g_queues s i j) k) as [l|]; try (injection E as <- <-; cbn in D'; congruence). destruct (l_worker l); injection E as <- <-; cbn in D'; congruence.
Qed.
End Dead.
