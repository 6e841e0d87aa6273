(** Proofs about an asynchronous sink whose wrapped sink logs to it. *)
From Verif Require Import Base AsyncModel EchoModel EchoSpec.

#[local] Arguments Nat.ltb : simpl never.

Lemma taken_app a b : taken_in (a ++ b) = taken_in a ++ taken_in b.
Proof. apply flat_map_app. Qed.
Lemma passed_app a b : passed_on (a ++ b) = passed_on a ++ passed_on b.
Proof. apply flat_map_app. Qed.

Lemma erun_app c : forall acts s acts' s1 e1 s2 e2, erun c s acts = Some (s1, e1) -> erun c s1 acts' = Some (s2, e2) -> erun c s (acts ++ acts') = Some (s2, e1 ++ e2).
Proof.
  induction acts as [|a acts IH]; intros s acts' s1 e1 s2 e2 R1 R2; cbn in R1 |- *; [injection R1 as <- <-; exact R2|].
  destruct (estep c s a) as [(s3 & e3)|]; [|discriminate R1]. destruct (erun c s3 acts) as [(s4 & e4)|] eqn:R4; [|discriminate R1]. injection R1 as <- <-.
  rewrite (IH _ _ _ _ _ _ R4 R2), app_assoc. reflexivity.
Qed.

(** ** Order. *)
Definition fits (c : econfig) (s : estate) (evs : list eevent) : Prop := taken_in evs = passed_on evs ++ e_queue s /\ (length (e_queue s) <= e_capacity c)%nat.
Lemma fits_same c s evs s' more : fits c s evs -> e_queue s' = e_queue s -> taken_in more = [] -> passed_on more = [] -> fits c s' (evs ++ more).
Proof. intros (A & B) Q N1 N2. unfold fits. rewrite taken_app, passed_app, N1, N2, !app_nil_r, Q. auto. Qed.
Lemma fits_put c s evs m w st : fits c s evs -> room c s = true -> fits c (EState (e_queue s ++ [m]) w st) (evs ++ [EAccept m]).
Proof.
  intros (A & B) R. unfold room in R. apply Nat.ltb_lt in R. unfold fits. rewrite taken_app, passed_app, A. cbn. rewrite app_nil_r, app_length. cbn. rewrite app_assoc. split; [reflexivity|lia].
Qed.
Lemma step_fits c s evs a s' more : fits c s evs -> estep c s a = Some (s', more) -> fits c s' (evs ++ more).
Proof.
  intros K ST. destruct a as [m| |]; cbn in ST.
  - destruct (room c s) eqn:RM; [injection ST as <- <-; apply fits_put; assumption|].
    destruct (overflow (e_policy c)); injection ST as <- <-; apply (fits_same c s); auto.
  - destruct (e_worker s) as [|[|m todo]|m todo| |] eqn:W; [| | | | |discriminate ST].
    + destruct (e_queue s) as [|m q] eqn:Q; injection ST as <- <-; [apply (fits_same c s); auto|].
      destruct K as (A & LE). unfold fits. rewrite taken_app, passed_app, A, Q. cbn. rewrite app_nil_r, <- app_assoc. rewrite Q in LE. cbn in LE. split; [reflexivity|lia].
    + injection ST as <- <-. apply (fits_same c s); auto.
    + destruct (room c s) eqn:RM; injection ST as <- <-; [apply fits_put; assumption|apply (fits_same c s); auto].
    + destruct (overflow (e_policy c)); injection ST as <- <-; apply (fits_same c s); auto.
    + destruct (e_stopped s); injection ST as <- <-; apply (fits_same c s); auto.
  - destruct (e_stopped s); [discriminate ST|]. injection ST as <- <-. apply (fits_same c s); auto.
Qed.
Lemma run_fits c : forall acts s evs s' more, fits c s evs -> erun c s acts = Some (s', more) -> fits c s' (evs ++ more).
Proof.
  induction acts as [|a acts IH]; intros s evs s' more K R; cbn in R; [injection R as <- <-; rewrite app_nil_r; exact K|].
  destruct (estep c s a) as [(s1 & e1)|] eqn:ST; [|discriminate R]. destruct (erun c s1 acts) as [(s2 & e2)|] eqn:R2; [|discriminate R]. injection R as <- <-.
  rewrite app_assoc. exact (IH _ _ _ _ (step_fits _ _ _ _ _ _ K ST) R2).
Qed.
Lemma reach_fits c acts s evs : erun c einit acts = Some (s, evs) -> fits c s evs.
Proof. intros R. refine (run_fits c acts einit [] s evs _ R). split; [reflexivity|apply Nat.le_0_l]. Qed.
Lemma echo_order c acts s evs : erun c einit acts = Some (s, evs) -> exists rest, taken_in evs = passed_on evs ++ rest /\ (length rest <= e_capacity c)%nat.
Proof. intros R. exists (e_queue s). exact (reach_fits _ _ _ _ R). Qed.

(** ** Coming to an end. *)
Section Cost.
  Context (says : msg -> list msg) (rank : msg -> nat) (LOW : forall m m', In m' (says m) -> (rank m' < rank m)%nat).
  Fixpoint cost (n : nat) (m : msg) : nat := match n with O => 2 | S n' => 2 + list_sum (map (fun m' => 3 + cost n' m') (says m)) end.
  Lemma rank_none m : rank m = 0%nat -> says m = [].
  Proof. intros R. destruct (says m) as [|m' l] eqn:SM; [reflexivity|]. pose proof (LOW m m') as LT. rewrite SM, R in LT. specialize (LT (or_introl eq_refl)). lia. Qed.
  Lemma cost_stable : forall n n' m, (rank m <= n)%nat -> (rank m <= n')%nat -> cost n m = cost n' m.
  Proof.
    induction n as [|n IH]; intros n' m L1 L2.
    - destruct n' as [|n']; [reflexivity|]. cbn [cost]. rewrite (rank_none m) by lia. reflexivity.
    - destruct n' as [|n']; [cbn [cost]; rewrite (rank_none m) by lia; reflexivity|]. cbn [cost]. do 2 f_equal. apply map_ext_in. intros m' IN. pose proof (LOW m m' IN) as LT.
      f_equal. apply IH; lia.
  Qed.
  Definition weight (m : msg) : nat := cost (rank m) m.
  Definition inside (todo : list msg) : nat := list_sum (map (fun m' => 3 + weight m') todo).
  Lemma weight_eq m : weight m = (2 + inside (says m))%nat.
  Proof.
    unfold weight. rewrite (cost_stable _ (S (rank m)) m) by lia. cbn [cost]. unfold inside. do 2 f_equal. apply map_ext_in. intros m' IN. f_equal. pose proof (LOW m m' IN) as LT.
    apply cost_stable; lia.
  Qed.
  Definition left_over (s : estate) : nat :=
    list_sum (map weight (e_queue s)) + match e_worker s with EDequeue => 2 | EInside todo => inside todo + 3 | EOverflow m todo => inside (m :: todo) + 2 | ENothing => 1 | EExit => 0 end.
  Lemma inside_cons m todo : inside (m :: todo) = (3 + weight m + inside todo)%nat.
  Proof. reflexivity. Qed.
  Lemma sum_snoc (f : msg -> nat) l m : list_sum (map f (l ++ [m])) = (list_sum (map f l) + f m)%nat.
  Proof. rewrite map_app, list_sum_app. cbn. lia. Qed.
End Cost.

(** The worker is not, and will not be, in [overflow] for ever. *)
Definition goes_on (c : econfig) (s : estate) : Prop :=
  (length (e_queue s) <= e_capacity c)%nat /\
  match e_worker s with
  | EDequeue => True
  | EInside todo => e_policy c = Drop \/ ((length todo <= 1)%nat /\ (todo <> [] -> (length (e_queue s) < e_capacity c)%nat))
  | EOverflow _ _ => e_policy c = Drop
  | ENothing | EExit => e_queue s = []
  end.
Lemma drains c (rank : msg -> nat) : (forall m m', In m' (e_says c m) -> (rank m' < rank m)%nat) -> (e_policy c = Drop \/ forall m, (length (e_says c m) <= 1)%nat) ->
  forall n s, (left_over (e_says c) rank s <= n)%nat -> e_stopped s = true -> goes_on c s ->
  exists k s' evs, (k <= n)%nat /\ erun c s (repeat EWork k) = Some (s', evs) /\ e_worker s' = EExit /\ e_queue s' = [].
Proof.
  intros LOW CF. induction n as [|n IH]; intros s W ST (LE & G).
  - unfold left_over in W. destruct (e_worker s) eqn:EW; try lia. exists 0%nat, s, []. repeat split; auto.
  - assert (NEXT : e_worker s = EExit \/ exists s1 e1, estep c s EWork = Some (s1, e1) /\ (left_over (e_says c) rank s1 <= n)%nat /\ e_stopped s1 = true /\ goes_on c s1).
    { unfold left_over in W. cbn [estep]. destruct (e_worker s) as [|[|m todo]|m todo| |] eqn:EW; [right|right|right|right|right|left; reflexivity].
      - destruct (e_queue s) as [|m q] eqn:Q; eexists _, _; (split; [reflexivity|]); unfold left_over, goes_on; cbn -[list_sum inside] in *.
        + split; [lia|]. split; [exact ST|]. split; [lia|reflexivity].
        + change (weight (e_says c) rank m + list_sum (map (weight (e_says c) rank) q) + 2 <= S n)%nat in W. rewrite (weight_eq _ rank LOW m) in W. split; [lia|]. split; [exact ST|]. split; [lia|]. destruct CF as [CF|CF]; [left; exact CF|right]. split; [apply CF|]. intros _. lia.
      - eexists _, _. split; [reflexivity|]. unfold left_over, goes_on. cbn -[list_sum inside] in *. split; [lia|]. split; [exact ST|]. split; [exact LE|exact Logic.I].
      - unfold room. destruct (Nat.ltb_spec (length (e_queue s)) (e_capacity c)) as [L|L]; eexists _, _; (split; [reflexivity|]); unfold left_over, goes_on; cbn -[list_sum inside] in *.
        + rewrite sum_snoc. rewrite inside_cons in W. split; [lia|]. split; [exact ST|]. rewrite app_length. cbn. split; [lia|].
          destruct G as [G|(G & _)]; [left; exact G|right]. destruct todo; cbn in G |- *; [|lia]. split; [lia|]. intros X. destruct (X eq_refl).
        + rewrite inside_cons in *. split; [lia|]. split; [exact ST|]. split; [exact LE|]. destruct G as [G|(_ & G)]; [exact G|]. assert (X : m :: todo <> []) by discriminate. specialize (G X). lia.
      - rewrite G. cbn. eexists _, _. split; [reflexivity|]. unfold left_over, goes_on. cbn -[list_sum inside] in *. rewrite inside_cons in *. split; [lia|]. split; [exact ST|]. split; [exact LE|left; exact G].
      - rewrite ST. eexists _, _. split; [reflexivity|]. unfold left_over, goes_on. cbn -[list_sum inside] in *. split; [lia|]. split; [reflexivity|]. split; [exact LE|exact G]. }
    destruct NEXT as [EX|(s1 & e1 & E1 & W1 & ST1 & G1)].
    + exists 0%nat, s, []. rewrite EX in G. repeat split; auto. lia.
    + destruct (IH s1 W1 ST1 G1) as (k & s' & evs & LK & R & X & Q). exists (S k), s', (e1 ++ evs). split; [lia|]. split; [|split; assumption]. cbn [repeat erun]. rewrite E1, R. reflexivity.
Qed.
Lemma echo_ends c acts s evs : erun c einit acts = Some (s, evs) -> e_stopped s = true -> dwindles (e_says c) ->
  ((e_policy c = Drop /\ at_work s) \/ ((forall m, (length (e_says c m) <= 1)%nat) /\ e_worker s = EDequeue)) ->
  exists k s' evs', erun c s (repeat EWork k) = Some (s', evs') /\ e_worker s' = EExit /\ passed_on (evs ++ evs') = taken_in (evs ++ evs').
Proof.
  intros R ST (rank & LOW) H. pose proof (reach_fits _ _ _ _ R) as K.
  assert (CF : e_policy c = Drop \/ forall m, (length (e_says c m) <= 1)%nat) by tauto.
  assert (G : goes_on c s).
  { split; [exact (proj2 K)|]. destruct H as [(P & A)|(_ & A)]; [|rewrite A; exact Logic.I]. unfold at_work in A. destruct (e_worker s); auto; destruct A. }
  destruct (drains c rank LOW CF _ s (le_n _) ST G) as (k & s' & evs' & _ & R' & X & Q). exists k, s', evs'. split; [exact R'|]. split; [exact X|].
  destruct (run_fits _ _ _ _ _ _ K R') as (A & _). rewrite A, Q, app_nil_r. reflexivity.
Qed.

(** ** Waiting for oneself. *)
Definition waits (c : econfig) (s : estate) : Prop :=
  (e_capacity c <= length (e_queue s))%nat /\ match e_worker s with EInside (_ :: _) | EOverflow _ _ => True | _ => False end.
Lemma waits_step c s a s' evs : e_policy c = Wait -> waits c s -> estep c s a = Some (s', evs) -> waits c s' /\ evs = [].
Proof.
  intros P (L & W) ST. unfold waits. assert (RM : room c s = false) by (apply Nat.ltb_ge; exact L). destruct a as [m| |]; cbn in ST.
  - rewrite RM, P in ST. cbn in ST. injection ST as <- <-. auto.
  - destruct (e_worker s) as [|[|m todo]|m todo| |] eqn:EW; try destruct W; [rewrite RM in ST|rewrite P in ST; cbn in ST]; injection ST as <- <-; cbn; auto.
  - destruct (e_stopped s); [discriminate ST|]. injection ST as <- <-. cbn. auto.
Qed.
Lemma waits_run c : e_policy c = Wait -> forall acts s s' evs, waits c s -> erun c s acts = Some (s', evs) -> waits c s' /\ evs = [].
Proof.
  intros P. induction acts as [|a acts IH]; intros s s' evs K R; cbn in R; [injection R as <- <-; auto|].
  destruct (estep c s a) as [(s1 & e1)|] eqn:ST; [|discriminate R]. destruct (erun c s1 acts) as [(s2 & e2)|] eqn:R2; [|discriminate R]. injection R as <- <-.
  destruct (waits_step _ _ _ _ _ P K ST) as (K1 & ->). exact (IH _ _ _ K1 R2).
Qed.
Lemma echo_waits : exists c acts s evs, e_policy c = Wait /\ dwindles (e_says c) /\ (forall m, (length (e_says c m) <= 1)%nat) /\ erun c einit acts = Some (s, evs) /\ e_queue s <> [] /\
  forall acts' s' evs', erun c s acts' = Some (s', evs') -> evs' = [].
Proof.
  set (c := EConfig 4 Wait (fun m => if Nat.eqb m 0 then [9] else [])%nat). exists c, [EPut 0; EWork; EPut 1; EPut 2; EPut 3; EPut 4]%nat.
  eexists _, _. split; [reflexivity|]. split.
  - exists (fun m => if Nat.eqb m 0 then 1 else 0)%nat. intros m m'. cbn. destruct (Nat.eqb m 0); cbn; [intros [<-|[]]; cbn; lia|intros []].
  - split; [intros m; cbn; destruct (Nat.eqb m 0); cbn; lia|]. split; [reflexivity|]. split; [discriminate|].
    intros acts' s' evs' R. refine (proj2 (waits_run c eq_refl acts' _ s' evs' _ R)). split; [cbn; lia|exact Logic.I].
Qed.

(** ** Records about records for ever. *)
Definition again (c : econfig) (m : msg) (s : estate) : Prop :=
  (e_queue s = [m] /\ e_worker s = EDequeue) \/ (e_queue s = [] /\ e_worker s = EInside [m]) \/ (e_queue s = [m] /\ e_worker s = EInside []).
Lemma again_run c m : e_says c m = [m] -> (1 <= e_capacity c)%nat -> forall n s, again c m s -> exists s' evs, erun c s (repeat EWork n) = Some (s', evs) /\ again c m s' /\ ~ In EExited evs.
Proof.
  intros SM CAP. induction n as [|n IH]; intros s K; [exists s, []; cbn; auto|].
  assert (ST : exists s1 e1, estep c s EWork = Some (s1, e1) /\ again c m s1 /\ ~ In EExited e1).
  { cbn. destruct K as [(Q & W)|[(Q & W)|(Q & W)]]; rewrite W, Q.
    - rewrite SM. eexists _, _. split; [reflexivity|]. split; [right; left; cbn; auto|]. intros [X|[]]; discriminate X.
    - unfold room. rewrite Q. cbn. destruct (Nat.ltb_spec 0 (e_capacity c)); [|lia]. eexists _, _. split; [reflexivity|]. split; [right; right; cbn; auto|]. intros [X|[]]; discriminate X.
    - eexists _, _. split; [reflexivity|]. split; [left; cbn; auto|]. intros []. }
  destruct ST as (s1 & e1 & ST & K1 & N1). destruct (IH s1 K1) as (s' & evs & R & K' & N'). exists s', (e1 ++ evs). cbn [repeat erun]. rewrite ST, R. split; [reflexivity|]. split; [exact K'|].
  rewrite in_app_iff. tauto.
Qed.
Lemma echo_again : forall p, exists c acts s evs, e_policy c = p /\ erun c einit acts = Some (s, evs) /\ e_stopped s = true /\
  forall n, exists s' evs', erun c s (repeat EWork n) = Some (s', evs') /\ e_worker s' <> EExit /\ ~ In EExited evs'.
Proof.
  intros p. set (c := EConfig 4 p (fun m => [m])). exists c, [EPut 7; EStop]%nat. eexists _, _. split; [reflexivity|]. split; [reflexivity|]. split; [reflexivity|].
  intros n. destruct (again_run c 7%nat eq_refl) with (n := n) (s := EState [7%nat] EDequeue true) as (s' & evs' & R & K & N); [cbn; lia|left; auto|].
  exists s', evs'. split; [exact R|]. split; [|exact N]. destruct K as [(_ & W)|[(_ & W)|(_ & W)]]; rewrite W; discriminate.
Qed.
