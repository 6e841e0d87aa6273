(** Locks and the order of what is asked, with code of the user within log calls. *)
From Verif Require Import Base ReenterModel ReenterSpec ReenterProofs.

Definition traced (s : state) : Prop := Forall (fun x => asked (snd (fst x)) = true -> snd x = []) (s_trace s).
Definition calm (s : state) (r : result) : Prop :=
  match r with
  | Done s' | Threw s' => s_held s' = s_held s /\ (traced s -> traced s')
  | Deadlock | Terminated => False
  | Undefined | OutOfFuel => True
  end.
Lemma calm_done s : calm s (Done s).
Proof. split; [reflexivity|tauto]. Qed.
Lemma calm_from s s1 r : s_held s1 = s_held s -> s_trace s1 = s_trace s -> calm s1 r -> calm s r.
Proof. intros H T C. destruct r; cbn in *; try exact C; (destruct C as (A & B); split; [congruence|]; intros X; apply B; unfold traced; rewrite T; exact X). Qed.
Lemma calm_then s s1 r : s_held s1 = s_held s -> (traced s -> traced s1) -> calm s1 r -> calm s r.
Proof. intros H T C. destruct r; cbn in *; try exact C; (destruct C as (A & B); split; [congruence|tauto]). Qed.
Lemma calm_bind s r g : calm s r -> (forall s1, s_held s1 = s_held s -> calm s1 (g s1)) -> calm s (bind r g).
Proof.
  intros C H. destruct r as [s1|s1| | | |]; cbn in *; try exact C. destruct C as (A & B). exact (calm_then _ _ _ A B (H _ A)).
Qed.
Lemma calm_finally s r g : calm s r -> (forall s1, s_held s1 = s_held s -> calm s1 (g s1)) -> (forall s1 s2, g s1 <> Threw s2) -> calm s (finally r g).
Proof.
  intros C H N. destruct r as [s1|s1| | | |]; cbn [finally]; try exact C; destruct C as (A & B); specialize (H _ A); specialize (N s1); pose proof (calm_then _ _ _ A B H) as X;
  destruct (g s1) as [s2|s2| | | |]; cbn; try exact X; destruct (N s2 eq_refl).
Qed.
Lemma calm_caught s r : calm s r -> calm s (caught r).
Proof. destruct r; cbn; tauto. Qed.

Section Level.
Variable u : user.
Variable level : nat.
Variable go : state -> list cmd -> result.
Hypothesis QUIET : quiet u.
Hypothesis NIL : forall s, go s [] = Done s.
Hypothesis GO : forall s cs, s_held s = [] -> calm s (go s cs).

Lemma ending_calm e s r : calm s r ->
  calm s (match r with Done s1 => if u_throws u e then Threw s1 else Done s1
          | Threw s1 => if u_catches u e then (if u_throws u e then Threw s1 else Done s1) else Threw s1
          | Terminated => Terminated | Deadlock => Deadlock | Undefined => Undefined | OutOfFuel => OutOfFuel end).
Proof. intros C. destruct r; try exact C; [destruct (u_throws u e)|destruct (u_catches u e), (u_throws u e)]; exact C. Qed.
Lemma user_calm e s : s_held s = [] -> calm s (run_user u level go e s).
Proof.
  intros H. unfold run_user. set (s1 := with_trace s _). apply (ending_calm e s (go s1 (u_code u e))). apply (calm_then _ s1); [reflexivity| |exact (GO s1 _ H)].
  intros T. unfold traced in *. cbn. apply Forall_app. split; [exact T|]. constructor; [intros _; exact H|constructor].
Qed.
Lemma user_within e s : u_code u e = [] -> asked e = false -> calm s (run_user u level go e s).
Proof.
  intros E N. unfold run_user. set (s1 := with_trace s _). apply (ending_calm e s (go s1 (u_code u e))). rewrite E, NIL. subst s1. cbn. split; [reflexivity|]. intros T. unfold traced in *. cbn. apply Forall_app. split; [exact T|].
  constructor; [cbn; congruence|constructor].
Qed.
Lemma drop_within e s : silent u e -> asked e = false -> calm s (run_drop u level go e s).
Proof.
  intros (E & T) N. pose proof (user_within e s E N) as C. unfold run_drop, run_user in *. rewrite E, NIL, T in *. exact C.
Qed.
Lemma each_within es : Forall (fun e => silent u e /\ asked e = false) es -> forall s, calm s (run_each u level go es s).
Proof.
  induction 1 as [|e es (E & N) _ IH]; intros s; cbn [run_each]; [apply calm_done|]. apply calm_bind; [exact (drop_within _ _ E N)|]. intros s1 _. apply IH.
Qed.
Lemma release_within o s : calm s (release u level go o s).
Proof.
  unfold release. destruct (s_owners s o) as [|[|m]]; [exact Logic.I| |split; [reflexivity|tauto]].
  destruct (s_objects s o) as [(f & hs)|]; [|exact Logic.I].
  eapply calm_from; [| |apply each_within]; [reflexivity|reflexivity|]. destruct QUIET as (_ & Q2 & Q3). apply Forall_app. split.
  - apply Forall_forall. intros e IN. apply in_map_iff in IN. destruct IN as (h & <- & _). split; [apply Q3|reflexivity].
  - constructor; [split; [apply Q2|reflexivity]|constructor].
Qed.

Lemma load_calm l s g : s_held s = [] -> (forall o s1, s_held s1 = [] -> calm s1 (g o s1)) -> calm s (load l s g).
Proof.
  intros H G. unfold load, take. rewrite H. cbn [existsb bind]. cbn [s_cells with_held]. destruct (nth_error (s_cells s) l) as [o|]; [|exact Logic.I].
  cbn [drop bind]. eapply calm_from; [| |apply G]; cbn; rewrite ?H; reflexivity.
Qed.
Lemma store_calm l o s : s_held s = [] -> calm s (store u level go l o s).
Proof.
  intros H. unfold store, take. rewrite H. cbn [existsb bind]. cbn [s_cells with_held]. destruct (nth_error (s_cells s) l) as [old|]; [|exact Logic.I].
  set (s1 := with_cells _ _). pose proof (release_within old s1) as C. pose proof (release_throws u level go old s1) as N.
  destruct (release u level go old s1) as [s2|s2| | | |]; cbn in *; try exact C; [|destruct (N s2 eq_refl)]. destruct C as (A & B). rewrite A, H. split; [reflexivity|exact B].
Qed.
Lemma copy_calm o s g : s_held s = [] -> (forall f s1, s_held s1 = [] -> calm s1 (g f s1)) -> calm s (copy_filter u level go o s g).
Proof.
  intros H G. unfold copy_filter, take. rewrite H. cbn [existsb bind]. cbn [s_objects with_held]. destruct (s_objects s o) as [(f & hs)|]; [|exact Logic.I].
  set (s1 := with_held s _). destruct QUIET as (Q1 & _). pose proof (user_within (CopyFilter f) s1 (Q1 f) eq_refl) as C.
  destruct (run_user u level go (CopyFilter f) s1) as [s2|s2| | | |]; cbn [finally noexcept bind drop]; cbn in C; try exact C; destruct C as (A & B);
  set (s3 := with_held s2 _); assert (H3 : s_held s3 = []) by (cbn; rewrite A; reflexivity).
  - apply (calm_then _ s3); [congruence|exact B|exact (G f s3 H3)].
  - split; [congruence|exact B].
Qed.
Lemma set_calm o f s : s_held s = [] -> calm s (set_filter u level go o f s).
Proof.
  intros H. unfold set_filter, take. rewrite H. cbn [existsb bind]. cbn [s_objects with_held]. destruct (s_objects s o) as [(old & hs)|]; [|exact Logic.I].
  set (s1 := with_objects _ _). destruct QUIET as (_ & Q2 & _). pose proof (drop_within (DropFilter old) s1 (Q2 old) eq_refl) as C. pose proof (run_drop_throws u level go (DropFilter old) s1) as N.
  destruct (run_drop u level go (DropFilter old) s1) as [s2|s2| | | |]; cbn in *; try exact C; [|destruct (N s2 eq_refl)]. destruct C as (A & B). rewrite A, H. split; [reflexivity|exact B].
Qed.
Lemma handle_calm o : forall hs k s, s_held s = [] -> calm s (handle_each u level go o k hs s).
Proof.
  induction hs as [|h hs IH]; intros k s H; cbn [handle_each]; [apply calm_done|]. destruct (s_objects s o) as [(f & now)|]; [|exact Logic.I].
  destruct (nth_error now k) as [h'|]; [|exact Logic.I]. apply calm_bind; [exact (calm_caught _ _ (user_calm _ _ H))|]. intros s1 H1. apply IH. congruence.
Qed.
Lemma log_calm l m s : s_held s = [] -> calm s (log u level go l m s).
Proof.
  intros H. unfold log. apply load_calm; [exact H|]. intros o s1 H1.
  apply calm_finally; [|intros s7 _; apply release_within|intros s7 s8; apply release_throws]. apply copy_calm; [exact H1|]. intros f s2 H2.
  apply calm_finally; [|intros s6 _; apply drop_within; [destruct QUIET as (_ & Q2 & _); apply Q2|reflexivity]|intros s6 s7; apply run_drop_throws].
  apply calm_bind; [exact (user_calm _ _ H2)|]. intros s3 H3. rewrite H2 in H3.
  destruct (u_accepts u f); [|apply calm_done]. apply calm_bind; [exact (user_calm _ _ H3)|]. intros s4 H4. rewrite H3 in H4.
  destruct (s_objects s4 o) as [(f4 & hs)|]; [|exact Logic.I]. exact (handle_calm _ _ _ _ H4).
Qed.
Lemma one_calm c s : s_held s = [] -> calm s (one u level go c s).
Proof.
  intros H. destruct c as [l m|l f|dst src|l f hs]; cbn [one].
  - exact (log_calm _ _ _ H).
  - unfold filter. apply load_calm; [exact H|]. intros o s1 H1. apply calm_bind; [exact (set_calm _ _ _ H1)|]. intros s2 H2. apply store_calm. congruence.
  - unfold assign. destruct (Nat.eqb dst src); [apply calm_done|]. apply load_calm; [exact H|]. intros o s1 H1. apply (calm_from _ (acquire o s1)); [reflexivity|reflexivity|].
    apply calm_finally; [exact (store_calm _ _ (acquire o s1) H1)|intros s2 _; apply release_within|intros s2 s3; apply release_throws].
  - unfold replace. set (s1 := with_next _ _). apply (calm_from _ (acquire (s_next s) s1)); [reflexivity|reflexivity|]. apply calm_finally.
    + apply calm_finally; [exact (store_calm _ _ (acquire (s_next s) s1) H)|intros s2 _; apply release_within|intros s2 s3; apply release_throws].
    + intros s2 _. apply release_within.
    + intros s2 s3. apply release_throws.
Qed.
Lemma all_calm cs : forall s, s_held s = [] -> calm s (all u level go cs s).
Proof.
  induction cs as [|c cs IH]; intros s H; cbn [all]; [apply calm_done|]. apply calm_bind; [exact (one_calm _ _ H)|]. intros s1 H1. apply IH. congruence.
Qed.
End Level.

Lemma exec_nil u fuel s : exec u fuel s [] = Done s.
Proof. destruct fuel; reflexivity. Qed.
Lemma exec_calm u : quiet u -> forall fuel s cs, s_held s = [] -> calm s (exec u fuel s cs).
Proof.
  intros Q. induction fuel as [|fuel IH]; intros s cs H; cbn [exec]; [destruct cs; [apply calm_done|exact Logic.I]|].
  apply all_calm; [exact Q|intros s1; apply exec_nil|exact IH|exact H].
Qed.

(** What is added to the trace. *)
Definition inner (k : nat) (x : nat * event * list lock) : Prop := (fst (fst x) <= k)%nat.
Definition adds (k : nat) (s s' : state) (es : list event) : Prop :=
  exists ext, s_trace s' = s_trace s ++ ext /\ at_level k ext = es /\ Forall (inner k) ext.
Lemma at_app k a b : at_level k (a ++ b) = at_level k a ++ at_level k b.
Proof. unfold at_level. rewrite filter_app, map_app. reflexivity. Qed.
Lemma at_below k ext : Forall (fun x => (fst (fst x) < k)%nat) ext -> at_level k ext = [].
Proof.
  induction 1 as [|x ext L _ IH]; [reflexivity|]. unfold at_level in *. cbn. destruct (Nat.eqb_spec (fst (fst x)) k) as [E|]; [lia|exact IH].
Qed.
Lemma adds_same k s s' : s_trace s' = s_trace s -> adds k s s' [].
Proof. intros E. exists []. rewrite app_nil_r. split; [exact E|split; [reflexivity|constructor]]. Qed.
Lemma adds_trans k a b c es1 es2 : adds k a b es1 -> adds k b c es2 -> adds k a c (es1 ++ es2).
Proof.
  intros (x & E1 & L1 & F1) (y & E2 & L2 & F2). exists (x ++ y). rewrite E2, E1, app_assoc. split; [reflexivity|]. rewrite at_app, L1, L2.
  split; [reflexivity|]. apply Forall_app. split; assumption.
Qed.

Lemma ends_bind r g s' : ends (bind r g) s' -> r = Threw s' \/ exists s1, r = Done s1 /\ ends (g s1) s'.
Proof. unfold ends. destruct r as [s1|s1| | | |]; cbn; intros [E|E]; try discriminate E; eauto. Qed.
Lemma finally_done r g s' : finally r g = Done s' -> exists s1, r = Done s1 /\ g s1 = Done s'.
Proof.
  destruct r as [s1|s1| | | |]; cbn; intros E; try discriminate E.
  - exists s1. split; [reflexivity|]. destruct (g s1); cbn in E; congruence.
  - destruct (g s1); cbn in E; discriminate E.
Qed.
Lemma finally_threw r g s' : finally r g = Threw s' -> exists s1, r = Threw s1 /\ g s1 = Done s'.
Proof.
  destruct r as [s1|s1| | | |]; cbn; intros E; try discriminate E.
  - destruct (g s1); cbn in E; discriminate E.
  - exists s1. split; [reflexivity|]. destruct (g s1); cbn in E; congruence.
Qed.
Lemma ends_finally r g s' : ends (finally r g) s' -> exists s1, ends r s1 /\ g s1 = Done s'.
Proof.
  intros [E|E]; [apply finally_done in E|apply finally_threw in E]; destruct E as (s1 & E1 & E2); exists s1; split; unfold ends; auto.
Qed.

Section Adds.
Variable u : user.
Variable level : nat.
Variable go : state -> list cmd -> result.
Hypothesis GO : forall s cs s', ends (go s cs) s' -> exists ext, s_trace s' = s_trace s ++ ext /\ Forall (fun x => (fst (fst x) < level)%nat) ext.

Lemma user_adds e s s' : ends (run_user u level go e s) s' -> adds level s s' [e].
Proof.
  intros E. assert (E' : ends (go (with_trace s (s_trace s ++ [(level, e, s_held s)])) (u_code u e)) s').
  { unfold run_user in E. destruct (go _ (u_code u e)) as [s1|s1| | | |]; [destruct (u_throws u e)|destruct (u_catches u e), (u_throws u e)| | | |];
      destruct E as [E|E]; try discriminate E; injection E as <-; unfold ends; auto. }
  destruct (GO _ _ _ E') as (ext & T & F). exists ((level, e, s_held s) :: ext). cbn in T. rewrite T, <- app_assoc. split; [reflexivity|]. split.
  - change (at_level level ([(level, e, s_held s)] ++ ext) = [e]). rewrite at_app, (at_below _ _ F). unfold at_level. cbn. rewrite Nat.eqb_refl. reflexivity.
  - constructor; [unfold inner; cbn; lia|]. eapply Forall_impl; [|exact F]. unfold inner. intros x L. lia.
Qed.
Lemma drop_adds e s s' : run_drop u level go e s = Done s' -> adds level s s' [e].
Proof. intros E. apply user_adds. unfold run_drop in E. destruct (run_user u level go e s); cbn in E; try discriminate E. left. exact E. Qed.
Lemma each_adds es : forall s s', run_each u level go es s = Done s' -> adds level s s' es.
Proof.
  induction es as [|e es IH]; intros s s' E; cbn [run_each] in E; [injection E as <-; apply adds_same; reflexivity|].
  destruct (run_drop u level go e s) as [s1|s1| | | |] eqn:E1; cbn in E; try discriminate E. exact (adds_trans _ _ _ _ [e] es (drop_adds _ _ _ E1) (IH _ _ E)).
Qed.
Lemma release_adds o s s' : release u level go o s = Done s' ->
  exists es, adds level s s' es /\ (es = [] \/ exists f hs, s_objects s o = Some (f, hs) /\ es = map DropHandler hs ++ [DropFilter f]).
Proof.
  unfold release. intros E. destruct (s_owners s o) as [|[|m]]; [discriminate E| |injection E as <-; exists []; split; [apply adds_same; reflexivity|auto]].
  destruct (s_objects s o) as [(f & hs)|]; [|discriminate E]. apply each_adds in E. eexists. split; [|right; exists f, hs; split; reflexivity]. exact E.
Qed.
Lemma take_done x s : (exists s1, take x s = Done s1 /\ s1 = with_held s (x :: s_held s)) \/ take x s = Deadlock.
Proof. unfold take. destruct (existsb _ _); [right; reflexivity|left; eauto]. Qed.
Lemma load_adds l s g : load l s g = Deadlock \/ load l s g = Undefined \/ exists o s1, nth_error (s_cells s) l = Some o /\ s_trace s1 = s_trace s /\ s_objects s1 = s_objects s /\
  s_owners s1 = upd (s_owners s) o (S (s_owners s o)) /\ s_cells s1 = s_cells s /\ s_next s1 = s_next s /\ load l s g = g o s1.
Proof.
  unfold load. destruct (take_done (OfLogger l) s) as [(s1 & -> & ->)| ->]; cbn [bind]; [|left; reflexivity]. cbn [s_cells with_held].
  destruct (nth_error (s_cells s) l) as [o|]; [|right; left; reflexivity]. cbn [drop bind]. right. right. eexists o, _. split; [reflexivity|].
  split; [|split; [|split; [|split; [|split; [|reflexivity]]]]]; reflexivity.
Qed.
Lemma ends_load l s g s' : ends (load l s g) s' -> exists o s1, nth_error (s_cells s) l = Some o /\ s_trace s1 = s_trace s /\ ends (g o s1) s'.
Proof.
  intros E. destruct (load_adds l s g) as [L|[L|(o & s1 & N & T & _ & _ & _ & _ & L)]]; rewrite L in E; [destruct E; discriminate|destruct E; discriminate|eauto].
Qed.
Lemma store_adds l o s s' : ends (store u level go l o s) s' -> exists es, adds level s s' es.
Proof.
  unfold store. destruct (take_done (OfLogger l) s) as [(s1 & -> & ->)| ->]; cbn [bind]; [|intros [E|E]; discriminate E]. cbn [s_cells with_held].
  destruct (nth_error (s_cells s) l) as [old|]; [|intros [E|E]; discriminate E]. set (s1 := with_cells _ _). pose proof (release_throws u level go old s1) as N.
  destruct (release u level go old s1) as [s2|s2| | | |] eqn:E1; cbn; intros [E|E]; try discriminate E; [|destruct (N s2 eq_refl)].
  injection E as <-. destruct (release_adds _ _ _ E1) as (es & A & _). exists es. exact A.
Qed.
Lemma set_adds o f s s' : ends (set_filter u level go o f s) s' -> exists es, adds level s s' es.
Proof.
  unfold set_filter. destruct (take_done (OfObject o) s) as [(s1 & -> & ->)| ->]; cbn [bind]; [|intros [E|E]; discriminate E]. cbn [s_objects with_held].
  destruct (s_objects s o) as [(old & hs)|]; [|intros [E|E]; discriminate E]. set (s1 := with_objects _ _). pose proof (run_drop_throws u level go (DropFilter old) s1) as N.
  destruct (run_drop u level go (DropFilter old) s1) as [s2|s2| | | |] eqn:E1; cbn; intros [E|E]; try discriminate E; [|destruct (N s2 eq_refl)].
  injection E as <-. exists [DropFilter old]. exact (drop_adds _ _ _ E1).
Qed.
(** The filter is copied, and then the rest is done, or copying it throws. *)
Lemma copy_adds o s g : copy_filter u level go o s g = Deadlock \/ copy_filter u level go o s g = Undefined \/ copy_filter u level go o s g = Terminated \/ copy_filter u level go o s g = OutOfFuel \/
  exists f hs s1 s2, s_objects s o = Some (f, hs) /\ s1 = with_held s (OfObject o :: s_held s) /\ ends (run_user u level go (CopyFilter f) s1) s2 /\
    (copy_filter u level go o s g = g f (with_held s2 (tl (s_held s2))) \/ copy_filter u level go o s g = Threw (with_held s2 (tl (s_held s2)))).
Proof.
  unfold copy_filter. destruct (take_done (OfObject o) s) as [(s1 & -> & ->)| ->]; cbn [bind]; [|auto]. cbn [s_objects with_held].
  destruct (s_objects s o) as [(f & hs)|]; [|auto]. set (s1 := with_held s _).
  destruct (run_user u level go (CopyFilter f) s1) as [s2|s2| | | |] eqn:E1; cbn [finally noexcept bind drop]; auto;
  right; right; right; right; exists f, hs, s1, s2; (split; [reflexivity|]; split; [reflexivity|]; split; [unfold ends; rewrite E1; auto|auto]).
Qed.
Lemma handle_some o : forall hs k s s', ends (handle_each u level go o k hs s) s' -> exists es, adds level s s' es.
Proof.
  induction hs as [|h hs IH]; intros k s s' E; cbn [handle_each] in E; [destruct E as [E|E]; [|discriminate E]; injection E as <-; exists []; apply adds_same; reflexivity|].
  destruct (s_objects s o) as [(f & now)|]; [|destruct E; discriminate]. destruct (nth_error now k) as [h'|]; [|destruct E; discriminate].
  assert (A1 : exists s1, ends (run_user u level go (Handle h') s) s1 /\ ends (handle_each u level go o (S k) hs s1) s').
  { destruct (run_user u level go (Handle h') s) as [s1|s1| | | |]; cbn [caught bind] in E; try (destruct E; discriminate); exists s1; (split; [unfold ends; auto|exact E]). }
  destruct A1 as (s1 & E1 & E2). destruct (IH _ _ _ E2) as (es & A). eexists. exact (adds_trans _ _ _ _ _ _ (user_adds _ _ _ E1) A).
Qed.
Lemma done_ends r s : r = Done s -> ends r s.
Proof. left. assumption. Qed.
Lemma threw_ends r s : r = Threw s -> ends r s.
Proof. right. assumption. Qed.
Lemma log_some l m s s' : ends (log u level go l m s) s' -> exists es, adds level s s' es.
Proof.
  unfold log. intros E. apply ends_load in E. destruct E as (o & s1 & _ & T1 & E). apply ends_finally in E. destruct E as (s7 & E & E7).
  destruct (release_adds _ _ _ E7) as (es7 & A7 & _).
  assert (A : exists es, adds level s1 s7 es).
  { match type of E with ends (copy_filter _ _ _ _ _ ?g) _ => destruct (copy_adds o s1 g) as [C|[C|[C|[C|(f & hs & sx & sy & _ & EX & EY & C)]]]] end;
      try (rewrite C in E; destruct E; discriminate). subst sx. pose proof (user_adds _ _ _ EY) as A2. set (s2 := with_held sy _) in C.
    change (adds level s1 s2 [CopyFilter f]) in A2.
    destruct C as [C|C]; rewrite C in E; [|destruct E as [E|E]; [discriminate E|injection E as <-; eauto]].
    apply ends_finally in E. destruct E as (s6 & E & E6). apply drop_adds in E6.
    assert (A5 : exists es, adds level s2 s6 es).
    { apply ends_bind in E. destruct E as [E|(s3 & E3 & E)]; [eexists; exact (user_adds _ _ _ (threw_ends _ _ E))|]. pose proof (user_adds _ _ _ (done_ends _ _ E3)) as A3.
      destruct (u_accepts u f); [|destruct E as [E|E]; [injection E as <-; eauto|discriminate E]].
      apply ends_bind in E. destruct E as [E|(s4 & E4 & E)]; [eexists; exact (adds_trans _ _ _ _ _ _ A3 (user_adds _ _ _ (threw_ends _ _ E)))|].
      pose proof (user_adds _ _ _ (done_ends _ _ E4)) as A4. destruct (s_objects s4 o) as [(f4 & hs4)|]; [|destruct E; discriminate].
      destruct (handle_some _ _ _ _ _ E) as (es5 & A5). eexists. exact (adds_trans _ _ _ _ _ _ A3 (adds_trans _ _ _ _ _ _ A4 A5)). }
    destruct A5 as (es5 & A5). eexists. exact (adds_trans _ _ _ _ _ _ A2 (adds_trans _ _ _ _ _ _ A5 E6)). }
  destruct A as (es & A). eexists. eapply adds_trans; [exact (adds_same level s s1 T1)|]. eapply adds_trans; [exact A|exact A7].
Qed.
Lemma one_some c s s' : ends (one u level go c s) s' -> exists es, adds level s s' es.
Proof.
  destruct c as [l m|l f|dst src|l f hs]; cbn [one]; intros E.
  - exact (log_some _ _ _ _ E).
  - unfold filter in E. apply ends_load in E. destruct E as (o & s1 & _ & T1 & E). apply ends_bind in E. destruct E as [E|(s2 & E2 & E)]; [destruct (set_throws _ _ _ _ _ _ _ E)|].
    destruct (set_adds _ _ _ _ (done_ends _ _ E2)) as (es2 & A2).
    destruct (store_adds _ _ _ _ E) as (es3 & A3). eexists. eapply adds_trans; [exact (adds_same level s s1 T1)|]. eapply adds_trans; [exact A2|exact A3].
  - unfold assign in E. destruct (Nat.eqb dst src); [destruct E as [E|E]; [|discriminate E]; injection E as <-; exists []; apply adds_same; reflexivity|]. apply ends_load in E.
    destruct E as (o & s1 & _ & T1 & E). apply ends_finally in E. destruct E as (s2 & E2 & E).
    destruct (store_adds _ _ _ _ E2) as (es2 & A2). destruct (release_adds _ _ _ E) as (es3 & A3 & _). eexists. eapply adds_trans; [exact (adds_same level s (acquire o s1) T1)|].
    eapply adds_trans; [exact A2|exact A3].
  - unfold replace in E. apply ends_finally in E. destruct E as (s3 & E & E4). apply ends_finally in E. destruct E as (s2 & E2 & E3).
    match type of E2 with ends (store _ _ _ _ _ ?x) _ => set (s1 := x) in E2 end.
    destruct (store_adds _ _ _ _ E2) as (es2 & A2). destruct (release_adds _ _ _ E3) as (es3 & A3 & _). destruct (release_adds _ _ _ E4) as (es4 & A4 & _).
    eexists. eapply adds_trans; [exact (adds_same level s s1 eq_refl)|]. eapply adds_trans; [exact A2|]. eapply adds_trans; [exact A3|exact A4].
Qed.
Lemma all_some cs : forall s s', ends (all u level go cs s) s' -> exists es, adds level s s' es.
Proof.
  induction cs as [|c cs IH]; intros s s' E; cbn [all] in E; [destruct E as [E|E]; [|discriminate E]; injection E as <-; exists []; apply adds_same; reflexivity|].
  apply ends_bind in E. destruct E as [E|(s1 & E1 & E)]; [exact (one_some _ _ _ (threw_ends _ _ E))|].
  destruct (one_some _ _ _ (done_ends _ _ E1)) as (es1 & A1). destruct (IH _ _ E) as (es2 & A2). eexists. exact (adds_trans _ _ _ _ _ _ A1 A2).
Qed.

(** The call of a log function in full. *)
Variable n : nat.
Hypothesis KNOWN : forall e, Forall (uses n) (u_code u e).
Hypothesis GOOD : forall extra s cs, ok n extra s -> Forall (uses n) cs -> good n extra s (go s cs).

Lemma keeps_handlers extra o s s' f hs : ok n (add o extra) s -> ok n (add o extra) s' -> keeps s s' -> s_objects s o = Some (f, hs) -> exists f', s_objects s' o = Some (f', hs).
Proof.
  intros K K' (_ & KS) F. destruct (ok_add_object _ _ _ _ K') as (f1 & hs1 & F1). destruct (KS o f1 hs1) as (f2 & F2); [apply (ok_old _ _ _ _ K); congruence|exact F1|].
  rewrite F in F2. injection F2 as -> ->. eauto.
Qed.
Lemma user_keeps extra o e s s' f hs : ok n (add o extra) s -> s_objects s o = Some (f, hs) -> ends (run_user u level go e s) s' ->
  ok n (add o extra) s' /\ exists f', s_objects s' o = Some (f', hs).
Proof.
  intros K F E. pose proof (user_good u level go n KNOWN GOOD _ e _ K) as G.
  destruct E as [E|E]; rewrite E in G; destruct G as (K' & _ & KS); (split; [exact K'|]; exact (keeps_handlers _ _ _ _ _ _ K K' KS F)).
Qed.
Lemma handle_adds extra o : forall hs k s al s', ok n (add o extra) s -> (exists f, s_objects s o = Some (f, al)) -> skipn k al = hs ->
  ends (handle_each u level go o k hs s) s' -> handle_each u level go o k hs s = Done s' /\ adds level s s' (map Handle hs) /\ ok n (add o extra) s' /\ exists f, s_objects s' o = Some (f, al).
Proof.
  induction hs as [|h hs IH]; intros k s al s' K (f & F) SK E; cbn [handle_each] in *; [destruct E as [E|E]; [|discriminate E]; injection E as <-; split; [reflexivity|]; split; [apply adds_same; reflexivity|eauto]|].
  rewrite F in *. destruct (skipn_cons _ _ _ _ SK) as (N & SK'). rewrite N in *.
  assert (A1 : exists s1, ends (run_user u level go (Handle h) s) s1 /\ bind (caught (run_user u level go (Handle h) s)) (handle_each u level go o (S k) hs) = handle_each u level go o (S k) hs s1).
  { destruct (run_user u level go (Handle h) s) as [s1|s1| | | |]; cbn [caught bind] in *; try (destruct E; discriminate); exists s1; (split; [unfold ends; auto|reflexivity]). }
  destruct A1 as (s1 & E1 & E2). rewrite E2 in *. destruct (user_keeps _ _ _ _ _ _ _ K F E1) as (K1 & F1).
  destruct (IH _ _ _ _ K1 F1 SK' E) as (D & A & R). split; [exact D|]. split; [|exact R]. exact (adds_trans _ _ _ _ [_] _ (user_adds _ _ _ E1) A).
Qed.
(** What is run, without an exception or with. *)
Definition whole (f : fid) (m : sid) (hs : list hid) (r : result) (body : list event) : Prop :=
  match r with
  | Done _ => body = CopyFilter f :: AskFilter f :: (if u_accepts u f then Supply m :: map Handle hs else []) ++ [DropFilter f]
  | _ => body = [CopyFilter f] \/ body = [CopyFilter f; AskFilter f; DropFilter f] \/ (u_accepts u f = true /\ body = [CopyFilter f; AskFilter f; Supply m; DropFilter f])
  end.
Lemma finally_whole f m hs r g body s1 s' : whole f m hs r body -> ends r s1 -> ends (finally r g) s' -> g s1 = Done s' -> whole f m hs (finally r g) body.
Proof. intros W [-> | ->] E G; cbn in *; rewrite G; exact W. Qed.
Lemma log_adds extra l m s s' o f hs : ok n extra s -> nth_error (s_cells s) l = Some o -> s_objects s o = Some (f, hs) -> ends (log u level go l m s) s' ->
  exists body rest, adds level s s' (body ++ rest) /\ whole f m hs (log u level go l m s) body /\
    (rest = [] \/ exists f', rest = map DropHandler hs ++ [DropFilter f']).
Proof.
  unfold log. intros K NC F E.
  assert (P : (0 < s_owners s o)%nat) by (apply (k_alive _ _ _ K); congruence).
  match type of E with ends (load _ _ ?g) _ => destruct (load_adds l s g) as [L|[L|(o' & s1 & NC' & T1 & O1 & W1 & C1 & X1 & L)]] end;
    [rewrite L in E; destruct E; discriminate|rewrite L in E; destruct E; discriminate|]. rewrite L in *. clear L. rewrite NC in NC'. injection NC' as <-.
  assert (K1 : ok n (add o extra) s1) by (apply (ok_same _ _ (acquire o s)); [exact C1|exact O1|exact W1|exact X1|exact (ok_acquire _ _ _ _ K P)]).
  rewrite <- O1 in F. clear O1 W1 C1 X1.
  pose proof (ends_finally _ _ _ E) as EF. destruct EF as (s7 & E7 & R7). destruct (release_adds _ _ _ R7) as (rest & A7 & S7).
  match type of E with ends (finally ?r _) _ => enough (Q : exists body, adds level s1 s7 body /\ whole f m hs r body /\ exists f7, s_objects s7 o = Some (f7, hs)) end.
  { destruct Q as (body & A & W & f7 & F7). exists body, rest. split; [exact (adds_trans _ _ _ _ [] _ (adds_same level s s1 T1) (adds_trans _ _ _ _ _ _ A A7))|].
    split; [exact (finally_whole _ _ _ _ _ _ _ _ W E7 E R7)|]. destruct S7 as [->|(f8 & hs8 & F8 & ->)]; [left; reflexivity|right]. rewrite F7 in F8. injection F8 as <- <-. eauto. }
  clear E R7 A7 S7 rest.
  match type of E7 with ends (copy_filter _ _ _ _ _ ?g) _ => destruct (copy_adds o s1 g) as [C|[C|[C|[C|(f' & hs' & sx & sy & F' & EX & EY & C)]]]] end;
    try (rewrite C in E7; destruct E7; discriminate). rewrite F in F'. injection F' as <- <-. subst sx. pose proof (user_adds _ _ _ EY) as A2.
  match type of EY with ends (run_user _ _ _ _ ?x) _ => assert (KY : ok n (add o extra) x) by (apply (ok_same _ _ s1); [reflexivity|reflexivity|reflexivity|reflexivity|exact K1]) end.
  destruct (user_keeps _ _ _ _ _ _ _ KY F EY) as (KZ & fz & FZ).
  set (s2 := with_held sy _) in C. change (adds level s1 s2 [CopyFilter f]) in A2. change (s_objects s2 o = Some (fz, hs)) in FZ.
  assert (K2 : ok n (add o extra) s2) by (apply (ok_same _ _ sy); [reflexivity|reflexivity|reflexivity|reflexivity|exact KZ]).
  destruct C as [C|C]; rewrite C in *; [|destruct E7 as [E|E]; [discriminate E|injection E as <-]; exists [CopyFilter f]; split; [exact A2|]; split; [left; reflexivity|eauto]].
  clear C. pose proof (ends_finally _ _ _ E7) as EF. destruct EF as (s6 & E6 & R6).
  match type of E7 with ends (finally ?r _) _ => enough (Q : exists body, adds level s2 s6 body /\
     (match r with Done _ => body = AskFilter f :: (if u_accepts u f then Supply m :: map Handle hs else [])
      | _ => body = [AskFilter f] \/ (u_accepts u f = true /\ body = [AskFilter f; Supply m]) end) /\ ok n (add o extra) s6 /\ exists f6, s_objects s6 o = Some (f6, hs)) end.
  { destruct Q as (body & A & W & K6 & f6 & F6). exists ([CopyFilter f] ++ body ++ [DropFilter f]).
    split; [exact (adds_trans _ _ _ _ _ _ A2 (adds_trans _ _ _ _ _ _ A (drop_adds _ _ _ R6)))|]. split.
    - apply finally_whole with s6 s7; [|exact E6|exact E7|exact R6].
      destruct E6 as [E6|E6]; rewrite E6 in W |- *; cbn; [rewrite W; reflexivity|]. destruct W as [->|(AC & ->)]; cbn; auto.
    - apply (user_keeps extra o (DropFilter f) s6 s7 f6 hs K6 F6). unfold run_drop in R6. destruct (run_user u level go (DropFilter f) s6); cbn in R6; try discriminate R6. left. exact R6. }
  clear E7 R6 A2.
  pose proof (ends_bind _ _ _ E6) as EB. destruct EB as [EB|(s3 & E3 & EB)].
  { exists [AskFilter f]. pose proof (threw_ends _ _ EB) as X. split; [exact (user_adds _ _ _ X)|]. rewrite EB. cbn [bind]. split; [left; reflexivity|exact (user_keeps _ _ _ _ _ _ _ K2 FZ X)]. }
  pose proof (user_adds _ _ _ (done_ends _ _ E3)) as A3. destruct (user_keeps _ _ _ _ _ _ _ K2 FZ (done_ends _ _ E3)) as (K3 & f3 & F3). rewrite E3. cbn [bind]. clear E6 E3.
  destruct (u_accepts u f) eqn:AC; [|destruct EB as [EB|EB]; [|discriminate EB]; injection EB as <-; exists [AskFilter f]; split; [exact A3|]; split; [reflexivity|eauto]].
  pose proof (ends_bind _ _ _ EB) as EC. destruct EC as [EC|(s4 & E4 & EC)].
  { exists [AskFilter f; Supply m]. pose proof (threw_ends _ _ EC) as X. split; [exact (adds_trans _ _ _ _ [_] [_] A3 (user_adds _ _ _ X))|]. rewrite EC. cbn [bind].
    split; [right; auto|exact (user_keeps _ _ _ _ _ _ _ K3 F3 X)]. }
  pose proof (user_adds _ _ _ (done_ends _ _ E4)) as A4. destruct (user_keeps _ _ _ _ _ _ _ K3 F3 (done_ends _ _ E4)) as (K4 & f4 & F4). rewrite E4. cbn [bind]. rewrite F4 in EC |- *.
  destruct (handle_adds _ _ hs 0 _ hs _ K4 (ex_intro _ _ F4) eq_refl EC) as (D & A5 & K5 & F5). rewrite D. exists (AskFilter f :: Supply m :: map Handle hs).
  split; [exact (adds_trans _ _ _ _ [_] _ A3 (adds_trans _ _ _ _ [_] _ A4 A5))|]. split; [reflexivity|auto].
Qed.
End Adds.

Lemma exec_some u : forall fuel s cs s', ends (exec u fuel s cs) s' -> exists ext, s_trace s' = s_trace s ++ ext /\ Forall (fun x => (fst (fst x) < fuel)%nat) ext.
Proof.
  induction fuel as [|fuel IH]; intros s cs s' E; cbn [exec] in E.
  - destruct cs; [|destruct E; discriminate]. destruct E as [E|E]; [|discriminate E]. injection E as <-. exists []. rewrite app_nil_r. split; [reflexivity|constructor].
  - destruct (all_some u fuel (exec u fuel) IH _ _ _ E) as (es & ext & T & _ & F). exists ext. split; [exact T|]. eapply Forall_impl; [|exact F]. unfold inner. intros x L. lia.
Qed.

(** ** The properties. *)
Lemma no_deadlock u objects fuel cs : quiet u -> exec u fuel (start objects) cs <> Deadlock /\ exec u fuel (start objects) cs <> Terminated.
Proof. intros Q. pose proof (exec_calm u Q fuel (start objects) cs eq_refl) as C. split; intros E; rewrite E in C; exact C. Qed.
Lemma unlocked u objects fuel cs s : quiet u -> ends (exec u fuel (start objects) cs) s ->
  s_held s = [] /\ forall k e held, In (k, e, held) (s_trace s) -> asked e = true -> held = [].
Proof.
  intros Q E. pose proof (exec_calm u Q fuel (start objects) cs eq_refl) as C. assert (C' : s_held s = [] /\ (traced (start objects) -> traced s)) by (destruct E as [E|E]; rewrite E in C; exact C).
  destruct C' as (A & B). split; [exact A|].
  intros k e held IN AS. assert (T : traced (start objects)) by constructor. specialize (B T). unfold traced in B. rewrite Forall_forall in B. exact (B _ IN AS).
Qed.
Lemma alive u objects fuel cs : known u (length objects) cs -> exec u fuel (start objects) cs <> Undefined.
Proof.
  intros (U & KN) E. pose proof (exec_good u _ KN fuel _ _ cs (start_ok objects) U) as G. rewrite E in G. exact G.
Qed.
Lemma ends_good u objects fuel cs s : known u (length objects) cs -> ends (exec u fuel (start objects) cs) s -> ok (length objects) (fun _ => 0%nat) s /\ s_held s = [].
Proof.
  intros (U & KN) E. pose proof (exec_good u _ KN fuel _ _ cs (start_ok objects) U) as G. destruct E as [E|E]; rewrite E in G; destruct G as (K & H & _); split; assumption.
Qed.
Lemma exact_owners u objects fuel cs s : known u (length objects) cs -> ends (exec u fuel (start objects) cs) s ->
  s_held s = [] /\ forall o, s_objects s o <> None <-> In o (s_cells s).
Proof.
  intros KN E. destruct (ends_good _ _ _ _ _ KN E) as (K & H). split; [exact H|].
  intros o. rewrite (k_alive _ _ _ K), (k_owners _ _ _ K), Nat.add_0_r. unfold count. split; intros X; apply (count_occ_In Nat.eq_dec); exact X.
Qed.
Lemma call_shape u objects fuel before s l m k s' o f hs :
  known u (length objects) (before ++ [Log l m]) -> ends (exec u fuel (start objects) before) s ->
  nth_error (s_cells s) l = Some o -> s_objects s o = Some (f, hs) -> ends (exec u (S k) s [Log l m]) s' ->
  exists ext body rest, s_trace s' = s_trace s ++ ext /\ at_level k ext = body ++ rest /\ whole u f m hs (exec u (S k) s [Log l m]) body /\
    (rest = [] \/ exists f', rest = map DropHandler hs ++ [DropFilter f']).
Proof.
  intros (U & KN) E NC F E'. apply Forall_app in U. destruct U as (U & _). destruct (ends_good _ _ _ _ _ (conj U KN) E) as (K & _).
  cbn [exec all one] in E' |- *. replace (bind (log u k (exec u k) l m s) (fun s0 => Done s0)) with (log u k (exec u k) l m s) in * by (destruct (log u k (exec u k) l m s); reflexivity).
  destruct (log_adds u k (exec u k) (exec_some u k) (length objects) KN (exec_good u _ KN k) _ _ _ _ _ _ _ _ K NC F E') as (body & rest & (ext & T & A & _) & W & R).
  exists ext, body, rest. auto.
Qed.
Lemma whole_call u objects fuel before s l m k s' o f hs :
  known u (length objects) (before ++ [Log l m]) -> ends (exec u fuel (start objects) before) s ->
  nth_error (s_cells s) l = Some o -> s_objects s o = Some (f, hs) ->
  exec u (S k) s [Log l m] = Done s' ->
  exists ext rest, s_trace s' = s_trace s ++ ext /\
    at_level k ext = CopyFilter f :: AskFilter f :: (if u_accepts u f then Supply m :: map Handle hs else []) ++ DropFilter f :: rest /\
    (rest = [] \/ exists f', rest = map DropHandler hs ++ [DropFilter f']).
Proof.
  intros KN E NC F E'. destruct (call_shape _ _ _ _ _ _ _ _ _ _ _ _ KN E NC F (done_ends _ _ E')) as (ext & body & rest & T & A & W & R). rewrite E' in W. cbn in W.
  exists ext, rest. split; [exact T|]. split; [|exact R]. rewrite A, W. cbn. rewrite <- app_assoc. reflexivity.
Qed.
Lemma thrown_call u objects fuel before s l m k s' o f hs :
  known u (length objects) (before ++ [Log l m]) -> ends (exec u fuel (start objects) before) s ->
  nth_error (s_cells s) l = Some o -> s_objects s o = Some (f, hs) ->
  exec u (S k) s [Log l m] = Threw s' ->
  exists ext body rest, s_trace s' = s_trace s ++ ext /\ at_level k ext = body ++ rest /\
    (body = [CopyFilter f] \/ body = [CopyFilter f; AskFilter f; DropFilter f] \/ (u_accepts u f = true /\ body = [CopyFilter f; AskFilter f; Supply m; DropFilter f])) /\
    (rest = [] \/ exists f', rest = map DropHandler hs ++ [DropFilter f']).
Proof.
  intros KN E NC F E'. destruct (call_shape _ _ _ _ _ _ _ _ _ _ _ _ KN E NC F (threw_ends _ _ E')) as (ext & body & rest & T & A & W & R). rewrite E' in W. cbn in W.
  exists ext, body, rest. auto.
Qed.
