(** Lemmas about the TCP sink. *)
From Verif Require Import Base TcpModel TcpSpec.
Open Scope nat_scope.

Lemma writes_app a b : writes (a ++ b) = writes a ++ writes b.
Proof. induction a as [|e a IH]; [reflexivity|]. destruct e; cbn; rewrite IH; reflexivity. Qed.

Lemma writes_in c d ok evs : In (EWrite c d ok) evs <-> In (c, d, ok) (writes evs).
Proof.
  induction evs as [|e evs IH]; [reflexivity|]. destruct e; cbn; rewrite <- IH; split;
    try (intros [E|H]; [discriminate|exact H]); auto.
  - intros [E|H]; [inversion E; auto|auto].
  - intros [E|H]; [inversion E; auto|auto].
Qed.

Lemma do_connect_shape eps : forall evs ok, do_connect eps = (evs, ok) ->
  writes evs = [] /\
  if ok then exists es e rest, evs = map (fun x => EAttempt x false) es ++ [EAttempt e true] /\ map fst eps = es ++ e :: rest
  else evs = map (fun x => EAttempt x false) (map fst eps).
Proof.
  induction eps as [|[e [|]] eps IH]; intros evs ok E; cbn in E.
  - inversion E; subst. split; reflexivity.
  - inversion E; subst. split; [reflexivity|]. exists [], e, (map fst eps). split; reflexivity.
  - destruct (do_connect eps) as [evs1 ok1]. inversion E; subst evs ok1.
    destruct (IH _ _ eq_refl) as [W S]. split; [cbn; exact W|]. destruct ok.
    + destruct S as (es & e1 & rest & -> & M). exists (e :: es), e1, rest. cbn. rewrite M. split; reflexivity.
    + cbn. rewrite S. reflexivity.
Qed.

(** The shapes of a call. *)
Inductive call_shape (s : tcp) (m : bytes) : tcp -> list event -> bool -> Prop :=
| cs_none evs : t_socket s = None -> writes evs = [] -> (forall c, ~ In (EOpen c) evs) -> call_shape s m s evs true
| cs_kept_ok c : t_socket s = Some c -> call_shape s m s [EWrite c m true] false
| cs_kept_fail c n : t_socket s = Some c -> call_shape s m (Tcp None (t_next s)) [EWrite c (firstn n m) false; EClose c] true
| cs_new_ok es e rest : t_socket s = None ->
    call_shape s m (Tcp (Some (t_next s)) (S (t_next s)))
      (EResolve (Some (es ++ e :: rest)) :: map (fun x => EAttempt x false) es ++ [EAttempt e true; EOpen (t_next s); EWrite (t_next s) m true]) false
| cs_new_fail es e rest n : t_socket s = None ->
    call_shape s m (Tcp None (S (t_next s)))
      (EResolve (Some (es ++ e :: rest)) :: map (fun x => EAttempt x false) es ++
        [EAttempt e true; EOpen (t_next s); EWrite (t_next s) (firstn n m) false; EClose (t_next s)]) true.

Lemma attempts_no_open es c : ~ In (EOpen c) (map (fun x => EAttempt x false) es).
Proof. intros H. apply in_map_iff in H as (x & E & _). discriminate. Qed.

Lemma emit_shape s m o s' evs threw : emit s m o = (s', evs, threw) -> call_shape s m s' evs threw.
Proof.
  unfold emit. destruct (t_socket s) as [c|] eqn:ES.
  - unfold write. destruct (o_write o); intros E; inversion E; subst; constructor; exact ES.
  - unfold reconnect. destruct (o_resolve o) as [eps|].
    + destruct (do_connect eps) as [evs1 ok] eqn:EC. destruct (do_connect_shape _ _ _ EC) as [W S].
      destruct ok.
      * destruct S as (es & e & rest & -> & M). rewrite M. unfold write.
        destruct (o_write o) as [n|]; intros E; inversion E; subst.
        -- rewrite <- !app_assoc. cbn [app]. apply cs_new_fail; exact ES.
        -- rewrite <- !app_assoc. cbn [app]. apply cs_new_ok; exact ES.
      * intros E; inversion E; subst. apply cs_none; [exact ES|exact W|].
        intros c [H|H]; [discriminate|]. exact (attempts_no_open _ _ H).
    + intros E; inversion E; subst. apply cs_none; [exact ES|reflexivity|]. intros c [H|[]]; discriminate.
Qed.

Lemma writes_attempts es : writes (map (fun x => EAttempt x false) es) = [].
Proof. induction es; [reflexivity|assumption]. Qed.

(** The writes of a call. *)
Lemma call_writes s m s' evs threw : call_shape s m s' evs threw ->
  match threw with
  | false => exists c, writes evs = [(c, m, true)]
  | true => writes evs = [] \/ exists c n, writes evs = [(c, firstn n m, false)]
  end.
Proof.
  intros H; inversion H; subst.
  - left; assumption.
  - eexists; reflexivity.
  - right; eexists _, _; reflexivity.
  - eexists. cbn. rewrite writes_app, writes_attempts. reflexivity.
  - right. eexists _, _. cbn. rewrite writes_app, writes_attempts. reflexivity.
Qed.

Lemma one_write_lemma : forall s m o s' evs threw, emit s m o = (s', evs, threw) ->
  (threw = false -> exists c, writes evs = [(c, m, true)]) /\
  (threw = true -> writes evs = [] \/ exists c sent, writes evs = [(c, sent, false)] /\ is_prefix sent m).
Proof.
  intros s m o s' evs threw E. apply emit_shape, call_writes in E. destruct threw; split; try discriminate; intros _.
  - destruct E as [E|(c & n & E)]; [left; exact E|]. right. exists c, (firstn n m). split; [exact E|].
    exists (skipn n m). symmetry; apply firstn_skipn.
  - exact E.
Qed.

Lemma run_cons s m o calls s' evs ts : run s ((m, o) :: calls) = (s', evs, ts) ->
  exists s1 e1 t1 e2 t2, call_shape s m s1 e1 t1 /\ run s1 calls = (s', e2, t2) /\ evs = e1 ++ e2 /\ ts = t1 :: t2.
Proof.
  cbn [run]. destruct (emit s m o) as [[s1 e1] t1] eqn:E1. destruct (run s1 calls) as [[s2 e2] t2] eqn:E2.
  intros E; inversion E; subst. exists s1, e1, t1, e2, t2. repeat split; auto. eapply emit_shape; exact E1.
Qed.

Lemma delivered_lemma calls : forall s s' evs ts, run s calls = (s', evs, ts) ->
  delivered evs = returned (map fst calls) ts.
Proof.
  induction calls as [|[m o] calls IH]; intros s s' evs ts E.
  - inversion E; subst. reflexivity.
  - apply run_cons in E as (s1 & e1 & t1 & e2 & t2 & CS & ER & -> & ->).
    unfold delivered. rewrite writes_app, filter_app, map_app. cbn [map fst returned].
    rewrite <- (IH _ _ _ _ ER). unfold delivered. f_equal.
    apply call_writes in CS. destruct t1.
    + destruct CS as [-> | (c & n & ->)]; reflexivity.
    + destruct CS as (c & ->). reflexivity.
Qed.

(** Connections in use from a state: the current one, or new ones. *)
Definition live (s : tcp) (c : conn) : Prop := t_socket s = Some c \/ t_next s <= c.
Definition wf (s : tcp) : Prop := forall c, t_socket s = Some c -> c < t_next s.

Lemma call_live s m s1 e1 t1 : wf s -> call_shape s m s1 e1 t1 ->
  wf s1 /\ (forall c, live s1 c -> live s c) /\ (forall c, uses c e1 -> live s c) /\
  (forall a c d b, e1 = a ++ EWrite c d false :: b -> ~ uses c b /\ ~ live s1 c) /\
  (forall c, In (EOpen c) e1 -> c = t_next s /\ t_next s1 = S c /\ t_socket s = None).
Proof.
  intros Hwf CS.
  assert (LAST : forall pre w post, writes pre = [] -> (exists c d ok, w = EWrite c d ok) -> writes post = [] ->
    forall a c d b, pre ++ w :: post = a ++ EWrite c d false :: b -> w = EWrite c d false /\ writes b = []).
  { intros pre w post Hp (c0 & d0 & ok0 & ->) Hq a c d b E.
    assert (EW := f_equal writes E). rewrite !writes_app in EW. cbn in EW. rewrite Hp, Hq in EW. cbn in EW.
    destruct (writes a) as [|x l] eqn:EA; cbn in EW.
    - injection EW as E1 E2 E3 E4. subst c0 d0 ok0. split; [reflexivity|symmetry; exact E4].
    - destruct l; discriminate. }
  inversion CS as [evs HS HW HO | c HS | c n HS | es e rest HS | es e rest n HS]; subst.
  - refine (conj Hwf (conj (fun _ H => H) (conj _ (conj _ _)))).
    + intros c (d & ok & H). apply writes_in in H. rewrite HW in H. destruct H.
    + intros a c d b E. assert (EW := f_equal writes E). rewrite HW, writes_app in EW. destruct (writes a); discriminate.
    + intros c H. destruct (HO c H).
  - refine (conj Hwf (conj (fun _ H => H) (conj _ (conj _ _)))).
    + intros c1 (d & ok & [H|[]]). inversion H; subst. left; exact HS.
    + intros a c1 d b E. destruct (LAST [] _ [] eq_refl (ex_intro _ _ (ex_intro _ _ (ex_intro _ _ eq_refl))) eq_refl a c1 d b E) as [X _].
      discriminate.
    + intros c1 [H|[]]; discriminate.
  - refine (conj _ (conj _ (conj _ (conj _ _)))).
    + intros c1 H; discriminate.
    + intros c1 [H|H]; [discriminate|right; exact H].
    + intros c1 (d & ok & [H|[H|[]]]); [|discriminate]. inversion H; subst. left; exact HS.
    + intros a c1 d b E. destruct (LAST [] _ [EClose c] eq_refl (ex_intro _ _ (ex_intro _ _ (ex_intro _ _ eq_refl))) eq_refl a c1 d b E) as [X Y].
      inversion X; subst. split.
      * intros (d1 & ok1 & H). apply writes_in in H. rewrite Y in H. destruct H.
      * intros [H|H]; [discriminate|]. cbn in H. assert (L := Hwf _ HS). lia.
    + intros c1 [H|[H|[]]]; discriminate.
  - assert (SPLIT : forall tl, EResolve (Some (es ++ e :: rest)) :: map (fun x => EAttempt x false) es ++ EAttempt e true :: EOpen (t_next s) :: tl
       = (EResolve (Some (es ++ e :: rest)) :: map (fun x => EAttempt x false) es ++ [EAttempt e true; EOpen (t_next s)]) ++ tl).
    { intros tl. cbn [app]. rewrite <- app_assoc. reflexivity. }
    assert (WP : writes (EResolve (Some (es ++ e :: rest)) :: map (fun x => EAttempt x false) es ++ [EAttempt e true; EOpen (t_next s)]) = []).
    { cbn. rewrite writes_app, writes_attempts. reflexivity. }
    refine (conj _ (conj _ (conj _ (conj _ _)))).
    + intros c1 H. cbn in *. injection H as <-. lia.
    + intros c1 [H|H]; cbn in H; right; [injection H as <-; lia|lia].
    + intros c1 (d & ok & H). rewrite SPLIT in H. apply in_app_or in H as [H|[H|[]]].
      * apply writes_in in H. rewrite WP in H. destruct H.
      * inversion H; subst. right; lia.
    + intros a c1 d b E. rewrite SPLIT in E.
      destruct (LAST _ _ [] WP (ex_intro _ _ (ex_intro _ _ (ex_intro _ _ eq_refl))) eq_refl a c1 d b E) as [X _]. discriminate.
    + intros c1 [H|H]; [discriminate|]. apply in_app_or in H as [H|[H|[H|[H|[]]]]]; try discriminate.
      * destruct (attempts_no_open _ _ H).
      * injection H as <-. auto.
  - assert (SPLIT : forall tl, EResolve (Some (es ++ e :: rest)) :: map (fun x => EAttempt x false) es ++ EAttempt e true :: EOpen (t_next s) :: tl
       = (EResolve (Some (es ++ e :: rest)) :: map (fun x => EAttempt x false) es ++ [EAttempt e true; EOpen (t_next s)]) ++ tl).
    { intros tl. cbn [app]. rewrite <- app_assoc. reflexivity. }
    assert (WP : writes (EResolve (Some (es ++ e :: rest)) :: map (fun x => EAttempt x false) es ++ [EAttempt e true; EOpen (t_next s)]) = []).
    { cbn. rewrite writes_app, writes_attempts. reflexivity. }
    refine (conj _ (conj _ (conj _ (conj _ _)))).
    + intros c1 H; discriminate.
    + intros c1 [H|H]; cbn in H; [discriminate|]. right; lia.
    + intros c1 (d & ok & H). rewrite SPLIT in H. apply in_app_or in H as [H|[H|[H|[]]]].
      * apply writes_in in H. rewrite WP in H. destruct H.
      * inversion H; subst. right; lia.
      * discriminate.
    + intros a c1 d b E. rewrite SPLIT in E.
      destruct (LAST _ _ [EClose (t_next s)] WP (ex_intro _ _ (ex_intro _ _ (ex_intro _ _ eq_refl))) eq_refl a c1 d b E) as [X Y].
      inversion X; subst. split.
      * intros (d1 & ok1 & H). apply writes_in in H. rewrite Y in H. destruct H.
      * intros [H|H]; [discriminate|]. cbn in H. lia.
    + intros c1 [H|H]; [discriminate|]. apply in_app_or in H as [H|[H|[H|[H|[H|[]]]]]]; try discriminate.
      * destruct (attempts_no_open _ _ H).
      * injection H as <-. auto.
Qed.

Lemma run_live calls : forall s s' evs ts, wf s -> run s calls = (s', evs, ts) -> forall c, uses c evs -> live s c.
Proof.
  induction calls as [|[m o] calls IH]; intros s s' evs ts Hwf E c HU.
  - inversion E; subst. destruct HU as (d & ok & []).
  - apply run_cons in E as (s1 & e1 & t1 & e2 & t2 & CS & ER & -> & ->).
    destruct (call_live _ _ _ _ _ Hwf CS) as (W1 & L1 & U1 & _).
    destruct HU as (d & ok & H). apply in_app_or in H as [H|H].
    + apply U1. exists d, ok; exact H.
    + apply L1. eapply IH; [exact W1|exact ER|]. exists d, ok; exact H.
Qed.

Lemma split_app {A} (a b x y : list A) e : a ++ b = x ++ e :: y ->
  (exists z, a = x ++ e :: z /\ y = z ++ b) \/ (exists z, x = a ++ z /\ b = z ++ e :: y).
Proof.
  revert x; induction a as [|h a IH]; intros x E.
  - right. exists x. auto.
  - destruct x as [|h' x]; cbn in E.
    + inversion E; subst. left. exists a. auto.
    + inversion E as [[E1 E2]]. destruct (IH x E2) as [(z & -> & ->)|(z & -> & ->)].
      * left. exists z. auto.
      * right. exists z. auto.
Qed.

Lemma no_reuse_go calls : forall s s' evs ts, wf s -> run s calls = (s', evs, ts) ->
  forall a c d b, evs = a ++ EWrite c d false :: b -> ~ uses c b.
Proof.
  induction calls as [|[m o] calls IH]; intros s s' evs ts Hwf E a c d b EE.
  - inversion E; subst. destruct a; discriminate.
  - apply run_cons in E as (s1 & e1 & t1 & e2 & t2 & CS & ER & -> & ->).
    destruct (call_live _ _ _ _ _ Hwf CS) as (W1 & L1 & U1 & F1 & _).
    destruct (split_app _ _ _ _ _ EE) as [(z & -> & ->)|(z & -> & EZ)].
    + destruct (F1 _ _ _ _ eq_refl) as [NU NL]. intros (d1 & ok1 & H). apply in_app_or in H as [H|H].
      * apply NU. exists d1, ok1; exact H.
      * apply NL. eapply run_live; [exact W1|exact ER|]. exists d1, ok1; exact H.
    + exact (IH _ _ _ _ W1 ER _ _ _ _ EZ).
Qed.

Lemma wf_init : wf init.
Proof. intros c H; discriminate. Qed.

Lemma no_reuse_lemma : forall calls s evs ts a c d b,
  run init calls = (s, evs, ts) -> evs = a ++ EWrite c d false :: b -> ~ uses c b.
Proof. intros. eapply no_reuse_go; eauto. apply wf_init. Qed.

(** A connection is opened before it is used, once. *)
Lemma opened_go calls : forall s s' evs ts, wf s -> run s calls = (s', evs, ts) ->
  (forall a c d ok b, evs = a ++ EWrite c d ok :: b -> t_socket s = Some c \/ In (EOpen c) a) /\
  (forall c, In (EOpen c) evs -> t_next s <= c) /\
  (forall a c b, evs = a ++ EOpen c :: b -> ~ In (EOpen c) b).
Proof.
  induction calls as [|[m o] calls IH]; intros s s' evs ts Hwf E.
  - inversion E; subst. split; [|split].
    + intros [|] * EE; discriminate.
    + intros c [].
    + intros [|] * EE; discriminate.
  - apply run_cons in E as (s1 & e1 & t1 & e2 & t2 & CS & ER & -> & ->).
    destruct (call_live _ _ _ _ _ Hwf CS) as (W1 & L1 & U1 & F1 & O1).
    destruct (IH _ _ _ _ W1 ER) as (I1 & I2 & I3).
    assert (NX : t_next s <= t_next s1) by (inversion CS; subst; cbn; lia).
    assert (OW : forall a c d ok b, e1 = a ++ EWrite c d ok :: b -> t_socket s = Some c \/ In (EOpen c) a).
    { intros a c d ok b EE.
      destruct (U1 c) as [H|H]; [exists d, ok; rewrite EE; apply in_or_app; right; left; reflexivity|left; exact H|].
      revert EE. inversion CS as [evs HS HW HO | c0 HS | c0 n HS | es e rest HS | es e rest n HS]; subst; intros EE.
      - assert (EW := f_equal writes EE). rewrite HW, writes_app in EW. destruct (writes a); discriminate.
      - left. destruct a as [|x a]; [injection EE as -> _ _; exact HS|]. destruct a; discriminate.
      - left. destruct a as [|x [|y a]]; [injection EE as -> _ _; exact HS|discriminate|destruct a; discriminate].
      - right. revert EE. change (EResolve (Some (es ++ e :: rest)) :: map (fun x => EAttempt x false) es ++ [EAttempt e true; EOpen (t_next s); EWrite (t_next s) m true])
          with ((EResolve (Some (es ++ e :: rest)) :: map (fun x => EAttempt x false) es) ++ [EAttempt e true; EOpen (t_next s); EWrite (t_next s) m true]).
        intros EE. apply split_app in EE as [(z & EZ & _)|(z & -> & EZ)].
        + assert (EW := f_equal writes EZ). cbn in EW. rewrite writes_attempts, writes_app in EW. destruct (writes a); discriminate.
        + destruct z as [|z1 [|z2 [|z3 z]]]; try discriminate; [|destruct z; discriminate].
          inversion EZ; subst. apply in_or_app. right. right; left; reflexivity.
      - right. revert EE. change (EResolve (Some (es ++ e :: rest)) :: map (fun x => EAttempt x false) es ++ [EAttempt e true; EOpen (t_next s); EWrite (t_next s) (firstn n m) false; EClose (t_next s)])
          with ((EResolve (Some (es ++ e :: rest)) :: map (fun x => EAttempt x false) es) ++ [EAttempt e true; EOpen (t_next s); EWrite (t_next s) (firstn n m) false; EClose (t_next s)]).
        intros EE. apply split_app in EE as [(z & EZ & _)|(z & -> & EZ)].
        + assert (EW := f_equal writes EZ). cbn in EW. rewrite writes_attempts, writes_app in EW. destruct (writes a); discriminate.
        + destruct z as [|z1 [|z2 [|z3 [|z4 z]]]]; try discriminate; [|destruct z; discriminate].
          inversion EZ; subst. apply in_or_app. right. right; left; reflexivity. }
    split; [|split].
    + intros a c d ok b EE. destruct (split_app _ _ _ _ _ EE) as [(z & -> & _)|(z & -> & EZ)].
      * exact (OW _ _ _ _ _ eq_refl).
      * destruct (I1 _ _ _ _ _ EZ) as [H|H].
        -- inversion CS as [evs HS HW HO | c0 HS | c0 n HS | es e rest HS | es e rest n HS]; subst; cbn in H.
           ++ left; exact H.
           ++ left; exact H.
           ++ discriminate.
           ++ injection H as <-. right. apply in_or_app. left. right. apply in_or_app. right. right. left. reflexivity.
           ++ discriminate.
        -- right. apply in_or_app. right; exact H.
    + intros c H. apply in_app_or in H as [H|H].
      * destruct (O1 _ H) as [-> _]. lia.
      * assert (L := I2 _ H). lia.
    + intros a c b EE. destruct (split_app _ _ _ _ _ EE) as [(z & EZ & ->)|(z & -> & EZ)].
      * intros H. apply in_app_or in H as [H|H].
        -- (* twice within a call *)
           revert EZ. inversion CS as [evs HS HW HO | c0 HS | c0 n HS | es e rest HS | es e rest n HS]; subst; intros EZ.
           ++ apply (HO c). rewrite EZ. apply in_or_app; right; left; reflexivity.
           ++ destruct a as [|x [|]]; discriminate.
           ++ destruct a as [|x [|y [|]]]; discriminate.
           ++ revert EZ. change (EResolve (Some (es ++ e :: rest)) :: map (fun x => EAttempt x false) es ++ [EAttempt e true; EOpen (t_next s); EWrite (t_next s) m true])
                with ((EResolve (Some (es ++ e :: rest)) :: map (fun x => EAttempt x false) es) ++ [EAttempt e true; EOpen (t_next s); EWrite (t_next s) m true]).
              intros EZ. apply split_app in EZ as [(y & EY & _)|(y & -> & EY)].
              ** assert (IN : In (EOpen c) (EResolve (Some (es ++ e :: rest)) :: map (fun x => EAttempt x false) es)) by (rewrite EY; apply in_or_app; right; left; reflexivity).
                 destruct IN as [IN|IN]; [discriminate|]. exact (attempts_no_open _ _ IN).
              ** destruct y as [|y1 [|y2 [|y3 y]]]; try discriminate; [|destruct y; discriminate].
                 inversion EY; subst. destruct H as [H|[]]; discriminate.
           ++ revert EZ. change (EResolve (Some (es ++ e :: rest)) :: map (fun x => EAttempt x false) es ++ [EAttempt e true; EOpen (t_next s); EWrite (t_next s) (firstn n m) false; EClose (t_next s)])
                with ((EResolve (Some (es ++ e :: rest)) :: map (fun x => EAttempt x false) es) ++ [EAttempt e true; EOpen (t_next s); EWrite (t_next s) (firstn n m) false; EClose (t_next s)]).
              intros EZ. apply split_app in EZ as [(y & EY & _)|(y & -> & EY)].
              ** assert (IN : In (EOpen c) (EResolve (Some (es ++ e :: rest)) :: map (fun x => EAttempt x false) es)) by (rewrite EY; apply in_or_app; right; left; reflexivity).
                 destruct IN as [IN|IN]; [discriminate|]. exact (attempts_no_open _ _ IN).
              ** destruct y as [|y1 [|y2 [|y3 [|y4 y]]]]; try discriminate; [|destruct y; discriminate].
                 inversion EY; subst. destruct H as [H|[H|[]]]; discriminate.
        -- assert (L := I2 _ H).
           destruct (O1 c) as (-> & N1 & _); [rewrite EZ; apply in_or_app; right; left; reflexivity|]. lia.
      * exact (I3 _ _ _ EZ).
Qed.

Lemma opened_lemma : forall calls s evs ts, run init calls = (s, evs, ts) ->
  (forall a c d ok b, evs = a ++ EWrite c d ok :: b -> In (EOpen c) a) /\
  (forall a c b, evs = a ++ EOpen c :: b -> ~ In (EOpen c) b).
Proof.
  intros calls s evs ts E. destruct (opened_go calls init s evs ts wf_init E) as (A & _ & C). split; [|exact C].
  intros a c d ok b EE. destruct (A a c d ok b EE) as [H|H]; [discriminate|exact H].
Qed.

Lemma endpoint_order_lemma : forall calls s s' evs ts a c b,
  run s calls = (s', evs, ts) -> evs = a ++ EOpen c :: b ->
  exists a0 es e rest, a = a0 ++ EResolve (Some (es ++ e :: rest)) :: map (fun x => EAttempt x false) es ++ [EAttempt e true].
Proof.
  induction calls as [|[m o] calls IH]; intros s s' evs ts a c b E EE.
  - inversion E; subst. destruct a; discriminate.
  - apply run_cons in E as (s1 & e1 & t1 & e2 & t2 & CS & ER & -> & ->).
    destruct (split_app _ _ _ _ _ EE) as [(z & EZ & ->)|(z & -> & EZ)].
    + assert (G : forall es e rest tl, EResolve (Some (es ++ e :: rest)) :: map (fun x => EAttempt x false) es ++ EAttempt e true :: EOpen (t_next s) :: tl = a ++ EOpen c :: z ->
        (forall x, ~ In (EOpen x) tl) ->
        a = EResolve (Some (es ++ e :: rest)) :: map (fun x => EAttempt x false) es ++ [EAttempt e true]).
      { intros es e rest tl EQ HT.
        change (EResolve (Some (es ++ e :: rest)) :: map (fun x => EAttempt x false) es ++ EAttempt e true :: EOpen (t_next s) :: tl)
          with ((EResolve (Some (es ++ e :: rest)) :: map (fun x => EAttempt x false) es) ++ EAttempt e true :: EOpen (t_next s) :: tl) in EQ.
        apply split_app in EQ as [(y & EY & _)|(y & -> & EY)].
        - assert (IN : In (EOpen c) (EResolve (Some (es ++ e :: rest)) :: map (fun x => EAttempt x false) es)) by (rewrite EY; apply in_or_app; right; left; reflexivity).
          destruct IN as [IN|IN]; [discriminate|]. destruct (attempts_no_open _ _ IN).
        - destruct y as [|y1 [|y2 y]]; [discriminate| |].
          + inversion EY; subst. cbn [app]. reflexivity.
          + inversion EY; subst. exfalso. apply (HT c). apply in_or_app; right; left; reflexivity. }
      clear EE. revert EZ. inversion CS as [evs HS HW HO | c0 HS | c0 n HS | es e rest HS | es e rest n HS]; subst; intros EZ.
      * exfalso. apply (HO c). rewrite EZ. apply in_or_app; right; left; reflexivity.
      * destruct a as [|x [|]]; discriminate.
      * destruct a as [|x [|y [|]]]; discriminate.
      * exists [], es, e, rest. cbn [app]. eapply G; [eassumption|]. intros x [H|[]]; discriminate.
      * exists [], es, e, rest. cbn [app]. eapply G; [eassumption|]. intros x [H|[H|[]]]; discriminate.
    + destruct (IH _ _ _ _ _ _ _ ER EZ) as (a0 & es & e & rest & ->). exists (e1 ++ a0), es, e, rest.
      rewrite <- app_assoc. reflexivity.
Qed.

(** A connection carries whole records, then possibly the beginning of one more. *)
Definition pick (c : conn) (w : conn * bytes * bool) : bool := Nat.eqb (fst (fst w)) c.

Lemma stream_app c a b : stream c (a ++ b) = stream c a ++ stream c b.
Proof. unfold stream. rewrite writes_app, filter_app, map_app, concat_app. reflexivity. Qed.
Lemma stream_ok_app c a b : stream_ok c (a ++ b) = stream_ok c a ++ stream_ok c b.
Proof. unfold stream_ok. rewrite writes_app, filter_app, map_app. reflexivity. Qed.

Lemma stream_unused c evs : ~ uses c evs -> stream c evs = [] /\ stream_ok c evs = [].
Proof.
  intros NU. unfold stream, stream_ok.
  assert (A : forall l : list (conn * bytes * bool), (forall d ok, ~ In (c, d, ok) l) ->
     filter (fun w => Nat.eqb (fst (fst w)) c) l = [] /\ filter (fun w => Nat.eqb (fst (fst w)) c && snd w) l = []).
  { induction l as [|[[c' d] ok] l IH]; intros H; [split; reflexivity|]. cbn [filter fst snd].
    destruct (Nat.eqb_spec c' c) as [->|]; [destruct (H d ok); left; reflexivity|]. cbn.
    apply IH. intros d' ok' H'. apply (H d' ok'). right; exact H'. }
  destruct (A (writes evs)) as [-> ->].
  - intros d ok H. apply NU. exists d, ok. apply writes_in; exact H.
  - split; reflexivity.
Qed.

Lemma stream_go calls : forall s s' evs ts, wf s -> run s calls = (s', evs, ts) -> forall c,
  exists tail, stream c evs = concat (stream_ok c evs) ++ tail /\
    (tail = [] \/ exists m o, In (m, o) calls /\ is_prefix tail m).
Proof.
  induction calls as [|[m o] calls IH]; intros s s' evs ts Hwf E c.
  - inversion E; subst. exists []. split; [reflexivity|left; reflexivity].
  - apply run_cons in E as (s1 & e1 & t1 & e2 & t2 & CS & ER & -> & ->).
    destruct (call_live _ _ _ _ _ Hwf CS) as (W1 & L1 & U1 & F1 & O1).
    destruct (IH _ _ _ _ W1 ER c) as (tail & ET & HT).
    rewrite stream_app, stream_ok_app, concat_app.
    assert (HT' : tail = [] \/ exists m0 o0, In (m0, o0) ((m, o) :: calls) /\ is_prefix tail m0).
    { destruct HT as [HT|(m0 & o0 & H1 & H2)]; [left; exact HT|right]. exists m0, o0. split; [right; exact H1|exact H2]. }
    assert (CW := call_writes _ _ _ _ _ CS).
    assert (REST : forall x, stream c e1 = concat (stream_ok c e1) ->
       x = concat (stream_ok c e1) ->
       exists tl, stream c e1 ++ stream c e2 = (x ++ concat (stream_ok c e2)) ++ tl /\
         (tl = [] \/ exists m0 o0, In (m0, o0) ((m, o) :: calls) /\ is_prefix tl m0)).
    { intros x Hx ->. exists tail. rewrite Hx, ET, app_assoc. split; [reflexivity|exact HT']. }
    destruct t1.
    + destruct CW as [CW|(c1 & n & CW)].
      * apply REST; [|reflexivity]. unfold stream, stream_ok. rewrite CW. reflexivity.
      * destruct (Nat.eqb_spec c1 c) as [->|Hne].
        -- assert (IN : In (EWrite c (firstn n m) false) e1) by (apply writes_in; rewrite CW; left; reflexivity).
           apply in_split in IN as (x & y & Exy). destruct (F1 _ _ _ _ Exy) as [_ NL].
           assert (NU : ~ uses c e2) by (intros H; apply NL; eapply run_live; [exact W1|exact ER|exact H]).
           destruct (stream_unused c e2 NU) as [-> ->].
           exists (firstn n m). unfold stream, stream_ok. rewrite CW. cbn. rewrite Nat.eqb_refl. cbn. rewrite !app_nil_r.
           split; [reflexivity|]. right. exists m, o. split; [left; reflexivity|]. exists (skipn n m). symmetry; apply firstn_skipn.
        -- apply REST; [|reflexivity]. unfold stream, stream_ok. rewrite CW. cbn.
           destruct (Nat.eqb_spec c1 c); [contradiction|reflexivity].
    + destruct CW as (c1 & CW). apply REST; [|reflexivity].
      unfold stream, stream_ok. rewrite CW. cbn. destruct (Nat.eqb c1 c); reflexivity.
Qed.

Lemma stream_lemma : forall calls s evs ts c, run init calls = (s, evs, ts) ->
  exists tail, stream c evs = concat (stream_ok c evs) ++ tail /\
    (tail = [] \/ exists m o, In (m, o) calls /\ is_prefix tail m).
Proof. intros. eapply stream_go; eauto. apply wf_init. Qed.

Lemma port_kept_lemma : forall h p, (p < 65536)%N -> factory (Some h) (Some p) = Some (h, p).
Proof. intros h p H. unfold factory. rewrite N.mod_small by exact H. reflexivity. Qed.

Lemma port_truncated_lemma : exists h p q, factory (Some h) (Some p) = Some (h, q) /\ q <> p.
Proof. exists (B "localhost"), 65616%N, 80%N. split; [reflexivity|discriminate]. Qed.
