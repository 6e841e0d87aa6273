(** Lemmas about the whole system. *)
From Verif Require Import Base Values RootModel FactoriesModel SystemModel SystemSpec.
From Verif Require FmtModel FileSinkModel FileSinkSpec FileSinkProofs TcpModel TcpSpec TcpProofs ConsoleModel DeliveryModel DeliverySpec DeliveryProofs RootSpec.
From Verif Require ParserModel StrModel StrSpec StrSubProofs FlusherModel.

(** ---- the run as a sequence of steps ---- *)

Definition lookup (ws : list working) (i j : nat) : option live :=
  match nth_error ws i with Some (_, sinks) => nth_error sinks j | None => None end.

Definition at_ (a b i j : nat) : bool := Nat.eqb a i && Nat.eqb b j.

Inductive estep : world * list working -> event -> world * list working -> Prop :=
| step_emit w ws i j severity text q tty s w' s' e ws' :
    lookup ws i j = Some s -> emit w tty severity text s q = Some (w', s', e) ->
    (forall a b, lookup ws' a b = if at_ a b i j then Some s' else lookup ws a b) ->
    estep (w, ws) (Emitted i j severity text q (match e with Some _ => true | None => false end)) (w', ws')
| step_complain w ws i e : estep (w, ws) (Complained i e) (complain w e, ws).

Inductive esteps : world * list working -> list event -> world * list working -> Prop :=
| esteps_nil x : esteps x [] x
| esteps_cons x e y evs z : estep x e y -> esteps y evs z -> esteps x (e :: evs) z.

Lemma esteps_app x a y b z : esteps x a y -> esteps y b z -> esteps x (a ++ b) z.
Proof. induction 1; intros H'; cbn [app]; [exact H'|]. econstructor; eauto. Qed.

Lemma lookup_here A (f : formatter) d s rest T a b : 
  lookup (A ++ (f, d ++ s :: rest) :: T) a b =
  if at_ a b (length A) (length d) then Some s else lookup (A ++ (f, d ++ s :: rest) :: T) a b.
Proof.
  unfold at_. destruct (Nat.eqb_spec a (length A)) as [->|]; cbn [andb]; [|reflexivity].
  destruct (Nat.eqb_spec b (length d)) as [->|]; [|reflexivity].
  unfold lookup. rewrite nth_error_app2 by lia. rewrite Nat.sub_diag. cbn [nth_error].
  rewrite nth_error_app2 by lia. rewrite Nat.sub_diag. reflexivity.
Qed.

Lemma lookup_swap A (f : formatter) d s s' rest T a b : at_ a b (length A) (length d) = false ->
  lookup (A ++ (f, d ++ s :: rest) :: T) a b = lookup (A ++ (f, d ++ s' :: rest) :: T) a b.
Proof.
  unfold at_, lookup. intros H.
  destruct (Nat.lt_ge_cases a (length A)) as [L|L].
  - rewrite !nth_error_app1 by exact L. reflexivity.
  - rewrite !nth_error_app2 by exact L. destruct (a - length A) as [|n] eqn:E; cbn [nth_error]; [|reflexivity].
    assert (a = length A) as -> by lia. rewrite Nat.eqb_refl in H. cbn [andb] in H. apply Nat.eqb_neq in H.
    destruct (Nat.lt_ge_cases b (length d)) as [L'|L'].
    + rewrite !nth_error_app1 by exact L'. reflexivity.
    + rewrite !nth_error_app2 by exact L'. destruct (b - length d) as [|m] eqn:E'; [lia|]. reflexivity.
Qed.

Lemma emit_all_steps tty severity text q f A T : forall sinks d w w' sinks' evs e,
  emit_all w tty severity text q (length A) (length d) sinks = Some (w', sinks', evs, e) ->
  esteps (w, A ++ (f, d ++ sinks) :: T) evs (w', A ++ (f, d ++ sinks') :: T).
Proof.
  induction sinks as [|s sinks IH]; intros d w w' sinks' evs e E; cbn [emit_all] in E.
  - injection E as <- <- <- <-. constructor.
  - destruct (emit w tty severity text s (q (length d))) as [[[w1 s1] [x|]]|] eqn:EE; [| |discriminate].
    + injection E as <- <- <- <-. econstructor; [|constructor].
      apply (step_emit w _ (length A) (length d) severity text (q (length d)) tty s w1 s1 (Some x)); [|exact EE|].
      * rewrite lookup_here. unfold at_. rewrite !Nat.eqb_refl. reflexivity.
      * intros a b. rewrite lookup_here. destruct (at_ a b (length A) (length d)) eqn:E'; [reflexivity|]. apply lookup_swap; exact E'.
    + destruct (emit_all w1 tty severity text q (length A) (S (length d)) sinks) as [[[[w2 sinks2] evs2] r]|] eqn:ER; [|discriminate].
      injection E as <- <- <- <-. econstructor.
      * apply (step_emit w _ (length A) (length d) severity text (q (length d)) tty s w1 s1 None (A ++ (f, (d ++ [s1]) ++ sinks) :: T)); [|exact EE|].
        -- rewrite lookup_here. unfold at_. rewrite !Nat.eqb_refl. reflexivity.
        -- intros a b. rewrite <- app_assoc. cbn [app]. rewrite lookup_here.
           destruct (at_ a b (length A) (length d)) eqn:E'; [reflexivity|]. apply lookup_swap; exact E'.
      * replace (d ++ s1 :: sinks2) with ((d ++ [s1]) ++ sinks2) by (rewrite <- app_assoc; reflexivity).
        apply (IH (d ++ [s1]) w1 w2 sinks2 evs2 r). rewrite app_length. cbn [length]. rewrite Nat.add_1_r. exact ER.
Qed.

Section Runs.
Variable dbl : FmtModel.spec -> N -> bytes.
Variable dbl_json : N -> bytes.
Variable double_of : bytes -> N.
Variable what : FmtModel.error -> bytes.
Variable json_fmt : bytes -> value -> option bytes.
Notation render := (render dbl dbl_json double_of what json_fmt).
Notation handle_all := (handle_all dbl dbl_json double_of what json_fmt).
Notation log := (log dbl dbl_json double_of what json_fmt).
Notation log_all := (log_all dbl dbl_json double_of what json_fmt).
Notation handled := (handled dbl dbl_json double_of what json_fmt).
Notation called := (called dbl dbl_json double_of what json_fmt).
Notation makes := (makes dbl dbl_json double_of what json_fmt).

Lemma handle_all_steps env r q : forall hs A w w' hs' evs,
  handle_all w env r q (length A) hs = Some (w', hs', evs) -> esteps (w, A ++ hs) evs (w', A ++ hs').
Proof.
  induction hs as [|[f sinks] hs IH]; intros A w w' hs' evs E; cbn [SystemModel.handle_all] in E.
  - injection E as <- <- <-. constructor.
  - destruct (render f env r) as [text|e|]; [| |discriminate].
    + destruct (emit_all w (e_tty env) (r_severity r) text (q (length A)) (length A) 0 sinks) as [[[[w1 sinks1] evs1] e]|] eqn:EE; [|discriminate].
      destruct (handle_all _ env r q (S (length A)) hs) as [[[w2 hs2] evs2]|] eqn:ER; [|discriminate].
      injection E as <- <- <-. eapply esteps_app; [exact (emit_all_steps _ _ _ _ f A hs sinks [] _ _ _ _ _ EE)|].
      assert (EA : forall hs0, A ++ (f, sinks1) :: hs0 = (A ++ [(f, sinks1)]) ++ hs0) by (intros; rewrite <- app_assoc; reflexivity).
      assert (L : S (length A) = length (A ++ [(f, sinks1)])) by (rewrite app_length; cbn [length]; lia).
      cbn [app]. destruct e as [e|].
      * eapply esteps_app; [econstructor; [apply step_complain|constructor]|]. cbn [app]. rewrite (EA hs), (EA hs2). apply IH. rewrite <- L. exact ER.
      * cbn [app]. rewrite (EA hs), (EA hs2). apply IH. rewrite <- L. exact ER.
    + destruct (handle_all _ env r q (S (length A)) hs) as [[[w2 hs2] evs2]|] eqn:ER; [|discriminate].
      injection E as <- <- <-. econstructor; [apply step_complain|].
      assert (EA : forall hs0, A ++ (f, sinks) :: hs0 = (A ++ [(f, sinks)]) ++ hs0) by (intros; rewrite <- app_assoc; reflexivity).
      rewrite (EA hs), (EA hs2). apply IH. rewrite app_length. cbn [length]. rewrite Nat.add_1_r. exact ER.
Qed.

Lemma log_steps w ws c w' ws' evs : log w ws c = Some (w', ws', evs) -> esteps (w, ws) evs (w', ws').
Proof.
  unfold SystemModel.log. intros E. destruct (c_supplier c) as [m|e].
  - exact (handle_all_steps _ _ _ _ [] _ _ _ _ E).
  - injection E as <- <- <-. constructor.
Qed.

Lemma log_all_steps : forall calls w ws w' ws' evs, log_all w ws calls = Some (w', ws', evs) -> esteps (w, ws) evs (w', ws').
Proof.
  induction calls as [|c calls IH]; intros w ws w' ws' evs E; cbn [SystemModel.log_all] in E.
  - injection E as <- <- <-. constructor.
  - destruct (log w ws c) as [[[w1 ws1] e1]|] eqn:E1; [|discriminate].
    destruct (log_all w1 ws1 calls) as [[[w2 ws2] e2]|] eqn:E2; [|discriminate].
    injection E as <- <- <-. eapply esteps_app; [exact (log_steps _ _ _ _ _ _ E1)|exact (IH _ _ _ _ _ E2)].
Qed.

(** ---- routing ---- *)

(** What stays the same of a logger at work. *)
Definition shape (ws : list working) : list (formatter * nat) := map (fun x => (fst x, length (snd x))) ws.
Definition config_shape (hs : list FactoriesModel.handler) : list (formatter * nat) :=
  map (fun h => match h with HBlocking f sinks => (f, length sinks) end) hs.

Lemma start_all_length : forall l r, start_all l = Some r -> length r = length l.
Proof.
  induction l as [|s l IH]; intros r E; cbn [start_all] in E; [injection E as <-; reflexivity|].
  destruct (start s), (start_all l) eqn:E'; try discriminate. injection E as <-. cbn [length]. rewrite (IH _ eq_refl). reflexivity.
Qed.

Lemma start_shape : forall hs ws, start_handlers hs = Some ws -> shape ws = config_shape hs.
Proof.
  induction hs as [|[f sinks] hs IH]; intros ws E; cbn [start_handlers] in E; [injection E as <-; reflexivity|].
  destruct (start_all sinks) as [l|] eqn:E1; [|discriminate]. destruct (start_handlers hs) as [r|] eqn:E2; [|discriminate].
  injection E as <-. cbn. rewrite (start_all_length _ _ E1). f_equal. apply IH. reflexivity.
Qed.

Lemma emit_all_given c text : forall i sinks w tty j w' sinks' evs e,
  emit_all w tty (c_severity c) text (c_circumstances c i) i j sinks = Some (w', sinks', evs, e) ->
  length sinks' = length sinks /\ given c i text j (length sinks) (evs ++ match e with Some e => [Complained i e] | None => [] end).
Proof.
  intros i. induction sinks as [|s sinks IH]; intros w tty j w' sinks' evs e E; cbn [emit_all] in E.
  - injection E as <- <- <- <-. split; [reflexivity|constructor].
  - destruct (emit w tty (c_severity c) text s (c_circumstances c i j)) as [[[w1 s1] [x|]]|] eqn:EE; [| |discriminate].
    + injection E as <- <- <- <-. split; [reflexivity|apply given_stop].
    + destruct (emit_all w1 tty (c_severity c) text (c_circumstances c i) i (S j) sinks) as [[[[w2 sinks2] evs2] r]|] eqn:ER; [|discriminate].
      injection E as <- <- <- <-. destruct (IH _ _ _ _ _ _ _ ER) as [L G]. split; [cbn; rewrite L; reflexivity|].
      cbn [app length]. apply given_on. exact G.
Qed.

Lemma handle_all_handled c r : r_severity r = c_severity c -> forall ws hs i w w' ws' evs,
  shape ws = config_shape hs -> handle_all w (c_env c) r (c_circumstances c) i ws = Some (w', ws', evs) ->
  shape ws' = config_shape hs /\ handled c r i hs evs.
Proof.
  intros ES. induction ws as [|[f sinks] ws IH]; intros [|[f0 sinks0] hs] i w w' ws' evs S E; try discriminate S; cbn [SystemModel.handle_all] in E.
  - injection E as <- <- <-. split; [reflexivity|constructor].
  - cbn in S. injection S as <- S1 S2. rewrite ES in E.
    destruct (render f (c_env c) r) as [text|e|] eqn:RE; [| |discriminate].
    + destruct (emit_all w (e_tty (c_env c)) (c_severity c) text (c_circumstances c i) i 0 sinks) as [[[[w1 sinks1] evs1] e]|] eqn:EE; [|discriminate].
      destruct (handle_all _ (c_env c) r (c_circumstances c) (Datatypes.S i) ws) as [[[w2 hs2] evs2]|] eqn:ER; [|discriminate].
      injection E as <- <- <-. destruct (emit_all_given _ _ _ _ _ _ _ _ _ _ _ EE) as [L G].
      destruct (IH _ _ _ _ _ _ S2 ER) as [S3 H]. split; [cbn; rewrite L, S1; f_equal; exact S3|].
      rewrite app_assoc. rewrite S1 in G. exact (handled_text _ _ _ _ _ _ _ _ _ _ _ _ _ _ RE G H).
    + destruct (handle_all _ (c_env c) r (c_circumstances c) (Datatypes.S i) ws) as [[[w2 hs2] evs2]|] eqn:ER; [|discriminate].
      injection E as <- <- <-. destruct (IH _ _ _ _ _ _ S2 ER) as [S3 H]. split; [cbn; rewrite S1; f_equal; exact S3|].
      eapply handled_raise; [exact RE|exact H].
Qed.

Lemma log_called hs c : forall w ws w' ws' evs, shape ws = config_shape hs -> log w ws c = Some (w', ws', evs) ->
  shape ws' = config_shape hs /\ called hs c evs.
Proof.
  intros w ws w' ws' evs S E. unfold SystemModel.log in E. destruct (c_supplier c) as [m|e] eqn:ES.
  - destruct (handle_all_handled c (activate (record_new (c_severity c) (c_pattern c) (c_tid c) (c_pack c ++ c_scoped c)) m (c_now c)) eq_refl _ _ _ _ _ _ _ S E) as [S' H].
    split; [exact S'|]. right. eexists. split; [|exact H]. exists m. split; [exact ES|]. reflexivity.
  - injection E as <- <- <-. split; [exact S|]. left. split; [exists e; exact ES|reflexivity].
Qed.

Lemma log_all_called hs : forall calls w ws w' ws' evs, shape ws = config_shape hs -> log_all w ws calls = Some (w', ws', evs) ->
  exists blocks, evs = concat blocks /\ Forall2 (called hs) calls blocks.
Proof.
  induction calls as [|c calls IH]; intros w ws w' ws' evs S E; cbn [SystemModel.log_all] in E.
  - injection E as <- <- <-. exists []. split; [reflexivity|constructor].
  - destruct (log w ws c) as [[[w1 ws1] e1]|] eqn:E1; [|discriminate].
    destruct (log_all w1 ws1 calls) as [[[w2 ws2] e2]|] eqn:E2; [|discriminate].
    injection E as <- <- <-. destruct (log_called hs _ _ _ _ _ _ S E1) as [S1 C]. destruct (IH _ _ _ _ _ S1 E2) as (b & -> & F).
    exists (e1 :: b). split; [reflexivity|constructor; assumption].
Qed.

Lemma routes_lemma : forall hs ws w calls w' ws' evs, start_handlers hs = Some ws -> log_all w ws calls = Some (w', ws', evs) ->
  exists blocks, evs = concat blocks /\ Forall2 (called hs) calls blocks.
Proof. intros hs ws w calls w' ws' evs S E. exact (log_all_called hs _ _ _ _ _ _ (start_shape _ _ S) E). Qed.

(** ---- nothing is lost ---- *)

Lemma arrived_app i j a b : arrived i j (a ++ b) = arrived i j a ++ arrived i j b.
Proof. unfold arrived. rewrite flat_map_app, map_app. reflexivity. Qed.

Lemma given_arrived c i text : forall j n evs, given c i text j n evs -> forall i' j',
  (i' <> i \/ (j' < j)%nat -> arrived i' j' evs = []) /\
  (i' = i -> (j <= j' < j + n)%nat ->
   (forall k sev t q b, (k < j')%nat -> In (Emitted i k sev t q b) evs -> b = false) -> arrived i' j' evs = [text]).
Proof.
  induction 1 as [j|j n evs G IH|j n e]; intros i' j'.
  - split; [reflexivity|lia].
  - destruct (IH i' j') as [I1 I2]. split.
    + intros H. unfold arrived. cbn [flat_map at_sink]. replace (Nat.eqb i i' && Nat.eqb j j') with false.
      2:{ symmetry. destruct (Nat.eqb_spec i i'), (Nat.eqb_spec j j'); cbn; auto. exfalso; lia. }
      cbn [app]. apply I1. lia.
    + intros -> Hj HF. unfold arrived. cbn [flat_map at_sink]. rewrite Nat.eqb_refl. cbn [andb].
      destruct (Nat.eqb_spec j j') as [->|NE].
      * cbn [app map fst]. f_equal. destruct (IH i j') as [I3 _]. apply I3. lia.
      * cbn [app]. apply I2; [reflexivity|lia|]. intros k sev t q b Hk HI. eapply HF; [exact Hk|right; exact HI].
  - split.
    + intros H. unfold arrived. cbn [flat_map at_sink]. replace (Nat.eqb i i' && Nat.eqb j j') with false; [reflexivity|].
      symmetry. destruct (Nat.eqb_spec i i'), (Nat.eqb_spec j j'); cbn; auto. exfalso; lia.
    + intros -> Hj HF. unfold arrived. cbn [flat_map at_sink]. rewrite Nat.eqb_refl. cbn [andb].
      destruct (Nat.eqb_spec j j') as [->|NE]; [reflexivity|].
      exfalso. assert (true = false) by (eapply (HF j); [lia|left; reflexivity]). discriminate.
Qed.

Lemma given_only c i text : forall j n evs, given c i text j n evs -> forall i' j', i' <> i -> arrived i' j' evs = [].
Proof. intros j n evs G i' j' H. destruct (given_arrived c i text j n evs G i' j') as [G1 _]. apply G1. left; exact H. Qed.

Lemma handled_arrived c r : forall i hs evs, handled c r i hs evs -> forall k j s f text,
  sink_at hs k j s -> formatter_at hs k f -> render f (c_env c) r = Text text ->
  (forall j' sev t q b, (j' < j)%nat -> In (Emitted (i + k) j' sev t q b) evs -> b = false) ->
  arrived (i + k) j evs = [text].
Proof.
  assert (LOW : forall i hs evs, handled c r i hs evs -> forall k j, (k < i)%nat -> arrived k j evs = []).
  { induction 1 as [i|i f sinks hs text evs evs' R G H IH|i f sinks hs e evs R H IH]; intros k j L; [reflexivity| |].
    - rewrite arrived_app. rewrite (given_only _ _ _ _ _ _ G) by lia. apply IH. lia.
    - unfold arrived. cbn [flat_map at_sink app]. apply IH. lia. }
  induction 1 as [i|i f0 sinks0 hs text0 evs evs' R G H IH|i f0 sinks0 hs e evs R H IH]; intros k j s f text Hs Hf HR HF.
  - destruct Hf as (x & Hf). destruct k; discriminate.
  - destruct k as [|k].
    + destruct Hf as (x & Hf). cbn in Hf. injection Hf as <- <-. rewrite R in HR. injection HR as <-.
      destruct Hs as (y & z & Hs & Hj). cbn in Hs. injection Hs as <- <-.
      rewrite Nat.add_0_r in *. rewrite arrived_app. destruct (given_arrived c i text0 0 _ _ G i j) as [_ G2].
      rewrite G2; [|reflexivity| |].
      * rewrite (LOW _ _ _ H) by lia. reflexivity.
      * assert (j < length sinks0)%nat by (apply nth_error_Some; rewrite Hj; discriminate). lia.
      * intros k sev t q b Hk HI. eapply HF; [exact Hk|apply in_or_app; left; exact HI].
    + rewrite arrived_app. rewrite (given_only _ _ _ _ _ _ G) by lia. cbn [app].
      replace (i + S k)%nat with (S i + k)%nat in * by lia. eapply IH; [exact Hs|exact Hf|exact HR|].
      intros j' sev t q b Hj HI. eapply HF; [exact Hj|apply in_or_app; right; exact HI].
  - destruct k as [|k].
    + destruct Hf as (x & Hf). cbn in Hf. injection Hf as <- <-. rewrite R in HR. discriminate.
    + unfold arrived. cbn [flat_map at_sink app]. replace (i + S k)%nat with (S i + k)%nat in * by lia.
      eapply IH; [exact Hs|exact Hf|exact HR|]. intros j' sev t q b Hj HI. eapply HF; [exact Hj|right; exact HI].
Qed.

Lemma record_of_unique c r r' : record_of c r -> record_of c r' -> r = r'.
Proof. intros (m & E & ->) (m' & E' & ->). rewrite E in E'. injection E' as <-. reflexivity. Qed.

Lemma complete_blocks : forall hs calls blocks i j s f, Forall2 (called hs) calls blocks ->
  sink_at hs i j s -> formatter_at hs i f -> Forall (fun c => exists text, makes f c text) calls ->
  (forall j' sev t q b, (j' < j)%nat -> In (Emitted i j' sev t q b) (concat blocks) -> b = false) ->
  Forall2 (makes f) calls (arrived i j (concat blocks)).
Proof.
  intros hs calls blocks i j s f F Hs Hf HM HF.
  induction F as [|c b calls bs C F IH]; cbn [concat]; [constructor|].
  inversion HM as [|? ? (text & r & Hr & HT) HM']; subst. rewrite arrived_app. cbn [concat] in HF.
  assert (A : arrived i j b = [text]).
  { destruct C as [[(e & C) _]|(r' & Hr' & C)].
    - destruct Hr as (m & Hm & _). rewrite C in Hm. discriminate.
    - rewrite (record_of_unique _ _ _ Hr' Hr) in C.
      apply (handled_arrived c r 0 hs b C i j s f text Hs Hf HT).
      intros j' sev t q b' Hj HI. eapply HF; [exact Hj|apply in_or_app; left; exact HI]. }
  rewrite A. cbn [app]. constructor; [exists r; split; assumption|].
  apply IH; [exact HM'|]. intros j' sev t q b' Hj HI. eapply HF; [exact Hj|apply in_or_app; right; exact HI].
Qed.

Lemma complete_lemma : forall hs ws w calls w' ws' evs i j s f, start_handlers hs = Some ws -> log_all w ws calls = Some (w', ws', evs) ->
  sink_at hs i j s -> formatter_at hs i f -> Forall (fun c => exists text, makes f c text) calls ->
  (forall j' sev t q b, (j' < j)%nat -> In (Emitted i j' sev t q b) evs -> b = false) ->
  Forall2 (makes f) calls (arrived i j evs).
Proof.
  intros hs ws w calls w' ws' evs i j s f S E Hs Hf HM HF.
  destruct (routes_lemma _ _ _ _ _ _ _ S E) as (blocks & -> & F). exact (complete_blocks _ _ _ _ _ _ _ F Hs Hf HM HF).
Qed.

(** A sink is never given anything else. *)
Lemma given_in c i text : forall j n evs, given c i text j n evs -> forall i' j' sev t q b,
  In (Emitted i' j' sev t q b) evs -> i' = i /\ sev = c_severity c /\ t = text /\ q = c_circumstances c i' j'.
Proof.
  induction 1 as [j|j n evs G IH|j n e]; intros i' j' sev t q b HI.
  - destruct HI.
  - destruct HI as [HI|HI]; [injection HI as <- <- <- <- <- <-; auto|eapply IH; exact HI].
  - destruct HI as [HI|[HI|[]]]; [injection HI as <- <- <- <- <- <-; auto|discriminate].
Qed.
Lemma handled_in c r : forall i hs evs, handled c r i hs evs -> forall i' j' sev t q b,
  In (Emitted i' j' sev t q b) evs -> sev = c_severity c /\ q = c_circumstances c i' j'.
Proof.
  induction 1 as [i|i f sinks hs text evs evs' R G H IH|i f sinks hs e evs R H IH]; intros i' j' sev t q b HI.
  - destruct HI.
  - apply in_app_or in HI as [HI|HI]; [|eapply IH; exact HI].
    destruct (given_in _ _ _ _ _ _ G _ _ _ _ _ _ HI) as (_ & -> & _ & ->). auto.
  - destruct HI as [HI|HI]; [discriminate|eapply IH; exact HI].
Qed.
Lemma events_of_blocks hs calls blocks : Forall2 (called hs) calls blocks ->
  forall i j sev t q b, In (Emitted i j sev t q b) (concat blocks) -> exists c, In c calls /\ sev = c_severity c /\ q = c_circumstances c i j.
Proof.
  intros F i j sev t q b HI. induction F as [|c bl calls bs C F IH]; cbn [concat] in HI; [destruct HI|].
  apply in_app_or in HI as [HI|HI].
  - exists c. split; [left; reflexivity|]. destruct C as [[_ ->]|(r & _ & C)]; [destruct HI|]. exact (handled_in _ _ _ _ _ C _ _ _ _ _ _ HI).
  - destruct (IH HI) as (c' & HC & R). exists c'. split; [right; exact HC|exact R].
Qed.
Lemma events_of_calls hs ws w calls w' ws' evs : start_handlers hs = Some ws -> log_all w ws calls = Some (w', ws', evs) ->
  forall i j sev t q b, In (Emitted i j sev t q b) evs -> exists c, In c calls /\ sev = c_severity c /\ q = c_circumstances c i j.
Proof. intros S E. destruct (routes_lemma _ _ _ _ _ _ _ S E) as (blocks & -> & F). exact (events_of_blocks _ _ _ F). Qed.
End Runs.

(** ---- sinks keep their kind ---- *)

Definition kind (s : live) : sink :=
  match s with
  | LNull => SNull
  | LConsole t => SConsole t
  | LFile p c _ => SFile p c
  | LTcp h p _ => STcp h p
  | LUdp h p => SUdp h p
  | LSyslog l => SSyslog l
  end.

Lemma emit_kind w tty severity text s q w' s' e : emit w tty severity text s q = Some (w', s', e) -> kind s' = kind s.
Proof.
  unfold emit. destruct s as [|t|p c k|h p t|h p|l].
  - intros E; injection E as <- <- <-; reflexivity.
  - destruct (ConsoleModel.emit_bytes _ _ _ _); intros E; injection E as <- <- <-; reflexivity.
  - destruct (FileSinkModel.emit _ _ _ _ _) as [[fs k'] threw]. intros E; injection E as <- <- <-; reflexivity.
  - destruct (TcpModel.emit _ _ _) as [[t' evs] threw]. intros E; injection E as <- <- <-; reflexivity.
  - destruct (q_udp q); intros E; injection E as <- <- <-; reflexivity.
  - destruct (DeliveryModel.syslog_text text); intros E; [injection E as <- <- <-; reflexivity|discriminate].
Qed.

Definition kinds (ws : list working) (i j : nat) : option sink := option_map kind (lookup ws i j).

Lemma estep_kinds w ws e w' ws' : estep (w, ws) e (w', ws') -> forall i j, kinds ws' i j = kinds ws i j.
Proof.
  intros S i j. inversion S as [? ? i0 j0 sev text q tty s ? s' x ? HL HE HS|? ? i0 x]; subst; [|reflexivity]. unfold kinds. rewrite HS.
  destruct (at_ i j i0 j0) eqn:E; [|reflexivity]. unfold at_ in E. apply andb_prop in E as [E1 E2].
  apply Nat.eqb_eq in E1 as ->. apply Nat.eqb_eq in E2 as ->. rewrite HL. cbn. f_equal. eapply emit_kind; eassumption.
Qed.

Lemma start_all_nth : forall l r, start_all l = Some r -> forall j, match nth_error l j with
  | Some s => match start s with Some x => nth_error r j = Some x | None => False end | None => nth_error r j = None end.
Proof.
  induction l as [|s l IH]; intros r E j; cbn [start_all] in E.
  - injection E as <-. destruct j; reflexivity.
  - destruct (start s) as [x|] eqn:ES; [|discriminate]. destruct (start_all l) as [r'|] eqn:E'; [|discriminate]. injection E as <-.
    destruct j as [|j]; cbn [nth_error]; [rewrite ES; reflexivity|]. apply IH. reflexivity.
Qed.
Lemma start_lookup : forall hs ws, start_handlers hs = Some ws -> forall i j, match sink_of hs i j with
  | Some s => match start s with Some x => lookup ws i j = Some x | None => False end | None => lookup ws i j = None end.
Proof.
  induction hs as [|[f sinks] hs IH]; intros ws E i j; cbn [start_handlers] in E.
  - injection E as <-. unfold sink_of, lookup. destruct i; reflexivity.
  - destruct (start_all sinks) as [l|] eqn:E1; [|discriminate]. destruct (start_handlers hs) as [r|] eqn:E2; [|discriminate].
    injection E as <-. destruct i as [|i].
    + unfold sink_of, lookup. cbn [nth_error]. apply start_all_nth. exact E1.
    + specialize (IH r eq_refl i j). unfold sink_of, lookup in *. cbn [nth_error]. exact IH.
Qed.
Lemma start_kind s x : start s = Some x -> kind x = s.
Proof. destruct s; intros E; try discriminate E; injection E as <-; reflexivity. Qed.
Lemma start_kinds hs ws : start_handlers hs = Some ws -> forall i j, kinds ws i j = sink_of hs i j.
Proof.
  intros S i j. pose proof (start_lookup _ _ S i j) as H. unfold kinds. destruct (sink_of hs i j) as [s|].
  - destruct (start s) as [x|] eqn:E; [|contradiction]. rewrite H. cbn. f_equal. apply start_kind. exact E.
  - rewrite H. reflexivity.
Qed.
Lemma sink_of_at hs i j s : sink_of hs i j = Some s <-> sink_at hs i j s.
Proof.
  unfold sink_of, sink_at. split.
  - destruct (nth_error hs i) as [[f sinks]|]; [|discriminate]. intros H. exists f, sinks. auto.
  - intros (f & sinks & -> & H). exact H.
Qed.

(** ---- standard output, datagrams, syslog ---- *)

Lemma colored_default : ConsoleModel.colored ConsoleModel.default_color = false.
Proof. reflexivity. Qed.

Lemma console_line action tty text : ConsoleModel.emit_bytes action tty ConsoleModel.default_color text =
  match action with ConsoleModel.Deny => None | _ => Some (text ++ [NL]) end.
Proof. unfold ConsoleModel.emit_bytes, ConsoleModel.color_write. rewrite colored_default. destruct action, tty; reflexivity. Qed.

Lemma estep_stdout hs w ws e w' ws' : estep (w, ws) e (w', ws') -> (forall i j, kinds ws i j = sink_of hs i j) ->
  w_stdout w' = w_stdout w ++ on_stdout hs e.
Proof.
  intros S K. inversion S as [? ? i j sev text q tty s ? s' x ? HL HE|? ? i x]; subst.
  - specialize (K i j). unfold kinds in K. rewrite HL in K. cbn in K. cbn [on_stdout]. rewrite <- K. clear K HL.
    unfold emit in HE. destruct s as [|t|p c k|h p t|h p|l]; cbn [kind].
    + injection HE as <- <- <-. symmetry; apply app_nil_r.
    + rewrite console_line in HE. destruct t as [t|].
      * unfold DeliveryModel.severity_filter in HE. destruct (Z.leb_spec t sev).
        -- injection HE as <- <- <-. destruct (Z.ltb_spec sev t); [lia|]. reflexivity.
        -- injection HE as <- <- <-. destruct (Z.ltb_spec sev t); [|lia]. symmetry; apply app_nil_r.
      * injection HE as <- <- <-. reflexivity.
    + destruct (FileSinkModel.emit _ _ _ _ _) as [[fs k'] threw]. injection HE as <- <- <-. symmetry; apply app_nil_r.
    + destruct (TcpModel.emit _ _ _) as [[t' evs] threw]. injection HE as <- <- <-. symmetry; apply app_nil_r.
    + destruct (q_udp q); injection HE as <- <- <-; symmetry; apply app_nil_r.
    + destruct (DeliveryModel.syslog_text text); [injection HE as <- <- <-; symmetry; apply app_nil_r|discriminate].
  - cbn [complain w_stdout on_stdout]. destruct x; cbn [report]; rewrite <- ?app_assoc; reflexivity.
Qed.

Lemma estep_datagrams hs w ws e w' ws' : estep (w, ws) e (w', ws') -> (forall i j, kinds ws i j = sink_of hs i j) ->
  w_datagrams w' = w_datagrams w ++ on_network hs e.
Proof.
  intros S K. inversion S as [? ? i j sev text q tty s ? s' x ? HL HE|? ? i x]; subst.
  - specialize (K i j). unfold kinds in K. rewrite HL in K. cbn in K. cbn [on_network]. rewrite <- K. clear K HL.
    unfold emit in HE. destruct s as [|t|p c k|h p t|h p|l]; cbn [kind].
    + injection HE as <- <- <-. symmetry; apply app_nil_r.
    + destruct (ConsoleModel.emit_bytes _ _ _ _); injection HE as <- <- <-; symmetry; apply app_nil_r.
    + destruct (FileSinkModel.emit _ _ _ _ _) as [[fs k'] threw]. injection HE as <- <- <-. destruct threw; symmetry; apply app_nil_r.
    + destruct (TcpModel.emit _ _ _) as [[t' evs] threw]. injection HE as <- <- <-. destruct threw; symmetry; apply app_nil_r.
    + destruct (q_udp q); injection HE as <- <- <-; [reflexivity|symmetry; apply app_nil_r].
    + destruct (DeliveryModel.syslog_text text); [injection HE as <- <- <-; symmetry; apply app_nil_r|discriminate].
  - symmetry; apply app_nil_r.
Qed.

Lemma until_nul_before : forall s, DeliveryModel.until_nul s = before_nul s.
Proof. induction s as [|c s IH]; [reflexivity|]. cbn. destruct (Ascii.eqb c _); [reflexivity|rewrite IH; reflexivity]. Qed.

Lemma syslog_text_short t : (Z.of_nat (length t) < 2 ^ 31)%Z -> DeliveryModel.syslog_text t = Some (before_nul t).
Proof.
  intros L. unfold DeliveryModel.syslog_text. 
  assert (E : DeliveryModel.to_int (Z.of_nat (length t)) = Z.of_nat (length t)).
  { unfold DeliveryModel.to_int. rewrite Z.mod_small by lia. lia. }
  rewrite E. destruct (Z.ltb_spec (Z.of_nat (length t)) 0); [lia|]. rewrite Nat2Z.id, firstn_all, until_nul_before. reflexivity.
Qed.

Lemma priority_agrees l sev : (- 2 ^ 31 <= sev < 2 ^ 31)%Z -> (Z.of_nat (length l) < 2 ^ 63)%Z ->
  DeliveryModel.syslog_priority l sev = priority_of l sev.
Proof.
  intros R L. unfold priority_of. destruct (Z.leb_spec 0 sev).
  - destruct (nth_error l (Z.to_nat sev)) as [p|] eqn:E.
    + rewrite (DeliveryProofs.priority_configured_lemma l sev p) by (auto; lia). symmetry. apply nth_error_nth. exact E.
    + apply nth_error_None in E. rewrite nth_overflow by exact E. apply DeliveryProofs.priority_default_lemma; lia.
  - apply DeliveryProofs.priority_default_lemma; lia.
Qed.

Lemma estep_syslog hs w ws e w' ws' : estep (w, ws) e (w', ws') -> (forall i j, kinds ws i j = sink_of hs i j) ->
  text_fits e -> (forall i j l, sink_at hs i j (SSyslog l) -> (Z.of_nat (length l) < 2 ^ 63)%Z) ->
  w_syslog w' = w_syslog w ++ in_syslog hs e.
Proof.
  intros S K F HL. inversion S as [? ? i j sev text q tty s ? s' x ? HK HE|? ? i x]; subst.
  - specialize (K i j). unfold kinds in K. rewrite HK in K. cbn in K. cbn [in_syslog]. rewrite <- K. clear HK.
    cbn [text_fits] in F. unfold emit in HE. destruct s as [|t|p c k|h p t|h p|l]; cbn [kind].
    + injection HE as <- <- <-. symmetry; apply app_nil_r.
    + destruct (ConsoleModel.emit_bytes _ _ _ _); injection HE as <- <- <-; symmetry; apply app_nil_r.
    + destruct (FileSinkModel.emit _ _ _ _ _) as [[fs k'] threw]. injection HE as <- <- <-. symmetry; apply app_nil_r.
    + destruct (TcpModel.emit _ _ _) as [[t' evs] threw]. injection HE as <- <- <-. symmetry; apply app_nil_r.
    + destruct (q_udp q); injection HE as <- <- <-; symmetry; apply app_nil_r.
    + rewrite syslog_text_short in HE by apply F. injection HE as <- <- <-. cbn [w_syslog].
      rewrite priority_agrees; [reflexivity|apply F|]. eapply HL. apply sink_of_at. symmetry. exact K.
  - symmetry; apply app_nil_r.
Qed.

Lemma esteps_sum {A} (get : world -> list A) (see : event -> list A) (hs : list FactoriesModel.handler) (P : event -> Prop) :
  (forall w ws e w' ws', estep (w, ws) e (w', ws') -> (forall i j, kinds ws i j = sink_of hs i j) -> P e -> get w' = get w ++ see e) ->
  forall x evs y, esteps x evs y -> (forall i j, kinds (snd x) i j = sink_of hs i j) -> Forall P evs ->
  get (fst y) = get (fst x) ++ flat_map see evs.
Proof.
  intros HS x evs y E. induction E as [x|[w ws] e [w1 ws1] evs z S E IH]; intros K F; cbn [flat_map].
  - symmetry; apply app_nil_r.
  - inversion F as [|? ? F1 F2]; subst. rewrite IH; [|intros i j; cbn [snd]; rewrite (estep_kinds _ _ _ _ _ S); apply K|exact F2].
    cbn [fst]. rewrite (HS _ _ _ _ _ S K F1), <- app_assoc. reflexivity.
Qed.

Lemma Forall_all {A} (P : A -> Prop) : (forall x, P x) -> forall l, Forall P l.
Proof. intros H. induction l; constructor; auto. Qed.

Section Results.
Variable dbl : FmtModel.spec -> N -> bytes.
Variable dbl_json : N -> bytes.
Variable double_of : bytes -> N.
Variable what : FmtModel.error -> bytes.
Variable json_fmt : bytes -> value -> option bytes.
Notation log_all := (log_all dbl dbl_json double_of what json_fmt).

Lemma stdout_lemma : forall hs ws w calls w' ws' evs, start_handlers hs = Some ws -> log_all w ws calls = Some (w', ws', evs) ->
  w_stdout w' = w_stdout w ++ flat_map (on_stdout hs) evs.
Proof.
  intros hs ws w calls w' ws' evs S E. apply log_all_steps in E.
  apply (esteps_sum w_stdout (on_stdout hs) hs (fun _ => True)) with (1 := fun w ws e w' ws' A B _ => estep_stdout hs w ws e w' ws' A B) (2 := E).
  - apply start_kinds. exact S.
  - apply Forall_all. auto.
Qed.
Lemma datagrams_lemma : forall hs ws w calls w' ws' evs, start_handlers hs = Some ws -> log_all w ws calls = Some (w', ws', evs) ->
  w_datagrams w' = w_datagrams w ++ flat_map (on_network hs) evs.
Proof.
  intros hs ws w calls w' ws' evs S E. apply log_all_steps in E.
  apply (esteps_sum w_datagrams (on_network hs) hs (fun _ => True)) with (1 := fun w ws e w' ws' A B _ => estep_datagrams hs w ws e w' ws' A B) (2 := E).
  - apply start_kinds. exact S.
  - apply Forall_all. auto.
Qed.
Lemma syslog_lemma : forall hs ws w calls w' ws' evs, start_handlers hs = Some ws -> log_all w ws calls = Some (w', ws', evs) ->
  Forall text_fits evs -> (forall i j l, sink_at hs i j (SSyslog l) -> (Z.of_nat (length l) < 2 ^ 63)%Z) ->
  w_syslog w' = w_syslog w ++ flat_map (in_syslog hs) evs.
Proof.
  intros hs ws w calls w' ws' evs S E F HL. apply log_all_steps in E.
  apply (esteps_sum w_syslog (in_syslog hs) hs text_fits) with (2 := E); [|apply start_kinds; exact S|exact F].
  intros. eapply estep_syslog; eassumption.
Qed.

(** ---- connections ---- *)

Definition tcp_calls (i j : nat) (evs : list event) : list (bytes * TcpModel.circumstances) :=
  map (fun x => (fst (fst x), q_tcp (snd (fst x)))) (flat_map (at_sink i j) evs).
Definition threws (i j : nat) (evs : list event) : list bool := map snd (flat_map (at_sink i j) evs).

Lemma connections_app h p a b : connections h p (a ++ b) = connections h p a ++ connections h p b.
Proof. apply flat_map_app. Qed.
Lemma connections_same h p evs : connections h p (map (fun e => (h, p, e)) evs) = evs.
Proof.
  induction evs as [|e evs IH]; [reflexivity|]. cbn. rewrite (proj2 (bytes_eqb_eq h h) eq_refl), N.eqb_refl. cbn. f_equal. exact IH.
Qed.
Lemma connections_other h p h' p' evs : (h, p) <> (h', p') -> connections h p (map (fun e => (h', p', e)) evs) = [].
Proof.
  intros NE. induction evs as [|e evs IH]; [reflexivity|]. cbn. destruct (bytes_eqb h' h) eqn:E1; cbn; [|exact IH].
  apply bytes_eqb_eq in E1 as ->. destruct (N.eqb_spec p' p) as [->|]; [contradiction NE; reflexivity|exact IH].
Qed.

Lemma esteps_tcp h p i j : forall x evs y, esteps x evs y -> forall t,
  lookup (snd x) i j = Some (LTcp h p t) ->
  (forall a b, kinds (snd x) a b = Some (STcp h p) -> a = i /\ b = j) ->
  exists t' tevs, TcpModel.run t (tcp_calls i j evs) = (t', tevs, threws i j evs) /\
    connections h p (w_tcp (fst y)) = connections h p (w_tcp (fst x)) ++ tevs.
Proof.
  intros x evs y E. induction E as [x|[w ws] e [w1 ws1] evs z S E IH]; intros t HL HU.
  - exists t, []. split; [reflexivity|symmetry; apply app_nil_r].
  - cbn [fst snd] in *. assert (HU1 : forall a b, kinds ws1 a b = Some (STcp h p) -> a = i /\ b = j).
    { intros a b. rewrite (estep_kinds _ _ _ _ _ S). apply HU. }
    inversion S as [? ? i0 j0 sev text q tty s ? s' xx ? HL0 HE HS|? ? i0 xx]; subst.
    + unfold tcp_calls, threws. cbn [flat_map at_sink]. destruct (Nat.eqb i0 i && Nat.eqb j0 j) eqn:E0.
      * apply andb_prop in E0 as [E1 E2]. apply Nat.eqb_eq in E1 as ->. apply Nat.eqb_eq in E2 as ->.
        rewrite HL in HL0. injection HL0 as <-. cbn [emit] in HE.
        destruct (TcpModel.emit t text (q_tcp q)) as [[t1 tevs1] threw] eqn:ET. injection HE as <- <- <-.
        destruct (IH t1) as (t' & tevs & HR & HC).
        { rewrite HS. unfold at_. rewrite !Nat.eqb_refl. reflexivity. }
        { exact HU1. }
        exists t', (tevs1 ++ tevs). cbn [app map fst snd TcpModel.run]. rewrite ET. fold (tcp_calls i j evs). rewrite HR. split.
        -- f_equal. destruct threw; reflexivity.
        -- rewrite HC. cbn [w_tcp]. rewrite connections_app, connections_same, app_assoc. reflexivity.
      * cbn [app]. fold (tcp_calls i j evs) (threws i j evs). destruct (IH t) as (t' & tevs & HR & HC).
        { rewrite HS. unfold at_. rewrite (Nat.eqb_sym i i0), (Nat.eqb_sym j j0), E0. exact HL. }
        { exact HU1. }
        exists t', tevs. split; [exact HR|]. rewrite HC. f_equal.
        assert (KN : kind s <> STcp h p).
        { intros K. destruct (HU i0 j0) as [-> ->]; [unfold kinds; rewrite HL0; cbn; rewrite K; reflexivity|].
          rewrite !Nat.eqb_refl in E0. discriminate. }
        unfold emit in HE. destruct s as [|t0|p0 c0 k0|h0 p0 t0|h0 p0|l].
        -- injection HE as <- <- <-. reflexivity.
        -- destruct (ConsoleModel.emit_bytes _ _ _ _); injection HE as <- <- <-; reflexivity.
        -- destruct (FileSinkModel.emit _ _ _ _ _) as [[fs k'] threw]. injection HE as <- <- <-. reflexivity.
        -- destruct (TcpModel.emit _ _ _) as [[t1 tevs1] threw]. injection HE as <- <- <-. cbn [w_tcp].
           rewrite connections_app, connections_other; [apply app_nil_r|]. intros K. injection K as -> ->. apply KN. reflexivity.
        -- destruct (q_udp q); injection HE as <- <- <-; reflexivity.
        -- destruct (DeliveryModel.syslog_text text); [injection HE as <- <- <-; reflexivity|discriminate].
    + destruct (IH t HL HU1) as (t' & tevs & HR & HC). exists t', tevs. split; [exact HR|exact HC].
Qed.

Lemma returned_taken i j evs : TcpSpec.returned (map fst (tcp_calls i j evs)) (threws i j evs) = taken i j evs.
Proof.
  unfold tcp_calls, threws, taken. rewrite map_map. cbn [fst]. generalize (flat_map (at_sink i j) evs). intros l.
  induction l as [|[[t q] b] l IH]; [reflexivity|]. cbn. destruct b; cbn; rewrite IH; reflexivity.
Qed.

Lemma tcp_steps : forall hs ws w w' ws' evs h p i j, start_handlers hs = Some ws -> esteps (w, ws) evs (w', ws') ->
  sink_at hs i j (STcp h p) -> only_tcp hs h p i j ->
  exists new, connections h p (w_tcp w') = connections h p (w_tcp w) ++ new /\ TcpSpec.delivered new = taken i j evs.
Proof.
  intros hs ws w w' ws' evs h p i j S E Hs HO.
  pose proof (start_lookup _ _ S i j) as HL. rewrite (proj2 (sink_of_at hs i j _) Hs) in HL. cbn in HL.
  destruct (esteps_tcp h p i j _ _ _ E TcpModel.init HL) as (t' & tevs & HR & HC).
  { cbn [snd]. intros a b K. rewrite (start_kinds _ _ S) in K. apply HO. apply sink_of_at. exact K. }
  exists tevs. split; [exact HC|]. rewrite (TcpProofs.delivered_lemma _ _ _ _ _ HR). apply returned_taken.
Qed.

Lemma tcp_lemma : forall hs ws w calls w' ws' evs h p i j, start_handlers hs = Some ws -> log_all w ws calls = Some (w', ws', evs) ->
  sink_at hs i j (STcp h p) -> only_tcp hs h p i j ->
  exists new, connections h p (w_tcp w') = connections h p (w_tcp w) ++ new /\ TcpSpec.delivered new = taken i j evs.
Proof. intros hs ws w calls w' ws' evs h p i j S E. apply log_all_steps in E. exact (tcp_steps _ _ _ _ _ _ _ _ _ _ S E). Qed.

(** ---- files ---- *)

Definition file_actions (i j : nat) (evs : list event) : list FileSinkModel.action :=
  map (fun x => FileSinkModel.Emit (fst (fst x)) (q_file (snd (fst x)))) (flat_map (at_sink i j) evs).

Definition is_file (p : bytes) (s : sink) : bool := match s with SFile p' _ => bytes_eqb p' p | _ => false end.

Lemma emit_other_file p w tty severity text s q w' s' e : emit w tty severity text s q = Some (w', s', e) ->
  is_file p (kind s) = false -> w_files w' p = w_files w p.
Proof.
  unfold emit. intros HE K. destruct s as [|t0|p0 c0 k0|h0 p0 t0|h0 p0|l].
  - injection HE as <- <- <-. reflexivity.
  - destruct (ConsoleModel.emit_bytes _ _ _ _); injection HE as <- <- <-; reflexivity.
  - destruct (FileSinkModel.emit _ _ _ _ _) as [[fs k'] threw]. injection HE as <- <- <-. cbn [w_files]. cbn in K.
    destruct (bytes_eqb p p0) eqn:E; [|reflexivity]. apply bytes_eqb_eq in E as ->.
    rewrite (proj2 (bytes_eqb_eq p0 p0) eq_refl) in K. discriminate.
  - destruct (TcpModel.emit _ _ _) as [[t1 tevs1] threw]. injection HE as <- <- <-. reflexivity.
  - destruct (q_udp q); injection HE as <- <- <-; reflexivity.
  - destruct (DeliveryModel.syslog_text text); [injection HE as <- <- <-; reflexivity|discriminate].
Qed.

Lemma esteps_file p c i j : forall x evs y, esteps x evs y -> forall k,
  lookup (snd x) i j = Some (LFile p c k) ->
  (forall a b c', kinds (snd x) a b = Some (SFile p c') -> a = i /\ b = j) ->
  exists k', FileSinkModel.run c (w_files (fst x) p) k (file_actions i j evs) = (w_files (fst y) p, k', threws i j evs) /\
    lookup (snd y) i j = Some (LFile p c k') /\ (forall a b, kinds (snd y) a b = kinds (snd x) a b).
Proof.
  intros x evs y E. induction E as [x|[w ws] e [w1 ws1] evs z S E IH]; intros k HL HU.
  - exists k. split; [reflexivity|]. split; [exact HL|reflexivity].
  - cbn [fst snd] in *. pose proof (estep_kinds _ _ _ _ _ S) as HK.
    assert (HU1 : forall a b c', kinds ws1 a b = Some (SFile p c') -> a = i /\ b = j).
    { intros a b c'. rewrite HK. apply HU. }
    inversion S as [? ? i0 j0 sev text q tty s ? s' xx ? HL0 HE HS|? ? i0 xx]; subst.
    + unfold file_actions, threws. cbn [flat_map at_sink]. destruct (Nat.eqb i0 i && Nat.eqb j0 j) eqn:E0.
      * apply andb_prop in E0 as [E1 E2]. apply Nat.eqb_eq in E1 as ->. apply Nat.eqb_eq in E2 as ->.
        rewrite HL in HL0. injection HL0 as <-. cbn [emit] in HE.
        destruct (FileSinkModel.emit c (w_files w p) k text (q_file q)) as [[fs1 k1] threw] eqn:ET. injection HE as <- <- <-.
        destruct (IH k1) as (k' & HR & HL' & HK').
        { rewrite HS. unfold at_. rewrite !Nat.eqb_refl. reflexivity. }
        { exact HU1. }
        exists k'. split; [|split; [exact HL'|intros; rewrite HK'; apply HK]].
        cbn [app map fst snd FileSinkModel.run FileSinkModel.step]. rewrite ET. fold (file_actions i j evs).
        cbn [w_files] in HR. rewrite (proj2 (bytes_eqb_eq p p) eq_refl) in HR. rewrite HR.
        f_equal. destruct threw; reflexivity.
      * cbn [app]. fold (file_actions i j evs) (threws i j evs). destruct (IH k) as (k' & HR & HL' & HK').
        { rewrite HS. unfold at_. rewrite (Nat.eqb_sym i i0), (Nat.eqb_sym j j0), E0. exact HL. }
        { exact HU1. }
        exists k'. split; [|split; [exact HL'|intros; rewrite HK'; apply HK]]. rewrite <- HR. f_equal.
        symmetry. eapply emit_other_file; [exact HE|]. destruct (kind s) as [|t|p0 c0|h0 p0|h0 p0|l|f0 o0] eqn:K; try reflexivity.
        cbn. destruct (bytes_eqb p0 p) eqn:E1; [|reflexivity]. apply bytes_eqb_eq in E1 as ->.
        destruct (HU i0 j0 c0) as [-> ->]; [unfold kinds; rewrite HL0; cbn; rewrite K; reflexivity|].
        rewrite !Nat.eqb_refl in E0. discriminate.
    + destruct (IH k HL HU1) as (k' & HR & HL' & HK'). exists k'. split; [exact HR|]. split; [exact HL'|exact HK'].
Qed.

Lemma esteps_no_file p : forall x evs y, esteps x evs y ->
  (forall a b c', kinds (snd x) a b <> Some (SFile p c')) ->
  w_files (fst y) p = w_files (fst x) p /\ (forall a b, kinds (snd y) a b = kinds (snd x) a b).
Proof.
  intros x evs y E. induction E as [x|[w ws] e [w1 ws1] evs z S E IH]; intros HU; [auto|].
  cbn [fst snd] in *. pose proof (estep_kinds _ _ _ _ _ S) as HK. destruct IH as [I1 I2].
  { intros a b c'. rewrite HK. apply HU. }
  split; [|intros; rewrite I2; apply HK]. rewrite I1.
  inversion S as [? ? i0 j0 sev text q tty s ? s' xx ? HL0 HE HS|? ? i0 xx]; subst; [|reflexivity].
  eapply emit_other_file; [exact HE|]. destruct (kind s) as [|t|p0 c0|h0 p0|h0 p0|l|f0 o0] eqn:K; try reflexivity.
  cbn. destruct (bytes_eqb p0 p) eqn:E1; [|reflexivity]. apply bytes_eqb_eq in E1 as ->.
  destruct (HU i0 j0 c0). unfold kinds. rewrite HL0. cbn. rewrite K. reflexivity.
Qed.

(** Closing. *)
Lemma close_none p : forall l w, (forall s, In s l -> is_file p (kind s) = false) -> w_files (fold_left close_sink l w) p = w_files w p.
Proof.
  induction l as [|s l IH]; intros w H; [reflexivity|]. cbn [fold_left]. rewrite IH by (intros s' Hs'; apply H; right; exact Hs').
  specialize (H s (or_introl eq_refl)). destruct s as [|t|p0 c0 k0|h0 p0 t0|h0 p0|l0]; try reflexivity.
  cbn [close_sink w_files]. cbn in H. destruct (bytes_eqb p p0) eqn:E; [|reflexivity]. apply bytes_eqb_eq in E as ->.
  rewrite (proj2 (bytes_eqb_eq p0 p0) eq_refl) in H. discriminate.
Qed.

Lemma flat_at : forall (ws : list working) s, In s (flat_map snd ws) -> exists i j, lookup ws i j = Some s.
Proof.
  induction ws as [|[f sinks] ws IH]; intros s H; [destruct H|]. cbn [flat_map snd] in H. apply in_app_or in H as [H|H].
  - apply In_nth_error in H as [j H]. exists 0%nat, j. exact H.
  - destruct (IH s H) as (i & j & E). exists (S i), j. exact E.
Qed.

Lemma flat_split : forall (ws : list working) i j s, lookup ws i j = Some s ->
  exists l1 l2, flat_map snd ws = l1 ++ s :: l2 /\
    (forall x, In x (l1 ++ l2) -> exists a b, (a <> i \/ b <> j) /\ lookup ws a b = Some x).
Proof.
  induction ws as [|[f sinks] ws IH]; intros i j s H; [unfold lookup in H; destruct i; discriminate|].
  destruct i as [|i].
  - unfold lookup in H. cbn [nth_error] in H. destruct (nth_error_split _ _ H) as (a & b & -> & La).
    exists a, (b ++ flat_map snd ws). split; [cbn; rewrite <- app_assoc; reflexivity|].
    intros x Hx. rewrite !in_app_iff in Hx. destruct Hx as [Hx|[Hx|Hx]].
    + apply In_nth_error in Hx as [n Hx]. exists 0%nat, n.
      assert (n < length a)%nat by (apply nth_error_Some; rewrite Hx; discriminate). split; [right; lia|].
      unfold lookup. cbn [nth_error]. rewrite nth_error_app1 by assumption. exact Hx.
    + apply In_nth_error in Hx as [n Hx]. exists 0%nat, (length a + S n)%nat. split; [right; lia|].
      unfold lookup. cbn [nth_error]. rewrite nth_error_app2 by lia. replace (length a + S n - length a)%nat with (S n) by lia. exact Hx.
    + destruct (flat_at _ _ Hx) as (i & n & E). exists (S i), n. split; [left; discriminate|exact E].
  - destruct (IH i j s H) as (l1 & l2 & E & HO). exists (sinks ++ l1), l2. split; [cbn [flat_map snd]; rewrite E, app_assoc; reflexivity|].
    intros x Hx. rewrite !in_app_iff in Hx. destruct Hx as [[Hx|Hx]|Hx].
    + apply In_nth_error in Hx as [n Hx]. exists 0%nat, n. split; [left; discriminate|exact Hx].
    + destruct (HO x) as (a & b & N0 & E0); [apply in_or_app; left; exact Hx|]. exists (S a), b. split; [lia|exact E0].
    + destruct (HO x) as (a & b & N0 & E0); [apply in_or_app; right; exact Hx|]. exists (S a), b. split; [lia|exact E0].
Qed.

Lemma close_file p c k ws i j w : lookup ws i j = Some (LFile p c k) ->
  (forall a b c', kinds ws a b = Some (SFile p c') -> a = i /\ b = j) ->
  w_files (close_all w ws) p = FileSinkModel.destroy (w_files w p) k.
Proof.
  intros HL HU. unfold close_all. destruct (flat_split _ _ _ _ HL) as (l1 & l2 & -> & HO).
  assert (HN : forall s, In s (l1 ++ l2) -> is_file p (kind s) = false).
  { intros s Hs. destruct (HO s Hs) as (a & b & NE & E). destruct (kind s) as [|t|p0 c0|h0 p0|h0 p0|l|f0 o0] eqn:K; try reflexivity.
    cbn. destruct (bytes_eqb p0 p) eqn:E1; [|reflexivity]. apply bytes_eqb_eq in E1 as ->.
    destruct (HU a b c0); [unfold kinds; rewrite E; cbn; rewrite K; reflexivity|]. lia. }
  rewrite fold_left_app. cbn [fold_left]. rewrite close_none by (intros; apply HN; apply in_or_app; right; assumption).
  cbn [close_sink w_files]. rewrite (proj2 (bytes_eqb_eq p p) eq_refl).
  rewrite close_none by (intros; apply HN; apply in_or_app; left; assumption). reflexivity.
Qed.

(** The ideal file sink when nobody else touches the path. *)
Lemma ideal_quiet stat : forall acts x, Forall (fun a => match a with FileSinkModel.Emit _ _ => True | _ => False end) acts ->
  (FileSinkSpec.i_open x = None \/ FileSinkSpec.i_open x = FileSinkModel.f_path (FileSinkSpec.i_fs x)) ->
  let y := fold_left (FileSinkSpec.ideal_step stat) acts x in
  (FileSinkSpec.i_open y = None \/ FileSinkSpec.i_open y = FileSinkModel.f_path (FileSinkSpec.i_fs y)) /\
  content (FileSinkSpec.i_fs y) = content (FileSinkSpec.i_fs x) ++
    concat (map (fun a => match a with FileSinkModel.Emit m _ => FileSinkSpec.line m | _ => [] end) acts).
Proof.
  induction acts as [|a acts IH]; intros x F HO; cbn [fold_left].
  - split; [exact HO|symmetry; apply app_nil_r].
  - inversion F as [|? ? F1 F2]; subst. destruct a as [|m o]; [contradiction|].
    set (x1 := FileSinkSpec.ideal_step stat x (FileSinkModel.Emit m o)).
    assert (H1 : (FileSinkSpec.i_open x1 = None \/ FileSinkSpec.i_open x1 = FileSinkModel.f_path (FileSinkSpec.i_fs x1)) /\
      content (FileSinkSpec.i_fs x1) = content (FileSinkSpec.i_fs x) ++ FileSinkSpec.line m).
    { unfold x1. cbn [FileSinkSpec.ideal_step]. destruct (FileSinkSpec.ideal_target stat x) as [f|] eqn:ET.
      - assert (EP : FileSinkModel.f_path (FileSinkSpec.i_fs x) = Some f).
        { unfold FileSinkSpec.ideal_target in ET. destruct stat; [exact ET|]. destruct (FileSinkSpec.i_open x) as [g|]; [|exact ET].
          destruct HO as [HO|HO]; [discriminate|]. rewrite <- HO. exact ET. }
        cbn [FileSinkSpec.i_open FileSinkSpec.i_fs FileSinkSpec.write_to FileSinkModel.f_path]. split; [right; symmetry; exact EP|].
        unfold content. cbn [FileSinkSpec.write_to FileSinkModel.f_path FileSinkModel.f_data]. rewrite EP, Nat.eqb_refl. reflexivity.
      - assert (EP : FileSinkModel.f_path (FileSinkSpec.i_fs x) = None).
        { unfold FileSinkSpec.ideal_target in ET. destruct stat; [exact ET|]. destruct (FileSinkSpec.i_open x); [discriminate|exact ET]. }
        cbn [FileSinkSpec.i_open FileSinkSpec.i_fs]. split; [right; reflexivity|].
        unfold content. rewrite EP. cbn. rewrite Nat.eqb_refl. unfold FileSinkModel.upd. rewrite Nat.eqb_refl. reflexivity. }
    destruct H1 as [H1 H2]. destruct (IH x1 F2 H1) as [I1 I2]. split; [exact I1|].
    rewrite I2, H2. cbn [map concat]. rewrite app_assoc. reflexivity.
Qed.

Lemma firstn_Forall {A} (P : A -> Prop) (a b : list A) : Forall P (a ++ b) -> Forall P a.
Proof. intros H. apply Forall_app in H. apply H. Qed.

Lemma file_run c s0 acts s k ts : FileSinkSpec.fs_ok s0 ->
  Forall (fun a => match a with FileSinkModel.Emit _ _ => True | _ => False end) acts -> Forall FileSinkSpec.calm_action acts ->
  FileSinkModel.run c s0 None acts = (s, k, ts) ->
  Forall (fun b => b = false) ts /\
  content (FileSinkModel.destroy s k) = content s0 ++
    concat (map (fun a => match a with FileSinkModel.Emit m _ => FileSinkSpec.line m | _ => [] end) acts).
Proof.
  intros OK FE FC ER.
  assert (HK : FileSinkSpec.inodes_kept (FileSinkModel.c_stat c) s0 acts).
  { intros a1 a2 ->. intros f g Hf Hg _. apply firstn_Forall in FE.
    destruct (ideal_quiet (FileSinkModel.c_stat c) a1 (FileSinkSpec.Ideal s0 None) FE (or_introl eq_refl)) as [HO _].
    unfold FileSinkSpec.ideal_run in Hf, Hg. destruct HO as [HO|HO]; rewrite HO in Hf; [discriminate|]. rewrite Hf in Hg. injection Hg as <-. reflexivity. }
  destruct (FileSinkProofs.R_final c (fun _ => True) FileSinkProofs.no_T I (fun _ _ _ _ _ _ _ => I) (fun _ _ _ _ _ _ _ => I) s0 acts s k ts OK FC
    (fun _ _ _ => I) HK ER) as [(HP & _ & _ & _ & _ & HH & _) HF].
  split; [exact HF|].
  destruct (ideal_quiet (FileSinkModel.c_stat c) acts (FileSinkSpec.Ideal s0 None) FE (or_introl eq_refl)) as [_ HC].
  cbn [FileSinkSpec.i_fs] in HC. rewrite <- HC. fold (FileSinkSpec.ideal_run (FileSinkModel.c_stat c) s0 acts).
  unfold content at 2. change (fold_left _ acts _) with (FileSinkSpec.ideal_run (FileSinkModel.c_stat c) s0 acts).
  rewrite <- HP. unfold content.
  assert (EP : FileSinkModel.f_path (FileSinkModel.destroy s k) = FileSinkModel.f_path s) by (destruct k; reflexivity).
  rewrite EP. destruct (FileSinkModel.f_path s) as [f|]; [|reflexivity]. rewrite <- HH.
  destruct k as [k0|]; cbn [FileSinkModel.destroy]; [apply FileSinkProofs.close_handed|]. unfold FileSinkSpec.handed. symmetry; apply app_nil_r.
Qed.

Lemma file_steps : forall hs ws w w' ws' evs p c i j, start_handlers hs = Some ws -> esteps (w, ws) evs (w', ws') ->
  sink_at hs i j (SFile p c) -> only_file hs p i j -> FileSinkSpec.fs_ok (w_files w p) ->
  (forall sev t q b, In (Emitted i j sev t q b) evs -> exists dev ino spill, q_file q = FileSinkSpec.calm dev ino spill) ->
  (forall sev t q b, In (Emitted i j sev t q b) evs -> b = false) /\
  content (w_files (close_all w' ws') p) = content (w_files w p) ++ concat (map FileSinkSpec.line (arrived i j evs)).
Proof.
  intros hs ws w w' ws' evs p c i j S E Hs HO OK HC.
  pose proof (start_lookup _ _ S i j) as HL. rewrite (proj2 (sink_of_at hs i j _) Hs) in HL. cbn in HL.
  assert (HU : forall a b c', kinds ws a b = Some (SFile p c') -> a = i /\ b = j).
  { intros a b c' K. rewrite (start_kinds _ _ S) in K. apply (HO a b c'). apply sink_of_at. exact K. }
  destruct (esteps_file p c i j _ _ _ E None HL HU) as (k' & HR & HL' & HK'). cbn [fst snd] in *.
  rewrite (close_file p c k' ws' i j w' HL').
  2:{ intros a b c'. rewrite HK'. apply HU. }
  assert (IN : forall x, In x (flat_map (at_sink i j) evs) -> exists sev, In (Emitted i j sev (fst (fst x)) (snd (fst x)) (snd x)) evs).
  { intros x Hx. apply in_flat_map in Hx as (e & He & Hx). destruct e as [i0 j0 sev t q b|]; cbn [at_sink] in Hx; [|destruct Hx].
    destruct (Nat.eqb_spec i0 i) as [->|]; cbn [andb] in Hx; [|destruct Hx].
    destruct (Nat.eqb_spec j0 j) as [->|]; [|destruct Hx]. destruct Hx as [<-|[]]. exists sev. exact He. }
  assert (G1 : Forall (fun a => match a with FileSinkModel.Emit _ _ => True | _ => False end) (file_actions i j evs)).
  { unfold file_actions. apply Forall_forall. intros a Ha. apply in_map_iff in Ha as (x & <- & _). exact I. }
  assert (G2 : Forall FileSinkSpec.calm_action (file_actions i j evs)).
  { unfold file_actions. apply Forall_forall. intros a Ha. apply in_map_iff in Ha as (x & <- & Hx). cbn.
    destruct (IN _ Hx) as (sev & He). exact (HC _ _ _ _ He). }
  destruct (file_run c _ _ _ _ _ OK G1 G2 HR) as [F1 F2]. split.
  - intros sev t q b He. rewrite Forall_forall in F1. apply F1. unfold threws. apply in_map_iff. exists (t, q, b). split; [reflexivity|].
    apply in_flat_map. exists (Emitted i j sev t q b). split; [exact He|]. cbn. rewrite !Nat.eqb_refl. left; reflexivity.
  - rewrite F2. unfold file_actions, arrived. rewrite !map_map. reflexivity.
Qed.

Lemma file_lemma : forall hs ws w calls w' ws' evs p c i j, start_handlers hs = Some ws -> log_all w ws calls = Some (w', ws', evs) ->
  sink_at hs i j (SFile p c) -> only_file hs p i j -> FileSinkSpec.fs_ok (w_files w p) ->
  (forall cl, In cl calls -> exists dev ino spill, q_file (c_circumstances cl i j) = FileSinkSpec.calm dev ino spill) ->
  (forall sev t q b, In (Emitted i j sev t q b) evs -> b = false) /\
  content (w_files (close_all w' ws') p) = content (w_files w p) ++ concat (map FileSinkSpec.line (arrived i j evs)).
Proof.
  intros hs ws w calls w' ws' evs p c i j S E Hs HO OK HC. pose proof (events_of_calls _ _ _ _ _ _ _ _ _ _ _ _ S E) as HV.
  apply log_all_steps in E. apply (file_steps _ _ _ _ _ _ _ _ _ _ S E Hs HO OK).
  intros sev t q b He. destruct (HV _ _ _ _ _ _ He) as (cl & Hcl & _ & ->). apply HC. exact Hcl.
Qed.

Lemma untouched_lemma : forall hs ws w calls w' ws' evs p, start_handlers hs = Some ws -> log_all w ws calls = Some (w', ws', evs) ->
  (forall i j c, ~ sink_at hs i j (SFile p c)) -> w_files (close_all w' ws') p = w_files w p.
Proof.
  intros hs ws w calls w' ws' evs p S E HN. apply log_all_steps in E.
  assert (HU : forall a b c', kinds ws a b <> Some (SFile p c')).
  { intros a b c' K. rewrite (start_kinds _ _ S) in K. apply (HN a b c'). apply sink_of_at. exact K. }
  destruct (esteps_no_file p _ _ _ E HU) as [E1 E2]. cbn [fst snd] in *. rewrite <- E1. unfold close_all. apply close_none.
  intros s Hs. destruct (flat_at _ _ Hs) as (a & b & HL). destruct (kind s) as [|t|p0 c0|h0 p0|h0 p0|l|f0 o0] eqn:K; try reflexivity.
  cbn. destruct (bytes_eqb p0 p) eqn:E0; [|reflexivity]. apply bytes_eqb_eq in E0 as ->.
  exfalso. apply (HU a b c0). rewrite <- E2. unfold kinds. rewrite HL. cbn. rewrite K. reflexivity.
Qed.

(** ---- nothing undefined ---- *)

Notation render := (render dbl dbl_json double_of what json_fmt).

Lemma syslog_text_some t : (Z.of_nat (length t) < 2 ^ 31)%Z -> exists s, DeliveryModel.syslog_text t = Some s.
Proof. intros L. eexists. apply syslog_text_short. exact L. Qed.

Lemma emit_some w tty severity text s q : (Z.of_nat (length text) < 2 ^ 31)%Z -> exists r, emit w tty severity text s q = Some r.
Proof.
  intros L. unfold emit. destruct s as [|t0|p0 c0 k0|h0 p0 t0|h0 p0|l]; try (eexists; reflexivity).
  - destruct (ConsoleModel.emit_bytes _ _ _ _); eexists; reflexivity.
  - destruct (FileSinkModel.emit _ _ _ _ _) as [[fs k'] threw]. eexists; reflexivity.
  - destruct (TcpModel.emit _ _ _) as [[t1 tevs1] threw]. eexists; reflexivity.
  - destruct (q_udp q); eexists; reflexivity.
  - destruct (syslog_text_some text L) as [s ->]. eexists; reflexivity.
Qed.
Lemma emit_all_some tty severity text q i : (Z.of_nat (length text) < 2 ^ 31)%Z -> forall sinks w j,
  exists r, emit_all w tty severity text q i j sinks = Some r.
Proof.
  intros L. induction sinks as [|s sinks IH]; intros w j; cbn [emit_all]; [eexists; reflexivity|].
  destruct (emit_some w tty severity text s (q j) L) as [[[w1 s1] [e|]] ->]; [eexists; reflexivity|].
  destruct (IH w1 (S j)) as [[[[w2 sinks2] evs] r] ->]. eexists; reflexivity.
Qed.
Definition good_render (f : formatter) (env : surroundings) (r : record) : Prop :=
  match render f env r with Text t => (Z.of_nat (length t) < 2 ^ 31)%Z | Raises _ => True | Undefined => False end.
Lemma handle_all_some env r q : forall ws w i, Forall (fun x => good_render (fst x) env r) ws ->
  exists y, handle_all dbl dbl_json double_of what json_fmt w env r q i ws = Some y.
Proof.
  induction ws as [|[f sinks] ws IH]; intros w i F; cbn [handle_all]; [eexists; reflexivity|].
  inversion F as [|? ? F1 F2]; subst. unfold good_render in F1. cbn [fst] in F1. destruct (render f env r) as [t|e|]; [| |contradiction].
  - destruct (emit_all_some (e_tty env) (r_severity r) t (q i) i F1 sinks w 0) as [[[[w1 sinks1] evs1] e] ->].
    destruct (IH (match e with Some e => complain w1 e | None => w1 end) (S i) F2) as [[[w2 hs2] evs2] ->]. eexists; reflexivity.
  - destruct (IH (complain w e) (S i) F2) as [[[w2 hs2] evs2] ->]. eexists; reflexivity.
Qed.

Lemma shape_fst : forall ws hs, shape ws = config_shape hs -> forall x, In x ws -> exists i, formatter_at hs i (fst x).
Proof.
  induction ws as [|[f sinks] ws IH]; intros [|[f0 sinks0] hs] S x HI; try discriminate S; [destruct HI|].
  cbn in S. injection S as <- S1 S2. destruct HI as [<-|HI].
  - exists 0%nat. exists sinks0. reflexivity.
  - destruct (IH hs S2 x HI) as (i & l & E). exists (Datatypes.S i), l. exact E.
Qed.

Lemma log_all_some hs : forall calls w ws, shape ws = config_shape hs ->
  (forall c r f i, In c calls -> record_of c r -> formatter_at hs i f -> good_render f (c_env c) r) ->
  exists y, log_all w ws calls = Some y.
Proof.
  induction calls as [|c calls IH]; intros w ws S H; cbn [SystemModel.log_all]; [eexists; reflexivity|].
  assert (E : exists y, log dbl dbl_json double_of what json_fmt w ws c = Some y).
  { unfold log. destruct (c_supplier c) as [m|e] eqn:ES; [|eexists; reflexivity].
    apply handle_all_some. apply Forall_forall. intros x Hx. destruct (shape_fst _ _ S x Hx) as (i & Hi).
    eapply H; [left; reflexivity| |exact Hi]. exists m. split; [exact ES|reflexivity]. }
  destruct E as [[[w1 ws1] evs1] E]. rewrite E.
  destruct (log_called _ _ _ _ _ hs c w ws w1 ws1 evs1 S E) as [S1 _].
  destruct (IH w1 ws1 S1) as [[[w2 ws2] evs2] E2].
  { intros c' r f i HI. apply H. right; exact HI. }
  rewrite E2. eexists; reflexivity.
Qed.

Lemma defined_lemma : forall hs ws w calls, start_handlers hs = Some ws ->
  (forall c r f i, In c calls -> record_of c r -> formatter_at hs i f ->
     match render f (c_env c) r with Text t => (Z.of_nat (length t) < 2 ^ 31)%Z | Raises _ => True | Undefined => False end) ->
  exists w' ws' evs, log_all w ws calls = Some (w', ws', evs).
Proof.
  intros hs ws w calls S H. destruct (log_all_some hs calls w ws (start_shape _ _ S) H) as [[[w' ws'] evs] E].
  exists w', ws', evs. exact E.
Qed.

(** ---- from the pattern to the file ---- *)

Notation names_map := (severity_names dbl).

Lemma pattern_file_lemma : forall ld nd items tokens sevmap hs ws w calls w' ws' evs i p c rest,
  StrSpec.pattern_ok items -> ParserModel.tokenize ld nd (StrSpec.pattern_text items) = Some (ParserModel.Tokens tokens) ->
  nth_error hs i = Some (HBlocking (FString tokens sevmap) (SFile p c :: rest)) -> only_file hs p i 0 ->
  start_handlers hs = Some ws -> log_all w ws calls = Some (w', ws', evs) ->
  FileSinkSpec.fs_ok (w_files w p) ->
  (forall cl, In cl calls -> exists dev ino spill, q_file (c_circumstances cl i 0) = FileSinkSpec.calm dev ino spill) ->
  (forall cl, In cl calls -> exists r, record_of cl r /\ Forall (StrSpec.item_suits ld (names_map sevmap) (srecord_of (c_env cl) r)) items) ->
  exists lines, Forall2 (fun cl l => exists r outs, record_of cl r /\
      Forall2 (StrSpec.item_shows dbl double_of ld (names_map sevmap) (srecord_of (c_env cl) r)) items outs /\ l = concat outs) calls lines /\
    content (w_files (close_all w' ws') p) = content (w_files w p) ++ concat (map (fun l => l ++ [chr 10]) lines).
Proof.
  intros ld nd items tokens sevmap hs ws w calls w' ws' evs i p c rest OK ET EH HO S E FO HC HR.
  assert (Hs : sink_at hs i 0 (SFile p c)) by (exists (FString tokens sevmap), (SFile p c :: rest); split; [exact EH|reflexivity]).
  assert (Hf : formatter_at hs i (FString tokens sevmap)) by (exists (SFile p c :: rest); exact EH).
  destruct (StrSubProofs.whole_lemma ld nd dbl double_of (names_map sevmap) items OK) as (ts & ET' & HW).
  rewrite ET in ET'. injection ET' as <-.
  assert (HM : forall cl, In cl calls -> exists text r outs, makes dbl dbl_json double_of what json_fmt (FString tokens sevmap) cl text /\ record_of cl r /\
    Forall2 (StrSpec.item_shows dbl double_of ld (names_map sevmap) (srecord_of (c_env cl) r)) items outs /\ text = concat outs).
  { intros cl HI. destruct (HR cl HI) as (r & Hr & Hsuit). destruct (HW _ Hsuit) as (outs & H1 & H2).
    exists (concat outs), r, outs. split; [|auto]. exists r. split; [exact Hr|]. cbn [SystemModel.render].
    change (match sevmap with Some names => StrModel.list_map dbl names | None => StrModel.number_map dbl end) with (names_map sevmap).
    rewrite H2. reflexivity. }
  destruct (file_lemma _ _ _ _ _ _ _ _ _ i 0 S E Hs HO FO HC) as [_ EF].
  exists (arrived i 0 evs). split; [|exact EF].
  assert (F2 : Forall2 (makes dbl dbl_json double_of what json_fmt (FString tokens sevmap)) calls (arrived i 0 evs)).
  { eapply complete_lemma; [exact S|exact E|exact Hs|exact Hf| |lia].
    apply Forall_forall. intros cl HI. destruct (HM cl HI) as (t & _ & _ & H & _). exists t. exact H. }
  clear EF E HR HC. revert F2 HM. generalize (arrived i 0 evs). intros lines F2.
  induction F2 as [|cl l calls lines H F2 IH]; intros HM; constructor.
  - destruct (HM cl (or_introl eq_refl)) as (t & r & outs & (r' & Hr' & Ht) & Hr & Ho & ->). exists r, outs. split; [exact Hr|]. split; [exact Ho|].
    destruct H as (r2 & Hr2 & H). rewrite (record_of_unique _ _ _ Hr2 Hr'), Ht in H. injection H as ->. reflexivity.
  - apply IH. intros cl' HI. apply HM. right; exact HI.
Qed.
End Results.
