From Verif Require Import Base Decimal FmtModel FmtSpec FmtProofs FmtSubProofs DateProofs MembufModel MembufSpec.
From Verif Require StrSpec AppleProofs.
Open Scope N_scope.

(** ---- arrays ---- *)

Lemma len_app {A} (a b : list A) : length_N (a ++ b) = length_N a + length_N b.
Proof. unfold length_N. rewrite app_length. lia. Qed.
Lemma len_firstn {A} n (l : list A) : n <= length_N l -> length_N (firstn (N.to_nat n) l) = n.
Proof. unfold length_N. intros H. rewrite firstn_length. lia. Qed.
Lemma len_repeat {A} (x : A) n : length_N (repeat x (N.to_nat n)) = n.
Proof. unfold length_N. rewrite repeat_length. lia. Qed.

Lemma load_front cs n : n <= length_N cs -> load cs 0 n = Some (firstn (N.to_nat n) cs).
Proof.
  intros H. unfold load. rewrite (proj2 (N.leb_le 0 n)) by lia. rewrite (proj2 (N.leb_le _ _) H). rewrite N.sub_0_r. reflexivity.
Qed.
Lemma load_front_inv cs n c : load cs 0 n = Some c -> n <= length_N cs /\ c = firstn (N.to_nat n) cs.
Proof.
  unfold load. destruct (N.leb_spec 0 n); [|lia]. destruct (N.leb_spec n (length_N cs)); [|discriminate]. cbn [andb].
  rewrite N.sub_0_r. intros E. split; [assumption|]. change (N.to_nat 0) with 0%nat in E. cbn [skipn] in E. congruence.
Qed.

Lemma store_ok cs at_ s : at_ + length_N s <= length_N cs -> exists cs', store cs at_ s = Some cs' /\ length_N cs' = length_N cs
  /\ firstn (N.to_nat (at_ + length_N s)) cs' = firstn (N.to_nat at_) cs ++ s
  /\ firstn (N.to_nat at_) cs' = firstn (N.to_nat at_) cs
  /\ load cs' at_ (at_ + length_N s) = Some s.
Proof.
  intros H. unfold store. rewrite (proj2 (N.leb_le _ _) H). eexists. split; [reflexivity|].
  assert (LN : length (firstn (N.to_nat at_) cs) = N.to_nat at_) by (rewrite firstn_length; unfold length_N in H; lia).
  assert (LL : length_N (firstn (N.to_nat at_) cs ++ s ++ skipn (N.to_nat at_ + length s) cs) = length_N cs).
  { unfold length_N in *. rewrite !app_length, skipn_length, LN. lia. }
  split; [exact LL|]. split; [|split].
  - rewrite app_assoc. rewrite firstn_app.
    replace (N.to_nat (at_ + length_N s) - length (firstn (N.to_nat at_) cs ++ s))%nat with 0%nat by (rewrite app_length, LN; unfold length_N; lia).
    cbn [firstn]. rewrite app_nil_r. apply firstn_all2. rewrite app_length, LN. unfold length_N. lia.
  - rewrite firstn_app, LN, Nat.sub_diag. cbn [firstn]. rewrite app_nil_r. apply firstn_all2. lia.
  - unfold load. rewrite (proj2 (N.leb_le _ _)) by lia. rewrite LL, (proj2 (N.leb_le _ _) H). cbn [andb]. f_equal.
    rewrite skipn_app, LN, Nat.sub_diag. cbn [skipn]. rewrite skipn_all2 by lia. cbn [app].
    replace (N.to_nat (at_ + length_N s - at_)) with (length s) by (unfold length_N; lia).
    rewrite firstn_app, Nat.sub_diag. cbn [firstn]. rewrite app_nil_r. apply firstn_all.
Qed.

Lemma array_set b cs : array (set_array b cs) = cs.
Proof. unfold array, set_array. destruct (b_heap b); reflexivity. Qed.
Lemma array_size b n : array (set_size b n) = array b.
Proof. reflexivity. Qed.
Lemma capacity_set b cs : b_capacity (set_array b cs) = b_capacity b.
Proof. unfold set_array. destruct (b_heap b); reflexivity. Qed.
Lemma size_set b cs : b_size (set_array b cs) = b_size b.
Proof. unfold set_array. destruct (b_heap b); reflexivity. Qed.

(** ---- the operations, for any way of growing ---- *)

Definition allowed (o : op) (b : buf) (c : cells) : Prop :=
  match o with
  | OPush (Own from to) | OAppend (Own from to) =>
      from <= to <= length_N c /\ (b_heap b = None \/ needs o (b_size b) <= b_capacity b)
  | _ => True
  end.

Section Ops.
Variables (gr : buf -> N -> outcome buf) (inv : buf -> Prop).
Hypothesis inv_base : forall b, inv b -> length_N (array b) = b_capacity b /\ b_size b <= b_capacity b /\ b_capacity b < 2 ^ 63.
Hypothesis inv_update : forall b cs n, inv b -> length_N cs = length_N (array b) -> n <= b_capacity b -> inv (set_size (set_array b cs) n).
Hypothesis inv_size : forall b n, inv b -> n <= b_capacity b -> inv (set_size b n).
Hypothesis inv_array : forall b cs, inv b -> length_N cs = length_N (array b) -> inv (set_array b cs).
Hypothesis grow_ok : forall b n, inv b -> b_capacity b < n -> n < 2 ^ 64 ->
  match gr b n with
  | Done b' => inv b' /\ contents b' = contents b /\ b_size b' = b_size b /\ n <= b_capacity b' /\ (b_heap b = None -> b_data b' = b_data b)
  | Thrown b' => b' = b
  | Bad => False
  end.

Lemma contents_inv b c : inv b -> contents b = Some c -> c = firstn (N.to_nat (b_size b)) (array b) /\ length_N c = b_size b.
Proof.
  intros V E. destruct (inv_base b V) as (A1 & A2 & A3). apply load_front_inv in E as [_ E]. split; [exact E|].
  subst c. apply len_firstn. lia.
Qed.
Lemma contents_ok b : inv b -> contents b = Some (firstn (N.to_nat (b_size b)) (array b)).
Proof. intros V. destruct (inv_base b V) as (A1 & A2 & A3). apply load_front. lia. Qed.

Definition good (o : op) (b : buf) (c : cells) (r : outcome buf) : Prop :=
  match r with
  | Done b' => inv b' /\ (exists c', effect o c c' /\ contents b' = Some c') /\ b_size b' = leaves o (b_size b)
  | Thrown b' => b' = b /\ b_capacity b < needs o (b_size b)
  | Bad => False
  end.

(** Growing, when it is needed. *)
Lemma room b n (small : bool) : inv b -> n < 2 ^ 64 -> (small = true <-> b_capacity b < n) ->
  match (if small then gr b n else Done b) with
  | Done b' => inv b' /\ contents b' = contents b /\ b_size b' = b_size b /\ n <= b_capacity b'
               /\ (b_heap b = None -> b_data b' = b_data b) /\ (small = false -> b' = b)
  | Thrown b' => b' = b /\ b_capacity b < n
  | Bad => False
  end.
Proof.
  intros V Hn SM. destruct small.
  - assert (L := proj1 SM eq_refl). assert (G := grow_ok b n V L Hn). destruct (gr b n) as [b'|b'|].
    + destruct G as (G1 & G2 & G3 & G4 & G5). repeat (split; [assumption|]). discriminate.
    + split; assumption.
    + exact G.
  - assert (L : n <= b_capacity b) by (destruct (N.ltb_spec (b_capacity b) n) as [L|L]; [specialize (proj2 SM L); discriminate|exact L]).
    repeat split; try assumption; try reflexivity.
Qed.

Lemma put_ok o src b c small b' : inv b -> contents b = Some c -> allowed o b c ->
  (o = OPush src \/ o = OAppend src) -> (o = OPush src -> elements src = 1) ->
  inv b' -> contents b' = contents b -> b_size b' = b_size b -> b_size b + elements src <= b_capacity b' ->
  (b_heap b = None -> b_data b' = b_data b) -> (small = false -> b' = b) -> (small = true -> b_capacity b < needs o (b_size b)) ->
  good o b c (put_at_end small b b' src).
Proof.
  intros V E AL O ONE V' E' SZ RM DT SM SM2. destruct (contents_inv b c V E) as [EC LC].
  destruct (inv_base b V) as (A1 & A2 & A3). destruct (inv_base b' V') as (B1 & B2 & B3).
  assert (NE : needs o (b_size b) = b_size b + elements src) by (destruct O as [->| ->]; cbn [needs]; rewrite ?ONE by reflexivity; reflexivity).
  assert (EL : leaves o (b_size b) = b_size b + elements src) by (destruct O as [->| ->]; cbn [leaves]; rewrite ?ONE by reflexivity; reflexivity).
  assert (F : fetch small b b' src = Some (part c src) /\ length_N (part c src) = elements src).
  { destruct src as [s|from to]; cbn [fetch part elements].
    - split; [reflexivity|]. unfold length_N. rewrite map_length. reflexivity.
    - assert (AL2 : from <= to <= length_N c /\ (b_heap b = None \/ needs o (b_size b) <= b_capacity b)) by (destruct O as [->| ->]; exact AL).
      destruct AL2 as [R AL2].
      assert (Q : forall cs, c = firstn (N.to_nat (b_size b)) cs -> length_N c <= length_N cs ->
        load cs from to = Some (firstn (N.to_nat (to - from)) (skipn (N.to_nat from) c))).
      { intros cs X Y. unfold load. rewrite (proj2 (N.leb_le _ _)) by lia. rewrite (proj2 (N.leb_le to (length_N cs))) by lia. cbn [andb]. f_equal.
        rewrite X. rewrite skipn_firstn_comm, firstn_firstn. f_equal. lia. }
      split.
      + destruct (b_heap b) as [h|] eqn:HP.
        * destruct small; [exfalso; specialize (SM2 eq_refl); destruct AL2 as [AL2|AL2]; [discriminate|lia]|].
          rewrite (SM eq_refl). apply Q; [exact EC|]. rewrite LC. lia.
        * rewrite (DT eq_refl). assert (AR : array b = b_data b) by (unfold array; rewrite HP; reflexivity). rewrite <- AR.
          apply Q; [exact EC|]. rewrite LC. lia.
      + unfold length_N in *. rewrite firstn_length, skipn_length. lia. }
  destruct F as [F FL]. unfold put_at_end. rewrite F.
  destruct (store_ok (array b') (b_size b') (part c src)) as (cs & ST & S1 & S2 & _); [rewrite FL, SZ; lia|]. rewrite ST.
  assert (V2 : inv (set_size (set_array b' cs) (b_size b' + length_N (part c src)))) by (apply inv_update; [assumption|exact S1|rewrite FL, SZ; lia]).
  cbn [good]. split; [exact V2|]. split.
  - exists (c ++ part c src). split; [destruct O as [->| ->]; constructor|].
    rewrite (contents_ok _ V2). cbn [set_size b_size]. rewrite array_size, array_set, S2.
    rewrite E in E'. destruct (contents_inv b' c V' E') as [EC' _]. rewrite <- EC'. reflexivity.
  - cbn [set_size b_size]. rewrite FL, SZ, EL. reflexivity.
Qed.

Lemma step_ok o b c : inv b -> contents b = Some c -> proper_op o -> allowed o b c -> good o b c (step gr o b).
Proof.
  intros V E P AL. destruct (inv_base b V) as (A1 & A2 & A3). destruct (contents_inv b c V E) as [EC LC].
  destruct o as [n|n| |src|src|]; cbn [step proper_op] in *.
  - unfold resize. assert (R := room b n (b_capacity b <? n) V ltac:(lia) ltac:(apply N.ltb_lt)).
    destruct (if b_capacity b <? n then gr b n else Done b) as [b'|b'|]; cbn [next]; [|exact R|exact R].
    destruct R as (V' & E' & SZ & RM & DT & _). assert (V2 := inv_size b' n V' RM). split; [exact V2|].
    split; [|reflexivity]. rewrite E in E'. destruct (contents_inv b' c V' E') as [EC' LC'].
    destruct (inv_base b' V') as (B1 & B2 & B3).
    rewrite (contents_ok _ V2). cbn [set_size b_size]. rewrite array_size.
    destruct (N.leb_spec n (length_N c)) as [L|L].
    + exists (firstn (N.to_nat n) c). split; [constructor; exact L|]. f_equal. rewrite EC', firstn_firstn. f_equal. lia.
    + eexists. split; [|reflexivity].
      assert (X : firstn (N.to_nat n) (array b') = c ++ skipn (length c) (firstn (N.to_nat n) (array b'))).
      { rewrite <- (firstn_skipn (length c) (firstn (N.to_nat n) (array b'))) at 1. f_equal. rewrite firstn_firstn.
        rewrite EC'. f_equal. unfold length_N in *. rewrite firstn_length. lia. }
      rewrite X. apply effect_extend. rewrite <- X. symmetry. apply len_firstn. lia.
  - unfold reserve. assert (R := room b n (b_capacity b <? n) V ltac:(lia) ltac:(apply N.ltb_lt)).
    destruct (if b_capacity b <? n then gr b n else Done b) as [b'|b'|]; [|exact R|exact R].
    destruct R as (V' & E' & SZ & RM & DT & _). split; [exact V'|]. split; [|exact SZ]. exists c. split; [constructor|]. congruence.
  - assert (V2 := inv_size b 0 V ltac:(lia)). split; [exact V2|]. split; [|reflexivity]. exists []. split; [constructor|]. rewrite (contents_ok _ V2). reflexivity.
  - unfold push_back. assert (W : wrap64 (b_size b + 1) = b_size b + 1) by (unfold wrap64, two64; rewrite N.mod_small by lia; reflexivity).
    rewrite W. assert (R := room b (b_size b + 1) (b_size b =? b_capacity b) V ltac:(lia) ltac:(rewrite N.eqb_eq; lia)).
    assert (SM2 : (b_size b =? b_capacity b) = true -> b_capacity b < b_size b + 1) by (rewrite N.eqb_eq; lia).
    destruct (if b_size b =? b_capacity b then gr b (b_size b + 1) else Done b) as [b'|b'|]; cbn [next]; [|exact R|exact R].
    destruct R as (V' & E' & SZ & RM & DT & SM). apply put_ok; try assumption; [left; reflexivity|intros _; exact P|rewrite P; exact RM].
  - unfold append. assert (W : wrap64 (b_size b + elements src) = b_size b + elements src) by (unfold wrap64, two64; rewrite N.mod_small by lia; reflexivity).
    rewrite W. assert (R := room b (b_size b + elements src) (b_capacity b <? b_size b + elements src) V ltac:(lia) ltac:(apply N.ltb_lt)).
    assert (SM2 : (b_capacity b <? b_size b + elements src) = true -> b_capacity b < b_size b + elements src) by apply N.ltb_lt.
    destruct (if b_capacity b <? b_size b + elements src then gr b (b_size b + elements src) else Done b) as [b'|b'|]; cbn [next]; [|exact R|exact R].
    destruct R as (V' & E' & SZ & RM & DT & SM). apply put_ok; try assumption; [right; reflexivity|discriminate].
  - unfold c_str, reserve. assert (W : wrap64 (b_size b + 1) = b_size b + 1) by (unfold wrap64, two64; rewrite N.mod_small by lia; reflexivity).
    rewrite W. assert (R := room b (b_size b + 1) (b_capacity b <? b_size b + 1) V ltac:(lia) ltac:(apply N.ltb_lt)).
    destruct (if b_capacity b <? b_size b + 1 then gr b (b_size b + 1) else Done b) as [b'|b'|]; cbn [next]; [|exact R|exact R].
    destruct R as (V' & E' & SZ & RM & DT & SM). destruct (inv_base b' V') as (B1 & B2 & B3).
    destruct (store_ok (array b') (b_size b') [Some NUL]) as (cs & ST & S1 & S2 & S3 & _); [change (length_N [Some NUL]) with 1; lia|]. rewrite ST.
    assert (V2 := inv_array b' cs V' S1). split; [exact V2|]. split; [|rewrite size_set; exact SZ].
    exists c. split; [constructor|]. rewrite (contents_ok _ V2). rewrite array_set, size_set, S3.
    rewrite E in E'. destruct (contents_inv b' c V' E') as [EC' _]. rewrite EC'. reflexivity.
Qed.

Lemma external_allowed o b c : external o -> allowed o b c.
Proof. destruct o as [n|n| |[s|f t]|[s|f t]|]; cbn; tauto. Qed.

Lemma run_ok ops : forall b c, inv b -> contents b = Some c -> Forall proper_op ops -> Forall external ops ->
  match run gr ops b with
  | Done b' => inv b' /\ exists c', effects ops c c' /\ contents b' = Some c'
  | Thrown b' => inv b' /\ exists done o rest c', ops = done ++ o :: rest /\ effects done c c' /\ contents b' = Some c' /\ b_capacity b' < needs o (length_N c')
  | Bad => False
  end.
Proof.
  induction ops as [|o ops IH]; intros b c V E P X; cbn [run].
  - split; [exact V|]. exists c. split; [constructor|exact E].
  - apply Forall_cons_iff in P as [P1 P2]. apply Forall_cons_iff in X as [X1 X2].
    assert (S := step_ok o b c V E P1 (external_allowed o b c X1)). destruct (step gr o b) as [b'|b'|]; cbn [next good] in *.
    + destruct S as (V' & (c' & EF & E') & _). specialize (IH b' c' V' E' P2 X2). destruct (run gr ops b') as [b2|b2|].
      * destruct IH as (V2 & c2 & EF2 & E2). split; [exact V2|]. exists c2. split; [econstructor; eassumption|exact E2].
      * destruct IH as (V2 & done & o2 & rest & c2 & -> & EF2 & E2 & CA). split; [exact V2|].
        exists (o :: done), o2, rest, c2. split; [reflexivity|]. split; [econstructor; eassumption|]. split; assumption.
      * exact IH.
    + destruct S as [-> CA]. split; [exact V|]. exists [], o, ops, c. destruct (contents_inv b c V E) as [_ LC].
      split; [reflexivity|]. split; [constructor|]. split; [exact E|]. rewrite LC. exact CA.
    + exact S.
Qed.
Lemma run_done (limit : N) ops : (forall b n, inv b -> b_capacity b < n -> n <= limit -> forall b', gr b n <> Thrown b') ->
  forall b c, inv b -> contents b = Some c -> Forall proper_op ops -> Forall external ops -> peak ops (b_size b) <= limit ->
  exists b', run gr ops b = Done b'.
Proof.
  intros NT. induction ops as [|o ops IH]; intros b c V E P X PK; cbn [run]; [eexists; reflexivity|].
  apply Forall_cons_iff in P as [P1 P2]. apply Forall_cons_iff in X as [X1 X2]. cbn [peak] in PK.
  assert (S := step_ok o b c V E P1 (external_allowed o b c X1)).
  assert (NTS : forall b', step gr o b <> Thrown b').
  { destruct (inv_base b V) as (A1 & A2 & A3).
    assert (Q : forall b' n (small : bool), (small = true -> b_capacity b < n) -> n <= limit -> (if small then gr b n else Done b) <> Thrown b').
    { intros b' n small H1 H2. destruct small; [apply NT; auto|discriminate]. }
    assert (PT : forall small b1 b2 src b3, put_at_end small b1 b2 src <> Thrown b3).
    { intros. unfold put_at_end. destruct (fetch _ _ _ _); [|discriminate]. destruct (store _ _ _); discriminate. }
    assert (W1 : wrap64 (b_size b + 1) = b_size b + 1) by (unfold wrap64, two64; rewrite N.mod_small by lia; reflexivity).
    intros b'. destruct o as [n|n| |src|src|]; cbn [step needs proper_op] in *.
    - unfold resize. specialize (Q b' n (b_capacity b <? n) ltac:(apply N.ltb_lt) ltac:(lia)).
      destruct (if b_capacity b <? n then gr b n else Done b); cbn [next]; congruence.
    - unfold reserve. apply Q; [apply N.ltb_lt|lia].
    - discriminate.
    - unfold push_back. rewrite W1. specialize (Q b' (b_size b + 1) (b_size b =? b_capacity b) ltac:(rewrite N.eqb_eq; lia) ltac:(lia)).
      destruct (if b_size b =? b_capacity b then _ else Done b); cbn [next]; [apply PT|congruence|discriminate].
    - unfold append. assert (W : wrap64 (b_size b + elements src) = b_size b + elements src) by (unfold wrap64, two64; rewrite N.mod_small by lia; reflexivity).
      rewrite W. specialize (Q b' (b_size b + elements src) (b_capacity b <? b_size b + elements src) ltac:(apply N.ltb_lt) ltac:(lia)).
      destruct (if b_capacity b <? b_size b + elements src then _ else Done b); cbn [next]; [apply PT|congruence|discriminate].
    - unfold c_str, reserve. rewrite W1. specialize (Q b' (b_size b + 1) (b_capacity b <? b_size b + 1) ltac:(apply N.ltb_lt) ltac:(lia)).
      destruct (if b_capacity b <? b_size b + 1 then _ else Done b); cbn [next]; [|congruence|discriminate].
      destruct (store _ _ _); discriminate. }
  destruct (step gr o b) as [b'|b'|]; cbn [next good] in *.
  - destruct S as (V' & (c' & EF & E') & SZ). apply (IH b' c' V' E' P2 X2). rewrite SZ. lia.
  - destruct (NTS b' eq_refl).
  - contradiction.
Qed.
End Ops.

(** ---- MemoryBuffer ---- *)

Definition mem_inv (b : buf) : Prop :=
  length_N (array b) = b_capacity b /\ b_size b <= b_capacity b /\ b_capacity b < 2 ^ 63 /\ length_N (b_data b) = inline_size
  /\ inline_size <= b_capacity b.

Lemma mem_base b : mem_inv b -> length_N (array b) = b_capacity b /\ b_size b <= b_capacity b /\ b_capacity b < 2 ^ 63.
Proof. unfold mem_inv. tauto. Qed.
Lemma mem_array b cs : mem_inv b -> length_N cs = length_N (array b) -> mem_inv (set_array b cs).
Proof.
  intros (A1 & A2 & A3 & A4 & A5) H. unfold mem_inv. rewrite array_set, capacity_set, size_set.
  repeat (split; [try assumption; congruence|]). split; [|assumption].
  unfold set_array, array in *. destruct (b_heap b); cbn [b_data]; [exact A4|congruence].
Qed.
Lemma mem_size b n : mem_inv b -> n <= b_capacity b -> mem_inv (set_size b n).
Proof. intros (A1 & A2 & A3 & A4 & A5) H. unfold mem_inv. cbn. tauto. Qed.
Lemma mem_update b cs n : mem_inv b -> length_N cs = length_N (array b) -> n <= b_capacity b -> mem_inv (set_size (set_array b cs) n).
Proof. intros. apply mem_size; [apply mem_array; assumption|rewrite capacity_set; assumption]. Qed.

Lemma fresh_inv : mem_inv fresh.
Proof. unfold mem_inv, fresh, array. cbn [b_heap b_data b_size b_capacity]. rewrite len_repeat. unfold inline_size. lia. Qed.
Lemma fresh_contents : contents fresh = Some [].
Proof. reflexivity. Qed.

Section Memory.
Variable limit : N.
Hypothesis HL : limit < 2 ^ 63.

Lemma mem_grow b n : mem_inv b -> b_capacity b < n -> n < 2 ^ 64 ->
  match grow limit b n with
  | Done b' => mem_inv b' /\ contents b' = contents b /\ b_size b' = b_size b /\ n <= b_capacity b' /\ (b_heap b = None -> b_data b' = b_data b)
  | Thrown b' => b' = b
  | Bad => False
  end.
Proof.
  intros (A1 & A2 & A3 & A4 & A5) L Ln. unfold grow.
  assert (W : wrap64 (b_capacity b + b_capacity b / 2) = b_capacity b + b_capacity b / 2).
  { unfold wrap64, two64. apply N.mod_small. assert (b_capacity b / 2 <= b_capacity b) by (apply N.div_le_upper_bound; lia). lia. }
  rewrite W. set (m := N.max n (b_capacity b + b_capacity b / 2)). destruct (N.ltb_spec limit m) as [C|C]; [reflexivity|].
  rewrite load_front by lia.
  destruct (store_ok (repeat None (N.to_nat m)) 0 (firstn (N.to_nat (b_size b)) (array b))) as (cs & ST & S1 & S2 & _).
  { rewrite len_repeat, len_firstn by lia. lia. }
  rewrite ST. rewrite len_repeat in S1. rewrite len_firstn in S2 by lia.
  assert (D : deallocates b = true).
  { unfold deallocates. destruct (b_heap b) as [h|] eqn:E; [|reflexivity]. apply N.eqb_eq. unfold array in A1. rewrite E in A1. exact A1. }
  rewrite D. split; [|split; [|split; [reflexivity|split; [cbn; lia|reflexivity]]]].
  - unfold mem_inv, array. cbn [b_heap b_data b_size b_capacity]. lia.
  - unfold contents. cbn [array b_heap b_size]. rewrite load_front by lia. rewrite load_front by lia. f_equal.
    rewrite N.add_0_l in S2. rewrite S2. change (N.to_nat 0) with 0%nat. reflexivity.
Qed.

Lemma mem_no_throw b n m : mem_inv b -> b_capacity b < n -> n <= m -> m + m / 2 <= limit -> forall b', grow limit b n <> Thrown b'.
Proof.
  intros (A1 & A2 & A3 & A4 & A5) L1 L2 L3 b'. unfold grow.
  assert (H1 : b_capacity b / 2 <= n / 2) by (apply N.div_le_mono; lia).
  assert (H2 : n / 2 <= m / 2) by (apply N.div_le_mono; lia).
  assert (W : wrap64 (b_capacity b + b_capacity b / 2) = b_capacity b + b_capacity b / 2).
  { unfold wrap64, two64. apply N.mod_small. assert (b_capacity b / 2 <= b_capacity b) by (apply N.div_le_upper_bound; lia). lia. }
  rewrite W. destruct (N.ltb_spec limit (N.max n (b_capacity b + b_capacity b / 2))) as [C|C].
  { exfalso. clear -H1 H2 C L1 L2 L3. set (x := b_capacity b / 2) in *. set (y := n / 2) in *. set (z := m / 2) in *. clearbody x y z. lia. }
  destruct (load _ _ _); [|discriminate]. destruct (store _ _ _); [|discriminate]. destruct (deallocates b); discriminate.
Qed.

Lemma mem_run ops b : mem_inv b -> forall c, contents b = Some c -> Forall proper_op ops -> Forall external ops ->
  match run (grow limit) ops b with
  | Done b' => mem_inv b' /\ exists c', effects ops c c' /\ contents b' = Some c'
  | Thrown b' => mem_inv b' /\ exists done o rest c', ops = done ++ o :: rest /\ effects done c c' /\ contents b' = Some c' /\ b_capacity b' < needs o (length_N c')
  | Bad => False
  end.
Proof. intros V c. apply (run_ok (grow limit) mem_inv mem_base mem_update mem_size mem_array mem_grow); assumption. Qed.

Lemma contents_lemma ops b : Forall proper_op ops -> Forall external ops -> run (grow limit) ops fresh = Done b ->
  exists c, effects ops [] c /\ contents b = Some c.
Proof.
  intros P X R. assert (M := mem_run ops fresh fresh_inv [] fresh_contents P X). rewrite R in M. destruct M as (_ & c & M1 & M2). exists c. tauto.
Qed.
Lemma reach_inv ops b : Forall proper_op ops -> Forall external ops -> run (grow limit) ops fresh = Done b -> mem_inv b.
Proof. intros P X R. assert (M := mem_run ops fresh fresh_inv [] fresh_contents P X). rewrite R in M. apply M. Qed.

Lemma thrown_lemma ops b : Forall proper_op ops -> Forall external ops -> run (grow limit) ops fresh = Thrown b ->
  exists done o rest c, ops = done ++ o :: rest /\ effects done [] c /\ contents b = Some c.
Proof.
  intros P X R. assert (M := mem_run ops fresh fresh_inv [] fresh_contents P X). rewrite R in M.
  destruct M as (_ & done & o & rest & c & E & EF & C & _). exists done, o, rest, c. tauto.
Qed.
Lemma defined_lemma ops : Forall proper_op ops -> Forall external ops -> run (grow limit) ops fresh <> Bad.
Proof. intros P X R. assert (M := mem_run ops fresh fresh_inv [] fresh_contents P X). rewrite R in M. exact M. Qed.

Lemma done_lemma ops : Forall proper_op ops -> Forall external ops -> peak ops 0 + peak ops 0 / 2 <= limit ->
  exists b, run (grow limit) ops fresh = Done b.
Proof.
  intros P X PK. apply (run_done (grow limit) mem_inv mem_base mem_update mem_size mem_array mem_grow (peak ops 0) ops) with (c := []).
  - intros b n V L1 L2 b'. apply (mem_no_throw b n (peak ops 0)); assumption.
  - apply fresh_inv.
  - reflexivity.
  - exact P.
  - exact X.
  - cbn. lia.
Qed.

Lemma c_str_lemma ops b : Forall proper_op ops -> Forall external ops -> run (grow limit) (ops ++ [OCStr]) fresh = Done b ->
  exists c, effects ops [] c /\ load (array b) 0 (length_N c + 1) = Some (c ++ [Some NUL]).
Proof.
  intros P X R. assert (RA : forall ops2 b0, run (grow limit) (ops ++ ops2) b0 = next (run (grow limit) ops b0) (run (grow limit) ops2)).
  { intros ops2. clear. induction ops as [|o ops IH]; intros b0; [reflexivity|]. cbn [app run]. destruct (step (grow limit) o b0); cbn [next]; [apply IH|reflexivity|reflexivity]. }
  rewrite RA in R. assert (M := mem_run ops fresh fresh_inv [] fresh_contents P X).
  destruct (run (grow limit) ops fresh) as [b1|b1|]; cbn [next] in R; [|discriminate|discriminate].
  destruct M as (V & c & EF & C). exists c. split; [exact EF|]. cbn [run step next] in R.
  destruct (mem_base b1 V) as (A1 & A2 & A3).
  assert (W1 : wrap64 (b_size b1 + 1) = b_size b1 + 1) by (unfold wrap64, two64; rewrite N.mod_small by lia; reflexivity).
  unfold c_str, reserve in R. rewrite W1 in R.
  assert (RM := room (grow limit) mem_inv mem_grow b1 (b_size b1 + 1) (b_capacity b1 <? b_size b1 + 1) V ltac:(lia) ltac:(apply N.ltb_lt)).
  destruct (if b_capacity b1 <? b_size b1 + 1 then grow limit b1 (b_size b1 + 1) else Done b1) as [b2|b2|]; cbn [next] in R; [|discriminate|discriminate].
  destruct RM as (V' & E' & SZ & R2 & _). destruct (mem_base b2 V') as (B1 & B2 & B3).
  destruct (store_ok (array b2) (b_size b2) [Some NUL]) as (cs & ST & S1 & S2 & S3 & _); [change (length_N [Some NUL]) with 1; lia|].
  rewrite ST in R. injection R as <-. rewrite array_set. rewrite C in E'.
  destruct (contents_inv mem_inv mem_base b2 c V' E') as [EC LC]. rewrite LC.
  rewrite load_front by lia. f_equal. change (length_N [Some NUL]) with 1 in S2. rewrite S2, <- EC. reflexivity.
Qed.

Lemma self_lemma ops b c o : Forall proper_op ops -> Forall external ops -> run (grow limit) ops fresh = Done b -> contents b = Some c ->
  proper_op o -> allowed o b c ->
  match step (grow limit) o b with Done b' => exists c', effect o c c' /\ contents b' = Some c' | Thrown b' => b' = b | Bad => False end.
Proof.
  intros P X R C PO AL. assert (V := reach_inv ops b P X R).
  assert (S := step_ok (grow limit) mem_inv mem_base mem_update mem_size mem_array mem_grow o b c V C PO AL).
  destruct (step (grow limit) o b); cbn [good] in S; [apply S|apply S|exact S].
Qed.

(** ---- moves ---- *)

Lemma move_inv mine b : mem_inv b -> length_N mine = inline_size ->
  exists n l, move_from mine b = Done (n, l) /\ mem_inv n /\ contents n = contents b /\ (b_heap b = None -> l = b)
              /\ (b_heap b <> None -> l = Buf None (b_data b) (b_size b) (b_capacity b)) /\ deallocates l = true.
Proof.
  intros V LM. destruct V as (A1 & A2 & A3 & A4 & A5). unfold move_from. destruct (b_heap b) as [h|] eqn:E.
  - do 2 eexists. split; [reflexivity|]. unfold array in A1. rewrite E in A1.
    split; [unfold mem_inv, array; cbn [b_heap b_data b_size b_capacity]; lia|].
    split; [unfold contents, array; cbn [b_heap b_size]; rewrite E; reflexivity|]. split; [discriminate|]. split; reflexivity.
  - unfold array in A1. rewrite E in A1. rewrite load_front by lia.
    destruct (store_ok mine 0 (firstn (N.to_nat (b_size b)) (b_data b))) as (cs & ST & S1 & S2 & _); [rewrite len_firstn by lia; lia|].
    rewrite ST. do 2 eexists. split; [reflexivity|]. rewrite len_firstn in S2 by lia.
    split; [unfold mem_inv, array; cbn [b_heap b_data b_size b_capacity]; lia|].
    split; [|split; [reflexivity|split; [congruence|unfold deallocates; rewrite E; reflexivity]]].
    unfold contents, array. cbn [b_heap b_data b_size]. rewrite E, load_front, load_front by lia. rewrite N.add_0_l in S2. rewrite S2.
    change (N.to_nat 0) with 0%nat. reflexivity.
Qed.

Lemma move_lemma ops b ops' : Forall proper_op ops -> Forall external ops -> run (grow limit) ops fresh = Done b ->
  Forall proper_op ops' -> Forall external ops' ->
  exists n l c, move_construct b = Done (n, l) /\ effects ops [] c /\ contents n = Some c
    /\ match run (grow limit) ops' n with Done b' => exists c', effects ops' c c' /\ contents b' = Some c' | Thrown _ => True | Bad => False end
    /\ deallocates l = true /\ (b_heap b = None -> l = b).
Proof.
  intros P X R P' X'. assert (M := mem_run ops fresh fresh_inv [] fresh_contents P X). rewrite R in M. destruct M as (V & c & EF & C).
  destruct (move_inv (repeat None (N.to_nat inline_size)) b V ltac:(apply len_repeat)) as (n & l & MV & VN & CN & L1 & _ & L3).
  exists n, l, c. split; [exact MV|]. split; [exact EF|]. rewrite C in CN. split; [exact CN|].
  assert (M := mem_run ops' n VN c CN P' X'). split; [|split; [exact L3|exact L1]].
  destruct (run (grow limit) ops' n); [apply M|exact I|exact M].
Qed.
Lemma assign_lemma ops b ops' t ops2 : Forall proper_op ops -> Forall external ops -> run (grow limit) ops fresh = Done b ->
  Forall proper_op ops' -> Forall external ops' -> run (grow limit) ops' fresh = Done t ->
  Forall proper_op ops2 -> Forall external ops2 ->
  exists n l c, move_assign t b = Done (n, l) /\ effects ops [] c /\ contents n = Some c
    /\ match run (grow limit) ops2 n with Done b' => exists c', effects ops2 c c' /\ contents b' = Some c' | Thrown _ => True | Bad => False end
    /\ deallocates l = true /\ (b_heap b = None -> l = b).
Proof.
  intros P X R P' X' R' P2 X2. assert (M := mem_run ops fresh fresh_inv [] fresh_contents P X). rewrite R in M. destruct M as (V & c & EF & C).
  assert (VT := reach_inv ops' t P' X' R'). destruct VT as (T1 & T2 & T3 & T4 & T5).
  destruct (move_inv (b_data t) b V T4) as (n & l & MV & VN & CN & L1 & _ & L3).
  exists n, l, c. assert (D : deallocates t = true).
  { unfold deallocates. destruct (b_heap t) as [h|] eqn:E; [|reflexivity]. apply N.eqb_eq. unfold array in T1. rewrite E in T1. exact T1. }
  split; [unfold move_assign; rewrite D; exact MV|]. split; [exact EF|]. rewrite C in CN. split; [exact CN|].
  assert (M := mem_run ops2 n VN c CN P2 X2). split; [|split; [exact L3|exact L1]].
  destruct (run (grow limit) ops2 n); [apply M|exact I|exact M].
Qed.
End Memory.

(** ---- FixedBuffer ---- *)

Definition fixed_inv (size : N) (b : buf) : Prop :=
  b_heap b <> None /\ length_N (array b) = size /\ b_capacity b = size /\ b_size b <= size /\ size < 2 ^ 63.

Section Fixed.
Variable size : N.
Hypothesis HS : size < 2 ^ 63.

Lemma fixed_base b : fixed_inv size b -> length_N (array b) = b_capacity b /\ b_size b <= b_capacity b /\ b_capacity b < 2 ^ 63.
Proof. intros (A0 & A1 & A2 & A3 & A4). rewrite A2. tauto. Qed.
Lemma fixed_array b cs : fixed_inv size b -> length_N cs = length_N (array b) -> fixed_inv size (set_array b cs).
Proof.
  intros (A0 & A1 & A2 & A3 & A4) H. unfold fixed_inv. rewrite array_set, capacity_set, size_set.
  split; [unfold set_array; destruct (b_heap b); [discriminate|congruence]|]. split; [congruence|]. tauto.
Qed.
Lemma fixed_size b n : fixed_inv size b -> n <= b_capacity b -> fixed_inv size (set_size b n).
Proof. intros (A0 & A1 & A2 & A3 & A4) H. unfold fixed_inv. rewrite A2 in H. cbn. tauto. Qed.
Lemma fixed_update b cs n : fixed_inv size b -> length_N cs = length_N (array b) -> n <= b_capacity b -> fixed_inv size (set_size (set_array b cs) n).
Proof. intros. apply fixed_size; [apply fixed_array; assumption|rewrite capacity_set; assumption]. Qed.
Lemma fixed_grow_ok b n : fixed_inv size b -> b_capacity b < n -> n < 2 ^ 64 ->
  match fixed_grow b n with
  | Done b' => fixed_inv size b' /\ contents b' = contents b /\ b_size b' = b_size b /\ n <= b_capacity b' /\ (b_heap b = None -> b_data b' = b_data b)
  | Thrown b' => b' = b
  | Bad => False
  end.
Proof. reflexivity. Qed.
Lemma fixed_start : fixed_inv size (fixed_buffer size).
Proof. unfold fixed_inv, fixed_buffer, array. cbn [b_heap b_size b_capacity]. rewrite len_repeat. split; [discriminate|]. lia. Qed.
Lemma fixed_start_contents : contents (fixed_buffer size) = Some [].
Proof. unfold contents, fixed_buffer, array. cbn [b_heap b_size]. rewrite load_front by lia. reflexivity. Qed.

Lemma fixed_run ops : Forall proper_op ops -> Forall external ops ->
  match run fixed_grow ops (fixed_buffer size) with
  | Done b => peak ops 0 <= size /\ exists c, effects ops [] c /\ contents b = Some c
  | Thrown b => exists done o rest c, ops = done ++ o :: rest /\ effects done [] c /\ contents b = Some c /\ size < needs o (length_N c)
  | Bad => False
  end.
Proof.
  intros P X. assert (M := run_ok fixed_grow (fixed_inv size) fixed_base fixed_update fixed_size fixed_array fixed_grow_ok ops _ _ fixed_start fixed_start_contents P X).
  assert (PK : forall ops b b', fixed_inv size b -> Forall proper_op ops -> Forall external ops -> run fixed_grow ops b = Done b' -> peak ops (b_size b) <= size).
  { clear -HS. induction ops as [|o ops IH]; intros b b' V P X R; cbn [peak]; [lia|].
    apply Forall_cons_iff in P as [P1 P2]. apply Forall_cons_iff in X as [X1 X2]. cbn [run] in R.
    assert (S := step_ok fixed_grow (fixed_inv size) fixed_base fixed_update fixed_size fixed_array fixed_grow_ok o b _ V (contents_ok (fixed_inv size) fixed_base b V) P1 (external_allowed o b _ X1)).
    destruct (step fixed_grow o b) as [b1|b1|] eqn:E; cbn [next good] in *; [|discriminate|contradiction].
    destruct S as (V1 & _ & SZ). assert (K := IH b1 b' V1 P2 X2 R). rewrite SZ in K.
    assert (NE : needs o (b_size b) <= size).
    { destruct V as (A0 & A1 & A2 & A3 & A4).
      assert (W1 : wrap64 (b_size b + 1) = b_size b + 1) by (unfold wrap64, two64; rewrite N.mod_small by lia; reflexivity).
      destruct o as [n|n| |src|src|]; cbn [step needs proper_op] in *.
      - unfold resize in E. destruct (N.ltb_spec (b_capacity b) n); [discriminate|lia].
      - unfold reserve in E. destruct (N.ltb_spec (b_capacity b) n); [discriminate|lia].
      - lia.
      - unfold push_back in E. destruct (N.eqb_spec (b_size b) (b_capacity b)); [discriminate|lia].
      - unfold append in E. assert (W : wrap64 (b_size b + elements src) = b_size b + elements src) by (unfold wrap64, two64; rewrite N.mod_small by lia; reflexivity).
        rewrite W in E. destruct (N.ltb_spec (b_capacity b) (b_size b + elements src)); [discriminate|lia].
      - unfold c_str, reserve in E. rewrite W1 in E. destruct (N.ltb_spec (b_capacity b) (b_size b + 1)); [discriminate|lia]. }
    lia. }
  destruct (run fixed_grow ops (fixed_buffer size)) as [b|b|] eqn:R.
  - split; [exact (PK ops _ b fixed_start P X R)|]. apply M.
  - destruct M as (V & done & o & rest & c & M1 & M2 & M3 & M4). exists done, o, rest, c. destruct V as (A0 & A1 & A2 & _). rewrite A2 in M4. tauto.
  - exact M.
Qed.
Lemma fixed_done ops : Forall proper_op ops -> Forall external ops -> peak ops 0 <= size -> exists b, run fixed_grow ops (fixed_buffer size) = Done b.
Proof.
  intros P X PK. apply (run_done fixed_grow (fixed_inv size) fixed_base fixed_update fixed_size fixed_array fixed_grow_ok size ops) with (c := []); try assumption.
  - intros b n (A0 & A1 & A2 & _) L1 L2. lia.
  - apply fixed_start.
  - apply fixed_start_contents.
Qed.
End Fixed.

(** ---- integers ---- *)

Lemma dec_short n : n < 2 ^ 64 -> length_N (dec n) <= 20.
Proof.
  intros H. apply (notation_length 10 n 20); [lia| |lia]. apply N.lt_le_trans with (1 := H). vm_compute. discriminate.
Qed.
Lemma dec_short_half n : n <= 2 ^ 63 -> length_N (dec n) <= 19.
Proof.
  intros H. apply (notation_length 10 n 19); [lia| |lia]. apply N.le_lt_trans with (1 := H). vm_compute. reflexivity.
Qed.
Lemma format_back_ok n : n < 2 ^ 64 -> format_back 21 n = Some (dec n).
Proof.
  intros H. unfold format_back. rewrite decimal_back_ok by (try lia; apply N.lt_le_trans with (1 := H); vm_compute; discriminate).
  assert (L := dec_short n H). unfold length_N in *. rewrite rev_length, rev_involutive. rewrite (proj2 (N.leb_le _ _)) by lia. reflexivity.
Qed.
Lemma unsigned_lemma n : n < 2 ^ 64 -> exists s, format_unsigned n = Some s /\ StrSpec.decimal (Z.of_N n) s.
Proof.
  intros H. exists (dec n). split; [exact (format_back_ok n H)|].
  assert (D := AppleProofs.decimal_sdec (Z.of_N n)). rewrite <- (N2Z.id n) at 2. rewrite <- sdec_dec by lia. exact D.
Qed.
Lemma signed_lemma z : (- 2 ^ 63 <= z < 2 ^ 63)%Z -> exists s, format_signed z = Some s /\ StrSpec.decimal z s.
Proof.
  intros H. exists (sdec z). split; [|apply AppleProofs.decimal_sdec]. unfold format_signed. cbv zeta. change (int_buffer - 1) with 21.
  destruct (Z.ltb_spec z 0) as [L|L].
  - assert (E : wrap64 (two64 - Z.to_N (z mod 2 ^ 64)) = Z.to_N (- z)).
    { assert (M : (z mod 2 ^ 64 = z + 2 ^ 64)%Z) by (rewrite <- (Z.mod_small (z + 2 ^ 64) (2 ^ 64)) by lia; rewrite <- (Z_mod_plus_full z 1 (2 ^ 64)); f_equal; lia).
      rewrite M. unfold wrap64, two64. rewrite N.mod_small by lia. lia. }
    rewrite E, format_back_ok by lia. assert (S := dec_short_half (Z.to_N (- z)) ltac:(lia)). rewrite (proj2 (N.ltb_lt _ _)) by lia.
    destruct z as [|p|p]; [lia|lia|reflexivity].
  - rewrite Z.mod_small by lia. rewrite format_back_ok by lia. rewrite sdec_dec by lia. reflexivity.
Qed.

Lemma decimal_lemma w z : (- 2 ^ (Z.of_N (bits_of w) - 1) <= z < 2 ^ Z.of_N (bits_of w))%Z -> exists s, format_decimal w z = Some s /\ StrSpec.decimal z s.
Proof.
  intros H. exists (sdec z). split; [|apply AppleProofs.decimal_sdec].
  assert (HB : (2 ^ (Z.of_N (bits_of w) - 1) < 2 ^ Z.of_N (bits_of w) /\ 2 ^ Z.of_N (bits_of w) <= 2 ^ 64)%Z) by (destruct w; vm_compute; split; congruence).
  assert (HP : Z.to_N (2 ^ Z.of_N (bits_of w)) = 2 ^ bits_of w) by (destruct w; reflexivity).
  unfold format_decimal. cbv zeta. set (a := Z.to_N ((if (z <? 0)%Z then (- z)%Z else z) mod 2 ^ Z.of_N (bits_of w))).
  assert (A : a = Z.abs_N z /\ a < 2 ^ bits_of w).
  { unfold a. destruct (Z.ltb_spec z 0); rewrite Z.mod_small by lia; split; lia. }
  destruct A as [A AR]. clearbody a.
  assert (D : (if a <? 100 then
      if a <? 10 then Some [chr (48 + a)]
      else match digits_at (a * 2), digits_at (a * 2 + 1) with Some x, Some y => Some [x; y] | _, _ => None end
    else match count_digits w a, decimal_back 65 a with
         | Some n, Some back => if n =? length_N back then Some (rev back) else None
         | _, _ => None
         end) = Some (dec a)).
  { destruct (N.ltb_spec a 100) as [L|L].
    - destruct (N.ltb_spec a 10) as [L2|L2].
      + unfold dec. rewrite notation_unfold by lia. rewrite (proj2 (N.ltb_lt _ _) L2). do 2 f_equal. unfold digit. rewrite (proj2 (N.ltb_lt _ _) L2). reflexivity.
      + destruct (digits_table a L) as [-> ->]. unfold dec. rewrite notation_unfold by lia. destruct (N.ltb_spec a 10); [lia|].
        rewrite notation_unfold by lia. assert (a / 10 < 10) by (apply N.div_lt_upper_bound; lia). rewrite (proj2 (N.ltb_lt _ _)) by assumption. reflexivity.
    - rewrite count_digits_ok by exact AR. rewrite decimal_back_ok; [|apply N.lt_le_trans with (1 := AR); destruct w; vm_compute; discriminate|lia].
      unfold length_N. rewrite rev_length, N.eqb_refl, rev_involutive. reflexivity. }
  rewrite D, A. destruct z as [|p|p]; reflexivity.
Qed.
