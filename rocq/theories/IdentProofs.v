(** Proofs about the identity of syslog messages. *)
From Verif Require Import Base DeliveryModel IdentModel IdentSpec.
From Coq Require Import Permutation.
Open Scope N_scope.

Section Process.
Variable progname : bytes.
Notation new_identity := (new_identity progname).
Notation syslog := (syslog progname).
Notation step := (step progname).
Notation run := (run progname).

(** ---- several threads ---- *)

Definition is_short : Prop := N.of_nat (length progname) <= SHORT.
Definition tag_of (i : N) : pointer := if N.of_nat (length progname) <=? SHORT then Inside i else Block i.

Definition fresh (o : object) : Prop := o_identity o = new_identity (o_at o).
Definition phase_ok (p : phase) : Prop :=
  match p with
  | Idle => True
  | Opening _ o _ | Converting _ o _ | Moving _ o => fresh o
  | Closing _ o None | Freeing _ o None => fresh o
  | Closing _ o (Some x) | Freeing _ o (Some x) => o_identity o = Short [] /\ o_identity x = new_identity (o_at o)
  | Dropping o => True
  end.
Definition opened (p : phase) (i : N) : Prop :=
  match p with Converting _ o _ | Moving _ o | Closing _ o _ => o_at o = i | _ => False end.
Definition tag_ok (w : world) : Prop :=
  match tag (log w) with
  | None | Some (Static _) => True
  | Some p => exists i t x, p = tag_of i /\ nth_error (threads w) t = Some x /\ opened (fst x) i
  end.
Definition long_ok (o : object) : Prop := match o_identity o with Long _ s => s = progname | Short _ => True end.
Definition invariant (w : world) : Prop :=
  Forall (fun x => phase_ok (fst x)) (threads w)
  /\ NoDup (map o_at (objects w)) /\ Forall (fun o => o_at o < next w) (objects w) /\ Forall long_ok (objects w)
  /\ tag_ok w.

Lemma new_long i o : o_identity o = new_identity i -> long_ok o.
Proof. intros E. unfold long_ok. rewrite E. unfold IdentModel.new_identity. destruct (_ <=? _); [exact I|reflexivity]. Qed.

Lemma set_nth (ts : list (phase * list command)) t x : nth_error ts t = Some x ->
  ts = firstn t ts ++ x :: skipn (S t) ts.
Proof.
  revert t. induction ts as [|y ts IH]; intros [|t] E; try discriminate; cbn [nth_error] in E.
  - injection E as ->. reflexivity.
  - cbn [firstn skipn app]. f_equal. exact (IH t E).
Qed.
Lemma set_same ts t x y : nth_error ts t = Some x -> nth_error (set_thread ts t y) t = Some y.
Proof.
  intros E. unfold set_thread. rewrite nth_error_app2; rewrite firstn_length.
  - assert (L : (t < length ts)%nat) by (apply nth_error_Some; congruence). replace (t - Nat.min t (length ts))%nat with 0%nat by lia. reflexivity.
  - lia.
Qed.
Lemma set_other ts t u x y : nth_error ts t = Some x -> u <> t -> nth_error (set_thread ts t y) u = nth_error ts u.
Proof.
  intros E N. rewrite (set_nth ts t x E) at 2. unfold set_thread.
  assert (L : (t < length ts)%nat) by (apply nth_error_Some; congruence).
  destruct (Nat.lt_ge_cases u t) as [H|H].
  - rewrite !nth_error_app1 by (rewrite firstn_length; lia). reflexivity.
  - rewrite !nth_error_app2 by (rewrite firstn_length; lia). rewrite firstn_length, Nat.min_l by lia.
    destruct (u - t)%nat eqn:D; [lia|]. reflexivity.
Qed.

(** The objects of one thread and the others. *)
Definition others (ts : list (phase * list command)) (t : nat) (ss : list (N * object)) : list object :=
  flat_map (fun x => phase_objects (fst x)) (firstn t ts) ++ flat_map (fun x => phase_objects (fst x)) (skipn (S t) ts) ++ map snd ss.
Lemma objects_split w t x : nth_error (threads w) t = Some x ->
  Permutation (objects w) (phase_objects (fst x) ++ others (threads w) t (sinks w)).
Proof.
  intros E. unfold objects. rewrite (set_nth _ _ _ E) at 1. rewrite flat_map_app. cbn [flat_map]. unfold others.
  rewrite <- !app_assoc. rewrite (Permutation_app_comm (flat_map _ (firstn t (threads w)))). rewrite <- !app_assoc.
  apply Permutation_app_head. rewrite app_assoc. rewrite Permutation_app_comm. reflexivity.
Qed.
Lemma objects_set ts t x y ss lg nx se : nth_error ts t = Some x ->
  Permutation (objects (World (set_thread ts t y) ss lg nx se)) (phase_objects (fst y) ++ others ts t ss).
Proof.
  intros E. assert (P := objects_split (World (set_thread ts t y) ss lg nx se) t y (set_same ts t x y E)). cbn [threads sinks] in P.
  rewrite P. apply Permutation_app_head. unfold others, set_thread.
  assert (L : (t < length ts)%nat) by (apply nth_error_Some; congruence).
  assert (F : length (firstn t ts) = t) by (rewrite firstn_length; lia).
  rewrite firstn_app, F, Nat.sub_diag, firstn_O, app_nil_r, firstn_firstn, Nat.min_id.
  rewrite skipn_app, F. replace (S t - t)%nat with 1%nat by lia. rewrite (skipn_all2 (firstn t ts)) by lia. cbn [app skipn]. reflexivity.
Qed.

Lemma perm_ok w os : Permutation (objects w) os ->
  NoDup (map o_at (objects w)) /\ Forall (fun o => o_at o < next w) (objects w) /\ Forall long_ok (objects w) <->
  NoDup (map o_at os) /\ Forall (fun o => o_at o < next w) os /\ Forall long_ok os.
Proof.
  intros P. assert (Q := Permutation_map o_at P). split; intros (A & C & D).
  - split; [exact (Permutation_NoDup Q A)|]. split; eapply Permutation_Forall; eassumption.
  - split; [exact (Permutation_NoDup (Permutation_sym Q) A)|]. split; eapply Permutation_Forall; try eassumption; apply Permutation_sym, P.
Qed.

Lemma others_sinks ts t ss ss' : Permutation (map snd ss) (map snd ss') -> Permutation (others ts t ss) (others ts t ss').
Proof. intros P. unfold others. do 2 apply Permutation_app_head. exact P. Qed.
Lemma others_cons ts t k o ss : Permutation (others ts t ((k, o) :: ss)) (o :: others ts t ss).
Proof. unfold others. cbn [map snd]. rewrite !app_assoc. symmetry. apply Permutation_middle. Qed.

Lemma sink_without k o ss : sink_of k ss = Some o -> Permutation (map snd ss) (o :: map snd (without k ss)).
Proof.
  unfold sink_of. induction ss as [|s ss IH]; cbn [List.find without]; [discriminate|]. destruct (fst s =? k).
  - cbn. intros E. injection E as <-. reflexivity.
  - cbn [map]. intros E. rewrite (IH E). apply perm_swap.
Qed.

(** A step of [t] that has objects [os] before and [os'] after. *)
Lemma step_invariant w t x y ss lg nx se : invariant w -> nth_error (threads w) t = Some x -> phase_ok (fst y) ->
  next w <= nx ->
  (let before := phase_objects (fst x) ++ others (threads w) t (sinks w) in
   let after := phase_objects (fst y) ++ others (threads w) t ss in
   NoDup (map o_at before) -> Forall (fun o => o_at o < next w) before -> Forall long_ok before ->
   NoDup (map o_at after) /\ Forall (fun o => o_at o < nx) after /\ Forall long_ok after) ->
  match tag lg with
  | None | Some (Static _) => True
  | Some p => tag (log w) = Some p /\ (forall i, opened (fst x) i -> opened (fst y) i)
              \/ exists i, p = tag_of i /\ opened (fst y) i
  end ->
  invariant (World (set_thread (threads w) t y) ss lg nx se).
Proof.
  intros (PH & ND & LT & LO & TG) E PY NX MEM TAG. split; [|].
  - cbn [threads]. unfold set_thread. rewrite (set_nth _ _ _ E) in PH. apply Forall_app in PH as [P1 P2]. apply Forall_cons_iff in P2 as [_ P2].
    apply Forall_app. split; [exact P1|]. constructor; assumption.
  - assert (B := proj1 (perm_ok w _ (objects_split w t x E)) (conj ND (conj LT LO))). destruct B as (B1 & B2 & B3).
    specialize (MEM B1 B2 B3). split; [|split; [|split]].
    1-3: apply (proj2 (perm_ok _ _ (objects_set (threads w) t x y ss lg nx se E))); exact MEM.
    unfold tag_ok. cbn [log threads]. assert (K : forall p, match p with Static _ => True | _ => tag (log w) = Some p end ->
       (forall i, opened (fst x) i -> opened (fst y) i) ->
       match p with Static _ => True | p => exists i t0 x0, p = tag_of i /\ nth_error (set_thread (threads w) t y) t0 = Some x0 /\ opened (fst x0) i end).
    { intros p EP OP. unfold tag_ok in TG. destruct p as [j|j|s]; [| |exact I]; rewrite EP in TG; destruct TG as (i & u & z & Q1 & Q2 & Q3).
      all: destruct (Nat.eq_dec u t) as [->|N];
        [exists i, t, y; split; [exact Q1|]; split; [exact (set_same _ _ _ _ E)|]; apply OP; replace x with z by congruence; exact Q3
        |exists i, u, z; split; [exact Q1|]; split; [rewrite (set_other _ _ _ _ _ E N); exact Q2|exact Q3]]. }
    destruct (tag lg) as [[j|j|s]|]; try exact I.
    all: destruct TAG as [[T1 T2]|(i & T1 & T2)]; [first [exact (K (Inside j) T1 T2)|exact (K (Block j) T1 T2)]|exists i, t, y; split; [exact T1|]; split; [exact (set_same _ _ _ _ E)|exact T2]].
Qed.

(** ---- what is read ---- *)

Lemma find_at os o : NoDup (map o_at os) -> In o os -> List.find (fun x => o_at x =? o_at o) os = Some o.
Proof.
  induction os as [|x os IH]; intros ND H; [destruct H|]. destruct H as [E|I]; cbn [List.find map] in *.
  - subst x. rewrite N.eqb_refl. reflexivity.
  - apply NoDup_cons_iff in ND as [NI ND]. destruct (N.eqb_spec (o_at x) (o_at o)) as [E|N]; [|exact (IH ND I)].
    exfalso. apply NI. rewrite E. apply in_map, I.
Qed.

Lemma phase_in w t x o : nth_error (threads w) t = Some x -> In o (phase_objects (fst x)) -> In o (objects w).
Proof. intros E I. unfold objects. apply in_or_app. left. apply in_flat_map. exists x. split; [exact (nth_error_In _ _ E)|exact I]. Qed.

(** The identity that syslog finds. *)
Definition found (w : world) : option bytes := match tag (log w) with Some p => read (objects w) p | None => Some progname end.

Lemma found_ok w : invariant w -> exists s, found w = Some s /\
  (tag (log w) = Some (Static s) \/ s = progname \/ s = [] /\ is_short /\ exists t x, nth_error (threads w) t = Some x /\ moved x).
Proof.
  intros (PH & ND & LT & LO & TG). unfold found. unfold tag_ok in TG.
  assert (K : forall p i t x, p = tag_of i -> nth_error (threads w) t = Some x -> opened (fst x) i ->
    exists s, read (objects w) p = Some s /\ (s = progname \/ s = [] /\ is_short /\ exists t x, nth_error (threads w) t = Some x /\ moved x)).
  { intros p i t x EP E OP. assert (PO : phase_ok (fst x)) by (rewrite Forall_forall in PH; exact (PH x (nth_error_In _ _ E))).
    assert (IN := phase_in w t x). unfold tag_of in EP. subst p. destruct (N.leb_spec (N.of_nat (length progname)) SHORT) as [S|S].
    - assert (R : forall o, In o (phase_objects (fst x)) -> o_at o = i -> forall s, o_identity o = Short s -> read (objects w) (Inside i) = Some s).
      { intros o IO AT s ID. cbn [read]. rewrite <- AT, (find_at _ o ND (IN o E IO)), ID. reflexivity. }
      assert (NI : forall j, new_identity j = Short progname) by (intros j; unfold IdentModel.new_identity; destruct (N.leb_spec (N.of_nat (length progname)) SHORT); [reflexivity|lia]).
      assert (FR : forall o, fresh o -> o_identity o = Short progname) by (intros o F; unfold fresh in F; rewrite F; apply NI).
      destruct x as [p cs]. cbn [fst] in *. destruct p as [|k o ps|k o ps|k o|k o r|k o r|o]; cbn [opened phase_objects phase_ok] in *; try contradiction.
      + exists progname. split; [exact (R o (or_introl eq_refl) OP _ (FR o PO))|left; reflexivity].
      + exists progname. split; [exact (R o (or_introl eq_refl) OP _ (FR o PO))|left; reflexivity].
      + destruct r as [r|].
        * destruct PO as [PO _]. exists []. split; [exact (R o (or_introl eq_refl) OP _ PO)|right]. split; [reflexivity|]. split; [exact S|].
          exists t, (Closing k o (Some r), cs). split; [exact E|exact I].
        * exists progname. split; [exact (R o (or_introl eq_refl) OP _ (FR o PO))|left; reflexivity].
    - assert (NI : forall j, new_identity j = Long j progname) by (intros j; unfold IdentModel.new_identity; destruct (N.leb_spec (N.of_nat (length progname)) SHORT); [lia|reflexivity]).
      assert (R : forall o, In o (objects w) -> o_identity o = Long i progname -> read (objects w) (Block i) = Some progname).
      { intros o IO ID. cbn [read]. destruct (List.find (is_block i) (objects w)) as [o'|] eqn:F.
        - apply find_some in F as [I' B']. unfold is_block in B'. rewrite Forall_forall in LO. specialize (LO o' I'). unfold long_ok in LO.
          destruct (o_identity o') as [|b s]; [discriminate|]. congruence.
        - assert (Z := find_none _ _ F o IO). unfold is_block in Z. rewrite ID, N.eqb_refl in Z. discriminate. }
      exists progname. split; [|left; reflexivity].
      destruct x as [p cs]. cbn [fst] in *. unfold fresh in PO. destruct p as [|k o ps|k o ps|k o|k o [r|]|k o r|o]; cbn [opened phase_objects phase_ok some] in *; try contradiction; subst i.
      + apply (R o); [apply IN; [exact E|left; reflexivity]|]. rewrite PO. apply NI.
      + apply (R o); [apply IN; [exact E|left; reflexivity]|]. rewrite PO. apply NI.
      + apply (R r); [apply IN; [exact E|right; left; reflexivity]|]. rewrite (proj2 PO). apply NI.
      + apply (R o); [apply IN; [exact E|left; reflexivity]|]. rewrite PO. apply NI. }
  destruct (tag (log w)) as [[j|j|s]|].
  - destruct TG as (i & t & x & A & C & D). destruct (K _ i t x A C D) as (s & R1 & R2). exists s. split; [exact R1|right; exact R2].
  - destruct TG as (i & t & x & A & C & D). destruct (K _ i t x A C D) as (s & R1 & R2). exists s. split; [exact R1|right; exact R2].
  - exists s. split; [reflexivity|left; reflexivity].
  - exists progname. split; [reflexivity|right; left; reflexivity].
Qed.

Lemma mask_bits p : Z.land p LOG_FACMASK = (8 * ((p / 8) mod 128))%Z.
Proof.
  change LOG_FACMASK with (Z.shiftl (Z.ones 7) 3). change 8%Z with (2 ^ 3)%Z. change 128%Z with (2 ^ 7)%Z. rewrite <- Z.land_ones by lia. rewrite <- Z.shiftr_div_pow2 by lia.
  rewrite Z.mul_comm, <- Z.shiftl_mul_pow2 by lia. apply Z.bits_inj'. intros n N. rewrite Z.land_spec, !Z.shiftl_spec by lia.
  destruct (Z.ltb_spec n 3).
  - rewrite !(Z.testbit_neg_r _ (n - 3)) by lia. apply andb_false_r.
  - rewrite Z.land_spec, Z.shiftr_spec by lia. replace (n - 3 + 3)%Z with n by lia. reflexivity.
Qed.
Lemma facility_lemma n p : n < 128 -> with_facility (Z.of_N (8 * n)) p = in_facility (Z.of_N (8 * n)) p.
Proof.
  intros N. unfold with_facility, in_facility. rewrite mask_bits. destruct (Z.eqb_spec ((p / 8) mod 128) 0) as [E|E].
  - rewrite E. change (8 * 0 =? 0)%Z with true. cbv iota. symmetry. rewrite <- Z.lxor_lor; [apply Z.add_nocarry_lxor|].
    all: assert (M : Z.of_N (8 * n) = Z.land LOG_FACMASK (Z.of_N (8 * n))) by
      (rewrite Z.land_comm, mask_bits; replace (Z.of_N (8 * n)) with (Z.of_N n * 8)%Z by lia; rewrite Z.div_mul, Z.mod_small by lia; lia);
      rewrite M, Z.land_assoc, mask_bits, E; reflexivity.
  - destruct (Z.eqb_spec (8 * ((p / 8) mod 128)) 0); [lia|reflexivity].
Qed.

Lemma syslog_found w pr text : syslog w pr text
  = option_map (fun ident => Message ident (stat (log w)) (with_facility (facility (log w)) pr) text) (found w).
Proof. unfold IdentModel.syslog, found. destruct (match tag (log w) with Some p => read (objects w) p | None => Some progname end); reflexivity. Qed.

(** ---- steps ---- *)

Definition programs_ok (w : world) : Prop := Forall (fun x => Forall printable (snd x)) (threads w).

Lemma printable_text s : (Z.of_nat (length s) < 2 ^ 31)%Z -> syslog_text s = Some (until_nul s).
Proof.
  intros H. unfold syslog_text. assert (E : to_int (Z.of_nat (length s)) = Z.of_nat (length s)).
  { unfold to_int. rewrite Z.mod_small; lia. }
  rewrite E. destruct (Z.ltb_spec (Z.of_nat (length s)) 0) as [L|_]; [lia|]. rewrite Nat2Z.id, firstn_all. reflexivity.
Qed.

Lemma tag_kept (P Q : N -> Prop) lg : (forall i, P i -> Q i) ->
  match tag lg with
  | None | Some (Static _) => True
  | Some p => tag lg = Some p /\ (forall i, P i -> Q i) \/ exists i, p = tag_of i /\ Q i
  end.
Proof. intros H. destruct (tag lg) as [[j|j|s]|]; try exact I; left; split; auto. Qed.

Lemma step_ok w t : invariant w -> programs_ok w -> exists w', step w t = Some w' /\ invariant w' /\ programs_ok w'.
Proof.
  intros INV PR. unfold IdentModel.step. destruct (nth_error (threads w) t) as [x|] eqn:E; [|exists w; auto].
  assert (PX : Forall printable (snd x)) by (unfold programs_ok in PR; rewrite Forall_forall in PR; exact (PR x (nth_error_In _ _ E))).
  assert (PW : forall y ss lg nx se, Forall printable (snd y) -> programs_ok (World (set_thread (threads w) t y) ss lg nx se)).
  { intros y ss lg nx se PY. unfold programs_ok in *. cbn [threads]. unfold set_thread. rewrite (set_nth _ _ _ E) in PR.
    apply Forall_app in PR as [P1 P2]. apply Forall_cons_iff in P2 as [_ P2]. apply Forall_app. split; [exact P1|]. constructor; assumption. }
  assert (SI := fun y ss lg nx se => step_invariant w t x y ss lg nx se INV E).
  assert (PO : phase_ok (fst x)) by (destruct INV as [PH _]; rewrite Forall_forall in PH; exact (PH x (nth_error_In _ _ E))).
  assert (LX := new_long).
  destruct x as [p cs]. cbn [fst snd] in *. destruct p as [|k o ps|k o ps|k o|k o r|k o r|o]; cbn [phase_objects phase_ok opened] in *.
  - destruct cs as [|c cs]; [exists w; auto|]. apply Forall_cons_iff in PX as [PC PX].
    assert (PLAIN : forall lg se, match tag lg with None | Some (Static _) => True | Some p => tag (log w) = Some p end ->
      invariant (World (set_thread (threads w) t (Idle, cs)) (sinks w) lg (next w) se)).
    { intros lg se TL. apply SI; [exact I|lia|intros; auto|]. destruct (tag lg) as [[j|j|s]|]; try exact I; left; split; auto. }
    destruct c as [k ps|k|k severity formatted|ident option fac| |priority text].
    + eexists. split; [reflexivity|]. split; [|apply PW, PX]. apply SI; cbn [fst phase_ok phase_objects].
      * reflexivity.
      * lia.
      * cbv zeta. cbn [app]. intros ND LT LO. split; [|split].
        { cbn [map o_at]. constructor; [|exact ND]. intros IN. apply in_map_iff in IN as (o & E1 & IN). rewrite Forall_forall in LT. specialize (LT o IN). lia. }
        { constructor; [cbn; lia|]. eapply Forall_impl; [|exact LT]. cbn. intros. lia. }
        { constructor; [|exact LO]. eapply LX. reflexivity. }
      * refine (tag_kept (fun _ => False) _ (log w) _). intros i [].
    + destruct (sink_of k (sinks w)) as [o|] eqn:SK.
      * eexists. split; [reflexivity|]. split; [|apply PW, PX]. apply SI; cbn [fst phase_ok phase_objects]; [exact I|lia| |exact I].
        cbv zeta. cbn [app]. intros ND LT LO.
        assert (P : Permutation (others (threads w) t (sinks w)) (o :: others (threads w) t (without k (sinks w)))).
        { rewrite <- (others_cons (threads w) t k). apply others_sinks. exact (sink_without k o (sinks w) SK). }
        split; [exact (Permutation_NoDup (Permutation_map o_at P) ND)|]. split; eapply Permutation_Forall; eassumption.
      * eexists. split; [reflexivity|]. split; [|apply PW, PX]. apply PLAIN. destruct (tag (log w)) as [[]|]; auto.
    + destruct (sink_of k (sinks w)) as [o|].
      * cbn [printable] in PC. rewrite (printable_text formatted PC), syslog_found. destruct (found_ok w INV) as (s & -> & _). cbn [option_map].
        eexists. split; [reflexivity|]. split; [|apply PW, PX]. apply PLAIN. destruct (tag (log w)) as [[]|]; auto.
      * eexists. split; [reflexivity|]. split; [|apply PW, PX]. apply PLAIN. destruct (tag (log w)) as [[]|]; auto.
    + eexists. split; [reflexivity|]. split; [|apply PW, PX]. apply PLAIN. cbn [openlog tag]. destruct ident as [s|]; cbn [option_map]; [exact I|].
      destruct (tag (log w)) as [[]|]; auto.
    + eexists. split; [reflexivity|]. split; [|apply PW, PX]. apply PLAIN. exact I.
    + rewrite syslog_found. destruct (found_ok w INV) as (s & -> & _). cbn [option_map].
      eexists. split; [reflexivity|]. split; [|apply PW, PX]. apply PLAIN. destruct (tag (log w)) as [[]|]; auto.
  - eexists. split; [reflexivity|]. split; [|apply PW, PX]. apply SI; cbn [fst phase_ok phase_objects]; [exact PO|lia|intros; auto|].
    cbn [openlog tag]. assert (C : c_str o = tag_of (o_at o)).
    { unfold c_str, tag_of. rewrite PO. unfold IdentModel.new_identity. destruct (_ <=? _); reflexivity. }
    rewrite C. destruct (tag_of (o_at o)) as [j|j|z] eqn:T; [right; exists (o_at o); split; [symmetry; exact T|reflexivity]..|exact I].
  - destruct ps as [ps|].
    + eexists. split; [reflexivity|]. split; [|apply PW, PX]. apply SI; cbn [fst phase_ok phase_objects]; [exact PO|lia| |refine (tag_kept _ _ (log w) _); intros i H; exact H].
      cbv zeta. cbn [app map o_at]. intros ND LT LO. split; [exact ND|]. split.
      * apply Forall_cons_iff in LT as [L1 L2]. constructor; assumption.
      * apply Forall_cons_iff in LO as [L1 L2]. constructor; assumption.
    + eexists. split; [reflexivity|]. split; [|apply PW, PX]. apply SI; cbn [fst phase_ok phase_objects some]; [exact PO|lia|intros; auto|refine (tag_kept _ _ (log w) _); intros i H; exact H].
  - eexists. split; [reflexivity|]. split; [|apply PW, PX]. apply SI; cbn [fst phase_ok phase_objects some]; [split; [reflexivity|exact PO]|lia| |refine (tag_kept _ _ (log w) _); intros i H; exact H].
    cbv zeta. cbn [app map o_at]. intros ND LT LO. apply NoDup_cons_iff in ND as [N1 N2]. apply Forall_cons_iff in LT as [L1 L2]. apply Forall_cons_iff in LO as [O1 O2].
    assert (NI : ~ In (next w) (map o_at (others (threads w) t (sinks w)))).
    { intros IN. apply in_map_iff in IN as (z & E1 & IN). rewrite Forall_forall in L2. specialize (L2 z IN). cbn in L2. lia. }
    split; [|split].
    + constructor; [|constructor; assumption]. intros [H|H]; [cbn in L1; lia|exact (N1 H)].
    + constructor; [cbn in *; lia|]. constructor; [cbn; lia|]. eapply Forall_impl; [|exact L2]. cbn. intros. lia.
    + constructor; [exact I|]. constructor; [exact O1|exact O2].
  - eexists. split; [reflexivity|]. split; [|apply PW, PX]. apply SI; cbn [fst phase_ok phase_objects]; [exact PO|lia|intros; auto|exact I].
  - eexists. split; [reflexivity|]. split; [|apply PW, PX]. apply SI; cbn [fst phase_ok phase_objects app]; [exact I|lia| |refine (tag_kept _ _ (log w) _); intros i []].
    cbv zeta. cbn [app map]. intros ND LT LO. apply NoDup_cons_iff in ND as [N1 N2]. apply Forall_cons_iff in LT as [L1 L2]. apply Forall_cons_iff in LO as [O1 O2].
    destruct r as [r|]; cbn [some app] in *; [|auto].
    assert (P := Permutation_sym (others_cons (threads w) t k r (sinks w))).
    split; [exact (Permutation_NoDup (Permutation_map o_at P) N2)|]. split; eapply Permutation_Forall; eassumption.
  - eexists. split; [reflexivity|]. split; [|apply PW, PX]. apply SI; cbn [fst phase_ok phase_objects app]; [exact I|lia| |refine (tag_kept _ _ (log w) _); intros i []].
    cbv zeta. cbn [app map]. intros ND LT LO. apply NoDup_cons_iff in ND as [N1 N2]. apply Forall_cons_iff in LT as [L1 L2]. apply Forall_cons_iff in LO as [O1 O2]. auto.
Qed.

Lemma start_invariant programs : invariant (start programs).
Proof.
  unfold invariant, start, objects, tag_ok. cbn [threads sinks log next tag map app].
  assert (O : flat_map (fun t : phase * list command => phase_objects (fst t)) (map (fun p => (Idle, p)) programs) = []).
  { induction programs as [|p ps IH]; [reflexivity|exact IH]. }
  rewrite O. split; [|repeat split; constructor]. apply Forall_map, Forall_forall. intros p _. exact I.
Qed.

Lemma run_ok schedule : forall w, invariant w -> programs_ok w -> exists w', run w schedule = Some w' /\ invariant w' /\ programs_ok w'.
Proof.
  induction schedule as [|t ts IH]; intros w INV PR; cbn [IdentModel.run]; [exists w; auto|].
  destruct (step_ok w t INV PR) as (w1 & -> & I1 & P1). exact (IH w1 I1 P1).
Qed.

Lemma safe_lemma programs schedule : Forall (Forall printable) programs -> exists w, run (start programs) schedule = Some w.
Proof.
  intros PR. destruct (run_ok schedule (start programs) (start_invariant programs)) as (w & E & _); [|exists w; exact E].
  unfold programs_ok, start. cbn [threads]. apply Forall_map. exact PR.
Qed.

(** ---- without calls of the application ---- *)

Definition sink_only (w : world) : Prop :=
  Forall (fun x => Forall of_sinks (snd x)) (threads w)
  /\ match tag (log w) with Some (Static _) => False | _ => True end
  /\ facility (log w) = LOG_USER
  /\ (stat (log w) = LOG_PID \/ sinks w = [] /\ Forall (fun x => match fst x with Idle | Opening _ _ _ => True | _ => False end) (threads w)).

Lemma only_step w t w' : sink_only w -> step w t = Some w' -> sink_only w'.
Proof.
  intros (TH & TG & FA & ST). unfold IdentModel.step. destruct (nth_error (threads w) t) as [x|] eqn:E; [|intros Q; injection Q as <-; repeat split; assumption].
  assert (TX : Forall of_sinks (snd x)) by (rewrite Forall_forall in TH; exact (TH x (nth_error_In _ _ E))).
  assert (SET : forall (P : phase * list command -> Prop) y, Forall P (threads w) -> P y -> Forall P (set_thread (threads w) t y)).
  { intros P y F H. unfold set_thread. rewrite (set_nth _ _ _ E) in F. apply Forall_app in F as [F1 F2]. apply Forall_cons_iff in F2 as [_ F2].
    apply Forall_app. split; [exact F1|]. constructor; assumption. }
  assert (EARLY : stat (log w) <> LOG_PID -> match fst x with Idle | Opening _ _ _ => True | _ => False end).
  { intros N. destruct ST as [S|[_ S]]; [congruence|]. rewrite Forall_forall in S. exact (S x (nth_error_In _ _ E)). }
  assert (LATE : match fst x with Idle | Opening _ _ _ => False | _ => True end -> stat (log w) = LOG_PID).
  { intros H. destruct (Z.eq_dec (stat (log w)) LOG_PID) as [S|S]; [exact S|]. specialize (EARLY S). destruct (fst x); contradiction. }
  assert (CLOSE : match tag (closelog (log w)) with Some (Static _) => False | _ => True end) by exact I.
  destruct x as [p cs]. cbn [fst snd] in *. destruct p as [|k o ps|k o ps|k o|k o r|k o r|o].
  - destruct cs as [|c cs]; [intros Q; injection Q as <-; repeat split; assumption|]. apply Forall_cons_iff in TX as [TC TX].
    assert (SAME : forall (y : phase * list command) se nx, snd y = cs -> match fst y with Idle | Opening _ _ _ => True | _ => False end ->
      sink_only (World (set_thread (threads w) t y) (sinks w) (log w) nx se)).
    { intros y se nx E1 E2. split; [cbn [threads]; apply SET; [exact TH|rewrite E1; exact TX]|]. split; [exact TG|]. split; [exact FA|]. cbn [log sinks threads].
      destruct ST as [S|[S1 S2]]; [left; exact S|right; split; [exact S1|]]. apply SET; assumption. }
    destruct c as [k ps|k|k severity formatted|ident option fac| |priority text]; try contradiction.
    + intros Q. injection Q as <-. apply SAME; [reflexivity|exact I].
    + destruct (sink_of k (sinks w)) as [o|] eqn:SK; intros Q; injection Q as <-; [|apply SAME; [reflexivity|exact I]].
      split; [cbn [threads]; apply SET; [exact TH|exact TX]|]. split; [exact I|]. split; [exact FA|]. left. cbn [log closelog stat].
      destruct ST as [S|[S1 _]]; [exact S|]. rewrite S1 in SK. discriminate.
    + destruct (sink_of k (sinks w)) as [o|]; [destruct (syslog_text formatted); [destruct (syslog w _ _)|]|]; intros Q; try discriminate; injection Q as <-; apply SAME; (reflexivity || exact I).
  - intros Q. injection Q as <-. split; [cbn [threads]; apply SET; assumption|]. cbn [log openlog tag facility stat]. split; [|split; [reflexivity|left; reflexivity]].
    unfold c_str. destruct (o_identity o); exact I.
  - specialize (LATE I). destruct ps; intros Q; injection Q as <-; (split; [cbn [threads]; apply SET; assumption|]); (split; [exact TG|]); (split; [exact FA|left; exact LATE]).
  - specialize (LATE I). intros Q; injection Q as <-; (split; [cbn [threads]; apply SET; assumption|]); (split; [exact TG|]); (split; [exact FA|left; exact LATE]).
  - specialize (LATE I). intros Q; injection Q as <-; (split; [cbn [threads]; apply SET; assumption|]); (split; [exact CLOSE|]); (split; [exact FA|left; exact LATE]).
  - specialize (LATE I). intros Q; injection Q as <-; (split; [cbn [threads]; apply SET; assumption|]); (split; [exact TG|]); (split; [exact FA|left; exact LATE]).
  - specialize (LATE I). intros Q; injection Q as <-; (split; [cbn [threads]; apply SET; assumption|]); (split; [exact TG|]); (split; [exact FA|left; exact LATE]).
Qed.

Lemma only_run schedule : forall w w', sink_only w -> run w schedule = Some w' -> sink_only w'.
Proof.
  induction schedule as [|t ts IH]; intros w w' O; cbn [IdentModel.run]; [intros Q; injection Q as <-; exact O|].
  destruct (step w t) as [w1|] eqn:E; [|discriminate]. exact (IH w1 w' (only_step w t w1 O E)).
Qed.

(** A message: the step that sends it. *)
Lemma whose_lemma programs schedule w t w' m : Forall (Forall printable) programs -> Forall (Forall of_sinks) programs ->
  run (start programs) schedule = Some w -> step w t = Some w' -> sent w' = sent w ++ [m] ->
  (m_ident m = progname \/ m_ident m = [] /\ is_short /\ exists u x, u <> t /\ nth_error (threads w) u = Some x /\ moved x)
  /\ m_option m = LOG_PID
  /\ exists k severity formatted cs o, nth_error (threads w) t = Some (Idle, Emit k severity formatted :: cs) /\ sink_of k (sinks w) = Some o
     /\ m_priority m = in_facility LOG_USER (syslog_priority (o_priorities o) severity) /\ m_text m = until_nul formatted.
Proof.
  intros PR OS RU ST SE.
  assert (INV : invariant w /\ programs_ok w).
  { destruct (run_ok schedule (start programs) (start_invariant programs)) as (w1 & E & I1 & P1); [unfold programs_ok, start; cbn [threads]; apply Forall_map; exact PR|].
    replace w with w1 by congruence. auto. }
  assert (ON : sink_only w).
  { eapply only_run; [|exact RU]. unfold sink_only, start. cbn [threads log tag facility sinks]. split; [apply Forall_map; exact OS|]. split; [exact I|]. split; [reflexivity|].
    right. split; [reflexivity|]. apply Forall_map, Forall_forall. intros p _. exact I. }
  destruct INV as [INV PO]. destruct ON as (TH & TG & FA & STA). unfold IdentModel.step in ST.
  assert (NO : forall l : list message, l = l ++ [m] -> False).
  { intros l E. apply (f_equal (@length message)) in E. rewrite app_length in E. cbn in E. lia. }
  destruct (nth_error (threads w) t) as [x|] eqn:E; [|injection ST as <-; destruct (NO _ SE)].
  destruct x as [p cs]. destruct p as [|k o ps|k o ps|k o|k o r|k o r|o]; try (injection ST as <-; destruct (NO _ SE)); [|destruct ps; injection ST as <-; destruct (NO _ SE)].
  destruct cs as [|c cs]; [injection ST as <-; destruct (NO _ SE)|].
  assert (TC : of_sinks c /\ printable c).
  { unfold programs_ok in PO. rewrite Forall_forall in TH, PO. specialize (TH _ (nth_error_In _ _ E)). specialize (PO _ (nth_error_In _ _ E)). cbn [snd] in *.
    apply Forall_inv in TH. apply Forall_inv in PO. auto. }
  destruct TC as [TC PC]. destruct c as [k ps|k|k severity formatted|ident option fac| |priority text]; try contradiction.
  - injection ST as <-. destruct (NO _ SE).
  - destruct (sink_of k (sinks w)); injection ST as <-; destruct (NO _ SE).
  - destruct (sink_of k (sinks w)) as [o|] eqn:SK; [|injection ST as <-; destruct (NO _ SE)].
    cbn [printable] in PC. rewrite (printable_text formatted PC), syslog_found in ST. destruct (found_ok w INV) as (s & F & W). rewrite F in ST. cbn [option_map] in ST.
    injection ST as <-. cbn [sent] in SE. apply app_inj_tail in SE as [_ <-]. cbn [m_ident m_option m_priority m_text].
    split; [|split].
    + destruct W as [W|[W|(W1 & W2 & u & x & W3 & W4)]]; [rewrite W in TG; contradiction|left; exact W|right]. split; [exact W1|]. split; [exact W2|].
      exists u, x. split; [|auto]. intros ->. rewrite E in W3. injection W3 as <-. exact W4.
    + destruct STA as [S|[S _]]; [exact S|]. rewrite S in SK. discriminate.
    + exists k, severity, formatted, cs, o. rewrite FA. change LOG_USER with (Z.of_N (8 * 1)). rewrite (facility_lemma 1) by lia. auto.
Qed.
End Process.
