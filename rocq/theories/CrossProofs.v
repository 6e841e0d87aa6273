(** Proofs about several threads in root loggers. *)
From Verif Require Import Base ReenterModel CrossModel CrossSpec.

Lemma xupd_same {A} (f : nat -> A) k v : upd f k v k = v.
Proof. unfold upd. rewrite Nat.eqb_refl. reflexivity. Qed.
Lemma xupd_other {A} (f : nat -> A) k v x : x <> k -> upd f k v x = f x.
Proof. intros N. unfold upd. destruct (Nat.eqb_spec x k); [contradiction|reflexivity]. Qed.
Lemma lock_eqb_spec a b : lock_eqb a b = true <-> a = b.
Proof. destruct a as [x|x], b as [y|y]; cbn; rewrite ?Nat.eqb_eq; split; congruence. Qed.
Lemma lock_dec (a b : lock) : {a = b} + {a <> b}.
Proof. decide equality; apply Nat.eq_dec. Qed.
Lemma holder_same h x v : set_holder h x v x = v.
Proof. unfold set_holder. rewrite (proj2 (lock_eqb_spec x x) eq_refl). reflexivity. Qed.
Lemma holder_other h x v y : y <> x -> set_holder h x v y = h y.
Proof. intros N. unfold set_holder. destruct (lock_eqb y x) eqn:E; [apply lock_eqb_spec in E; contradiction|reflexivity]. Qed.

(** What a thread has to do, without a lock or within one. *)
Inductive flow (u : xuser) : option lock -> list micro -> Prop :=
| flow_nil : flow u None []
| flow_cmd c r : flow u None r -> flow u None (UCmd c :: r)
| flow_event e r : flow u None r -> flow u None (UEvent e :: r)
| flow_take x r : flow u (Some x) r -> flow u None (UTake x :: r)
| flow_drop x r : flow u None r -> flow u (Some x) (UDrop x :: r)
| flow_silent x e r : x_code u e = [] -> within e = true -> flow u None r -> flow u (Some x) (UEvent e :: UDrop x :: r)
| flow_copy l m r : flow u None r -> flow u (Some (OfObject l)) (UCopy l m :: r)
| flow_set l f r : flow u None r -> flow u (Some (OfObject l)) (USet l f :: UDrop (OfObject l) :: r).

Lemma flow_cmds u cs r : flow u None r -> flow u None (map UCmd cs ++ r).
Proof. intros F. induction cs as [|c cs IH]; cbn; [exact F|]. apply flow_cmd, IH. Qed.
Lemma flow_events u (es : list xevent) r : flow u None r -> flow u None (map UEvent es ++ r).
Proof. intros F. induction es as [|e es IH]; cbn; [exact F|]. apply flow_event, IH. Qed.
Lemma flow_begin u c r : flow u None r -> flow u None (begin_cmd c ++ r).
Proof. intros F. destruct c as [l m|l f]; cbn; repeat constructor; exact F. Qed.
Lemma flow_consume u f hs l m r : modest u -> flow u None r -> flow u (Some (OfObject l)) (consume u f hs l m ++ r).
Proof.
  intros M F. unfold consume. cbn. apply flow_silent; [apply M|reflexivity|]. apply flow_event. rewrite <- app_assoc. destruct (x_accepts u f); cbn; [|apply flow_event; exact F].
  apply flow_event. rewrite <- (map_map XHandle UEvent). apply flow_events. apply flow_event. exact F.
Qed.

Definition sound (u : xuser) (s : xstate) : Prop :=
  exists mode : nat -> option lock, (forall t, flow u (mode t) (x_threads s t)) /\ forall x t, x_holder s x = Some t <-> mode t = Some x.

Lemma keep_mode u mode h threads t r : (forall t', flow u (mode t') (threads t')) -> (forall x t', h x = Some t' <-> mode t' = Some x) -> flow u (mode t) r ->
  forall f hs, sound u (XState f hs h (upd threads t r)).
Proof.
  intros F H FR f hs. exists mode. cbn. split; [|exact H]. intros t'. destruct (Nat.eq_dec t' t) as [->|N]; [rewrite xupd_same; exact FR|rewrite xupd_other by exact N; apply F].
Qed.
Lemma step_sound u s t s' : modest u -> sound u s -> xstep u s t = Some s' -> sound u s'.
Proof.
  intros M (mode & F & H) ST. pose proof (F t) as FT. unfold xstep in ST.
  destruct (x_threads s t) as [|[x|x|c|e|l m|l f] r] eqn:TH; [discriminate ST| | | | | |].
  - destruct (x_holder s x) eqn:HX; [discriminate ST|]. injection ST as <-. inversion FT as [| | |x' r' FR Q1 Q2| | | |]; subst.
    exists (upd mode t (Some x)). cbn. split.
    + intros t'. destruct (Nat.eq_dec t' t) as [->|N]; [rewrite !xupd_same; exact FR|rewrite !xupd_other by exact N; apply F].
    + intros y t'. destruct (lock_dec y x) as [->|NX].
      * rewrite holder_same. destruct (Nat.eq_dec t' t) as [->|N]; [rewrite xupd_same; tauto|]. rewrite xupd_other by exact N. split; [intros E; congruence|].
        intros E. apply H in E. congruence.
      * rewrite holder_other by exact NX. destruct (Nat.eq_dec t' t) as [->|N]; [rewrite xupd_same|rewrite xupd_other by exact N; apply H].
        split; [|congruence]. intros E. apply H in E. congruence.
  - injection ST as <-. inversion FT as [| | | |x' r' FR Q1 Q2| | |]; subst.
    assert (MX : mode t = Some x) by congruence. exists (upd mode t None). cbn. split.
    + intros t'. destruct (Nat.eq_dec t' t) as [->|N]; [rewrite !xupd_same; exact FR|rewrite !xupd_other by exact N; apply F].
    + intros y t'. destruct (lock_dec y x) as [->|NX].
      * rewrite holder_same. destruct (Nat.eq_dec t' t) as [->|N]; [rewrite xupd_same; split; discriminate|]. rewrite xupd_other by exact N. split; [discriminate|].
        intros E. apply H in E. apply H in MX. congruence.
      * rewrite holder_other by exact NX. destruct (Nat.eq_dec t' t) as [->|N]; [rewrite xupd_same|rewrite xupd_other by exact N; apply H].
        split; [|discriminate]. intros E. apply H in E. congruence.
  - injection ST as <-. apply (keep_mode u mode); [exact F|exact H|]. inversion FT as [|c' r' FR Q1 Q2| | | | | |]; subst. apply flow_begin. exact FR.
  - injection ST as <-. apply (keep_mode u mode); [exact F|exact H|]. inversion FT as [| |e' r' FR Q1 Q2| | |x e' r' SI WI FR Q1 Q2| |]; subst; [apply flow_cmds; exact FR|].
    rewrite SI. cbn. apply flow_drop. exact FR.
  - injection ST as <-. apply (keep_mode u mode); [exact F|exact H|]. inversion FT as [| | | | | |l' m' r' FR Q1 Q2|]; subst. apply flow_consume; assumption.
  - injection ST as <-. apply (keep_mode u mode); [exact F|exact H|]. inversion FT as [| | | | | | |l' f' r' FR Q1 Q2]; subst. apply flow_silent; [apply M|reflexivity|exact FR].
Qed.
Lemma run_sound u : modest u -> forall sched s s', sound u s -> xrun u s sched = Some s' -> sound u s'.
Proof.
  intros M. induction sched as [|t sched IH]; intros s s' K R; cbn in R; [injection R as <-; exact K|].
  destruct (xstep u s t) as [s1|] eqn:ST; [|discriminate R]. exact (IH _ _ (step_sound _ _ _ _ M K ST) R).
Qed.
Lemma start_sound u filters handlers programs : sound u (xstart filters handlers programs).
Proof.
  exists (fun _ => None). cbn. split; [|intros x t; split; discriminate]. intros t. rewrite <- (app_nil_r (map UCmd (programs t))). apply flow_cmds, flow_nil.
Qed.

(** A thread with a lock gives it back by itself. *)
Lemma short_lemma u filters handlers programs sched s x t : modest u -> xrun u (xstart filters handlers programs) sched = Some s -> x_holder s x = Some t ->
  exists k s', (1 <= k <= 3)%nat /\ xrun u s (repeat t k) = Some s' /\ x_holder s' x = None.
Proof.
  intros M R HX. destruct (run_sound u M _ _ _ (start_sound u filters handlers programs) R) as (mode & F & H). pose proof (proj1 (H x t) HX) as MX. specialize (F t). rewrite MX in F.
  inversion F as [| | | |x' r FR Q1 Q2|x' e r SI WI FR Q1 Q2|l m r FR Q1 Q2|l f r FR Q1 Q2]; subst.
  - exists 1%nat. cbn. unfold xstep. rewrite <- Q2. eexists. split; [lia|]. split; [reflexivity|]. cbn. apply holder_same.
  - exists 2%nat. cbn. unfold xstep at 1. rewrite <- Q2. rewrite SI. cbn. unfold xstep. cbn. rewrite xupd_same. eexists. split; [lia|]. split; [reflexivity|]. cbn. apply holder_same.
  - exists 3%nat. cbn. unfold xstep at 1. rewrite <- Q2. unfold consume. cbn [app]. unfold xstep at 1. cbn. rewrite xupd_same. rewrite (proj1 (M _)). cbn. unfold xstep. cbn. rewrite xupd_same.
    eexists. split; [lia|]. split; [reflexivity|]. cbn. apply holder_same.
  - exists 3%nat. cbn. unfold xstep at 1. rewrite <- Q2. unfold xstep at 1. cbn. rewrite xupd_same. rewrite (proj2 (M _)). cbn. unfold xstep. cbn. rewrite xupd_same.
    eexists. split; [lia|]. split; [reflexivity|]. cbn. apply holder_same.
Qed.
Lemma progress_lemma u filters handlers programs sched s : modest u -> xrun u (xstart filters handlers programs) sched = Some s -> ~ deadlocked u s.
Proof.
  intros M R ((t & U) & NO). specialize (NO t) as NT. unfold xstep in NT. destruct (x_threads s t) as [|[x|x|c|e|l m|l f] r] eqn:TH; try discriminate NT; [exact (U TH)|].
  destruct (x_holder s x) as [t'|] eqn:HX; [|discriminate NT]. destruct (short_lemma _ _ _ _ _ _ _ _ M R HX) as (k & s' & L & R' & _).
  destruct k as [|k]; [lia|]. cbn in R'. rewrite NO in R'. discriminate R'.
Qed.

(** Each of two loggers, when its filter is replaced, is asked by that filter's destructor to log to the other. *)
Definition cross_user : xuser := XUser (fun e => match e with XDropOld 0 => [XLog 1 0] | XDropOld 1 => [XLog 0 0] | _ => [] end)%nat (fun _ => true).
Lemma cross_lemma : exists u filters handlers programs sched s, xrun u (xstart filters handlers programs) sched = Some s /\ deadlocked u s /\
  forall t, exists k s', xrun u (xstart filters handlers programs) (repeat t k) = Some s' /\ x_threads s' t = [].
Proof.
  exists cross_user, (fun l => l), (fun _ => []), (fun t => match t with 0 => [XSet 0 2] | 1 => [XSet 1 2] | _ => [] end)%nat.
  exists (repeat 0 9 ++ repeat 1 9)%nat. eexists. split; [vm_compute; reflexivity|]. split.
  - split; [exists 0%nat; discriminate|]. intros [|[|t]]; reflexivity.
  - intros [|[|t]]; [exists 19%nat|exists 19%nat|exists 0%nat; eexists; split; reflexivity].
    + eexists. split; [vm_compute; reflexivity|reflexivity].
    + eexists. split; [vm_compute; reflexivity|reflexivity].
Qed.

Lemma exclusive_lemma u filters handlers programs sched s t : modest u -> xrun u (xstart filters handlers programs) sched = Some s ->
  match x_threads s t with
  | UCopy l _ :: _ | USet l _ :: _ => x_holder s (OfObject l) = Some t
  | UEvent e :: _ => within e = false -> forall x, x_holder s x <> Some t
  | UCmd _ :: _ | UTake _ :: _ => forall x, x_holder s x <> Some t
  | UDrop x :: _ => x_holder s x = Some t
  | [] => forall x, x_holder s x <> Some t
  end.
Proof.
  intros M R. destruct (run_sound u M _ _ _ (start_sound u filters handlers programs) R) as (mode & F & H). specialize (F t).
  assert (NO : mode t = None -> forall x, x_holder s x <> Some t) by (intros N x E; apply H in E; congruence).
  destruct (x_threads s t) as [|[x|x|c|e|l m|l f] r]; inversion F; subst; try (intros; apply NO; congruence); try (apply H; congruence).
Qed.

Lemma step_threads u s t s' t' : xstep u s t = Some s' -> t' <> t -> x_threads s' t' = x_threads s t'.
Proof.
  intros ST N. unfold xstep in ST. destruct (x_threads s t) as [|[x|x|c|e|l m|l f] r]; [discriminate ST|destruct (x_holder s x); [discriminate ST|]| | | | |];
    injection ST as <-; cbn; apply xupd_other; exact N.
Qed.
Lemma run_threads u t t' : t' <> t -> forall k s s', xrun u s (repeat t k) = Some s' -> x_threads s' t' = x_threads s t'.
Proof.
  intros N. induction k as [|k IH]; intros s s' R; cbn in R; [injection R as <-; reflexivity|]. destruct (xstep u s t) as [s1|] eqn:ST; [|discriminate R].
  rewrite (IH _ _ R). exact (step_threads _ _ _ _ _ ST N).
Qed.
Lemma turn_lemma u filters handlers programs sched s t : modest u -> xrun u (xstart filters handlers programs) sched = Some s -> unfinished s t -> xstep u s t = None ->
  exists t' k s' s'', t' <> t /\ (1 <= k <= 3)%nat /\ xrun u s (repeat t' k) = Some s' /\ xstep u s' t = Some s''.
Proof.
  intros M R U NT. pose proof (exclusive_lemma u filters handlers programs sched s t M R) as EX. pose proof NT as NT'. unfold xstep in NT'.
  destruct (x_threads s t) as [|[x|x|c|e|l m|l f] r] eqn:TH; try discriminate NT'; [destruct (U TH)|].
  destruct (x_holder s x) as [t'|] eqn:HX; [|discriminate NT']. assert (N : t' <> t) by (intros ->; exact (EX x HX)).
  destruct (short_lemma _ _ _ _ _ _ _ _ M R HX) as (k & s' & L & R' & H'). exists t', k, s'. unfold xstep.
  rewrite (run_threads u t' t (not_eq_sym N) k s s' R'), TH, H'. eexists. split; [exact N|]. split; [exact L|]. split; [exact R'|reflexivity].
Qed.
