(** More lemmas about loggers with asynchronous sinks: what the threads gave and what came of it. *)
From Verif Require Import Base Values RootModel FactoriesModel SystemModel SystemSpec SystemProofs ThreadsModel ThreadsSpec ThreadsProofs.
From Verif Require Import QueuedModel QueuedSpec QueuedProofs.
From Verif Require FmtModel AsyncModel AsyncSpec FileSinkModel FileSinkSpec TcpModel TcpSpec RootSpec.
From Coq Require Import Permutation.

Section Runs.
Variable dbl : FmtModel.spec -> N -> bytes.
Variable dbl_json : N -> bytes.
Variable double_of : bytes -> N.
Variable what : FmtModel.error -> bytes.
Variable json_fmt : bytes -> value -> option bytes.
Notation advance := (advance dbl dbl_json double_of what json_fmt).
Notation advances := (advances dbl dbl_json double_of what json_fmt).
Notation step := (step dbl dbl_json double_of what json_fmt).
Notation run := (run dbl dbl_json double_of what json_fmt).
Notation render := (render dbl dbl_json double_of what json_fmt).
Notation handled := (handled dbl dbl_json double_of what json_fmt).
Notation called := (called dbl dbl_json double_of what json_fmt).
Notation makes := (makes dbl dbl_json double_of what json_fmt).
Variable hs : list FactoriesModel.handler.

(** ---- parcels ---- *)

Definition entered (i j : nat) (tr : list happening) : list parcel :=
  flat_map (fun h => match h with Queued i' j' 0 d => if at_ i' j' i j then [parcel_of d] else [] | _ => [] end) tr.
Definition refused (i j : nat) (tr : list happening) : list parcel :=
  flat_map (fun h => match h with Dropped i' j' 0 d => if at_ i' j' i j then [parcel_of d] else [] | _ => [] end) tr.

Lemma gave_app i j a b : gave i j (a ++ b) = gave i j a ++ gave i j b. Proof. apply flat_map_app. Qed.
Lemma reached_app i j a b : reached i j (a ++ b) = reached i j a ++ reached i j b. Proof. apply flat_map_app. Qed.
Lemma dropped_app i j a b : dropped i j (a ++ b) = dropped i j a ++ dropped i j b. Proof. apply flat_map_app. Qed.
Lemma entered_app i j a b : entered i j (a ++ b) = entered i j a ++ entered i j b. Proof. apply flat_map_app. Qed.
Lemma refused_app i j a b : refused i j (a ++ b) = refused i j a ++ refused i j b. Proof. apply flat_map_app. Qed.
Lemma from_app t a b : from t (a ++ b) = from t a ++ from t b. Proof. unfold from. rewrite filter_app, map_app. reflexivity. Qed.

Lemma entered_ins i j tr : entered i j tr = map parcel_of (ins (labels i j tr)).
Proof.
  induction tr as [|h tr IH]; [reflexivity|]. change (h :: tr) with ([h] ++ tr). rewrite entered_app, labels_app, ins_app, map_app, IH. f_equal.
  destruct h as [h|a b d x|a b [|k] d|a b [|k] d|a b k x n|a b k e]; cbn; try reflexivity; destruct (at_ a b i j); reflexivity.
Qed.
Lemma reached_outs i j tr : reached i j tr = map parcel_of (outs (labels i j tr)).
Proof.
  induction tr as [|h tr IH]; [reflexivity|]. change (h :: tr) with ([h] ++ tr). rewrite reached_app, labels_app, outs_app, map_app, IH. f_equal.
  destruct h as [h|a b d x|a b [|k] d|a b [|k] d|a b k x n|a b k e]; cbn; try reflexivity; unfold at_; destruct (Nat.eqb a i && Nat.eqb b j); reflexivity.
Qed.
Lemma dropped_losts i j tr : Permutation (dropped i j tr) (map parcel_of (losts (labels i j tr)) ++ refused i j tr).
Proof.
  induction tr as [|h tr IH]; [constructor|]. change (h :: tr) with ([h] ++ tr). rewrite dropped_app, labels_app, losts_app, map_app, refused_app, IH.
  destruct h as [h|a b d x|a b [|k] d|a b [|k] d|a b k x n|a b k e]; cbn; unfold at_; try destruct (Nat.eqb a i && Nat.eqb b j); cbn [map app losts flat_map];
    try apply Permutation_refl; apply Permutation_middle.
Qed.

(** The record a thread has put into a queue and not yet returned from. *)
Definition pend (st : qstage) (i j : nat) : list (Z * bytes) :=
  match st with QSinking c r i' text j' Fill => if at_ i' j' i j then [(r_severity r, text)] else [] | _ => [] end.

Definition fair (t : nat) (st : qstage) (i j : nat) (tr : list happening) : Prop :=
  (layers_at hs i j = [] -> from t (reached i j tr) = from t (gave i j tr)) /\
  (forall c cs, layers_at hs i j = c :: cs ->
     Permutation (from t (gave i j tr) ++ pend st i j) (from t (entered i j tr) ++ from t (refused i j tr)) /\
     sub (from t (entered i j tr)) (from t (gave i j tr) ++ pend st i j) /\
     (AsyncModel.c_policy c = AsyncModel.Wait -> from t (entered i j tr) = from t (gave i j tr) ++ pend st i j /\ from t (refused i j tr) = [])).

Lemma fair_quiet t st st' i j tr tr' : fair t st i j tr ->
  (layers_at hs i j = [] -> from t (reached i j tr') = from t (gave i j tr')) ->
  (layers_at hs i j <> [] -> from t (gave i j tr') = [] /\ from t (entered i j tr') = [] /\ from t (refused i j tr') = [] /\ pend st' i j = pend st i j) ->
  fair t st' i j (tr ++ tr').
Proof.
  intros [F1 F2] HD HQ. split.
  - intros E. rewrite reached_app, gave_app, !from_app, (F1 E), (HD E). reflexivity.
  - intros c cs E. destruct (F2 c cs E) as (G1 & G2 & G3).
    rewrite gave_app, entered_app, refused_app, !from_app. destruct HQ as (-> & -> & -> & ->); [congruence|]. rewrite !app_nil_r. auto.
Qed.

(** Nothing of a thread at a place. *)
Definition nothing (t i j : nat) (tr : list happening) : Prop :=
  from t (reached i j tr) = [] /\ from t (gave i j tr) = [] /\ from t (entered i j tr) = [] /\ from t (refused i j tr) = [].
Lemma nothing_app t i j a b : nothing t i j a -> nothing t i j b -> nothing t i j (a ++ b).
Proof.
  intros (A1 & A2 & A3 & A4) (B1 & B2 & B3 & B4). unfold nothing. rewrite reached_app, gave_app, entered_app, refused_app, !from_app, A1, A2, A3, A4, B1, B2, B3, B4. auto.
Qed.
Lemma fair_nothing t st st' i j tr tr' : fair t st i j tr -> nothing t i j tr' -> (layers_at hs i j <> [] -> pend st' i j = pend st i j) -> fair t st' i j (tr ++ tr').
Proof. intros F (N1 & N2 & N3 & N4) P. apply fair_quiet with (st := st); [exact F|congruence|]. intros NE. auto. Qed.

Lemma nothing_away t i j a b tr : at_ a b i j = false -> Forall (at_place a b) tr -> (forall t' e, ~ In (Own (Did t' e)) tr) -> nothing t i j tr.
Proof.
  intros NE F ND. unfold nothing.
  assert (R1 : reached i j tr = []).
  { apply flat_map_single_other. intros h Hh. rewrite Forall_forall in F. specialize (F h Hh). destruct h; cbn in F; try reflexivity.
    destruct F as [-> ->]. unfold at_ in NE. rewrite NE. reflexivity. }
  assert (R2 : gave i j tr = []).
  { apply flat_map_single_other. intros h Hh. destruct h as [[| t' e|]| | | | |]; try reflexivity. exfalso. exact (ND _ _ Hh). }
  assert (R3 : entered i j tr = []).
  { apply flat_map_single_other. intros h Hh. rewrite Forall_forall in F. specialize (F h Hh). destruct h as [| |? ? [|k] ?| | |]; cbn in F; try reflexivity.
    destruct F as [-> ->]. rewrite NE. reflexivity. }
  assert (R4 : refused i j tr = []).
  { apply flat_map_single_other. intros h Hh. rewrite Forall_forall in F. specialize (F h Hh). destruct h as [| | |? ? [|k] ?| |]; cbn in F; try reflexivity.
    destruct F as [-> ->]. rewrite NE. reflexivity. }
  rewrite R1, R2, R3, R4. auto.
Qed.

(** Of other threads. *)
Definition tagged_as (u : nat) (h : happening) : Prop :=
  match h with
  | Own (Began t _) | Own (Did t _) | Own (Wrote t _) => t = u
  | Reached _ _ d _ | Queued _ _ _ d | Dropped _ _ _ d => d_thread d = u
  | _ => False
  end.
Lemma from_other t u l : t <> u -> Forall (fun x : parcel => fst x = u) l -> from t l = [].
Proof.
  intros NE F. unfold from. replace (filter (fun x : parcel => Nat.eqb (fst x) t) l) with (@nil parcel); [reflexivity|]. symmetry.
  induction F as [|x l H F IH]; [reflexivity|]. cbn. destruct (Nat.eqb_spec (fst x) t); [congruence|exact IH].
Qed.
Lemma nothing_other t u i j tr : t <> u -> Forall (tagged_as u) tr -> nothing t i j tr.
Proof.
  intros NE F. unfold nothing. assert (FM : forall f : happening -> list parcel, (forall h, tagged_as u h -> Forall (fun x => fst x = u) (f h)) -> from t (flat_map f tr) = []).
  { intros f Hf. apply from_other with (u := u); [exact NE|]. apply Forall_forall. intros x Hx. apply in_flat_map in Hx as (h & Hh & Hx).
    rewrite Forall_forall in F. specialize (Hf h (F h Hh)). rewrite Forall_forall in Hf. auto. }
  split; [|split; [|split]]; apply FM; intros h Hh.
  - destruct h as [|a b d x| | | |]; try constructor. destruct (Nat.eqb a i && Nat.eqb b j); repeat constructor. exact Hh.
  - destruct h as [[|t' [a b s x q th|]|]| | | | |]; try constructor. destruct (Nat.eqb a i && Nat.eqb b j); repeat constructor. exact Hh.
  - destruct h as [| |a b [|k] d| | |]; try constructor. destruct (at_ a b i j); repeat constructor. exact Hh.
  - destruct h as [| | |a b [|k] d| |]; try constructor. destruct (at_ a b i j); repeat constructor. exact Hh.
Qed.

Lemma pushes_tagged s i j k who d p s' r tr : pushes s i j k who d p s' r tr -> Forall (tagged_as (d_thread d)) tr.
Proof. destruct 1; repeat constructor. Qed.
Lemma advances_tagged s t now x s' tr : advances s t now x s' tr -> Forall (tagged_as t) tr.
Proof.
  destruct 1 as [H1 H2|c rest e H1 H2 H3|c rest m H1 H2 H3|c r i H1 H2|c r i f l e H1 H2 H3|c r i f l text H1 H2 H3|c r i text j p H1 H2
    |c r i text j p s1 p' tr H1 H2 P|c r i text j p s1 tr H1 H2 P|c r i text j p s1 e tr H1 H2 P|c r i H1|c r i p rest H1]; try (repeat constructor; fail).
  - exact (pushes_tagged _ _ _ _ _ _ _ _ _ _ P).
  - apply Forall_app. split; [exact (pushes_tagged _ _ _ _ _ _ _ _ _ _ P)|repeat constructor].
  - apply Forall_app. split; [exact (pushes_tagged _ _ _ _ _ _ _ _ _ _ P)|repeat constructor].
Qed.
Lemma pushes_no_did s i j k who d p s' r tr : pushes s i j k who d p s' r tr -> forall t e, ~ In (Own (Did t e)) tr.
Proof. destruct 1; intros t0 e0 HI; cbn in HI; intuition discriminate. Qed.

(** One step of thread [t] keeps its account. *)
Lemma fair_user s t now x s' tr0 tr x' : advances s t now x s' tr -> placed s ->
  (forall i j, map l_config (g_queues s i j) = layers_at hs i j) -> nth_error (g_threads s) t = Some x -> nth_error (g_threads s') t = Some x' ->
  (forall i j, fair t (q_stage x) i j tr0) -> forall i j, fair t (q_stage x') i j (tr0 ++ tr).
Proof.
  intros AD PL CF HX HX' F a b. specialize (F a b).
  assert (TH : forall s0 y, g_threads s0 = g_threads s -> nth_error (g_threads (set_thread s0 t y)) t = Some x' -> x' = y).
  { intros s0 y E H. cbn [set_thread g_threads] in H. rewrite E, (put_same _ _ _ _ HX) in H. congruence. }
  destruct AD as [H1 H2|c rest e H1 H2 H3|c rest m H1 H2 H3|c r i H1 H2|c r i f l e H1 H2 H3|c r i f l text H1 H2 H3|c r i text j p H1 H2
    |c r i text j p s1 p' tr H1 H2 P|c r i text j p s1 tr H1 H2 P|c r i text j p s1 e tr H1 H2 P|c r i H1|c r i p rest H1].
  - rewrite HX in HX'. injection HX' as <-. rewrite app_nil_r. exact F.
  - rewrite (TH s _ eq_refl HX'). apply fair_nothing with (1 := F); [repeat split|]. rewrite H1. reflexivity.
  - rewrite (TH s _ eq_refl HX'). apply fair_nothing with (1 := F); [repeat split|]. rewrite H1. reflexivity.
  - rewrite (TH s _ eq_refl HX'). apply fair_nothing with (1 := F); [repeat split|]. rewrite H1. reflexivity.
  - rewrite (TH s _ eq_refl HX'). apply fair_nothing with (1 := F); [repeat split|]. rewrite H1. reflexivity.
  - rewrite (TH s _ eq_refl HX'). apply fair_nothing with (1 := F); [repeat split|]. rewrite H1. reflexivity.
  - rewrite (TH s _ eq_refl HX'). apply fair_nothing with (1 := F); [repeat split|]. rewrite H1. intros NE. cbn [q_stage pend]. destruct p; try reflexivity.
    destruct (at_ i j a b) eqn:E; [|reflexivity]. apply at_true in E as [-> ->]. exfalso. apply NE. rewrite <- CF, (PL a b H2). reflexivity.
  - destruct (pushes_rest _ _ _ _ _ _ _ _ _ _ P) as (R1 & _). rewrite (TH s1 _ R1 HX'). cbn [q_stage]. destruct (at_ i j a b) eqn:E.
    + apply at_true in E as [-> ->]. inversion P as [|?|?|l HN HC|l HN HC| |l HN HP|]; subst.
      * destruct F as [F1 F2]. rewrite H1 in F2. assert (NE : layers_at hs a b <> []) by (rewrite <- CF; intros Z; apply map_eq_nil in Z; rewrite Z in HN; discriminate).
        split; [intros E; contradiction|]. intros c0 cs EL. destruct (F2 c0 cs EL) as (G1 & G2 & G3). cbn [pend] in *. rewrite at_refl.
        set (dd := Delivery t (e_tty (c_env c)) (r_severity r) text (c_circumstances c a b)) in *.
        assert (E1 : from t (gave a b (tr0 ++ [Queued a b 0 dd])) = from t (gave a b tr0)) by (rewrite gave_app, from_app; apply app_nil_r).
        assert (E2 : from t (refused a b (tr0 ++ [Queued a b 0 dd])) = from t (refused a b tr0)) by (rewrite refused_app, from_app; apply app_nil_r).
        assert (E3 : from t (entered a b (tr0 ++ [Queued a b 0 dd])) = from t (entered a b tr0) ++ [(r_severity r, text)]).
        { rewrite entered_app, from_app. f_equal. cbn. rewrite at_refl. cbn. unfold from. cbn. rewrite Nat.eqb_refl. reflexivity. }
        rewrite E1, E2, E3. rewrite app_nil_r in *. split; [|split].
        -- rewrite G1, <- !app_assoc. apply Permutation_app_head. apply Permutation_app_comm.
        -- apply sub_app; [exact G2|apply sub_refl].
        -- intros W. destruct (G3 W) as [-> ->]. auto.
      * apply fair_nothing with (1 := F); [repeat split|]. rewrite H1. reflexivity.
      * apply fair_nothing with (1 := F); [repeat split|]. rewrite H1. reflexivity.
    + apply fair_nothing with (1 := F).
      * apply nothing_away with (1 := E); [exact (pushes_place _ _ _ _ _ _ _ _ _ _ P)|exact (pushes_no_did _ _ _ _ _ _ _ _ _ _ P)].
      * intros _. rewrite H1. cbn [pend]. rewrite E. destruct p, p'; reflexivity.
  - destruct (pushes_rest _ _ _ _ _ _ _ _ _ _ P) as (R1 & _). rewrite (TH s1 _ R1 HX'). cbn [q_stage]. destruct (at_ i j a b) eqn:E.
    + apply at_true in E as [-> ->]. inversion P as [|?|? y w y' HN HL HE| | |l HN| |l HN HP]; subst; [contradiction| | |].
      * assert (EL : layers_at hs a b = []) by (rewrite <- CF; destruct (g_queues s a b); [reflexivity|discriminate]).
        apply fair_quiet with (1 := F); [|contradiction]. intros _. cbn [app]. unfold reached, gave. cbn [flat_map parcel_of d_thread d_severity d_text]. rewrite !Nat.eqb_refl. reflexivity.
      * destruct F as [F1 F2]. rewrite H1 in F2. assert (NE : layers_at hs a b <> []) by (rewrite <- CF; intros Z; apply map_eq_nil in Z; rewrite Z in HN; discriminate).
        split; [intros E; contradiction|]. intros c0 cs EL. destruct (F2 c0 cs EL) as (G1 & G2 & G3). cbn [pend] in *. rewrite at_refl in *.
        assert (E1 : from t (gave a b (tr0 ++ [] ++ [Own (Did t (Emitted a b (r_severity r) text (c_circumstances c a b) false))])) ++ [] = from t (gave a b tr0) ++ [(r_severity r, text)]).
        { rewrite gave_app, from_app, app_nil_r. f_equal. cbn. rewrite !Nat.eqb_refl. cbn. unfold from. cbn. rewrite Nat.eqb_refl. reflexivity. }
        rewrite E1. set (new := [Own (Did t (Emitted a b (r_severity r) text (c_circumstances c a b) false))]).
        assert (E2 : from t (refused a b (tr0 ++ [] ++ new)) = from t (refused a b tr0)) by (rewrite refused_app, from_app; apply app_nil_r).
        assert (E3 : from t (entered a b (tr0 ++ [] ++ new)) = from t (entered a b tr0)) by (rewrite entered_app, from_app; apply app_nil_r).
        rewrite E2, E3. auto.
      * destruct F as [F1 F2]. rewrite H1 in F2. assert (NE : layers_at hs a b <> []) by (rewrite <- CF; intros Z; apply map_eq_nil in Z; rewrite Z in HN; discriminate).
        split; [intros E; contradiction|]. intros c0 cs EL. destruct (F2 c0 cs EL) as (G1 & G2 & G3). cbn [pend] in *. rewrite app_nil_r in *.
        assert (E1 : from t (gave a b (tr0 ++ [Dropped a b 0 (Delivery t (e_tty (c_env c)) (r_severity r) text (c_circumstances c a b))] ++
            [Own (Did t (Emitted a b (r_severity r) text (c_circumstances c a b) false))])) = from t (gave a b tr0) ++ [(r_severity r, text)]).
        { rewrite gave_app, from_app. f_equal. cbn. rewrite !Nat.eqb_refl. cbn. unfold from. cbn. rewrite Nat.eqb_refl. reflexivity. }
        assert (E2 : from t (refused a b (tr0 ++ [Dropped a b 0 (Delivery t (e_tty (c_env c)) (r_severity r) text (c_circumstances c a b))] ++
            [Own (Did t (Emitted a b (r_severity r) text (c_circumstances c a b) false))])) = from t (refused a b tr0) ++ [(r_severity r, text)]).
        { rewrite refused_app, from_app. f_equal. cbn. rewrite at_refl. cbn. unfold from. cbn. rewrite Nat.eqb_refl. reflexivity. }
        assert (E3 : from t (entered a b (tr0 ++ [Dropped a b 0 (Delivery t (e_tty (c_env c)) (r_severity r) text (c_circumstances c a b))] ++
            [Own (Did t (Emitted a b (r_severity r) text (c_circumstances c a b) false))])) = from t (entered a b tr0)).
        { rewrite entered_app, from_app. cbn. apply app_nil_r. }
        rewrite E1, E2, E3. split; [rewrite app_assoc; apply Permutation_app_tail; exact G1|]. split; [eapply sub_trans; [apply sub_prefix|exact G2]|].
        intros W. exfalso. pose proof (CF a b) as C. rewrite EL in C. match type of C with map _ ?q = _ => destruct q end; [discriminate|]. cbn in HN, C. injection HN as ->. injection C as C _. congruence.
    + apply fair_nothing with (1 := F).
      * apply nothing_app; [apply nothing_away with (1 := E); [exact (pushes_place _ _ _ _ _ _ _ _ _ _ P)|exact (pushes_no_did _ _ _ _ _ _ _ _ _ _ P)]|].
        unfold nothing. cbn. unfold at_ in E. rewrite E. auto.
      * intros _. rewrite H1. cbn [pend]. rewrite E. destruct p; reflexivity.
  - destruct (pushes_rest _ _ _ _ _ _ _ _ _ _ P) as (R1 & _). rewrite (TH s1 _ R1 HX'). cbn [q_stage]. destruct (at_ i j a b) eqn:E.
    + apply at_true in E as [-> ->]. inversion P as [|? y w y' e' HN HL HE|? | | | | |]; subst.
      assert (EL : layers_at hs a b = []) by (rewrite <- CF; destruct (g_queues s a b); [reflexivity|discriminate]).
      apply fair_quiet with (1 := F); [|contradiction]. intros _. cbn [app]. unfold reached, gave. cbn [flat_map parcel_of d_thread d_severity d_text]. rewrite !Nat.eqb_refl. reflexivity.
    + apply fair_nothing with (1 := F).
      * apply nothing_app; [apply nothing_away with (1 := E); [exact (pushes_place _ _ _ _ _ _ _ _ _ _ P)|exact (pushes_no_did _ _ _ _ _ _ _ _ _ _ P)]|].
        unfold nothing. cbn. unfold at_ in E. rewrite E. auto.
      * intros _. rewrite H1. cbn [pend]. rewrite E. destruct p; reflexivity.
  - rewrite (TH s _ eq_refl HX'). apply fair_nothing with (1 := F); [repeat split|]. rewrite H1. reflexivity.
  - rewrite (TH (set_base s _ _) _ eq_refl HX'). apply fair_nothing with (1 := F); [repeat split|]. rewrite H1. reflexivity.
Qed.
End Runs.
