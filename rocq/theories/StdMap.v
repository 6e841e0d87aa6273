(** [std::map<std::string, V>] and [std::set<std::string>]: entries in increasing order of the keys, compared
    byte by byte as unsigned characters ([std::char_traits<char>::compare]). Library behaviour, not repository code. *)
From Verif Require Import Base.
From Coq Require Import Sorted.

Fixpoint bytes_ltb (a b : bytes) : bool :=
  match a, b with
  | _, [] => false
  | [], _ :: _ => true
  | x :: a', y :: b' => if Ascii.eqb x y then bytes_ltb a' b' else (N_of_ascii x <? N_of_ascii y)%N
  end.

Section Map.
Context {V : Type}.

(** [operator[] =]: replaces or inserts. *)
Fixpoint map_set (k : bytes) (v : V) (m : list (bytes * V)) : list (bytes * V) :=
  match m with
  | [] => [(k, v)]
  | (k', v') :: m' =>
      if bytes_eqb k k' then (k, v) :: m'
      else if bytes_ltb k k' then (k, v) :: m else (k', v') :: map_set k v m'
  end.

(** [find]. *)
Fixpoint map_get (k : bytes) (m : list (bytes * V)) : option V :=
  match m with [] => None | (k', v) :: m' => if bytes_eqb k k' then Some v else map_get k m' end.

(** [insert]/[emplace]: keeps an existing entry. *)
Definition map_insert (k : bytes) (v : V) (m : list (bytes * V)) : list (bytes * V) :=
  match map_get k m with Some _ => m | None => map_set k v m end.

Definition sorted_keys (m : list (bytes * V)) : Prop := StronglySorted (fun a b => bytes_ltb (fst a) (fst b) = true) m.
End Map.

Definition set_insert (k : bytes) (s : list bytes) : list bytes := map fst (map_set k tt (map (fun x => (x, tt)) s)).
Definition set_has (k : bytes) (s : list bytes) : bool := existsb (bytes_eqb k) s.

Lemma N_of_ascii_inj a b : N_of_ascii a = N_of_ascii b -> a = b.
Proof. intros E. rewrite <- (ascii_N_embedding a), <- (ascii_N_embedding b), E. reflexivity. Qed.

Lemma bytes_ltb_irrefl a : bytes_ltb a a = false.
Proof. induction a as [|x a IH]; cbn; [reflexivity|]. rewrite Ascii.eqb_refl. exact IH. Qed.

Lemma bytes_ltb_trans a : forall b c, bytes_ltb a b = true -> bytes_ltb b c = true -> bytes_ltb a c = true.
Proof.
  induction a as [|x a IH]; intros [|y b] [|z c]; cbn; try congruence.
  destruct (Ascii.eqb_spec x y) as [Exy|Nxy].
  - subst y. destruct (Ascii.eqb_spec x z) as [->|_]; [apply IH|intros _ H; exact H].
  - destruct (Ascii.eqb_spec y z) as [Eyz|Nyz].
    + subst z. destruct (Ascii.eqb_spec x y) as [->|_]; [congruence|intros H _; exact H].
    + rewrite !N.ltb_lt. destruct (Ascii.eqb_spec x z) as [->|_]; rewrite ?N.ltb_lt; lia.
Qed.

Lemma bytes_ltb_total a : forall b, a <> b -> bytes_ltb a b = false -> bytes_ltb b a = true.
Proof.
  induction a as [|x a IH]; intros [|y b]; cbn; try congruence.
  intros N H. rewrite Ascii.eqb_sym. destruct (Ascii.eqb_spec x y) as [->|D].
  - apply IH; congruence.
  - apply N.ltb_ge in H. apply N.ltb_lt. assert (N_of_ascii x <> N_of_ascii y) by (intros E; apply N_of_ascii_inj in E; congruence). lia.
Qed.

Lemma map_get_set_same {V} k (v : V) m : map_get k (map_set k v m) = Some v.
Proof.
  induction m as [|[k' v'] m IH]; cbn; [rewrite bytes_eqb_refl; reflexivity|].
  destruct (bytes_eqb k k') eqn:E; cbn; [rewrite bytes_eqb_refl; reflexivity|].
  destruct (bytes_ltb k k'); cbn; [rewrite bytes_eqb_refl|rewrite E, IH]; reflexivity.
Qed.

Lemma map_get_set_other {V} k k1 (v : V) m : k1 <> k -> map_get k1 (map_set k v m) = map_get k1 m.
Proof.
  intros N. apply bytes_eqb_neq in N. induction m as [|[k' v'] m IH]; cbn; [rewrite N; reflexivity|].
  destruct (bytes_eqb k k') eqn:E; cbn.
  - apply bytes_eqb_eq in E as <-. rewrite N. reflexivity.
  - destruct (bytes_ltb k k'); cbn; [rewrite N; reflexivity|]. rewrite IH. reflexivity.
Qed.

Lemma map_set_In {V} k (v : V) m x : In x (map_set k v m) -> x = (k, v) \/ In x m.
Proof.
  induction m as [|[k' v'] m IH]; cbn; [intuition|].
  destruct (bytes_eqb k k'); cbn; [intuition|]. destruct (bytes_ltb k k'); cbn; intuition.
Qed.

Lemma map_set_sorted {V} k (v : V) m : sorted_keys m -> sorted_keys (map_set k v m).
Proof.
  induction m as [|[k' v'] m IH]; intros S; cbn; [repeat constructor|].
  apply StronglySorted_inv in S as [S F].
  destruct (bytes_eqb k k') eqn:E.
  - apply bytes_eqb_eq in E as ->. constructor; [exact S|exact F].
  - destruct (bytes_ltb k k') eqn:L.
    + constructor; [constructor; [exact S|exact F]|]. constructor; [exact L|].
      eapply Forall_impl; [|exact F]. cbn. intros x Hx. eapply bytes_ltb_trans; eassumption.
    + constructor; [apply IH; exact S|]. apply Forall_forall. intros x Hx. apply map_set_In in Hx as [->|Hx].
      * cbn. apply bytes_ltb_total; [apply bytes_eqb_neq; exact E|exact L].
      * rewrite Forall_forall in F. apply F. exact Hx.
Qed.

Lemma map_get_In {V} k (v : V) m : map_get k m = Some v -> In (k, v) m.
Proof.
  induction m as [|[k' v'] m IH]; cbn; [discriminate|].
  destruct (bytes_eqb k k') eqn:E; [apply bytes_eqb_eq in E as ->; intros [= ->]; left; reflexivity|right; auto].
Qed.

Lemma sorted_keys_not_in {V} k (v : V) m : sorted_keys ((k, v) :: m) -> forall v', ~ In (k, v') m.
Proof.
  intros S v' H. apply StronglySorted_inv in S as [_ F]. rewrite Forall_forall in F. specialize (F _ H). cbn in F.
  rewrite bytes_ltb_irrefl in F. discriminate.
Qed.

Lemma map_In_get {V} k (v : V) m : sorted_keys m -> In (k, v) m -> map_get k m = Some v.
Proof.
  induction m as [|[k' v'] m IH]; cbn; [contradiction|]. intros S [E|H].
  - injection E as -> ->. rewrite bytes_eqb_refl. reflexivity.
  - destruct (bytes_eqb k k') eqn:E.
    + apply bytes_eqb_eq in E as <-. destruct (sorted_keys_not_in _ _ _ S _ H).
    + apply IH; [|exact H]. apply StronglySorted_inv in S. tauto.
Qed.

(** A map is determined by its lookups. *)
Lemma sorted_ext {V} (m1 m2 : list (bytes * V)) :
  sorted_keys m1 -> sorted_keys m2 -> (forall k, map_get k m1 = map_get k m2) -> m1 = m2.
Proof.
  revert m2. induction m1 as [|[k v] m1 IH]; intros [|[k2 v2] m2] S1 S2 H; [reflexivity| | |].
  - specialize (H k2). cbn in H. rewrite bytes_eqb_refl in H. discriminate.
  - specialize (H k). cbn in H. rewrite bytes_eqb_refl in H. discriminate.
  - pose proof S1 as T1. pose proof S2 as T2. apply StronglySorted_inv in T1 as [T1 F1]. apply StronglySorted_inv in T2 as [T2 F2].
    rewrite Forall_forall in F1, F2.
    assert (K : k = k2).
    { destruct (bytes_dec k k2) as [|N]; [assumption|exfalso].
      pose proof (H k) as Hk. pose proof (H k2) as Hk2. cbn in Hk, Hk2. rewrite bytes_eqb_refl in Hk, Hk2.
      rewrite (proj2 (bytes_eqb_neq _ _)) in Hk by congruence.
      rewrite (proj2 (bytes_eqb_neq _ _)) in Hk2 by congruence.
      symmetry in Hk. apply map_get_In, F2 in Hk. apply map_get_In, F1 in Hk2. cbn in Hk, Hk2.
      pose proof (bytes_ltb_trans _ _ _ Hk Hk2) as X. rewrite bytes_ltb_irrefl in X. discriminate. }
    subst k2. pose proof (H k) as Hk. cbn in Hk. rewrite bytes_eqb_refl in Hk. injection Hk as ->.
    f_equal. apply IH; [exact T1|exact T2|]. intros k'. specialize (H k'). cbn in H.
    destruct (bytes_eqb k' k) eqn:E; [|exact H]. apply bytes_eqb_eq in E as ->.
    destruct (map_get k m1) eqn:G1; [exfalso; apply map_get_In in G1; exact (sorted_keys_not_in _ _ _ S1 _ G1)|].
    destruct (map_get k m2) eqn:G2; [exfalso; apply map_get_In in G2; exact (sorted_keys_not_in _ _ _ S2 _ G2)|]. reflexivity.
Qed.

Lemma set_has_In k s : set_has k s = true <-> In k s.
Proof.
  unfold set_has. rewrite existsb_exists. split; [intros (x & H & E); apply bytes_eqb_eq in E as ->; exact H|].
  intros H. exists k. split; [exact H|apply bytes_eqb_refl].
Qed.

Lemma set_has_insert k k1 s : set_has k1 (set_insert k s) = bytes_eqb k1 k || set_has k1 s.
Proof.
  unfold set_insert. induction s as [|x s IH]; cbn; [reflexivity|].
  destruct (bytes_eqb k x) eqn:E; cbn.
  - apply bytes_eqb_eq in E as <-. rewrite map_map, map_id. cbn. destruct (bytes_eqb k1 k); reflexivity.
  - destruct (bytes_ltb k x); cbn; [rewrite map_map, map_id; reflexivity|].
    unfold set_has in IH. rewrite IH. destruct (bytes_eqb k1 x), (bytes_eqb k1 k); reflexivity.
Qed.
