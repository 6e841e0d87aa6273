(** Lemmas about the flush policies and size strings. *)
From Verif Require Import Base FlusherModel FlusherSpec.
From Coq Require Import ZifyBool ZifyNat ZifyN.
Open Scope N_scope.

Lemma two64_val : two64 = 18446744073709551616.
Proof. reflexivity. Qed.

Lemma wrap64_small n : n < two64 -> wrap64 n = n.
Proof. intros H. unfold wrap64. apply N.mod_small; exact H. Qed.

Lemma limit_pos t : t < 2 ^ 64 -> 0 < limit_of t /\ limit_of t < two64.
Proof.
  intros H. unfold limit_of. rewrite two64_val. change (2 ^ 64) with 18446744073709551616 in *.
  destruct (t =? 0) eqn:E; lia.
Qed.

Lemma repeat_new_eq t : repeat_new t = {| r_counter := 0; r_threshold := limit_of t |}.
Proof.
  unfold repeat_new, limit_of. destruct (0 <? t) eqn:E1, (t =? 0) eqn:E2; try lia; reflexivity.
Qed.

Lemma bytecount_new_eq t : bytecount_new t = {| b_counter := 0; b_threshold := limit_of t |}.
Proof.
  unfold bytecount_new, limit_of. destruct (0 <? t) eqn:E1, (t =? 0) eqn:E2; try lia; reflexivity.
Qed.

Lemma nonempty_cons n l : nonempty_writes (n :: l) = (if n =? 0 then 0 else 1) + nonempty_writes l.
Proof. unfold nonempty_writes; cbn. destruct (n =? 0); cbn [negb List.length]; lia. Qed.

(** One run of the record-count policy from an arbitrary counter value. *)
Lemma repeat_run_exact L (HL0 : 0 < L) (HL : L < two64) sizes : forall c i n,
  c < L -> nth_error sizes i = Some n ->
  nth_error (fst (flusher_run (FRepeat {| r_counter := c; r_threshold := L |}) sizes)) i
    = Some (if negb (n =? 0) && ((c + nonempty_writes (firstn (S i) sizes)) mod L =? 0) then Flush else Idle).
Proof.
  induction sizes as [|a sizes IH]; intros c i n Hc Hi; [destruct i; discriminate|].
  cbn [flusher_run flusher_update repeat_update r_counter r_threshold].
  unfold repeat_update; cbn [r_counter r_threshold].
  assert (Hmod : (wrap64 (c + 1) mod L) < L) by (apply N.mod_lt; lia).
  assert (Hw : wrap64 (c + 1) = c + 1) by (apply wrap64_small; lia).
  rewrite firstn_cons, nonempty_cons.
  destruct (a =? 0) eqn:Ea.
  - destruct (flusher_run (FRepeat {| r_counter := c; r_threshold := L |}) sizes) as [rs f2] eqn:Er.
    cbn [fst]. destruct i as [|i].
    + cbn in Hi. inversion Hi; subst. rewrite Ea. reflexivity.
    + cbn [nth_error]. cbn in Hi. specialize (IH c i n Hc Hi). rewrite Er in IH. cbn [fst] in IH.
      rewrite IH. rewrite N.add_0_l. reflexivity.
  - rewrite Hw in *.
    assert (Hrest : forall i n, nth_error sizes i = Some n ->
       nth_error (fst (flusher_run (FRepeat {| r_counter := (c + 1) mod L; r_threshold := L |}) sizes)) i
       = Some (if negb (n =? 0) && ((c + (1 + nonempty_writes (firstn (S i) sizes))) mod L =? 0) then Flush else Idle)).
    { intros j m Hj. rewrite (IH ((c + 1) mod L) j m Hmod Hj).
      rewrite N.add_mod_idemp_l by lia. rewrite N.add_assoc. reflexivity. }
    destruct i as [|i].
    + cbn in Hi. inversion Hi; subst. rewrite Ea. cbn [negb andb]. unfold firstn, nonempty_writes; cbn.
      replace (c + (1 + 0)) with (c + 1) by lia.
      destruct ((c + 1) mod L =? 0);
        destruct (flusher_run (FRepeat {| r_counter := (c + 1) mod L; r_threshold := L |}) sizes); reflexivity.
    + cbn in Hi. specialize (Hrest i n Hi).
      destruct ((c + 1) mod L =? 0);
        destruct (flusher_run (FRepeat {| r_counter := (c + 1) mod L; r_threshold := L |}) sizes) as [rs f2];
        cbn [fst nth_error] in *; exact Hrest.
Qed.

Lemma repeat_flush_exact_lemma : forall threshold sizes i n,
  threshold < 2 ^ 64 -> nth_error sizes i = Some n ->
  nth_error (fst (flusher_run (FRepeat (repeat_new threshold)) sizes)) i
    = Some (if negb (n =? 0) && (nonempty_writes (firstn (S i) sizes) mod limit_of threshold =? 0) then Flush else Idle).
Proof.
  intros t sizes i n Ht Hi. destruct (limit_pos t Ht) as [H0 H1].
  rewrite repeat_new_eq. rewrite (repeat_run_exact _ H0 H1 _ 0 i n H0 Hi). rewrite N.add_0_l. reflexivity.
Qed.

Lemma nonempty_app l1 l2 : nonempty_writes (l1 ++ l2) = nonempty_writes l1 + nonempty_writes l2.
Proof. unfold nonempty_writes. rewrite filter_app, app_length. lia. Qed.

(** Unflushed count is exactly the counter when it starts so. *)
Lemma repeat_unflushed_go L (HL0 : 0 < L) (HL : L < two64) sizes : forall c acc,
  c < L -> nonempty_writes acc = c ->
  nonempty_writes (unflushed_go acc
    (combine sizes (fst (flusher_run (FRepeat {| r_counter := c; r_threshold := L |}) sizes)))) < L.
Proof.
  induction sizes as [|a sizes IH]; intros c acc Hc Hacc; [cbn; lia|].
  cbn [flusher_run flusher_update]. unfold repeat_update; cbn [r_counter r_threshold].
  assert (Hw : wrap64 (c + 1) = c + 1) by (apply wrap64_small; lia). rewrite Hw.
  destruct (a =? 0) eqn:Ea.
  - specialize (IH c (acc ++ [a]) Hc).
    destruct (flusher_run (FRepeat {| r_counter := c; r_threshold := L |}) sizes) as [rs f2].
    cbn [fst combine unflushed_go] in *. apply IH. rewrite nonempty_app, nonempty_cons, Ea, Hacc.
    unfold nonempty_writes; cbn. lia.
  - destruct (N.eq_dec (c + 1) L) as [El | Nl].
    + rewrite El, N.mod_same by lia. cbn [N.eqb].
      specialize (IH 0 [] HL0 eq_refl).
      destruct (flusher_run (FRepeat {| r_counter := 0; r_threshold := L |}) sizes) as [rs f2].
      cbn [fst combine unflushed_go] in *. exact IH.
    + rewrite N.mod_small by lia. destruct (c + 1 =? 0) eqn:E0; [lia|].
      specialize (IH (c + 1) (acc ++ [a])).
      destruct (flusher_run (FRepeat {| r_counter := c + 1; r_threshold := L |}) sizes) as [rs f2].
      cbn [fst combine unflushed_go] in *. apply IH; [lia|].
      rewrite nonempty_app, nonempty_cons, Ea, Hacc. unfold nonempty_writes; cbn. lia.
Qed.

Lemma repeat_unflushed_bound_lemma : forall threshold sizes,
  threshold < 2 ^ 64 ->
  nonempty_writes (unflushed (combine sizes (fst (flusher_run (FRepeat (repeat_new threshold)) sizes))))
    < limit_of threshold.
Proof.
  intros t sizes Ht. destruct (limit_pos t Ht) as [H0 H1]. rewrite repeat_new_eq.
  apply repeat_unflushed_go; auto.
Qed.

(** Byte-count policy. *)
Lemma total_app l1 l2 : total (l1 ++ l2) = total l1 + total l2.
Proof. induction l1 as [|a l1 IH]; cbn [app total fold_right]; [reflexivity|]. unfold total in *; cbn. lia. Qed.

Lemma total_one a : total [a] = a.
Proof. unfold total, fold_right. lia. Qed.

Lemma bytes_run_exact L (HL0 : 0 < L) sizes : forall c i n,
  (forall m, In m sizes -> m + L <= two64) ->
  c < L -> nth_error sizes i = Some n ->
  nth_error (fst (flusher_run (FBytes {| b_counter := c; b_threshold := L |}) sizes)) i
    = Some (if (c + total (firstn i sizes)) / L <? (c + total (firstn (S i) sizes)) / L then Flush else Idle).
Proof.
  induction sizes as [|a sizes IH]; intros c i n Hs Hc Hi; [destruct i; discriminate|].
  assert (Ha : a + L <= two64) by (apply Hs; left; reflexivity).
  assert (Hs' : forall m, In m sizes -> m + L <= two64) by (intros m Hm; apply Hs; right; exact Hm).
  cbn [flusher_run flusher_update]. unfold bytecount_update; cbn [b_counter b_threshold].
  rewrite firstn_cons.
  destruct (a =? 0) eqn:Ea.
  - assert (a = 0) by lia; subst a.
    destruct i as [|i].
    + destruct (flusher_run (FBytes {| b_counter := c; b_threshold := L |}) sizes) as [rs f2].
      cbn [fst nth_error firstn total fold_right]. rewrite !N.add_0_r, N.ltb_irrefl. reflexivity.
    + cbn in Hi. specialize (IH c i n Hs' Hc Hi).
      destruct (flusher_run (FBytes {| b_counter := c; b_threshold := L |}) sizes) as [rs f2].
      cbn [fst nth_error] in *. rewrite IH. rewrite firstn_cons. reflexivity.
  - assert (Hw : wrap64 (c + a) = c + a) by (apply wrap64_small; lia). rewrite Hw.
    destruct i as [|i].
    + destruct (flusher_run (FBytes {| b_counter := (c + a) mod L; b_threshold := L |}) sizes) as [rs f2].
      cbn [fst nth_error firstn total fold_right]. rewrite !N.add_0_r.
      rewrite (N.div_small c L) by exact Hc.
      destruct (L <=? c + a) eqn:E1.
      * assert (1 <= (c + a) / L) by (apply N.div_le_lower_bound; lia).
        destruct (0 <? (c + a) / L) eqn:E2; [reflexivity|lia].
      * rewrite (N.div_small (c + a) L) by lia. reflexivity.
    + cbn in Hi. assert (Hm : (c + a) mod L < L) by (apply N.mod_lt; lia).
      specialize (IH ((c + a) mod L) i n Hs' Hm Hi).
      destruct (flusher_run (FBytes {| b_counter := (c + a) mod L; b_threshold := L |}) sizes) as [rs f2].
      cbn [fst nth_error] in *. rewrite IH. rewrite firstn_cons.
      assert (Hdiv : forall x, (c + (a + x)) / L = (c + a) / L + ((c + a) mod L + x) / L).
      { intros x. rewrite N.add_assoc.
        rewrite (N.div_mod (c + a) L) at 1 by lia.
        replace (L * ((c + a) / L) + (c + a) mod L + x) with (((c + a) mod L + x) + ((c + a) / L) * L) by lia.
        rewrite N.div_add by lia. lia. }
      change (total (a :: firstn i sizes)) with (a + total (firstn i sizes)).
      change (total (a :: firstn (S i) sizes)) with (a + total (firstn (S i) sizes)).
      rewrite !Hdiv.
      set (x := ((c + a) mod L + total (firstn i sizes)) / L).
      set (y := ((c + a) mod L + total (firstn (S i) sizes)) / L).
      destruct (x <? y) eqn:E1, ((c + a) / L + x <? (c + a) / L + y) eqn:E2; try reflexivity; lia.
Qed.

Lemma bytes_flush_exact_lemma : forall threshold sizes i n,
  threshold < 2 ^ 64 ->
  (forall m, In m sizes -> m + limit_of threshold <= 2 ^ 64) ->
  nth_error sizes i = Some n ->
  nth_error (fst (flusher_run (FBytes (bytecount_new threshold)) sizes)) i
    = Some (if total (firstn i sizes) / limit_of threshold <? total (firstn (S i) sizes) / limit_of threshold
            then Flush else Idle).
Proof.
  intros t sizes i n Ht Hs Hi. destruct (limit_pos t Ht) as [H0 H1].
  rewrite bytecount_new_eq. rewrite (bytes_run_exact _ H0 _ 0 i n Hs H0 Hi). rewrite !N.add_0_l. reflexivity.
Qed.

Lemma bytes_unflushed_go L (HL0 : 0 < L) sizes : forall c acc,
  (forall m, In m sizes -> m + L <= two64) ->
  c < L -> total acc <= c ->
  total (unflushed_go acc
    (combine sizes (fst (flusher_run (FBytes {| b_counter := c; b_threshold := L |}) sizes)))) < L.
Proof.
  induction sizes as [|a sizes IH]; intros c acc Hs Hc Hacc; [cbn [combine unflushed_go]; lia|].
  assert (Ha : a + L <= two64) by (apply Hs; left; reflexivity).
  assert (Hs' : forall m, In m sizes -> m + L <= two64) by (intros m Hm; apply Hs; right; exact Hm).
  cbn [flusher_run flusher_update]. unfold bytecount_update; cbn [b_counter b_threshold].
  destruct (a =? 0) eqn:Ea.
  - specialize (IH c (acc ++ [a]) Hs' Hc).
    destruct (flusher_run (FBytes {| b_counter := c; b_threshold := L |}) sizes) as [rs f2].
    cbn [fst combine unflushed_go] in *. apply IH. rewrite total_app, total_one. lia.
  - assert (Hw : wrap64 (c + a) = c + a) by (apply wrap64_small; lia). rewrite Hw.
    assert (Hm : (c + a) mod L < L) by (apply N.mod_lt; lia).
    destruct (L <=? c + a) eqn:El.
    + specialize (IH ((c + a) mod L) [] Hs' Hm). 
      destruct (flusher_run (FBytes {| b_counter := (c + a) mod L; b_threshold := L |}) sizes) as [rs f2].
      cbn [fst combine unflushed_go] in *. apply IH. cbn. lia.
    + specialize (IH ((c + a) mod L) (acc ++ [a]) Hs' Hm).
      destruct (flusher_run (FBytes {| b_counter := (c + a) mod L; b_threshold := L |}) sizes) as [rs f2].
      cbn [fst combine unflushed_go] in *. apply IH. apply N.leb_gt in El. rewrite total_app, total_one. rewrite N.mod_small by exact El. lia.
Qed.

Lemma bytes_unflushed_bound_lemma : forall threshold sizes,
  threshold < 2 ^ 64 ->
  (forall m, In m sizes -> m + limit_of threshold <= 2 ^ 64) ->
  total (unflushed (combine sizes (fst (flusher_run (FBytes (bytecount_new threshold)) sizes))))
    < limit_of threshold.
Proof.
  intros t sizes Ht Hs. destruct (limit_pos t Ht) as [H0 H1]. rewrite bytecount_new_eq.
  apply bytes_unflushed_go; auto. cbn. lia.
Qed.

Lemma bytes_unflushed_overflow_lemma : exists threshold sizes,
  threshold < 2 ^ 64 /\ (forall m, In m sizes -> m < 2 ^ 64) /\
  limit_of threshold <=
  total (unflushed (combine sizes (fst (flusher_run (FBytes (bytecount_new threshold)) sizes)))).
Proof.
  exists (2 ^ 63), [2 ^ 63 - 1; 2 ^ 63 + 1]. repeat split.
  - intros m [<- | [<- | []]]; reflexivity.
  - vm_compute. discriminate.
Qed.

(** ** Size strings *)

Lemma digit_char d : d < 10 -> is_digit (ascii_of_N (48 + d)) = true /\ digit_val (ascii_of_N (48 + d)) = d.
Proof.
  intros H. unfold is_digit, digit_val. rewrite N_ascii_embedding by lia. split; lia.
Qed.

Lemma is_digit_char c : is_digit c = true -> exists d, d < 10 /\ c = ascii_of_N (48 + d).
Proof.
  unfold is_digit. intros H. exists (N_of_ascii c - 48). split; [lia|].
  replace (48 + (N_of_ascii c - 48)) with (N_of_ascii c) by lia. symmetry; apply ascii_N_embedding.
Qed.

Lemma numeral_digits s n : Numeral s n -> forallb is_digit s = true /\ s <> [].
Proof.
  induction 1 as [d H | s n d H [IH1 IH2] Hd].
  - split; [|discriminate]. cbn. rewrite (proj1 (digit_char d H)). reflexivity.
  - split.
    + rewrite forallb_app, IH1. cbn. rewrite (proj1 (digit_char d Hd)). reflexivity.
    + destruct s; discriminate.
Qed.

Lemma numeral_exists s : forallb is_digit s = true -> s <> [] -> exists n, Numeral s n.
Proof.
  induction s as [|c s IH] using rev_ind; [congruence|]. intros H _.
  rewrite forallb_app in H. apply andb_true_iff in H as [H1 H2]. cbn in H2. rewrite andb_true_r in H2.
  destruct (is_digit_char c H2) as [d [Hd ->]].
  destruct s as [|a s].
  - exists d. apply (numeral_one d Hd).
  - destruct IH as [n Hn]; [exact H1|discriminate|]. exists (10 * n + d). apply numeral_snoc; assumption.
Qed.

Lemma lexical_go_app s1 s2 acc :
  lexical_u64_go acc (s1 ++ s2) = match lexical_u64_go acc s1 with Some a => lexical_u64_go a s2 | None => None end.
Proof.
  revert acc; induction s1 as [|c s1 IH]; intros acc; [reflexivity|]. cbn [app lexical_u64_go].
  destruct (10 * acc + digit_val c <? two64); [apply IH|reflexivity].
Qed.

Lemma lexical_numeral s n : Numeral s n -> lexical_u64 s = if n <? two64 then Some n else None.
Proof.
  intros H. assert (Hne := proj2 (numeral_digits s n H)).
  replace (lexical_u64 s) with (lexical_u64_go 0 s) by (destruct s; [congruence|reflexivity]). clear Hne.
  induction H as [d Hd | s n d H IH Hd].
  - cbn [lexical_u64_go]. rewrite (proj2 (digit_char d Hd)). cbn [N.mul N.add]. reflexivity.
  - rewrite lexical_go_app, IH. destruct (n <? two64) eqn:E.
    + cbn [lexical_u64_go]. rewrite (proj2 (digit_char d Hd)). reflexivity.
    + destruct (10 * n + d <? two64) eqn:E2; [lia|reflexivity].
Qed.

Lemma span_digits_spec s : forall ds r, span_digits s = (ds, r) ->
  s = ds ++ r /\ forallb is_digit ds = true /\ match r with [] => True | c :: _ => is_digit c = false end.
Proof.
  induction s as [|c s IH]; intros ds r H; cbn in H.
  - inversion H; subst; auto.
  - destruct (is_digit c) eqn:E.
    + destruct (span_digits s) as [d r'] eqn:Es. inversion H; subst.
      destruct (IH d r eq_refl) as [-> [H1 H2]]. cbn. rewrite E, H1. auto.
    + inversion H; subst. cbn. auto.
Qed.

Lemma span_digits_app ds u : forallb is_digit ds = true ->
  match u with [] => True | c :: _ => is_digit c = false end ->
  span_digits (ds ++ u) = (ds, u).
Proof.
  induction ds as [|c ds IH]; cbn; intros H Hu.
  - destruct u as [|c u]; [reflexivity|]. cbn. rewrite Hu. reflexivity.
  - apply andb_true_iff in H as [H1 H2]. rewrite H1, (IH H2 Hu). reflexivity.
Qed.

Lemma unit_head u m : Unit u m -> match u with [] => True | c :: _ => is_digit c = false /\ 128 <=? N_of_ascii c = false end.
Proof. destruct 1; vm_compute; auto. Qed.

Lemma unit_find_unit u m : Unit u m -> u <> [] -> unit_find unit_table u = Some m.
Proof. destruct 1; intros; try congruence; reflexivity. Qed.

Lemma unit_find_sound u m : unit_find unit_table u = Some m -> Unit u m /\ u <> [].
Proof.
  unfold unit_table. cbn [unit_find].
  repeat match goal with
  | |- context [bytes_eqb ?k u] =>
      destruct (bytes_eqb k u) eqn:?;
      [ match goal with H : bytes_eqb _ _ = true |- _ => apply bytes_eqb_eq in H; subst u end;
        intros E; inversion E; subst; split; [constructor|discriminate] | ]
  end.
  discriminate.
Qed.

Lemma parse_dunit_value_lemma : forall s n m,
  Denotes s n m -> n < 2 ^ 64 -> n * m < 2 ^ 64 -> parse_dunit s = DOk (n * m).
Proof.
  intros s n m (ds & u & -> & Hn & Hu) Hlt Hmul.
  destruct (numeral_digits ds n Hn) as [Hd Hne].
  assert (Hh := unit_head u m Hu).
  unfold parse_dunit. rewrite span_digits_app; [|exact Hd|destruct u; [exact I|apply Hh]].
  change (2 ^ 64) with two64 in *.
  destruct u as [|c u].
  - rewrite app_nil_r, (lexical_numeral ds n Hn). rewrite (proj2 (N.ltb_lt _ _) Hlt).
    inversion Hu; subst; try discriminate. rewrite N.mul_1_r. reflexivity.
  - destruct Hh as [_ ->]. rewrite (lexical_numeral ds n Hn), (proj2 (N.ltb_lt _ _) Hlt).
    rewrite (unit_find_unit _ m Hu) by discriminate. rewrite wrap64_small by exact Hmul. reflexivity.
Qed.

Lemma numeral_fold s n : Numeral s n -> n = fold_left (fun a c => 10 * a + digit_val c) s 0.
Proof.
  induction 1 as [d Hd | s n d H IH Hd].
  - cbn [fold_left]. rewrite (proj2 (digit_char d Hd)). lia.
  - rewrite fold_left_app, <- IH. cbn [fold_left]. rewrite (proj2 (digit_char d Hd)). reflexivity.
Qed.

Lemma numeral_unique_lemma : forall s n1 n2, Numeral s n1 -> Numeral s n2 -> n1 = n2.
Proof. intros s n1 n2 H1 H2. rewrite (numeral_fold _ _ H1), (numeral_fold _ _ H2). reflexivity. Qed.

Lemma parse_dunit_sound_lemma : forall s v,
  parse_dunit s = DOk v -> exists n m, Denotes s n m /\ n < 2 ^ 64 /\ v = (n * m) mod 2 ^ 64.
Proof.
  intros s v H. unfold parse_dunit in H. destruct (span_digits s) as [ds r] eqn:Es.
  destruct (span_digits_spec s ds r Es) as [-> [Hd Hr]]. change (2 ^ 64) with two64.
  destruct r as [|c r].
  - rewrite app_nil_r in *. destruct ds as [|a ds]; [discriminate|].
    destruct (numeral_exists (a :: ds) Hd) as [n Hn]; [discriminate|].
    rewrite (lexical_numeral _ n Hn) in H. destruct (n <? two64) eqn:E; [|discriminate].
    inversion H; subst. exists v, 1. split; [exists (a :: ds), []; rewrite app_nil_r; split; [reflexivity|split; [exact Hn|constructor]]|].
    split; [lia|]. rewrite N.mul_1_r. symmetry; apply N.mod_small; lia.
  - destruct (128 <=? N_of_ascii c); [discriminate|].
    destruct ds as [|a ds]; [discriminate|].
    destruct (numeral_exists (a :: ds) Hd) as [n Hn]; [discriminate|].
    rewrite (lexical_numeral _ n Hn) in H. destruct (n <? two64) eqn:E; [|discriminate].
    destruct (unit_find unit_table (c :: r)) as [m|] eqn:Eu; [|discriminate].
    destruct (unit_find_sound _ _ Eu) as [Hu _].
    inversion H; subst. exists n, m. split; [exists (a :: ds), (c :: r); auto|]. split; [lia|reflexivity].
Qed.

Lemma parse_dunit_wraps_lemma : exists s n m v,
  Denotes s n m /\ n < 2 ^ 64 /\ parse_dunit s = DOk v /\ v <> n * m.
Proof.
  exists (B "17179869184GiB"), 17179869184, (2 ^ 30), 0.
  split; [|split; [reflexivity|split; [vm_compute; reflexivity|vm_compute; discriminate]]].
  exists (B "17179869184"), (B "GiB"). split; [reflexivity|]. split; [|constructor].
  destruct (numeral_exists (B "17179869184")) as [n Hn]; [reflexivity|discriminate|].
  assert (E := numeral_fold _ _ Hn). vm_compute in E. subst n. exact Hn.
Qed.

(** A string that is not a number followed by a known unit is never accepted. *)
Lemma parse_dunit_reject_lemma : forall s,
  (forall n m, Denotes s n m -> 2 ^ 64 <= n) -> forall v, parse_dunit s <> DOk v.
Proof.
  intros s H v E. destruct (parse_dunit_sound_lemma s v E) as (n & m & Hd & Hn & _).
  specialize (H n m Hd). lia.
Qed.
