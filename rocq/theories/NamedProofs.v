(** Proofs about argument lists: what is stored is found again. *)
From Verif Require Import Base FmtModel FmtSpec NamedModel NamedSpec.
Open Scope N_scope.

(** ---- packed types ---- *)

Lemma tags_lemma g h : type_of g = type_of h <-> same_kind g h.
Proof. destruct g as [[]|]; destruct h as [[]|]; cbn; split; intros H; first [reflexivity|exact I|discriminate H|contradiction H]. Qed.
Lemma type_small g : 0 < type_of g < 16.
Proof. destruct g as [[]|]; cbn; unfold NAMED_ARG; lia. Qed.

Lemma small_high t j : t < 16 -> 4 <= j -> N.testbit t j = false.
Proof.
  intros T J. destruct (N.eq_dec t 0) as [->|NZ]; [apply N.bits_0|]. apply N.bits_above_log2.
  apply N.log2_lt_pow2; [lia|]. apply N.lt_le_trans with (2 ^ 4); [exact T|]. apply N.pow_le_mono_r; lia.
Qed.

Lemma fifteen_high j : 4 <= j -> N.testbit 15 j = false.
Proof. apply small_high. reflexivity. Qed.

Lemma fifteen_low j : j < 4 -> N.testbit 15 j = true.
Proof. intros H. assert (C : j = 0 \/ j = 1 \/ j = 2 \/ j = 3) by lia. destruct C as [->|[->|[->| ->]]]; reflexivity. Qed.

Lemma wrap64_low n j : j < 64 -> N.testbit (wrap64 n) j = N.testbit n j.
Proof. intros H. unfold wrap64, two64. change 18446744073709551616 with (2 ^ 64). apply N.mod_pow2_bits_low. exact H. Qed.

(** The bits of a field. *)
Lemma type_at_bits l i : i < 16 -> exists t, type_at l i = Ok t /\
  forall j, N.testbit t j = (j <? 4) && N.testbit (types l) (i * 4 + j).
Proof.
  intros H. unfold type_at. cbv zeta. assert (S : i * 4 <? 64 = true) by (apply N.ltb_lt; lia). rewrite S.
  eexists. split; [reflexivity|]. intros j. rewrite N.shiftr_spec', N.land_spec.
  destruct (N.ltb_spec j 4) as [J|J].
  - rewrite wrap64_low by lia. rewrite N.shiftl_spec_high' by lia. replace (j + i * 4 - i * 4) with j by lia.
    rewrite (fifteen_low j J), andb_true_r. cbn [andb]. f_equal. lia.
  - cbn [andb]. destruct (N.ltb_spec (j + i * 4) 64) as [K|K].
    + rewrite wrap64_low by lia. rewrite N.shiftl_spec_high' by lia. rewrite (fifteen_high (j + i * 4 - i * 4)) by lia.
      apply andb_false_r.
    + replace (N.testbit (wrap64 (N.shiftl 15 (i * 4))) (j + i * 4)) with false; [apply andb_false_r|]. symmetry.
      unfold wrap64, two64. change 18446744073709551616 with (2 ^ 64). apply N.mod_pow2_bits_high. lia.
Qed.

Lemma make_type_bits l : forall i j, i < 16 -> j < 4 ->
  N.testbit (make_type l) (i * 4 + j) = match nth_error l (N.to_nat i) with Some g => N.testbit (type_of g) j | None => false end.
Proof.
  induction l as [|g l IH]; intros i j I J; cbn [make_type].
  - rewrite N.bits_0. destruct (N.to_nat i); reflexivity.
  - rewrite N.lor_spec, wrap64_low by lia. destruct (N.eq_dec i 0) as [->|NZ].
    + cbn [N.to_nat nth_error]. rewrite N.shiftl_spec_low by lia. rewrite orb_false_r. f_equal.
    + rewrite (small_high (type_of g)) by (destruct (type_small g); lia). cbn [orb].
      rewrite N.shiftl_spec_high' by lia. replace (i * 4 + j - 4) with ((i - 1) * 4 + j) by lia. rewrite IH by lia.
      replace (N.to_nat i) with (S (N.to_nat (i - 1))) by lia. reflexivity.
Qed.

(** The type at an index is that of the argument. *)
Lemma type_at_ok l st i : i < 16 ->
  type_at (ArgList (make_type l) st) i = Ok (match nth_error l (N.to_nat i) with Some g => type_of g | None => NONE end).
Proof.
  intros I. destruct (type_at_bits (ArgList (make_type l) st) i I) as (t & E & B). rewrite E. f_equal. apply N.bits_inj. intros j.
  rewrite B. cbn [types]. destruct (N.ltb_spec j 4) as [J|J]; cbn [andb].
  - rewrite make_type_bits by assumption. destruct (nth_error l (N.to_nat i)); [reflexivity|]. symmetry. apply N.bits_0.
  - symmetry. destruct (nth_error l (N.to_nat i)) as [g|]; [|apply N.bits_0]. apply small_high; [apply type_small|exact J].
Qed.

(** ---- stored arguments ---- *)

Lemma store_values_ok l : forall r, store_values (repeat None (length l + r)) l = Ok (map Some l ++ repeat None r).
Proof.
  induction l as [|g l IH]; intros r; cbn [length Nat.add repeat store_values map app]; [reflexivity|].
  rewrite IH. reflexivity.
Qed.

Lemma do_set_types_ok l : forall r, do_set_types (repeat (Slot None None) (length l + r)) l
  = Ok (map (fun g => Slot (Some (type_of g)) None) l ++ repeat (Slot None None) r).
Proof.
  induction l as [|g l IH]; intros r; cbn [length Nat.add repeat do_set_types map app]; [reflexivity|].
  rewrite IH. reflexivity.
Qed.

Lemma set_none_ok ss s n : n = length ss -> set_none (ss ++ [s]) n = Ok (ss ++ [Slot (Some NONE) (s_value s)]).
Proof. intros ->. induction ss as [|x ss IH]; cbn [app length set_none]; [reflexivity|]. rewrite IH. reflexivity. Qed.

Lemma store_args_ok (f : given -> option N) l : forall rest, store_args (map (fun g => Slot (f g) None) l ++ rest) l
  = Ok (map (fun g => Slot (f g) (Some g)) l ++ rest).
Proof.
  induction l as [|g l IH]; intros rest; cbn [map app store_args]; [reflexivity|]. rewrite IH. reflexivity.
Qed.

Lemma repeat_map {A C} (x : C) (l : list A) : repeat x (length l) = map (fun _ => x) l.
Proof. induction l as [|a l IH]; cbn [length repeat map]; [reflexivity|rewrite IH; reflexivity]. Qed.

(** What is stored: values for less than 16 arguments; otherwise arguments, the last of which has no type. With exactly 16 the types are
    only in the word. *)
Definition slots (l : list given) : list slot :=
  map (fun g => Slot (if 16 <? length_N l then Some (type_of g) else None) (Some g)) l ++ [Slot (Some NONE) None].

Lemma make_arg_list_ok l : make_arg_list l = Ok (ArgList (make_type l)
  (if length_N l <? 16 then Values (map Some l ++ repeat None (if length_N l =? 0 then 1 else 0)) else Args (slots l))).
Proof.
  unfold make_arg_list, array_size, MAX_PACKED_ARGS. cbv zeta. destruct (N.ltb_spec (length_N l) 16) as [H|H].
  - assert (H' : 16 <=? length_N l = false) by (apply N.leb_gt; exact H). rewrite H', orb_false_r.
    replace (N.to_nat (length_N l + (if length_N l =? 0 then 1 else 0))) with (length l + (if (length_N l =? 0)%N then 1 else 0))%nat
      by (unfold length_N; destruct (N.of_nat (length l) =? 0); lia).
    rewrite store_values_ok. reflexivity.
  - assert (H' : 16 <=? length_N l = true) by (apply N.leb_le; exact H). rewrite H', orb_true_r.
    replace (N.to_nat (length_N l + 1)) with (length l + 1)%nat by (unfold length_N; lia).
    unfold set_types, slots, MAX_PACKED_ARGS. destruct (16 <? length_N l).
    + rewrite do_set_types_ok. cbn [bind repeat].
      rewrite set_none_ok by (rewrite map_length; reflexivity). cbn [bind s_value]. rewrite (store_args_ok (fun g => Some (type_of g))). reflexivity.
    + rewrite repeat_app, repeat_map. cbn [bind repeat].
      rewrite set_none_ok by (rewrite map_length; reflexivity). cbn [bind s_value]. rewrite (store_args_ok (fun _ => None)). reflexivity.
Qed.

Lemma read_as_ok g : read_as (type_of g) (Some g) = Ok (Some g).
Proof. unfold read_as. rewrite N.eqb_refl. reflexivity. Qed.

Lemma type_not_none g : type_of g =? NONE = false.
Proof. apply N.eqb_neq. unfold NONE. destruct (type_small g). lia. Qed.

Lemma walk_to_ok (l : list given) : forall n, walk_to (map (fun g => Slot (Some (type_of g)) (Some g)) l ++ [Slot (Some NONE) None]) n
  = Ok (nth_error l n).
Proof.
  induction l as [|g l IH]; intros n; cbn [map app walk_to s_type s_value].
  - destruct n; reflexivity.
  - rewrite type_not_none. destruct n as [|n]; [apply read_as_ok|]. apply IH.
Qed.

Lemma skipn_slots l : 16 <= length_N l ->
  skipn 16 (slots l) = map (fun g => Slot (Some (type_of g)) (Some g)) (skipn 16 l) ++ [Slot (Some NONE) None].
Proof.
  intros H. change 16%nat with (N.to_nat 16). unfold slots. rewrite skipn_app, map_length. change (N.to_nat 16) with 16%nat.
  replace (16 - length l)%nat with 0%nat by (unfold length_N in H; lia). rewrite skipn_map. change (skipn 0 [Slot (Some NONE) None]) with [Slot (Some NONE) None]. f_equal.
  destruct (N.ltb_spec 16 (length_N l)) as [K|K]; [reflexivity|].
  assert (E : skipn 16 l = []) by (apply skipn_all2; unfold length_N in K; lia). rewrite E. reflexivity.
Qed.

Lemma nth_skipn {A} (l : list A) n k : nth_error (skipn n l) k = nth_error l (n + k).
Proof. revert l. induction n as [|n IH]; intros l; [reflexivity|]. destruct l as [|x l]; [destruct k; reflexivity|]. apply IH. Qed.

(** The last packed type tells whether there are 16 arguments. *)
Lemma last_type l st : exists t, type_at (ArgList (make_type l) st) 15 = Ok t /\ (t =? NONE) = (length_N l <? 16).
Proof.
  rewrite type_at_ok by reflexivity. eexists. split; [reflexivity|].
  change (N.to_nat 15) with 15%nat. destruct (nth_error l 15) as [g|] eqn:E.
  - rewrite type_not_none. symmetry. apply N.ltb_ge. assert (L : (15 < length l)%nat) by (apply nth_error_Some; congruence).
    unfold length_N. lia.
  - symmetry. apply N.ltb_lt. apply nth_error_None in E. unfold length_N. lia.
Qed.

Lemma nth_values l i : (N.to_nat i < length l)%nat -> forall r,
  nth_value (Values (map Some l ++ r)) true i = Ok (nth_error l (N.to_nat i)).
Proof.
  intros H r. unfold nth_value. rewrite nth_error_app1 by (rewrite map_length; exact H). rewrite nth_error_map.
  destruct (nth_error l (N.to_nat i)) eqn:E; [reflexivity|]. apply nth_error_None in E. lia.
Qed.
Lemma nth_slots l i : (N.to_nat i < length l)%nat ->
  nth_value (Args (slots l)) false i = Ok (nth_error l (N.to_nat i)).
Proof.
  intros H. unfold nth_value, slots. rewrite nth_error_app1 by (rewrite map_length; exact H). rewrite nth_error_map.
  destruct (nth_error l (N.to_nat i)) eqn:E; [reflexivity|]. apply nth_error_None in E. lia.
Qed.

(** Every index gives the argument at it, or none behind the last. *)
Lemma at_index_ok l al : make_arg_list l = Ok al -> forall i, at_index al i = Ok (nth_error l (N.to_nat i)).
Proof.
  intros M i. rewrite make_arg_list_ok in M. injection M as <-. unfold at_index, MAX_PACKED_ARGS. change (16 - 1) with 15.
  set (st := if length_N l <? 16 then _ else _). destruct (last_type l st) as (t & -> & T). cbn [bind]. rewrite T. cbn [stored].
  destruct (N.ltb_spec i 16) as [I|I].
  - rewrite type_at_ok by exact I. cbn [bind]. destruct (nth_error l (N.to_nat i)) as [g|] eqn:E.
    + rewrite type_not_none. assert (L : (N.to_nat i < length l)%nat) by (apply nth_error_Some; congruence).
      subst st. destruct (length_N l <? 16).
      * rewrite nth_values by exact L. rewrite E. apply read_as_ok.
      * rewrite nth_slots by exact L. rewrite E. apply read_as_ok.
    + rewrite N.eqb_refl. reflexivity.
  - subst st. destruct (N.ltb_spec (length_N l) 16) as [H|H].
    + f_equal. symmetry. apply nth_error_None. unfold length_N in H. lia.
    + change (N.to_nat 16) with 16%nat. rewrite skipn_slots by exact H. rewrite walk_to_ok, nth_skipn. do 2 f_equal. lia.
Qed.

(** ---- names ---- *)

Lemma compare_bytes_eq a : forall b, length a = length b -> compare_bytes a b = Eq -> a = b.
Proof.
  induction a as [|x a IH]; intros [|y b] L E; try discriminate; [reflexivity|]. cbn [compare_bytes] in E.
  destruct (N_of_ascii x ?= N_of_ascii y) eqn:C; try discriminate. apply N.compare_eq in C.
  injection L as L. rewrite (IH b L E). f_equal. rewrite <- (ascii_N_embedding x), <- (ascii_N_embedding y), C. reflexivity.
Qed.

Lemma compare_bytes_refl a : compare_bytes a a = Eq.
Proof. induction a as [|x a IH]; cbn [compare_bytes]; [reflexivity|]. rewrite N.compare_refl. exact IH. Qed.

Lemma compare_bytes_sym a : forall b, compare_bytes b a = CompOpp (compare_bytes a b).
Proof.
  induction a as [|x a IH]; intros [|y b]; try reflexivity. cbn [compare_bytes].
  rewrite (N.compare_antisym (N_of_ascii x) (N_of_ascii y)). destruct (N_of_ascii x ?= N_of_ascii y); cbn [CompOpp]; auto.
Qed.

Lemma compare_sym a b : compare b a = CompOpp (compare a b).
Proof.
  unfold compare. rewrite (Nat.min_comm (length b) (length a)), (compare_bytes_sym (firstn (Nat.min (length a) (length b)) a)).
  destruct (compare_bytes _ _); cbn [CompOpp]; try reflexivity. rewrite (Nat.eqb_sym (length b)).
  destruct (Nat.eqb_spec (length a) (length b)) as [E|E]; [reflexivity|].
  destruct (Nat.ltb_spec (length a) (length b)), (Nat.ltb_spec (length b) (length a)); try reflexivity; lia.
Qed.

Lemma compare_eq a b : compare a b = Eq <-> a = b.
Proof.
  split.
  - unfold compare. destruct (compare_bytes _ _) eqn:C; try discriminate.
    destruct (Nat.eqb_spec (length a) (length b)) as [L|L].
    + intros _. rewrite <- L, Nat.min_id in C. rewrite firstn_all in C. rewrite L, firstn_all in C. apply compare_bytes_eq; assumption.
    + destruct (Nat.ltb _ _); discriminate.
  - intros ->. unfold compare. rewrite compare_bytes_refl, Nat.eqb_refl. reflexivity.
Qed.

Lemma equivalent_eq a b : equivalent a b = bytes_eqb a b.
Proof.
  unfold equivalent, less. rewrite (compare_sym a b). destruct (bytes_eqb a b) eqn:E.
  - apply bytes_eqb_eq in E. rewrite (proj2 (compare_eq a b) E). reflexivity.
  - destruct (compare a b) eqn:C; try reflexivity. apply compare_eq in C. apply bytes_eqb_eq in C. congruence.
Qed.

(** ---- the map ---- *)

Definition add (m : arg_map) (g : given) : arg_map := match g with Named n a => insert m n a | Plain _ => m end.

Lemma find_insert m n a name : find (insert m n a) name =
  match find m name with Some b => Some b | None => if bytes_eqb n name then Some a else None end.
Proof.
  assert (A : forall m x, find (m ++ [x]) name = match find m name with Some b => Some b | None => if bytes_eqb (fst x) name then Some (snd x) else None end).
  { intros m' x. unfold find. induction m' as [|e m' IH]; cbn [app List.find].
    - rewrite equivalent_eq. destruct (bytes_eqb (fst x) name); reflexivity.
    - destruct (equivalent (fst e) name); [reflexivity|exact IH]. }
  unfold insert. destruct (find m n) as [b|] eqn:F; [|rewrite A; reflexivity].
  destruct (bytes_eqb n name) eqn:E; [|destruct (find m name); reflexivity]. apply bytes_eqb_eq in E. subst name. rewrite F. reflexivity.
Qed.

Lemma find_added l : forall m name, find (fold_left add l m) name = match find m name with Some b => Some b | None => called name l end.
Proof.
  induction l as [|g l IH]; intros m name; cbn [fold_left called]; [destruct (find m name); reflexivity|].
  rewrite IH. destruct g as [a|n a]; cbn [add]; [reflexivity|]. rewrite find_insert.
  destruct (find m name); [reflexivity|]. destruct (bytes_eqb n name); reflexivity.
Qed.

Lemma type_named g : (type_of g =? NAMED_ARG) = match g with Named _ _ => true | Plain _ => false end.
Proof. destruct g as [[]|]; reflexivity. Qed.

Lemma init_values_ok l r : (length l < 16)%nat -> forall k m, (k <= length l)%nat ->
  init_values (ArgList (make_type l) (Values (map Some l ++ r))) (16 - k) (N.of_nat k) m = Ok (fold_left add (skipn k l) m).
Proof.
  intros L k. remember (length l - k)%nat as d eqn:D. revert k D. induction d as [|d IH]; intros k D m K.
  - assert (k = length l) by lia. subst k. replace (16 - length l)%nat with (S (15 - length l)) by lia. cbn [init_values].
    rewrite type_at_ok by lia. rewrite Nat2N.id. rewrite (proj2 (nth_error_None l (length l)) (le_n _)). cbn [bind]. rewrite N.eqb_refl, skipn_all. reflexivity.
  - replace (16 - k)%nat with (S (16 - S k)) by lia. cbn [init_values]. rewrite type_at_ok by lia. rewrite Nat2N.id.
    assert (KL : (k < length l)%nat) by lia. destruct (nth_error l k) as [g|] eqn:E; [|apply nth_error_None in E; lia].
    cbn [bind]. rewrite type_not_none, type_named. cbn [stored].
    assert (SK : skipn k l = g :: skipn (S k) l).
    { clear -E. revert l E. induction k as [|k IH]; intros [|x l] E; try discriminate; [injection E as ->; reflexivity|]. apply IH, E. }
    rewrite SK. replace (N.of_nat k + 1) with (N.of_nat (S k)) by lia. destruct g as [a|n a].
    + rewrite IH by lia. reflexivity.
    + rewrite nth_values by (rewrite Nat2N.id; exact KL). rewrite Nat2N.id, E. cbn [bind named_of fst snd]. rewrite IH by lia. reflexivity.
Qed.

Lemma init_packed_ok l : (16 <= length l)%nat -> forall d k m, (k + d = 16)%nat ->
  init_packed (ArgList (make_type l) (Args (slots l))) d (N.of_nat k) m = Ok (fold_left add (firstn d (skipn k l)) m).
Proof.
  intros L d. induction d as [|d IH]; intros k m K; [reflexivity|]. cbn [init_packed]. rewrite type_at_ok by lia. rewrite Nat2N.id.
  destruct (nth_error l k) as [g|] eqn:E; [|apply nth_error_None in E; lia]. cbn [bind]. rewrite type_named. cbn [stored].
  assert (SK : skipn k l = g :: skipn (S k) l).
  { clear -E. revert l E. induction k as [|k IH]; intros [|x l] E; try discriminate; [injection E as ->; reflexivity|]. apply IH, E. }
  rewrite SK. cbn [firstn fold_left]. replace (N.of_nat k + 1) with (N.of_nat (S k)) by lia. destruct g as [a|n a].
  - rewrite IH by lia. reflexivity.
  - rewrite nth_slots by (rewrite Nat2N.id; lia). rewrite Nat2N.id, E. cbn [bind named_of fst snd]. rewrite IH by lia. reflexivity.
Qed.

Lemma init_rest_ok (l : list given) : forall m,
  init_rest (map (fun g => Slot (Some (type_of g)) (Some g)) l ++ [Slot (Some NONE) None]) m = Ok (fold_left add l m).
Proof.
  induction l as [|g l IH]; intros m; [reflexivity|]. cbn [map app init_rest s_type s_value]. rewrite type_not_none, type_named.
  destruct g as [a|n a]; cbn [bind named_of fst snd fold_left add]; apply IH.
Qed.

(** The map that is built: the first of every name. *)
Definition entries (l : list given) : arg_map := fold_left add l [].

Lemma init_ok l al : make_arg_list l = Ok al -> forall m, m = [] \/ m = entries l -> init al m = Ok (entries l).
Proof.
  intros M. assert (E : init al [] = Ok (entries l)).
  { rewrite make_arg_list_ok in M. injection M as <-. unfold init, MAX_PACKED_ARGS. change (16 - 1) with 15.
    set (st := if length_N l <? 16 then _ else _). destruct (last_type l st) as (t & -> & T). cbn [bind]. rewrite T. cbn [stored]. subst st.
    destruct (N.ltb_spec (length_N l) 16) as [H|H]; assert (H' := H); unfold length_N in H'.
    + exact (init_values_ok l _ ltac:(lia) 0 [] (Nat.le_0_l _)).
    + change (N.to_nat 16) with 16%nat. assert (P := init_packed_ok l ltac:(lia) 16 0 [] eq_refl). change (N.of_nat 0) with 0 in P.
      rewrite P. cbn [bind]. rewrite skipn_slots by exact H. rewrite init_rest_ok. rewrite <- fold_left_app. change (skipn 0 l) with l.
      rewrite firstn_skipn. reflexivity. }
  intros m [-> | ->]; [exact E|]. destruct (entries l) as [|e m'] eqn:F; [exact E|reflexivity].
Qed.

Lemma find_entries l name : find (entries l) name = called name l.
Proof. unfold entries. rewrite find_added. reflexivity. Qed.

(** The position of a name is that of the argument it chooses. *)
Lemma place_called name l : match place_of name l with
  | Some n => exists g, nth_error l (N.to_nat n) = Some g /\ called name l = Some (value_of g)
  | None => called name l = None
  end.
Proof.
  induction l as [|g l IH]; [reflexivity|]. cbn [place_of called]. 
  assert (ST : match option_map N.succ (place_of name l) with
    | Some n => exists g', nth_error (g :: l) (N.to_nat n) = Some g' /\ called name l = Some (value_of g')
    | None => called name l = None end).
  { destruct (place_of name l) as [n|]; cbn [option_map]; [|exact IH]. destruct IH as (g' & E & C). exists g'.
    rewrite N2Nat.inj_succ. split; [exact E|exact C]. }
  destruct g as [a|n a]; [exact ST|]. destruct (bytes_eqb n name); [|exact ST]. exists (Named n a). split; reflexivity.
Qed.
