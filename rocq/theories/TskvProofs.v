From Verif Require Import Base Decimal Values StdMap TskvModel TskvSpec.
From Coq Require Import Sorted.

(** ** Values *)

Definition escape_check (c : ascii) : bool :=
  if existsb (N.eqb (N_of_ascii c)) (92 :: unsafe_codes)%N then
    match escape_char c with
    | [b; e] => Ascii.eqb b "\" && match assoc e escape_codes with Some n => N.eqb n (N_of_ascii c) | None => false end
                && negb (existsb (N.eqb (N_of_ascii e)) unsafe_codes)
    | _ => false
    end
  else match escape_char c with [x] => Ascii.eqb x c | _ => false end.

Lemma escape_checked c : escape_check c = true.
Proof. destruct c as [[] [] [] [] [] [] [] []]; vm_compute; reflexivity. Qed.

Lemma existsb_N n l : existsb (N.eqb n) l = true <-> In n l.
Proof.
  rewrite existsb_exists. split; [intros (x & H & E); apply N.eqb_eq in E as ->; exact H|].
  intros H. exists n. split; [exact H|apply N.eqb_refl].
Qed.

Lemma escape_char_cases c :
  (In (N_of_ascii c) (92 :: unsafe_codes)%N /\ exists e, escape_char c = ["\"%char; e] /\ assoc e escape_codes = Some (N_of_ascii c)
     /\ ~ In (N_of_ascii e) unsafe_codes) \/
  (~ In (N_of_ascii c) (92 :: unsafe_codes)%N /\ escape_char c = [c]).
Proof.
  pose proof (escape_checked c) as H. unfold escape_check in H.
  destruct (existsb (N.eqb (N_of_ascii c)) (92 :: unsafe_codes)%N) eqn:E; [left|right]; (split; [rewrite <- existsb_N; congruence|]).
  - destruct (escape_char c) as [|b [|e [|]]]; try discriminate. exists e.
    apply andb_true_iff in H as [H H3]. apply andb_true_iff in H as [H1 H2]. apply Ascii.eqb_eq in H1 as ->.
    destruct (assoc e escape_codes) as [n|]; [|discriminate]. apply N.eqb_eq in H2 as ->.
    split; [reflexivity|]. split; [reflexivity|]. rewrite <- existsb_N. intros X. rewrite X in H3. discriminate.
  - destruct (escape_char c) as [|b [|]]; try discriminate. apply Ascii.eqb_eq in H as ->. reflexivity.
Qed.

Lemma escape_safe_lemma s : safe (write_escaped_val s).
Proof.
  intros c H. apply in_flat_map in H as (x & _ & H).
  destruct (escape_char_cases x) as [(_ & e & E & _ & He)|[Hn E]]; rewrite E in H.
  - destruct H as [<-|[<-|[]]]; [|exact He]. intros H; cbn in H. repeat (destruct H as [H|H]; [discriminate|]). exact H.
  - destruct H as [<-|[]]. intros H. apply Hn. right. exact H.
Qed.

Lemma bsl_code c : N_of_ascii c = 92%N <-> c = "\"%char.
Proof. split; [intros H; rewrite <- (ascii_N_embedding c), H; reflexivity|intros ->; reflexivity]. Qed.

Lemma unescape_escape s t : unescape (write_escaped_val s ++ t) = s ++ unescape t.
Proof.
  induction s as [|c s IH]; [reflexivity|]. cbn [write_escaped_val flat_map]. rewrite <- app_assoc.
  fold (write_escaped_val s).
  destruct (escape_char_cases c) as [(_ & e & E & A & _)|[Hn E]]; rewrite E; cbn [app].
  - cbn [unescape]. rewrite Ascii.eqb_refl, A, IH. unfold chr. rewrite ascii_N_embedding. reflexivity.
  - cbn [unescape]. rewrite (proj2 (Ascii.eqb_neq c "\")), IH; [reflexivity|].
    intros X. apply Hn. left. symmetry. apply bsl_code. exact X.
Qed.

Lemma unescape_lemma s : unescape (write_escaped_val s) = s.
Proof. rewrite <- (app_nil_r (write_escaped_val s)), unescape_escape. cbn. apply app_nil_r. Qed.

Lemma escape_inj_lemma a b : write_escaped_val a = write_escaped_val b -> a = b.
Proof. intros E. rewrite <- (unescape_lemma a), E. apply unescape_lemma. Qed.

Lemma unescape_plain s : ~ In "\"%char s -> unescape s = s.
Proof.
  induction s as [|c s IH]; intros H; [reflexivity|]. cbn [unescape].
  rewrite (proj2 (Ascii.eqb_neq c "\")) by (intros ->; apply H; left; reflexivity).
  rewrite IH; [reflexivity|]. intros X. apply H. right. exact X.
Qed.

(** ** Keys *)

Lemma esc_key_cons c s : write_escaped_key (c :: s) = (if Ascii.eqb c "=" then ["\"%char; "="%char] else [c]) ++ write_escaped_key s.
Proof. reflexivity. Qed.

Lemma esc_key_app a b : write_escaped_key (a ++ b) = write_escaped_key a ++ write_escaped_key b.
Proof. apply flat_map_app. Qed.

Lemma esc_key_no_eq s t : write_escaped_key s <> "="%char :: t.
Proof.
  destruct s as [|c s]; [discriminate|]. rewrite esc_key_cons. destruct (Ascii.eqb_spec c "="); cbn; congruence.
Qed.

Lemma key_inj_lemma a : forall b, write_escaped_key a = write_escaped_key b -> a = b.
Proof.
  induction a as [|x a IH]; intros [|y b]; rewrite ?esc_key_cons.
  - reflexivity.
  - destruct (Ascii.eqb y "="); discriminate.
  - destruct (Ascii.eqb x "="); discriminate.
  - destruct (Ascii.eqb_spec x "=") as [->|Nx], (Ascii.eqb_spec y "=") as [->|Ny]; cbn [app]; intros E.
    + injection E as E. f_equal. apply IH. exact E.
    + injection E as <- E. symmetry in E. apply esc_key_no_eq in E as [].
    + injection E as -> E. apply esc_key_no_eq in E as [].
    + injection E as -> E. f_equal. apply IH. exact E.
Qed.

Definition prepend (k : bytes) (r : option (bytes * bytes)) : option (bytes * bytes) :=
  match r with Some (k', v) => Some (k ++ k', v) | None => None end.

Lemma prepend_cons c k r : prepend (c :: k) r = match prepend k r with Some (k', v) => Some (c :: k', v) | None => None end.
Proof. destruct r as [[k' v]|]; reflexivity. Qed.

(** Reading through an escaped key: fine unless its last backslash meets an '='. *)
Lemma read_key_through k : forall t, t <> [] ->
  (forall p, k = p ++ ["\"%char] -> forall t', t <> "="%char :: t') ->
  read_key (write_escaped_key k ++ t) = prepend k (read_key t).
Proof.
  induction k as [|c k IH]; intros t Ht Hk.
  - cbn. destruct (read_key t) as [[? ?]|]; reflexivity.
  - rewrite prepend_cons, <- IH; [|exact Ht|].
    2:{ intros p E. apply (Hk (c :: p)). rewrite E. reflexivity. }
    rewrite esc_key_cons, <- app_assoc. destruct (Ascii.eqb_spec c "=") as [->|Nc]; [reflexivity|].
    assert (X : exists e s, write_escaped_key k ++ t = e :: s /\ (c = "\"%char -> e <> "="%char)).
    { destruct (write_escaped_key k) as [|e s] eqn:E.
      - destruct k as [|c' k]; [|rewrite esc_key_cons in E; destruct (Ascii.eqb c' "="); discriminate].
        destruct t as [|e s]; [contradiction|]. exists e, s. split; [reflexivity|]. intros -> ->. eapply (Hk []); reflexivity.
      - exists e, (s ++ t). split; [reflexivity|]. intros _ ->. apply esc_key_no_eq in E as []. }
    destruct X as (e & s & E & He). rewrite E. cbn [app read_key].
    rewrite (proj2 (Ascii.eqb_neq c "=")) by exact Nc.
    destruct (Ascii.eqb_spec c "\") as [->|]; cbn [andb]; [|reflexivity].
    rewrite (proj2 (Ascii.eqb_neq e "=")) by (apply He; reflexivity). reflexivity.
Qed.

Lemma read_back_lemma k v : (forall p, k <> p ++ ["\"%char]) -> read_key (write_escaped_key k ++ "="%char :: v) = Some (k, v).
Proof.
  intros H. rewrite read_key_through; [cbn; rewrite app_nil_r; reflexivity|discriminate|].
  intros p E. destruct (H p E).
Qed.

Lemma read_back_wrong_lemma p v : forall v', read_key (write_escaped_key (p ++ ["\"%char]) ++ "="%char :: v) <> Some (p ++ ["\"%char], v').
Proof.
  intros v'. rewrite esc_key_app, <- app_assoc.
  change (write_escaped_key ["\"%char] ++ "="%char :: v) with ("\"%char :: "="%char :: v).
  rewrite (read_key_through p ("\"%char :: "="%char :: v)); [|intros X; discriminate X|intros q _ t' X; discriminate X].
  change (read_key ("\"%char :: "="%char :: v)) with (match read_key v with Some (k, w) => Some ("="%char :: k, w) | None => None end).
  destruct (read_key v) as [[k2 v2]|]; cbn [prepend]; [|discriminate].
  intros E. injection E as E _. apply app_inv_head in E. discriminate E.
Qed.

Lemma key_chars c k : In c (write_escaped_key k) <-> In c k \/ (c = "\"%char /\ In "="%char k).
Proof.
  unfold write_escaped_key. rewrite in_flat_map. split.
  - intros (x & Hx & H). destruct (Ascii.eqb_spec x "=") as [->|]; [|destruct H as [->|[]]; left; exact Hx].
    destruct H as [<-|[<-|[]]]; [right; split; [reflexivity|exact Hx]|left; exact Hx].
  - intros [H|[-> H]].
    + exists c. split; [exact H|]. destruct (Ascii.eqb_spec c "=") as [->|]; [right|]; left; reflexivity.
    + exists "="%char. split; [exact H|]. left. reflexivity.
Qed.

(** ** Lines *)

Lemma split_no_tab f t : ~ In TAB f -> split_tabs (f ++ t) =
  match split_tabs t with g :: gs => (f ++ g) :: gs | [] => [] end.
Proof.
  induction f as [|c f IH]; intros H; cbn [app split_tabs].
  - destruct (split_tabs t); reflexivity.
  - rewrite IH by (intros X; apply H; right; exact X).
    destruct (split_tabs t) as [|g gs]; [reflexivity|].
    rewrite (proj2 (Ascii.eqb_neq c TAB)) by (intros ->; apply H; left; reflexivity). reflexivity.
Qed.

Lemma split_tabs_fields fs : Forall (fun f => ~ In TAB f) fs -> split_tabs (flat_map (cons TAB) fs) = [] :: fs.
Proof.
  induction fs as [|f fs IH]; intros H; [reflexivity|]. inversion H as [|? ? Hf Hfs]; subst.
  cbn [flat_map app]. change ((TAB :: f) ++ flat_map (cons TAB) fs) with (TAB :: (f ++ flat_map (cons TAB) fs)).
  cbn [split_tabs]. rewrite split_no_tab by exact Hf. rewrite IH by exact Hfs. rewrite app_nil_r. reflexivity.
Qed.

Lemma sequence_some {A B} (f : A -> option B) l l' : map f l = map Some l' -> sequence (map f l) = Some l'.
Proof.
  intros ->. induction l' as [|x l' IH]; [reflexivity|]. cbn [map sequence]. rewrite IH. reflexivity.
Qed.

(** The bytes [s] are fields that read as [l]. *)
Definition reads (s : bytes) (l : list (bytes * bytes)) : Prop :=
  exists fs : list bytes, s = flat_map (cons TAB) fs /\ Forall (fun f => ~ In TAB f) fs /\ map read_field fs = map Some l.

Lemma reads_nil : reads [] [].
Proof. exists []. repeat split. constructor. Qed.

Lemma reads_app s1 s2 l1 l2 : reads s1 l1 -> reads s2 l2 -> reads (s1 ++ s2) (l1 ++ l2).
Proof.
  intros (f1 & -> & F1 & E1) (f2 & -> & F2 & E2). exists (f1 ++ f2).
  split; [rewrite flat_map_app; reflexivity|]. split; [apply Forall_app; auto|].
  transitivity (map read_field f1 ++ map read_field f2); [apply map_app|]. rewrite E1, E2. symmetry. apply map_app.
Qed.

Lemma read_line_reads h s l : ~ In TAB h -> reads s l -> read_line (h ++ s) = Some (h, l).
Proof.
  intros Hh (fs & -> & F & E). unfold read_line. rewrite split_no_tab, split_tabs_fields by assumption.
  rewrite (sequence_some _ _ _ E), app_nil_r. reflexivity.
Qed.

Lemma reads_field k e v : plain_key k -> ~ In TAB e -> unescape e = v ->
  reads (TAB :: write_escaped_key k ++ "="%char :: e) [(k, v)].
Proof.
  intros [Ht Hb] He <-. exists [write_escaped_key k ++ "="%char :: e].
  split; [cbn [flat_map]; rewrite app_nil_r; reflexivity|]. split.
  - constructor; [|constructor]. intros H. apply in_app_iff in H as [H|[H|H]]; [|discriminate|contradiction].
    apply key_chars in H as [H|[H _]]; [contradiction|discriminate].
  - cbn [map]. unfold read_field. rewrite read_back_lemma by exact Hb. reflexivity.
Qed.

(** ** Configuration *)

Lemma last_such_app {A B} (f : A -> option B) l x :
  last_such f (l ++ [x]) = match f x with Some y => Some y | None => last_such f l end.
Proof.
  induction l as [|y l IH]; cbn; [destruct (f x); reflexivity|]. rewrite IH. destruct (f x); reflexivity.
Qed.

Lemma build_app calls c : build (calls ++ [c]) = builder_call (build calls) c.
Proof. unfold build. rewrite fold_left_app. reflexivity. Qed.

Lemma map_get_set {V} k n (v : V) m : map_get n (map_set k v m) = if bytes_dec k n then Some v else map_get n m.
Proof.
  destruct (bytes_dec k n) as [->|N]; [apply map_get_set_same|apply map_get_set_other; congruence].
Qed.

Lemma build_get calls : forall n,
  map_get n (d_attributes (build calls)) = constant calls n /\
  map_get n (d_timestamps (build calls)) = stamp_of calls n /\
  (match map_get n (d_renamed (build calls)) with Some to => to | None => n end) = new_name calls n /\
  (set_has n (d_removed (build calls)) = true <-> removed calls n).
Proof.
  unfold constant, stamp_of, new_name, removed.
  enough (H : forall n,
    map_get n (d_attributes (build calls)) = constant calls n /\
    map_get n (d_timestamps (build calls)) = stamp_of calls n /\
    map_get n (d_renamed (build calls)) =
      last_such (fun c => match c with Rename n' to => if bytes_dec n' n then Some to else None | _ => None end) calls /\
    (set_has n (d_removed (build calls)) = true <-> In (Remove n) calls)).
  { intros n. destruct (H n) as (A & T & R & M). rewrite R. auto. }
  induction calls as [|c calls IH] using rev_ind.
  - intros n. cbn [build fold_left builder_init d_attributes d_timestamps d_renamed d_removed].
    split; [reflexivity|]. split; [|split; [reflexivity|split; [discriminate|contradiction]]].
    rewrite map_get_set. unfold stamp_of. cbn [last_such]. reflexivity.
  - intros n. destruct (IH n) as (A & T & R & M). rewrite build_app.
    unfold constant, stamp_of in *. rewrite app_comm_cons, !last_such_app, in_app_iff.
    destruct c; cbn [builder_call d_attributes d_timestamps d_renamed d_removed];
      rewrite ?map_get_set, ?A, ?T, ?R, ?M.
    + repeat split; try (destruct (bytes_dec name n); reflexivity); intuition; cbn in *; intuition discriminate.
    + repeat split; try (destruct (bytes_dec from n); reflexivity); intuition; cbn in *; intuition discriminate.
    + repeat split; try reflexivity.
      * rewrite set_has_insert, orb_true_iff. intros [E|E]; [right; left; apply bytes_eqb_eq in E; congruence|left; apply M; exact E].
      * rewrite set_has_insert, orb_true_iff. intros [E|[E|[]]]; [right; apply M; exact E|left; injection E as ->; apply bytes_eqb_refl].
    + repeat split; try (destruct (bytes_dec name n); reflexivity); intuition; cbn in *; intuition discriminate.
Qed.

Lemma build_sorted calls : sorted_keys (d_attributes (build calls)) /\ sorted_keys (d_timestamps (build calls)).
Proof.
  induction calls as [|c calls [IA IT]] using rev_ind.
  - split; [constructor|]. apply map_set_sorted. constructor.
  - rewrite build_app. destruct c; cbn [builder_call d_attributes d_timestamps]; auto using map_set_sorted.
Qed.

Lemma lists_get {V} (f : bytes -> option V) m : sorted_keys m -> (forall n, map_get n m = f n) -> lists f m.
Proof.
  intros S H. split; [exact S|]. intros n v. rewrite <- H. split; [apply map_In_get; exact S|apply map_get_In].
Qed.

Lemma lists_unique {V} (f : bytes -> option V) m1 m2 : lists f m1 -> lists f m2 -> m1 = m2.
Proof.
  intros [S1 H1] [S2 H2]. apply sorted_ext; [exact S1|exact S2|]. intros k.
  destruct (map_get k m1) as [v|] eqn:G1.
  - symmetry. apply map_In_get; [exact S2|]. apply H2, H1, map_get_In. exact G1.
  - destruct (map_get k m2) as [v|] eqn:G2; [|reflexivity].
    apply map_get_In in G2. apply H2, H1 in G2. apply map_In_get in G2; [congruence|exact S1].
Qed.

Lemma builder_lemma calls : lists (constant calls) (d_attributes (build calls)) /\ lists (stamp_of calls) (d_timestamps (build calls)).
Proof.
  destruct (build_sorted calls). split; apply lists_get; try assumption; intros n; apply (build_get calls n).
Qed.

(** ** Fields *)

Lemma shown_app calls a : forall b l, shown calls (a ++ b) l -> exists l1 l2, l = l1 ++ l2 /\ shown calls a l1 /\ shown calls b l2.
Proof.
  induction a as [|[n v] a IH]; intros b l H; cbn [app] in H.
  - exists [], l. repeat split; [constructor|exact H].
  - inversion H as [|? ? ? ? Hr Hs|? ? ? ? Hr Hs]; subst.
    + destruct (IH _ _ Hs) as (l1 & l2 & -> & H1 & H2). exists l1, l2. repeat split; [constructor; assumption|exact H2].
    + destruct (IH _ _ Hs) as (l1 & l2 & -> & H1 & H2). exists ((new_name calls n, v) :: l1), l2.
      repeat split; [constructor; assumption|exact H2].
Qed.

Lemma add_view_reads calls n v l : shown calls [(n, v)] l -> Forall (fun f => plain_key (fst f)) l ->
  reads (add_view (build calls) n v) l.
Proof.
  intros H F. unfold add_view, add_key. destruct (build_get calls n) as (_ & _ & R & M). rewrite R.
  inversion H as [|? ? ? ? Hr Hs|? ? ? ? Hr Hs]; subst; inversion Hs; subst.
  - rewrite (proj2 M Hr). apply reads_nil.
  - destruct (set_has n (d_removed (build calls))); [destruct Hr; apply M; reflexivity|].
    inversion F as [|? ? Hk _]; subst. apply reads_field; [exact Hk| |apply unescape_lemma].
    intros X. apply (escape_safe_lemma v) in X. apply X. cbv. tauto.
Qed.

Lemma add_raw_reads calls n v l : shown calls [(n, v)] l -> Forall (fun f => plain_key (fst f)) l ->
  (~ removed calls n -> plain_text v) -> reads (add_raw (build calls) n v) l.
Proof.
  intros H F P. unfold add_raw, add_key. destruct (build_get calls n) as (_ & _ & R & M). rewrite R.
  inversion H as [|? ? ? ? Hr Hs|? ? ? ? Hr Hs]; subst; inversion Hs; subst.
  - rewrite (proj2 M Hr). apply reads_nil.
  - destruct (set_has n (d_removed (build calls))); [destruct Hr; apply M; reflexivity|].
    inversion F as [|? ? Hk _]; subst. destruct (P Hr) as [Pt Pb].
    apply reads_field; [exact Hk|exact Pt|apply unescape_plain; exact Pb].
Qed.

Lemma c_string_text s : (exists t, s = c_string s ++ NUL :: t /\ ~ In NUL (c_string s)) \/ (s = c_string s /\ ~ In NUL s).
Proof.
  induction s as [|c s IH]; [right; split; [reflexivity|intros []]|]. cbn [c_string].
  destruct (Ascii.eqb_spec c NUL) as [->|N]; [left; exists s; split; [reflexivity|intros []]|].
  destruct IH as [(t & E & H)|[E H]]; [left; exists t; split; [cbn; congruence|]|right; split; [congruence|]];
    intros [X|X]; congruence || contradiction.
Qed.

Lemma c_string_full s : ~ In NUL s -> c_string s = s.
Proof. intros H. destruct (c_string_text s) as [(t & E & _)|[E _]]; [|auto]. destruct H. rewrite E. apply in_elt. Qed.

Lemma c_string_cut s t : ~ In NUL s -> c_string (s ++ NUL :: t) = s.
Proof.
  induction s as [|c s IH]; intros H; cbn [app c_string]; [reflexivity|].
  rewrite (proj2 (Ascii.eqb_neq c NUL)), IH; [reflexivity| |]; intros X; apply H; [right; exact X|left; exact X].
Qed.

Lemma render_text dbl v t : value_text dbl v t -> render dbl v = t.
Proof. destruct 1; cbn [render]; auto using c_string_full, c_string_cut. Qed.

Lemma render_has_text dbl v : value_text dbl v (render dbl v).
Proof.
  destruct v as [|[]| | | |s|]; cbn [render]; try constructor.
  destruct (c_string_text s) as [(t & E & H)|[E H]]; [rewrite E at 1|rewrite <- E]; constructor; assumption.
Qed.

Lemma digit_code d : (d < 16)%N -> N_of_ascii (digit d) = (if d <? 10 then 48 + d else 87 + d)%N.
Proof.
  intros H. unfold digit, chr. destruct (N.ltb_spec d 10); rewrite N_ascii_embedding by lia; reflexivity.
Qed.

Lemma digits_are base n c : (2 <= base <= 16)%N -> In c (notation base n) -> (48 <= N_of_ascii c < 58 \/ 97 <= N_of_ascii c < 103)%N.
Proof.
  intros HB H. pose proof (notation_digits base n HB) as D. rewrite Forall_forall in D. destruct (D _ H) as (d & Hd & ->).
  rewrite digit_code by lia. destruct (N.ltb_spec d 10); lia.
Qed.

Lemma digits_plain base n c : (2 <= base <= 16)%N -> In c (notation base n) -> c <> TAB /\ c <> "\"%char.
Proof.
  intros HB H. apply digits_are in H; [|exact HB].
  split; intros ->; cbv in H; intuition congruence.
Qed.

Lemma plain_sdec z : plain_text (sdec z).
Proof.
  assert (D : forall n, plain_text (dec n)) by (intros n; split; intros H; apply digits_plain in H; [tauto|lia|tauto|lia]).
  destruct z; cbn [sdec]; try apply D. split; intros [H|H]; try discriminate; apply digits_plain in H; try lia; tauto.
Qed.

Lemma plain_dec n : plain_text (dec n).
Proof. split; intros H; apply digits_plain in H; try lia; tauto. Qed.

Lemma shown_fun calls l : forall a b, shown calls l a -> shown calls l b -> a = b.
Proof.
  induction l as [|[n v] l IH]; intros a b Ha Hb; inversion Ha; subst; inversion Hb; subst; try contradiction; auto.
  - f_equal; auto.
Qed.

Lemma shown_total calls l : exists s, shown calls l s.
Proof.
  induction l as [|[n v] l [s IH]]; [exists []; constructor|].
  destruct (build_get calls n) as (_ & _ & _ & M). destruct (set_has n (d_removed (build calls))) eqn:E.
  - exists s. constructor; [apply M; reflexivity|exact IH].
  - exists ((new_name calls n, v) :: s). constructor; [|exact IH]. intros X. apply M in X. discriminate.
Qed.

Lemma shown_one calls n v a : ~ removed calls n -> new_name calls n = n -> shown calls [(n, v)] a -> a = [(n, v)].
Proof. intros H E S. inversion S as [|? ? ? ? Hr Hs|? ? ? ? Hr Hs]; subst; [contradiction|]. inversion Hs; subst. congruence. Qed.

Lemma raws_reads calls cs : forall l, shown calls cs l -> Forall (fun f => plain_key (fst f)) l ->
  (forall n v, In (n, v) cs -> ~ removed calls n -> plain_text v) ->
  reads (flat_map (fun kv => add_raw (build calls) (fst kv) (snd kv)) cs) l.
Proof.
  induction cs as [|[n v] cs IH]; intros l S F P; [inversion S; subst; apply reads_nil|].
  change ((n, v) :: cs) with ([(n, v)] ++ cs) in S. apply shown_app in S as (l1 & l2 & -> & S1 & S2).
  apply Forall_app in F as [F1 F2]. cbn [flat_map fst snd]. apply reads_app.
  - apply add_raw_reads; [exact S1|exact F1|]. apply P. left. reflexivity.
  - apply IH; [exact S2|exact F2|]. intros. eapply P; [right; eassumption|assumption].
Qed.

Lemma views_reads calls cs : forall l, shown calls cs l -> Forall (fun f => plain_key (fst f)) l ->
  reads (flat_map (fun kv => add_view (build calls) (fst kv) (snd kv)) cs) l.
Proof.
  induction cs as [|[n v] cs IH]; intros l S F; [inversion S; subst; apply reads_nil|].
  change ((n, v) :: cs) with ([(n, v)] ++ cs) in S. apply shown_app in S as (l1 & l2 & -> & S1 & S2).
  apply Forall_app in F as [F1 F2]. cbn [flat_map fst snd]. apply reads_app; [apply add_view_reads|apply IH]; assumption.
Qed.

Lemma flat_map_map' {A B C} (f : B -> list C) (g : A -> B) l : flat_map f (map g l) = flat_map (fun x => f (g x)) l.
Proof. induction l as [|x l IH]; [reflexivity|]. cbn. rewrite IH. reflexivity. Qed.

Lemma attrs_views dbl d pack : forall attrs,
  Forall2 (fun a f => fst a = fst f /\ value_text dbl (snd a) (snd f)) (concat pack) attrs ->
  flat_map (flat_map (fun kv => add_view d (fst kv) (render dbl (snd kv)))) pack =
  flat_map (fun kv => add_view d (fst kv) (snd kv)) attrs.
Proof.
  intros attrs H.
  assert (E : flat_map (flat_map (fun kv => add_view d (fst kv) (render dbl (snd kv)))) pack =
              flat_map (fun kv => add_view d (fst kv) (render dbl (snd kv))) (concat pack)).
  { clear H. induction pack as [|l pack IH]; [reflexivity|]. cbn [concat flat_map]. rewrite flat_map_app, IH. reflexivity. }
  rewrite E. clear E. induction H as [|a f la lf [E T] H IH]; [reflexivity|].
  cbn [flat_map]. rewrite IH, E, (render_text _ _ _ T). reflexivity.
Qed.

(** Everything but the tid goes through [add]. *)
Lemma line_reads dbl stamp pid calls r cs ts attrs s1 s2 :
  lists (constant calls) cs -> lists (stamp_of calls) ts ->
  Forall2 (fun a f => fst a = fst f /\ value_text dbl (snd a) (snd f)) (concat (r_attributes r)) attrs ->
  shown calls (cs ++ map (fun t => (fst t, stamp (fst (snd t)) (snd (snd t)))) ts ++
               [(B "severity", sdec (r_severity r)); (B "pid", dec pid)]) s1 ->
  shown calls ((B "message", r_formatted r) :: attrs) s2 ->
  Forall (fun f => plain_key (fst f)) (s1 ++ s2) ->
  (forall n v, constant calls n = Some v -> ~ removed calls n -> plain_text v) ->
  read_line (format dbl stamp pid (build calls) r) = Some (B "tskv", s1 ++ (B "tid", B "0x" ++ hex (r_tid r)) :: s2).
Proof.
  intros Lc Lt A S1 S2 F P. destruct (builder_lemma calls) as [Bc Bt].
  pose proof (lists_unique _ _ _ Lc Bc) as Ec. pose proof (lists_unique _ _ _ Lt Bt) as Et.
  unfold format, add_constants, add_timestamps, add_attributes. rewrite <- Ec, <- Et, (attrs_views _ _ _ _ A).
  apply Forall_app in F as [F1 F2].
  apply shown_app in S1 as (c & s1' & -> & Sc & S1). apply shown_app in S1 as (t & b & -> & St & S1).
  apply Forall_app in F1 as [Fc F1]. apply Forall_app in F1 as [Ft Fb].
  change [(B "severity", sdec (r_severity r)); (B "pid", dec pid)] with
    ([(B "severity", sdec (r_severity r))] ++ [(B "pid", dec pid)]) in S1.
  apply shown_app in S1 as (sv & pd & -> & Ssv & Spd). apply Forall_app in Fb as [Fsv Fpd].
  change ((B "message", r_formatted r) :: attrs) with ([(B "message", r_formatted r)] ++ attrs) in S2.
  apply shown_app in S2 as (m & at_ & -> & Sm & Sat). apply Forall_app in F2 as [Fm Fat].
  rewrite <- !app_assoc. apply read_line_reads; [cbv; intuition discriminate|].
  apply reads_app. { apply raws_reads; [exact Sc|exact Fc|]. intros n v H. apply P. apply Lc. exact H. }
  apply reads_app.
  { rewrite <- (flat_map_map' (fun kv => add_view (build calls) (fst kv) (snd kv))
      (fun t => (fst t, stamp (fst (snd t)) (snd (snd t))))). apply views_reads; assumption. }
  apply reads_app. { apply add_raw_reads; [exact Ssv|exact Fsv|]. intros _. apply plain_sdec. }
  apply reads_app. { apply add_raw_reads; [exact Spd|exact Fpd|]. intros _. apply plain_dec. }
  change ((B "tid", B "0x" ++ hex (r_tid r)) :: m ++ at_) with ([(B "tid", B "0x" ++ hex (r_tid r))] ++ m ++ at_).
  apply reads_app.
  { unfold add_tid. change (TAB :: B "tid=0x" ++ hex (r_tid r)) with (TAB :: write_escaped_key (B "tid") ++ "="%char :: B "0x" ++ hex (r_tid r)).
    apply reads_field.
    - split; [cbv; intuition discriminate|]. intros p E. apply (f_equal (@rev ascii)) in E. rewrite rev_app_distr in E. discriminate.
    - intros H. apply in_app_iff in H as [H|H]; [cbv in H; intuition discriminate|]. apply digits_plain in H; [tauto|lia].
    - apply unescape_plain. intros H. apply in_app_iff in H as [H|H]; [cbv in H; intuition discriminate|]. apply digits_plain in H; [tauto|lia]. }
  apply reads_app; [apply add_view_reads|apply views_reads]; assumption.
Qed.

Lemma parse_back_lemma dbl stamp pid calls r cs ts all fields :
  lists (constant calls) cs -> lists (stamp_of calls) ts ->
  raw_fields dbl stamp pid cs ts r all -> shown calls all fields ->
  ~ removed calls (B "tid") -> new_name calls (B "tid") = B "tid" ->
  Forall (fun f => plain_key (fst f)) fields ->
  (forall n v, constant calls n = Some v -> ~ removed calls n -> plain_text v) ->
  read_line (format dbl stamp pid (build calls) r) = Some (B "tskv", fields).
Proof.
  intros Lc Lt R S Nt Et F P. destruct R as [attrs A].
  rewrite app_assoc in S. 
  change ([(B "severity", sdec (r_severity r)); (B "pid", dec pid); (B "tid", B "0x" ++ hex (r_tid r)); (B "message", r_formatted r)] ++ attrs)
    with ([(B "severity", sdec (r_severity r)); (B "pid", dec pid)] ++ [(B "tid", B "0x" ++ hex (r_tid r))] ++ (B "message", r_formatted r) :: attrs) in S.
  rewrite app_assoc in S. apply shown_app in S as (s1 & s' & -> & S1 & S). apply shown_app in S as (t & s2 & -> & St & S2).
  rewrite <- app_assoc in S1. apply (shown_one _ _ _ _ Nt Et) in St as ->.
  apply Forall_app in F as [F1 F]. apply Forall_app in F as [_ F2].
  eapply line_reads; try eassumption. apply Forall_app. auto.
Qed.

Lemma tid_always_lemma dbl stamp pid calls r cs ts all fields :
  lists (constant calls) cs -> lists (stamp_of calls) ts ->
  raw_fields dbl stamp pid cs ts r all -> shown calls all fields ->
  Forall (fun f => plain_key (fst f)) fields ->
  (forall n v, constant calls n = Some v -> ~ removed calls n -> plain_text v) ->
  exists l, read_line (format dbl stamp pid (build calls) r) = Some (B "tskv", l) /\ In (B "tid", B "0x" ++ hex (r_tid r)) l.
Proof.
  intros Lc Lt R S F P. destruct R as [attrs A].
  rewrite app_assoc in S. 
  change ([(B "severity", sdec (r_severity r)); (B "pid", dec pid); (B "tid", B "0x" ++ hex (r_tid r)); (B "message", r_formatted r)] ++ attrs)
    with ([(B "severity", sdec (r_severity r)); (B "pid", dec pid)] ++ [(B "tid", B "0x" ++ hex (r_tid r))] ++ (B "message", r_formatted r) :: attrs) in S.
  rewrite app_assoc in S. apply shown_app in S as (s1 & s' & -> & S1 & S). apply shown_app in S as (t & s2 & -> & St & S2).
  rewrite <- app_assoc in S1.
  apply Forall_app in F as [F1 F]. apply Forall_app in F as [_ F2].
  eexists. split; [eapply line_reads; try eassumption; apply Forall_app; auto|]. apply in_elt.
Qed.

(** ** One line *)

Lemma in_escaped c v : In (N_of_ascii c) unsafe_codes -> ~ In c (write_escaped_val v).
Proof. intros H X. exact (escape_safe_lemma v c X H). Qed.

Lemma digits_no_nl base n : (2 <= base <= 16)%N -> ~ In NL (notation base n).
Proof.
  intros HB H. apply digits_are in H; [|exact HB]. cbv in H. intuition congruence.
Qed.

Lemma sdec_no_nl z : ~ In NL (sdec z).
Proof. destruct z; cbn [sdec]; [| |intros [H|H]; [discriminate|revert H]]; apply digits_no_nl; lia. Qed.

Lemma no_nl_lemma dbl stamp pid calls r :
  (forall n, ~ removed calls n -> In NL (new_name calls n) -> constant calls n = None /\ stamp_of calls n = None /\
     ~ In n [B "severity"; B "pid"; B "message"] /\ ~ In n (map fst (concat (r_attributes r)))) ->
  (forall n v, constant calls n = Some v -> ~ removed calls n -> ~ In NL v) ->
  ~ In NL (format dbl stamp pid (build calls) r).
Proof.
  intros K P. destruct (builder_lemma calls) as [[_ Bc] [_ Bt]].
  assert (AR : forall n v, (~ removed calls n -> ~ In NL (new_name calls n) /\ ~ In NL v) -> ~ In NL (add_raw (build calls) n v)).
  { intros n v H. unfold add_raw, add_key. destruct (build_get calls n) as (_ & _ & R & M). rewrite R.
    destruct (set_has n (d_removed (build calls))); [intros []|].
    assert (Hr : ~ removed calls n) by (intros X; apply M in X; discriminate). destruct (H Hr) as [H1 H2].
    intros X. apply in_app_iff in X as [[X|X]|X]; [discriminate| |destruct X as [X|X]; [discriminate|contradiction]].
    apply key_chars in X as [X|[X _]]; [contradiction|discriminate]. }
  assert (AV : forall n v, (~ removed calls n -> ~ In NL (new_name calls n)) -> ~ In NL (add_view (build calls) n v)).
  { intros n v H. change (add_view (build calls) n v) with (add_raw (build calls) n (write_escaped_val v)).
    apply AR. intros Hr. split; [auto|]. apply in_escaped. cbv. tauto. }
  unfold format. intros H.
  repeat (apply in_app_iff in H as [H|H]; [|]).
  - cbv in H. intuition discriminate.
  - apply in_flat_map in H as ([n v] & Hn & H). revert H. apply AR. intros Hr. apply Bc in Hn. split; [|eapply P; eassumption].
    intros X. apply K in X; [|exact Hr]. destruct X as [X _]. cbn [fst] in X. congruence.
  - apply in_flat_map in H as ([n v] & Hn & H). revert H. apply AV. intros Hr X. apply K in X; [|exact Hr]. apply Bt in Hn. cbn [fst] in X. destruct X as (_ & X & _). congruence.
  - revert H. apply AR. intros Hr. split; [|apply sdec_no_nl]. intros X. apply K in X; [|exact Hr]. destruct X as (_ & _ & X & _). apply X. left. reflexivity.
  - revert H. apply AR. intros Hr. split; [|apply digits_no_nl; lia]. intros X. apply K in X; [|exact Hr]. destruct X as (_ & _ & X & _). apply X. right. left. reflexivity.
  - destruct H as [H|H]; [discriminate|]. apply in_app_iff in H as [H|H]; [cbv in H; intuition discriminate|].
    revert H. apply digits_no_nl. lia.
  - revert H. apply AV. intros Hr X. apply K in X; [|exact Hr]. destruct X as (_ & _ & X & _). apply X. right. right. left. reflexivity.
  - apply in_flat_map in H as (l & Hl & H). apply in_flat_map in H as ([n v] & Hn & H). revert H. apply AV. intros Hr X. apply K in X; [|exact Hr]. destruct X as (_ & _ & _ & X). apply X.
    apply (in_map fst _ (n, v)). apply in_concat. exists l. auto.
Qed.

(** ** Removal and renaming *)

Lemma shown_keys calls all fields n : shown calls all fields -> In n (map fst fields) ->
  exists m, In m (map fst all) /\ ~ removed calls m /\ new_name calls m = n.
Proof.
  induction 1 as [|m v all rest Hr S IH|m v all rest Hr S IH]; cbn [map fst]; [intros []| |].
  - intros H. destruct (IH H) as (m' & H1 & H2). exists m'. split; [right; exact H1|exact H2].
  - intros [H|H]; [exists m; repeat split; [left; reflexivity|exact Hr|exact H]|].
    destruct (IH H) as (m' & H1 & H2). exists m'. split; [right; exact H1|exact H2].
Qed.

Lemma absent_lemma dbl stamp pid calls r cs ts all fields n h l :
  lists (constant calls) cs -> lists (stamp_of calls) ts ->
  raw_fields dbl stamp pid cs ts r all -> shown calls all fields ->
  Forall (fun f => plain_key (fst f)) fields ->
  (forall n v, constant calls n = Some v -> ~ removed calls n -> plain_text v) ->
  removed calls n \/ new_name calls n <> n ->
  n <> B "tid" -> (forall m, In m (map fst all) -> new_name calls m = n -> m = n) ->
  read_line (format dbl stamp pid (build calls) r) = Some (h, l) -> ~ In n (map fst l).
Proof.
  intros Lc Lt R S F P Hn Ht Hu E. destruct R as [attrs A].
  rewrite app_assoc in S, Hu.
  change ([(B "severity", sdec (r_severity r)); (B "pid", dec pid); (B "tid", B "0x" ++ hex (r_tid r)); (B "message", r_formatted r)] ++ attrs)
    with ([(B "severity", sdec (r_severity r)); (B "pid", dec pid)] ++ [(B "tid", B "0x" ++ hex (r_tid r))] ++ (B "message", r_formatted r) :: attrs) in S, Hu.
  rewrite app_assoc in S, Hu. apply shown_app in S as (s1 & s' & -> & S1 & S). apply shown_app in S as (t & s2 & -> & St & S2).
  apply Forall_app in F as [F1 F]. apply Forall_app in F as [_ F2].
  assert (Hk : forall m, ~ removed calls m -> new_name calls m = n -> m <> n).
  { intros m Hm En X. subst m. destruct Hn as [Hn|Hn]; contradiction. }
  rewrite (line_reads dbl stamp pid calls r cs ts attrs s1 s2) in E; try assumption; [| |apply Forall_app; auto].
  2:{ rewrite <- app_assoc in S1. exact S1. }
  injection E as <- <-. rewrite map_app. cbn [map fst]. intros H. apply in_app_iff in H as [H|[H|H]].
  - destruct (shown_keys _ _ _ _ S1 H) as (m & Hm & Hr & En). apply (Hk m Hr En). apply Hu; [|exact En].
    rewrite map_app. apply in_app_iff. left. exact Hm.
  - destruct (Ht (eq_sym H)).
  - destruct (shown_keys _ _ _ _ S2 H) as (m & Hm & Hr & En). apply (Hk m Hr En). apply Hu; [|exact En].
    rewrite !map_app. apply in_app_iff. right. right. exact Hm.
Qed.
