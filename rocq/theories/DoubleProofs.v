From Verif Require Import Base FmtModel FmtSpec FmtProofs FmtSubProofs MembufModel MembufSpec MembufProofs DoubleModel DoubleSpec.
Open Scope N_scope.

(** ---- lists of cells ---- *)

Lemma stored_len s : length_N (stored s) = length_N s.
Proof. unfold length_N, stored. rewrite map_length. reflexivity. Qed.
Lemma stored_app s t : stored (s ++ t) = stored s ++ stored t.
Proof. apply map_app. Qed.
Lemma to_nat_len {A} (l : list A) : N.to_nat (length_N l) = length l.
Proof. unfold length_N. lia. Qed.
Lemma len_length {A} (l : list A) : N.of_nat (length l) = length_N l.
Proof. reflexivity. Qed.

Lemma store_at p old q s i : i = length_N p -> length_N old = length_N s -> store (p ++ old ++ q) i s = Some (p ++ s ++ q).
Proof.
  intros -> L. unfold store. rewrite !len_app. rewrite (proj2 (N.leb_le _ _)) by lia. f_equal. rewrite to_nat_len.
  rewrite firstn_app, firstn_all, Nat.sub_diag. cbn [firstn]. rewrite app_nil_r. f_equal. f_equal.
  rewrite skipn_app, skipn_all2 by lia. cbn [app]. replace (length p + length s - length p)%nat with (length s) by lia.
  replace (length s) with (length old) by (unfold length_N in L; lia). rewrite skipn_app, skipn_all, Nat.sub_diag. reflexivity.
Qed.
Lemma load_at p s q i j : i = length_N p -> j = i + length_N s -> load (p ++ s ++ q) i j = Some s.
Proof.
  intros -> ->. unfold load. rewrite !len_app. rewrite (proj2 (N.leb_le _ _)), (proj2 (N.leb_le _ _)) by lia. cbn [andb]. f_equal.
  rewrite to_nat_len. replace (length_N p + length_N s - length_N p) with (length_N s) by lia. rewrite to_nat_len.
  rewrite skipn_app, skipn_all, Nat.sub_diag. cbn [app skipn]. rewrite firstn_app, firstn_all, Nat.sub_diag. cbn [firstn]. apply app_nil_r.
Qed.
Lemma get_at b p c q i : array b = p ++ Some c :: q -> i = length_N p -> get_cell b i = Some c.
Proof.
  intros E ->. unfold get_cell. rewrite E, to_nat_len, nth_error_app2, Nat.sub_diag by lia. reflexivity.
Qed.
Lemma put_at b p old q s i : array b = p ++ old ++ q -> i = length_N p -> length_N old = length_N s ->
  put_cells b i s = Done (set_array b (p ++ s ++ q)).
Proof. intros E H L. unfold put_cells. rewrite E, (store_at _ _ _ _ _ H L). reflexivity. Qed.

Lemma set_twice b x y : set_array (set_array b x) y = set_array b y.
Proof. unfold set_array. destruct (b_heap b) eqn:E; cbn; reflexivity. Qed.

Lemma refill_ok fill d q : d <> " "%char -> forall m fuel b p, (m < fuel)%nat -> array b = p ++ stored (repeat " "%char m) ++ Some d :: q ->
  refill fuel b (length_N p) fill = Done (set_array b (p ++ stored (repeat fill m) ++ Some d :: q), length_N p + N.of_nat m).
Proof.
  intros D. induction m as [|m IH]; intros fuel b p F E; destruct fuel as [|fuel]; try lia; cbn [refill].
  - cbn [repeat stored map app] in *. rewrite (get_at b p d q (length_N p)) by (try reflexivity; exact E).
    destruct (Ascii.eqb_spec d " "); [contradiction|]. f_equal. f_equal; [|lia].
    unfold set_array. rewrite <- E. destruct b as [h da sz ca]. unfold array. cbn [b_heap b_data b_size b_capacity]. destruct h; reflexivity.
  - cbn [repeat stored map app] in *. fold (stored (repeat " "%char m)) in E. fold (stored (repeat fill m)).
    rewrite (get_at b p " "%char _ (length_N p) E eq_refl). rewrite Ascii.eqb_refl.
    rewrite (put_at b p [Some " "%char] (stored (repeat " "%char m) ++ Some d :: q) [Some fill] (length_N p) E eq_refl eq_refl).
    set (b1 := set_array b (p ++ [Some fill] ++ stored (repeat " "%char m) ++ Some d :: q)).
    assert (A1 : array b1 = (p ++ [Some fill]) ++ stored (repeat " "%char m) ++ Some d :: q) by (unfold b1; rewrite array_set, <- app_assoc; reflexivity).
    replace (length_N p + 1) with (length_N (p ++ [Some fill])) by (rewrite len_app; reflexivity).
    rewrite (IH fuel b1 (p ++ [Some fill]) ltac:(lia) A1). f_equal. unfold b1. rewrite set_twice. rewrite <- app_assoc. f_equal.
    rewrite len_app. change (length_N [Some fill]) with 1. lia.
Qed.

(** ---- snprintf ---- *)

Section Library.
Variable digits : bool -> option N -> ascii -> N -> option bytes.
Hypothesis SANE : sane digits.

(** What is asked of the C library for a specification with a width that is left. *)
Definition padded (sp : spec) (width : N) (body : bytes) : bytes :=
  let padding := repeat " "%char (N.to_nat (width - length_N body)) in
  match sp_align sp with ACenter => body | ALeft => body ++ padding | _ => padding ++ body end.
Definition outcome_of (t : bytes) : option bytes := if INT_MAX <? length_N t then None else Some t.

Lemma flag_yes c f : flag c (c :: f) = (true, f).
Proof. unfold flag. rewrite Ascii.eqb_refl. reflexivity. Qed.
Lemma flag_no c d f : d <> c -> flag c (d :: f) = (false, d :: f).
Proof. intros H. unfold flag. destruct (Ascii.eqb_spec d c); [contradiction|reflexivity]. Qed.

Definition plain_letter (type : ascii) : Prop :=
  type <> "%"%char /\ type <> "#"%char /\ type <> "-"%char /\ type <> "*"%char /\ type <> "."%char.

Lemma converted_ok sp width type bits : plain_letter type ->
  converted digits (format_string sp width type) (format_arguments sp width) bits
  = Some (match digits (sp_hash sp) (sp_precision sp) type bits with None => None | Some body => outcome_of (padded sp width body) end).
Proof.
  intros (T1 & T2 & T3 & T4 & T5). unfold converted, format_string, format_arguments, padded, outcome_of.
  destruct sp as [w fi al sg pl mi hs pr ty]. cbn [sp_width sp_fill sp_align sp_sign sp_plus sp_minus sp_hash sp_precision sp_type].
  destruct hs, al, pr as [q|]; rewrite ?N.eqb_refl; destruct (N.eqb_spec width 0) as [->|W0]; cbn [app B list_ascii_of_string];
  repeat first [rewrite flag_yes | rewrite flag_no by first [assumption|congruence|discriminate] | progress cbn iota beta zeta];
  destruct (digits _ _ _ _) as [s|]; cbn [repeat app]; rewrite ?N.sub_0_l; cbn [N.to_nat repeat app]; rewrite ?app_nil_r; reflexivity.
Qed.

(** ---- a number in the buffer ---- *)

Section Ops.
Variables (lenient : bool) (gr : buf -> N -> outcome buf) (inv : buf -> Prop).
Hypothesis inv_base : forall b, inv b -> length_N (array b) = b_capacity b /\ b_size b <= b_capacity b /\ b_capacity b < 2 ^ 63.
Hypothesis inv_update : forall b cs n, inv b -> length_N cs = length_N (array b) -> n <= b_capacity b -> inv (set_size (set_array b cs) n).
Hypothesis inv_size : forall b n, inv b -> n <= b_capacity b -> inv (set_size b n).
Hypothesis inv_array : forall b cs, inv b -> length_N cs = length_N (array b) -> inv (set_array b cs).
Hypothesis grow_ok : forall b n, inv b -> b_capacity b < n -> n < 2 ^ 64 ->
  match gr b n with
  | Done b' => inv b' /\ contents b' = contents b /\ b_size b' = b_size b /\ n <= b_capacity b' /\ (b_heap b = None -> b_data b' = b_data b)
  | Thrown b' => b' = b
  | Bad => False
  end.

Lemma wrap_small n : n < 2 ^ 64 -> wrap64 n = n.
Proof. intros H. unfold wrap64, two64. apply N.mod_small. exact H. Qed.

(** Growing within the capacity. *)
Lemma grow_buffer_in b n : inv b -> b_size b + n <= b_capacity b -> grow_buffer gr b n = Done (set_size b (b_size b + n)).
Proof.
  intros V H. destruct (inv_base b V) as (A1 & A2 & A3). unfold grow_buffer, resize. rewrite wrap_small by lia.
  destruct (N.ltb_spec (b_capacity b) (b_size b + n)); [lia|reflexivity].
Qed.

Lemma contents_split b c : inv b -> contents b = Some c -> exists rest, array b = c ++ rest /\ length_N c = b_size b.
Proof.
  intros V C. destruct (contents_inv inv inv_base b c V C) as [E L]. exists (skipn (N.to_nat (b_size b)) (array b)).
  split; [|exact L]. rewrite E. symmetry. apply firstn_skipn.
Qed.
Lemma split_contents b c rest n : array b = c ++ rest -> length_N c = n -> contents (set_size b n) = Some c.
Proof.
  intros E L. unfold contents. rewrite array_size. change (b_size (set_size b n)) with n. rewrite E.
  apply (load_at [] c rest 0 n eq_refl). lia.
Qed.

(** The end of a number that is not centred: the array holds [c ++ out], and the size is set. *)
Lemma settle b c out rest : inv b -> length_N c = b_size b -> length_N (c ++ stored out ++ rest) = b_capacity b ->
  exists b', grow_buffer gr (set_array b (c ++ stored out ++ rest)) (length_N out) = Done b' /\ inv b'
    /\ contents b' = Some (c ++ stored out) /\ b_capacity b' = b_capacity b /\ b_size b' = b_size b + length_N out.
Proof.
  intros V L LA. destruct (inv_base b V) as (A1 & A2 & A3).
  set (b1 := set_array b (c ++ stored out ++ rest)).
  assert (V1 : inv b1) by (apply inv_array; [exact V|congruence]).
  rewrite !len_app, stored_len in LA.
  assert (SZ : b_size b1 = b_size b) by apply size_set. assert (CP : b_capacity b1 = b_capacity b) by apply capacity_set.
  exists (set_size b1 (b_size b1 + length_N out)). split; [apply grow_buffer_in; [exact V1|lia]|]. split; [apply inv_size; [exact V1|lia]|].
  split; [|split; [exact CP|rewrite SZ; reflexivity]].
  apply split_contents with (rest := rest); [unfold b1; rewrite array_set, <- app_assoc; reflexivity|rewrite len_app, stored_len; lia].
Qed.

Lemma lay_app (c : cells) a b rest : c ++ stored (a ++ b) ++ rest = (c ++ stored a) ++ stored b ++ rest.
Proof. rewrite stored_app, <- !app_assoc. reflexivity. Qed.

(** What [finish] makes of the text of snprintf for a body that does not begin with a space. *)
Definition sign_text (sign : option ascii) : bytes := match sign with Some s => [s] | None => [] end.
Definition laid_out (sp : spec) (sign : option ascii) (width : N) (body : bytes) : bytes :=
  let m := N.to_nat (width - length_N body) in
  match sp_align sp with
  | ALeft => sign_text sign ++ body ++ repeat " "%char m
  | ANumeric => sign_text sign ++ repeat (sp_fill sp) m ++ body
  | ACenter => sign_text sign ++ body
  | _ => repeat (sp_fill sp) m ++ sign_text sign ++ body
  end.

Lemma padded_length sp width body : length_N (padded sp width body) = match sp_align sp with ACenter => length_N body | _ => N.max width (length_N body) end.
Proof. unfold padded. cbv zeta. destruct (sp_align sp); rewrite ?len_app, ?len_repeat; lia. Qed.

Lemma refill_full b p m d q fill offset : array b = p ++ stored (repeat " "%char m) ++ Some d :: q -> d <> " "%char -> offset = length_N p ->
  refill (S (length (array b))) b offset fill = Done (set_array b (p ++ stored (repeat fill m) ++ Some d :: q), offset + N.of_nat m).
Proof.
  intros E D ->. apply refill_ok; [exact D| |exact E]. rewrite E, !app_length. unfold stored. rewrite map_length, repeat_length. lia.
Qed.

Lemma hd_repeat m (d : ascii) u : d <> " "%char -> hd NUL (repeat " "%char m ++ d :: u) = " "%char <-> m <> O.
Proof. intros D. destruct m; cbn; [split; congruence|split; congruence]. Qed.

(** The spaces in front become fill characters; a sign that waits goes to the last of them. *)
Definition refilled (b : buf) (offset : N) (fill : ascii) (sign : option ascii) : outcome buf :=
  if negb (Ascii.eqb fill " ") || (match sign with Some _ => true | None => false end) then
    match refill (S (length (array b))) b offset fill with
    | Done (b, i) => match sign with Some c => put_cells b (i - 1) [Some c] | None => Done b end
    | _ => Bad
    end
  else Done b.

Lemma set_same b cs : array b = cs -> set_array b cs = b.
Proof. intros <-. unfold set_array. destruct b as [h da sz ca]. unfold array. cbn [b_heap b_data b_size b_capacity]. destruct h; reflexivity. Qed.

Lemma refilled_none b p m d u rest fill offset : array b = p ++ stored (repeat " "%char m ++ d :: u) ++ rest -> d <> " "%char -> offset = length_N p ->
  refilled b offset fill None = Done (set_array b (p ++ stored (repeat fill m ++ d :: u) ++ rest)).
Proof.
  intros E D O. unfold refilled. rewrite orb_false_r. destruct (Ascii.eqb_spec fill " ") as [->|F]; cbn [negb].
  - rewrite set_same by exact E. reflexivity.
  - rewrite stored_app, <- app_assoc in E. cbn [stored map app] in E. fold (stored u) in E.
    rewrite (refill_full b p m d (stored u ++ rest) fill offset E D O). rewrite stored_app, <- app_assoc. reflexivity.
Qed.
Lemma repeat_snoc {A} (x : A) m : repeat x (S m) = repeat x m ++ [x].
Proof. replace (S m) with (m + 1)%nat by lia. rewrite repeat_app. reflexivity. Qed.
Lemma refilled_some b p m d u rest fill s offset : array b = p ++ stored (repeat " "%char (S m) ++ d :: u) ++ rest -> d <> " "%char -> offset = length_N p ->
  refilled b offset fill (Some s) = Done (set_array b (p ++ stored (repeat fill m ++ s :: d :: u) ++ rest)).
Proof.
  intros E D O. unfold refilled. rewrite orb_true_r.
  rewrite stored_app, <- app_assoc in E. cbn [stored map app] in E. fold (stored u) in E.
  rewrite (refill_full b p (S m) d (stored u ++ rest) fill offset E D O).
  rewrite (put_at _ (p ++ stored (repeat fill m)) [Some fill] (Some d :: stored u ++ rest)).
  - rewrite set_twice. rewrite stored_app, <- !app_assoc. reflexivity.
  - rewrite array_set, repeat_snoc, stored_app, <- !app_assoc. reflexivity.
  - rewrite len_app, stored_len, <- O. unfold length_N. rewrite repeat_length. lia.
  - reflexivity.
Qed.

Lemma padded_split sp width d u : exists m v, padded sp width (d :: u) = repeat " "%char m ++ d :: v
  /\ laid_out sp None width (d :: u) = (match sp_align sp with ALeft | ACenter => [] | _ => repeat (sp_fill sp) m end) ++ d :: v
  /\ (match sp_align sp with ALeft | ACenter => m = O | _ => True end)
  /\ forall s, laid_out sp (Some s) width (d :: u)
       = match sp_align sp with ALeft | ACenter => s :: d :: v | ANumeric => s :: repeat (sp_fill sp) m ++ d :: v | _ => repeat (sp_fill sp) m ++ s :: d :: v end.
Proof.
  unfold padded, laid_out. cbv zeta. set (k := N.to_nat (width - length_N (d :: u))).
  destruct (sp_align sp); cbn [sign_text app].
  - exists O, (u ++ repeat " "%char k). repeat split.
  - exists k, u. repeat split.
  - exists k, u. repeat split.
  - exists O, u. repeat split.
  - exists k, u. repeat split.
Qed.

Lemma finish_ok b sp sign c lead width body rest : inv b -> length_N c = b_size b ->
  array b = c ++ lead ++ stored (padded sp width body) ++ rest -> length_N lead = length_N (sign_text sign) ->
  body <> [] -> hd NUL body <> " "%char ->
  (sp_align sp = ACenter -> sp_width sp <= length_N (sign_text sign) + length_N body) ->
  exists b', finish lenient gr b sp sign (b_size b + length_N lead) (length_N (padded sp width body)) = Done b' /\ inv b'
    /\ contents b' = Some (c ++ stored (laid_out sp sign width body)) /\ b_capacity b' = b_capacity b
    /\ b_size b' = b_size b + length_N (laid_out sp sign width body).
Proof.
  intros V L E LL NE HD CE. destruct body as [|d u]; [congruence|]. cbn [hd] in HD. clear NE.
  destruct (inv_base b V) as (A1 & A2 & A3).
  assert (CL : forall n : N, n = length_N (sign_text sign) + length_N (padded sp width (d :: u)) -> ((match sp_align sp with ACenter => true | _ => false end) && (n <? sp_width sp)) = false).
  { intros n ->. rewrite padded_length. destruct (sp_align sp); try reflexivity. specialize (CE eq_refl). cbn [andb].
    destruct (N.ltb_spec (length_N (sign_text sign) + length_N (d :: u)) (sp_width sp)); [lia|reflexivity]. }
  assert (SETTLE : forall b1 out rest' n, b1 = set_array b (c ++ stored out ++ rest') -> n = length_N out ->
     length_N (c ++ stored out ++ rest') = length_N (array b) ->
     exists b', grow_buffer gr b1 n = Done b' /\ inv b'
    /\ contents b' = Some (c ++ stored out) /\ b_capacity b' = b_capacity b /\ b_size b' = b_size b + length_N out).
  { intros b1 out rest' n -> -> H. apply settle; [assumption|assumption|congruence]. }
  destruct (padded_split sp width d u) as (m & v & EP & E0 & EM & E1). rewrite EP in *.
  assert (LP : forall w : ascii, length_N (repeat w m ++ d :: v) = length_N (repeat " "%char m ++ d :: v)).
  { intros w. rewrite !len_app. unfold length_N. rewrite !repeat_length. reflexivity. }
  unfold finish. cbv zeta. fold (refilled b). destruct sign as [s|]; cbn [sign_text] in *.
  - destruct lead as [|x [|y lead]]; [discriminate| |unfold length_N in LL; cbn in LL; lia]. clear LL. change (length_N [x]) with 1.
    change (length_N [s]) with 1 in *.
    assert (EX : array b = (c ++ [x]) ++ stored (repeat " "%char m ++ d :: v) ++ rest) by (rewrite E, <- app_assoc; reflexivity).
    assert (O : b_size b + 1 = length_N (c ++ [x])) by (rewrite len_app, L; reflexivity).
    assert (G : get_cell b (b_size b + 1) = Some (hd NUL (repeat " "%char m ++ d :: v))).
    { destruct (repeat " "%char m ++ d :: v) as [|h t] eqn:R; [destruct m; discriminate|]. apply (get_at b (c ++ [x]) h (stored t ++ rest)); [exact EX|exact O]. }
    rewrite G.
    assert (PUT : forall y, put_cells b (b_size b + 1 - 1) [Some y] = Done (set_array b ((c ++ [Some y]) ++ stored (repeat " "%char m ++ d :: v) ++ rest))).
    { intros y. rewrite (put_at b c [x] (stored (repeat " "%char m ++ d :: v) ++ rest) [Some y]); [rewrite <- app_assoc; reflexivity|rewrite E; reflexivity|lia|reflexivity]. }
    assert (INS : forall y, length_N ((c ++ [Some y]) ++ stored (repeat " "%char m ++ d :: v) ++ rest) = length_N (array b)).
    { intros y. rewrite EX. rewrite !len_app. reflexivity. }
    assert (CL' := CL (length_N (repeat " "%char m ++ d :: v) + 1) (N.add_comm _ _)).
    set (inside := match sp_align sp with ARight | ADefault => Ascii.eqb (hd NUL (repeat " "%char m ++ d :: v)) " " | _ => false end).
    assert (IN : inside = true -> (sp_align sp = ARight \/ sp_align sp = ADefault) /\ exists m', m = S m').
    { unfold inside. intros H. assert (Q : Ascii.eqb (hd NUL (repeat " "%char m ++ d :: v)) " " = true /\ (sp_align sp = ARight \/ sp_align sp = ADefault)) by (destruct (sp_align sp); try discriminate; auto).
      destruct Q as [Q1 Q2]. split; [exact Q2|]. apply Ascii.eqb_eq in Q1. apply hd_repeat in Q1; [|exact HD]. destruct m as [|m']; [congruence|]. exists m'. reflexivity. }
    rewrite PUT. rewrite CL'.
    match goal with |- exists b', next ?r _ = _ /\ _ => set (R := r) end.
    destruct inside eqn:IE.
    + destruct (IN eq_refl) as (AL & m' & ->). clear IN.
      assert (ER : R = Done (set_array b (c ++ stored (sp_fill sp :: repeat (sp_fill sp) m' ++ s :: d :: v) ++ rest))).
      { unfold R. set (b1 := set_array b _). change (refilled b1 (b_size b + 1) (sp_fill sp) (Some s) = Done (set_array b (c ++ stored (sp_fill sp :: repeat (sp_fill sp) m' ++ s :: d :: v) ++ rest))).
        rewrite (refilled_some b1 (c ++ [Some (sp_fill sp)]) m' d v rest (sp_fill sp) s (b_size b + 1)).
        - unfold b1. rewrite set_twice, <- app_assoc. reflexivity.
        - unfold b1. rewrite array_set. reflexivity.
        - exact HD.
        - rewrite len_app, L. reflexivity. }
      rewrite ER. cbn [next].
      replace (laid_out sp (Some s) width (d :: u)) with (sp_fill sp :: repeat (sp_fill sp) m' ++ s :: d :: v) by (rewrite E1; destruct AL as [-> | ->]; reflexivity).
      eapply SETTLE; [reflexivity| |].
      * rewrite !len_app. unfold length_N. cbn [length]. rewrite !app_length, !repeat_length. cbn [length]. lia.
      * rewrite E. rewrite !len_app, !stored_len, !len_app. unfold length_N. cbn [length]. rewrite !app_length, !repeat_length. cbn [length]. lia.
    + assert (ER : R = Done (set_array b (c ++ stored (s :: repeat (sp_fill sp) m ++ d :: v) ++ rest))).
      { unfold R. set (b1 := set_array b _). change (refilled b1 (b_size b + 1) (sp_fill sp) None = Done (set_array b (c ++ stored (s :: repeat (sp_fill sp) m ++ d :: v) ++ rest))).
        rewrite (refilled_none b1 (c ++ [Some s]) m d v rest (sp_fill sp) (b_size b + 1)).
        - unfold b1. rewrite set_twice, <- app_assoc. reflexivity.
        - unfold b1. rewrite array_set. reflexivity.
        - exact HD.
        - rewrite len_app, L. reflexivity. }
      rewrite ER. cbn [next].
      replace (laid_out sp (Some s) width (d :: u)) with (s :: repeat (sp_fill sp) m ++ d :: v).
      2:{ rewrite E1. unfold inside in IE. destruct (sp_align sp); try (rewrite EM; reflexivity); try reflexivity;
          (destruct m as [|m']; [reflexivity|discriminate]). }
      eapply SETTLE; [reflexivity| |].
      * unfold length_N. cbn [length]. rewrite !app_length, !repeat_length. cbn [length]. lia.
      * rewrite E. rewrite !len_app, !stored_len. unfold length_N. cbn [length]. rewrite !app_length, !repeat_length. cbn [length]. lia.
  - destruct lead; [|discriminate]. cbn [app] in E. change (length_N []) with 0 in *. rewrite N.add_0_r. rewrite (CL (length_N (repeat " "%char m ++ d :: v))) by lia.
    match goal with |- exists b', next ?r _ = _ /\ _ => set (R := r) end.
    assert (ER : R = Done (set_array b (c ++ stored (repeat (sp_fill sp) m ++ d :: v) ++ rest))).
    { change (refilled b (b_size b) (sp_fill sp) None = Done (set_array b (c ++ stored (repeat (sp_fill sp) m ++ d :: v) ++ rest))).
      apply refilled_none; [exact E|exact HD|congruence]. }
    rewrite ER. cbn [next].
    replace (laid_out sp None width (d :: u)) with (repeat (sp_fill sp) m ++ d :: v)
      by (rewrite E0; destruct (sp_align sp); try reflexivity; rewrite EM; reflexivity).
    eapply SETTLE; [reflexivity| |].
    + symmetry. apply LP.
    + rewrite E. rewrite !len_app, !stored_len, LP. reflexivity.
Qed.

Lemma split_len {A} (l : list A) n : n <= length_N l -> exists x y, l = x ++ y /\ length_N x = n.
Proof. intros H. exists (firstn (N.to_nat n) l), (skipn (N.to_nat n) l). split; [symmetry; apply firstn_skipn|apply len_firstn; exact H]. Qed.
Lemma prefix_same {A} (a b c d : list A) : a ++ b = c ++ d -> length_N a = length_N c -> a = c /\ b = d.
Proof.
  intros E L. assert (L' : length a = length c) by (unfold length_N in L; lia).
  revert c L' L E. induction a as [|x a IH]; intros [|y c] L' L E; cbn in *; try lia; [auto|].
  injection E as -> E. destruct (IH c ltac:(lia) ltac:(unfold length_N; lia) E) as [-> ->]. auto.
Qed.

(** Growing by a number of places: within the capacity nothing is moved, otherwise only what is below the size. *)
Lemma grow_buffer_any b n c : inv b -> contents b = Some c -> n < 2 ^ 32 ->
  match grow_buffer gr b n with
  | Done b' => inv b' /\ b_size b' = b_size b + n /\ (exists rest, array b' = c ++ rest) /\ (b_size b + n <= b_capacity b -> b' = set_size b (b_size b + n))
  | Thrown b' => b' = b /\ b_capacity b < b_size b + n
  | Bad => False
  end.
Proof.
  intros V C H. destruct (inv_base b V) as (A1 & A2 & A3). unfold grow_buffer, resize. rewrite wrap_small by lia.
  assert (R := room gr inv grow_ok b (b_size b + n) (b_capacity b <? b_size b + n) V ltac:(lia) ltac:(apply N.ltb_lt)).
  destruct (if b_capacity b <? b_size b + n then gr b (b_size b + n) else Done b) as [b'|b'|] eqn:E; cbn [next].
  - destruct R as (V' & C' & S' & N' & _ & Q). split; [apply inv_size; assumption|]. split; [reflexivity|]. rewrite C in C'.
    destruct (contents_split b' c V' C') as (rest & R & _). split; [exists rest; exact R|].
    intros K. destruct (N.ltb_spec (b_capacity b) (b_size b + n)); [lia|]. rewrite Q by reflexivity. reflexivity.
  - exact R.
  - exact R.
Qed.

Lemma pieces_put b w c s at_ : inv b -> array b = c ++ w -> length_N c <= at_ -> at_ + length_N s <= length_N (c ++ w) ->
  exists x y z, w = x ++ y ++ z /\ length_N y = length_N s /\ length_N (c ++ x) = at_ /\ put_cells b at_ s = Done (set_array b (c ++ x ++ s ++ z)) /\ inv (set_array b (c ++ x ++ s ++ z)).
Proof.
  intros V E H1 H2. rewrite len_app in H2. destruct (split_len w (at_ - length_N c) ltac:(lia)) as (x & w' & -> & LX). rewrite len_app in H2.
  destruct (split_len w' (length_N s) ltac:(lia)) as (y & z & -> & LY). exists x, y, z. split; [reflexivity|]. split; [exact LY|].
  assert (LA : length_N (c ++ x) = at_) by (rewrite len_app; lia). split; [exact LA|]. split.
  - rewrite (put_at b (c ++ x) y z s at_); [rewrite <- app_assoc; reflexivity|rewrite E, <- !app_assoc; reflexivity|congruence|exact LY].
  - apply inv_array; [exact V|]. rewrite E, !len_app. lia.
Qed.

Lemma filled_len c n : length_N (filled c n) = n.
Proof. apply len_repeat. Qed.
Lemma filled_stored c n : filled c n = stored (repeat c (N.to_nat n)).
Proof. unfold filled, stored. induction (N.to_nat n) as [|m IH]; [reflexivity|]. cbn [repeat map]. rewrite IH. reflexivity. Qed.

(** Centred: the text [y] at the end of the contents goes to the middle, if the array stays. *)
Lemma center_ok b sp c n : lenient = true -> inv b -> contents b = Some c -> n < sp_width sp -> sp_width sp < 2 ^ 32 ->
  match center lenient gr b sp n with
  | Done b' => inv b' /\ exists x, contents b' = Some (c ++ x) /\ length_N x = sp_width sp
      /\ (b_size b + sp_width sp <= b_capacity b -> forall y rest, array b = c ++ y ++ rest -> length_N y = n ->
           x = filled (sp_fill sp) ((sp_width sp - n) / 2) ++ y ++ filled (sp_fill sp) (sp_width sp - n - (sp_width sp - n) / 2))
  | Thrown b' => b' = b
  | Bad => False
  end.
Proof.
  intros LE V C H HW. unfold center. cbv zeta. assert (G := grow_buffer_any b (sp_width sp) c V C HW).
  destruct (contents_inv inv inv_base b c V C) as [_ LC].
  assert (LW : (sp_width sp - n) / 2 <= sp_width sp - n) by (apply N.div_le_upper_bound; lia).
  set (left := (sp_width sp - n) / 2) in *.
  destruct (grow_buffer gr b (sp_width sp)) as [b1|b1|]; cbn [next]; [|tauto|exact G].
  destruct G as (V1 & S1 & (w & E1) & G). rewrite LE. cbn [negb andb].
  destruct (inv_base b1 V1) as (B1 & B2 & B3).
  assert (LA : b_size b + sp_width sp <= length_N (c ++ w)) by (rewrite <- E1; lia).
  assert (LA2 := LA). rewrite len_app in LA2.
  destruct (split_len w (sp_width sp) ltac:(lia)) as (v & z4 & -> & LV).
  destruct (split_len v n ltac:(lia)) as (y & v2 & -> & LY). rewrite len_app in LV.
  assert (EL : load (array b1) (b_size b) (b_size b + n) = Some y) by (rewrite E1, <- (app_assoc y); apply load_at; congruence).
  rewrite EL. clear EL.
  (* the text *)
  destruct (split_len (y ++ v2) left ltac:(rewrite len_app; lia)) as (z1 & t1 & ET & LZ1).
  assert (LT1 : length_N t1 = sp_width sp - left) by (assert (Q : length_N (y ++ v2) = length_N (z1 ++ t1)) by congruence; rewrite !len_app in Q; lia).
  destruct (split_len t1 n ltac:(lia)) as (z2 & z3 & -> & LZ2). rewrite len_app in LT1.
  rewrite ET in E1.
  rewrite (put_at b1 (c ++ z1) z2 (z3 ++ z4) y) by (rewrite ?len_app; try lia; rewrite E1, <- !app_assoc; reflexivity). cbn [next].
  set (b2 := set_array b1 ((c ++ z1) ++ y ++ z3 ++ z4)).
  assert (V2 : inv b2) by (apply inv_array; [exact V1|]; rewrite E1, !len_app; lia).
  rewrite (put_at b2 c z1 (y ++ z3 ++ z4) (filled (sp_fill sp) left)); [|unfold b2; rewrite array_set, <- !app_assoc; reflexivity|congruence|rewrite filled_len; lia]. cbn [next].
  set (b3 := set_array b2 (c ++ filled (sp_fill sp) left ++ y ++ z3 ++ z4)).
  assert (V3 : inv b3) by (apply inv_array; [exact V2|]; unfold b2; rewrite array_set, !len_app, filled_len; lia).
  rewrite (put_at b3 (c ++ filled (sp_fill sp) left ++ y) z3 z4 (filled (sp_fill sp) (sp_width sp - n - left)));
    [|unfold b3; rewrite array_set, <- !app_assoc; reflexivity|rewrite !len_app, filled_len; lia|rewrite filled_len; lia].
  set (x := filled (sp_fill sp) left ++ y ++ filled (sp_fill sp) (sp_width sp - n - left)).
  assert (LX : length_N x = sp_width sp) by (unfold x; rewrite !len_app, !filled_len; lia).
  split.
  { apply inv_array; [exact V3|]. unfold b3. rewrite array_set, !len_app, !filled_len. lia. }
  exists x. split; [|split; [exact LX|]].
  - unfold contents. rewrite array_set, size_set. unfold b3, b2. rewrite !size_set, S1.
    replace ((c ++ filled (sp_fill sp) left ++ y) ++ filled (sp_fill sp) (sp_width sp - n - left) ++ z4) with ([] ++ (c ++ x) ++ z4) by (unfold x; rewrite <- !app_assoc; reflexivity).
    apply load_at; [reflexivity|]. rewrite len_app. lia.
  - intros K y' rest E LY'. specialize (G K). subst b1. rewrite array_size in E1. rewrite E in E1.
    rewrite <- ET in E1. apply prefix_same in E1 as [_ E1]; [|reflexivity]. rewrite <- app_assoc in E1. apply prefix_same in E1 as [-> _]; [reflexivity|congruence].
Qed.

(** ---- snprintf into the buffer ---- *)

Lemma snprintf_ok b c k format ints bits t : inv b -> contents b = Some c -> b_size b + k <= b_capacity b ->
  converted digits format ints bits = Some (Some t) ->
  exists b', snprintf digits b (b_size b + k) (b_capacity b - (b_size b + k)) format ints bits = Done (b', Some (length_N t)) /\ inv b' /\ contents b' = Some c
    /\ b_capacity b' = b_capacity b /\ b_size b' = b_size b
    /\ (b_size b + k + length_N t < b_capacity b -> exists lead rest, array b' = c ++ lead ++ stored t ++ rest /\ length_N lead = k).
Proof.
  intros V C H EC. destruct (inv_base b V) as (A1 & A2 & A3). unfold snprintf. rewrite EC.
  destruct (N.eqb_spec (b_capacity b - (b_size b + k)) 0) as [Z|Z].
  - exists b. split; [reflexivity|]. split; [exact V|]. split; [exact C|]. split; [reflexivity|]. split; [reflexivity|]. intros. lia.
  - set (s := stored (firstn (N.to_nat (b_capacity b - (b_size b + k) - 1)) t) ++ [Some NUL]).
    assert (LS : length_N s = N.min (b_capacity b - (b_size b + k) - 1) (length_N t) + 1).
    { unfold s. rewrite len_app, stored_len. change (length_N [Some NUL]) with 1. f_equal. unfold length_N. rewrite firstn_length. lia. }
    destruct (contents_split b c V C) as (w & E & LC).
    destruct (pieces_put b w c s (b_size b + k) V E ltac:(lia) ltac:(rewrite <- E; lia)) as (x & y & z & -> & LY & LX & -> & V').
    exists (set_array b (c ++ x ++ s ++ z)). split; [reflexivity|]. split; [exact V'|].
    split; [unfold contents; rewrite array_set, size_set; apply (load_at [] c (x ++ s ++ z) 0 (b_size b) eq_refl); lia|].
    split; [apply capacity_set|]. split; [apply size_set|]. intros F. exists x, (Some NUL :: z). split.
    + rewrite array_set. unfold s. rewrite firstn_all2 by (unfold length_N in F; lia). rewrite <- !app_assoc. reflexivity.
    + rewrite len_app in LX. lia.
Qed.

Lemma reserve_ok b n c : inv b -> contents b = Some c -> n < 2 ^ 64 ->
  match reserve gr b n with
  | Done b' => inv b' /\ contents b' = Some c /\ b_size b' = b_size b /\ n <= b_capacity b'
  | Thrown b' => b' = b /\ b_capacity b < n
  | Bad => False
  end.
Proof.
  intros V C H. assert (R := room gr inv grow_ok b n (b_capacity b <? n) V H ltac:(apply N.ltb_lt)). unfold reserve.
  destruct (if b_capacity b <? n then gr b n else Done b) as [b'|b'|]; [|exact R|exact R].
  destruct R as (V' & C' & S' & N' & _). rewrite C in C'. auto.
Qed.

(** A text that can be written needs two attempts at most. *)
Lemma attempts_fits b c k sp sign format ints bits t fuel : inv b -> contents b = Some c -> b_size b + k <= b_capacity b -> k <= 1 ->
  converted digits format ints bits = Some (Some t) -> length_N t < 2 ^ 31 ->
  (exists b' lead rest, attempts digits lenient gr (S (S fuel)) b sp sign (b_size b + k) format ints bits = Some (finish lenient gr b' sp sign (b_size b' + length_N lead) (length_N t))
     /\ inv b' /\ contents b' = Some c /\ b_size b' = b_size b /\ array b' = c ++ lead ++ stored t ++ rest /\ length_N lead = k
     /\ b_size b + k + length_N t < b_capacity b'
     /\ (if b_size b + k + length_N t <? b_capacity b then b_capacity b' = b_capacity b
         else exists b0 b1, inv b0 /\ b_capacity b0 = b_capacity b /\ reserve gr b0 (b_size b + k + length_N t + 1) = Done b1 /\ b_capacity b' = b_capacity b1))
  \/ (exists b', attempts digits lenient gr (S (S fuel)) b sp sign (b_size b + k) format ints bits = Some (Thrown b') /\ inv b' /\ contents b' = Some c
     /\ b_capacity b' = b_capacity b /\ b_capacity b <= b_size b + k + length_N t /\ exists b0, inv b0 /\ b_capacity b0 = b_capacity b /\ reserve gr b0 (b_size b + k + length_N t + 1) = Thrown b0).
Proof.
  intros V C H K EC LT. destruct (inv_base b V) as (A1 & A2 & A3).
  remember (S fuel) as f1. cbn [attempts].
  destruct (snprintf_ok b c k format ints bits t V C H EC) as (b1 & -> & V1 & C1 & P1 & S1 & W1). rewrite P1.
  destruct (N.ltb_spec (b_size b + k + length_N t) (b_capacity b)) as [F|F].
  - left. destruct (W1 F) as (lead & rest & E & LL). exists b1, lead, rest. rewrite S1, LL.
    split; [reflexivity|]. split; [exact V1|]. split; [exact C1|]. split; [reflexivity|]. split; [exact E|]. split; [reflexivity|]. split; [lia|exact P1].
  - rewrite wrap_small by lia. assert (R := reserve_ok b1 (b_size b + k + length_N t + 1) c V1 C1 ltac:(lia)).
    destruct (reserve gr b1 (b_size b + k + length_N t + 1)) as [b2|b2|] eqn:ER; [| |contradiction].
    + destruct R as (V2 & C2 & S2 & N2). left. subst f1. cbn [attempts]. rewrite S1 in S2. rewrite <- S2.
      destruct (snprintf_ok b2 c k format ints bits t V2 C2 ltac:(lia) EC) as (b3 & -> & V3 & C3 & P3 & S3 & W3). rewrite P3.
      destruct (N.ltb_spec (b_size b2 + k + length_N t) (b_capacity b2)) as [F2|F2]; [|lia].
      destruct (W3 F2) as (lead & rest & E & LL). exists b3, lead, rest. rewrite S3, LL.
      split; [reflexivity|]. split; [exact V3|]. split; [exact C3|]. split; [reflexivity|]. split; [exact E|]. split; [reflexivity|]. split; [lia|].
      exists b1, b2. rewrite S2. split; [exact V1|]. split; [exact P1|]. split; [exact ER|exact P3].
    + destruct R as [-> R]. right. exists b1. split; [reflexivity|]. split; [exact V1|]. split; [exact C1|]. split; [exact P1|]. split; [exact F|].
      exists b1. split; [exact V1|]. split; [exact P1|exact ER].
Qed.

Lemma finish_center b sp sign c lead width body rest : lenient = true -> inv b -> contents b = Some c ->
  array b = c ++ lead ++ stored (padded sp width body) ++ rest -> length_N lead = length_N (sign_text sign) ->
  body <> [] -> sp_align sp = ACenter -> length_N (sign_text sign) + length_N body < sp_width sp -> sp_width sp < 2 ^ 32 ->
  match finish lenient gr b sp sign (b_size b + length_N lead) (length_N (padded sp width body)) with
  | Done b' => inv b' /\ exists x, contents b' = Some (c ++ x) /\ length_N x = sp_width sp
      /\ (b_size b + sp_width sp <= b_capacity b ->
          let n := length_N (sign_text sign ++ body) in
          x = stored (repeat (sp_fill sp) (N.to_nat ((sp_width sp - n) / 2)) ++ (sign_text sign ++ body)
                      ++ repeat (sp_fill sp) (N.to_nat (sp_width sp - n - (sp_width sp - n) / 2))))
  | Thrown b' => inv b' /\ contents b' = Some c
  | Bad => False
  end.
Proof.
  intros LE V C E LL NE AL H HW. destruct (contents_inv inv inv_base b c V C) as [_ LC].
  assert (PB : padded sp width body = body) by (unfold padded; rewrite AL; reflexivity). rewrite PB in *.
  unfold finish. cbv zeta. rewrite AL. cbn [andb].
  (* the state behind the sign *)
  assert (TAIL : forall b1 n, inv b1 -> contents b1 = Some c -> b_size b1 = b_size b -> b_capacity b1 = b_capacity b ->
     array b1 = c ++ stored (sign_text sign ++ body) ++ rest -> n = length_N (sign_text sign ++ body) ->
     match center lenient gr b1 sp n with
     | Done b' => inv b' /\ exists x, contents b' = Some (c ++ x) /\ length_N x = sp_width sp
      /\ (b_size b + sp_width sp <= b_capacity b ->
          x = stored (repeat (sp_fill sp) (N.to_nat ((sp_width sp - length_N (sign_text sign ++ body)) / 2)) ++ (sign_text sign ++ body)
                      ++ repeat (sp_fill sp) (N.to_nat (sp_width sp - length_N (sign_text sign ++ body) - (sp_width sp - length_N (sign_text sign ++ body)) / 2))))
     | Thrown b' => inv b' /\ contents b' = Some c
     | Bad => False
     end).
  { intros b1 n V1 C1 S1 P1 E1 EN. assert (Hn : n < sp_width sp) by (rewrite EN, len_app; exact H).
    assert (Q := center_ok b1 sp c n LE V1 C1 Hn HW). destruct (center lenient gr b1 sp n) as [b'|b'|].
    - destruct Q as (V' & x & CX & LX & K). split; [exact V'|]. exists x. split; [exact CX|]. split; [exact LX|]. intros F.
      rewrite (K ltac:(rewrite S1, P1; exact F) (stored (sign_text sign ++ body)) rest E1 ltac:(rewrite stored_len; congruence)).
      rewrite <- EN. rewrite !stored_app, <- !filled_stored. reflexivity.
    - subst b'. split; assumption.
    - exact Q. }
  destruct sign as [s|]; cbn [sign_text] in *.
  - destruct lead as [|x [|y lead]]; [discriminate| |unfold length_N in LL; cbn in LL; lia]. clear LL. change (length_N [x]) with 1.
    destruct body as [|d u]; [congruence|].
    assert (G : get_cell b (b_size b + 1) = Some d).
    { apply (get_at b (c ++ [x]) d (stored u ++ rest)); [rewrite E, <- app_assoc; reflexivity|rewrite len_app, LC; reflexivity]. }
    rewrite G. rewrite (put_at b c [x] (stored (d :: u) ++ rest) [Some s]); [|rewrite E; reflexivity|lia|reflexivity].
    set (b1 := set_array b (c ++ [Some s] ++ stored (d :: u) ++ rest)).
    assert (EN : length_N (d :: u) + 1 = length_N ([s] ++ d :: u)) by (rewrite len_app; change (length_N [s]) with 1; lia).
    change (length_N [s]) with 1 in H.
    rewrite (proj2 (N.ltb_lt (length_N (d :: u) + 1) (sp_width sp))) by lia. cbv zeta. apply TAIL.
    + apply inv_array; [exact V|]. rewrite E, !len_app. reflexivity.
    + unfold contents, b1. rewrite array_set, size_set. apply (load_at [] c); [reflexivity|lia].
    + apply size_set.
    + apply capacity_set.
    + unfold b1. rewrite array_set. reflexivity.
    + exact EN.
  - destruct lead; [|discriminate]. change (length_N []) with 0 in *.
    rewrite (proj2 (N.ltb_lt (length_N body) (sp_width sp))) by lia. cbv zeta. apply TAIL; auto.
Qed.

(** ---- a C library that fails ---- *)

Hypothesis grows : forall b n b', inv b -> b_capacity b < n -> gr b n = Done b' -> 0 < b_capacity b /\ 4 * b_capacity b <= 3 * b_capacity b'.

Lemma attempts_fail c k sp sign format ints bits : converted digits format ints bits = Some None ->
  forall fuel b j, inv b -> contents b = Some c -> b_size b + k <= b_capacity b -> N.of_nat fuel + j = 200 -> (j = 0 \/ 4 ^ j <= 3 ^ j * b_capacity b) ->
  exists b', attempts digits lenient gr fuel b sp sign (b_size b + k) format ints bits = Some (Thrown b') /\ inv b' /\ contents b' = Some c
    /\ exists b'', gr b' (b_capacity b' + 1) = Thrown b''.
Proof.
  intros EC. induction fuel as [|fuel IH]; intros b j V C H FJ GJ.
  - exfalso. replace j with 200 in GJ by lia. destruct (inv_base b V) as (A1 & A2 & A3). destruct GJ as [GJ|GJ]; [discriminate|].
    assert (Q : 3 ^ 200 * b_capacity b <= 3 ^ 200 * 2 ^ 63) by (apply N.mul_le_mono_l; lia).
    assert (4 ^ 200 <= 3 ^ 200 * 2 ^ 63) by (eapply N.le_trans; eassumption). vm_compute in H0. congruence.
  - destruct (inv_base b V) as (A1 & A2 & A3). cbn [attempts]. unfold snprintf. rewrite EC.
    rewrite wrap_small by lia. assert (R := reserve_ok b (b_capacity b + 1) c V C ltac:(lia)).
    assert (ER : reserve gr b (b_capacity b + 1) = gr b (b_capacity b + 1)) by (unfold reserve; rewrite (proj2 (N.ltb_lt _ _)) by lia; reflexivity).
    rewrite ER in *. destruct (gr b (b_capacity b + 1)) as [b1|b1|] eqn:EG; [| |contradiction].
    + destruct R as (V1 & C1 & S1 & N1). rewrite <- S1. destruct (grows b (b_capacity b + 1) b1 V ltac:(lia) EG) as [G1 G2].
      apply (IH b1 (j + 1)); [exact V1|exact C1|lia|lia|]. right. rewrite !N.add_1_r, !N.pow_succ_r'.
      assert (4 ^ j <= 3 ^ j * b_capacity b) by (destruct GJ as [->|GJ]; [rewrite !N.pow_0_r; lia|exact GJ]).
      replace (3 * 3 ^ j * b_capacity b1) with (3 ^ j * (3 * b_capacity b1)) by lia.
      apply N.le_trans with (3 ^ j * (4 * b_capacity b)); [lia|apply N.mul_le_mono_l; exact G2].
    + destruct R as [-> R]. exists b. split; [reflexivity|]. split; [exact V|]. split; [exact C|]. exists b. exact EG.
Qed.

(** ---- values that are not finite ---- *)

Lemma special_ok b c sp sign name : inv b -> contents b = Some c -> sp_width sp < 2 ^ 32 -> length_N name < 2 ^ 31 ->
  match write_special gr b sp sign name with
  | Done b' => inv b' /\ contents b' = Some (c ++ stored (pad_str (sign_text sign ++ name) sp)) 
  | Thrown b' => inv b' /\ contents b' = Some c
  | Bad => False
  end.
Proof.
  intros V C HW HN. destruct (contents_inv inv inv_base b c V C) as [_ LC]. unfold write_special. cbv zeta.
  set (text := match sign with Some _ => " "%char :: name | None => name end).
  assert (LT : length_N text = length_N (sign_text sign ++ name)) by (unfold text; destruct sign; reflexivity).
  assert (LT2 : length_N text <= 1 + length_N name) by (unfold text; destruct sign; unfold length_N; cbn [length]; lia).
  set (n := if length_N text <? sp_width sp then sp_width sp else length_N text).
  assert (HNN : n < 2 ^ 32) by (unfold n; destruct (length_N text <? sp_width sp); lia).
  assert (LPT : forall t, length_N t = length_N text -> length_N (pad_str t sp) = n).
  { intros t Q. unfold pad_str, n. rewrite Q. destruct (N.ltb_spec (length_N text) (sp_width sp)) as [K|K]; [|exact Q].
    assert (sp_width sp - length_N text = 0 \/ (sp_width sp - length_N text) / 2 <= sp_width sp - length_N text) by (right; apply N.div_le_upper_bound; lia).
    destruct (sp_align sp); rewrite ?len_app, ?len_repeat; rewrite ?Q; lia. }
  assert (G := grow_buffer_any b n c V C HNN). destruct (grow_buffer gr b n) as [b1|b1|]; cbn [next]; [|destruct G as [-> _]; split; assumption|exact G].
  destruct G as (V1 & S1 & (w & E1) & _). destruct (inv_base b1 V1) as (B1 & B2 & B3).
  assert (LA : length_N (c ++ w) = b_capacity b1) by (rewrite <- E1; exact B1). rewrite len_app in LA.
  destruct (split_len w n ltac:(lia)) as (v & z & -> & LV).
  rewrite (put_at b1 c v z (stored (pad_str text sp))); [|exact E1|congruence|rewrite stored_len, LPT; auto]. cbn [next].
  set (b2 := set_array b1 (c ++ stored (pad_str text sp) ++ z)).
  assert (V2 : inv b2) by (apply inv_array; [exact V1|]; rewrite E1, !len_app, stored_len, LPT by reflexivity; lia).
  destruct sign as [s|].
  - cbn [sign_text] in *. set (first := if length_N text <? sp_width sp then _ else 0).
    assert (PS : exists l r, pad_str text sp = l ++ " "%char :: r /\ pad_str ([s] ++ name) sp = l ++ s :: r /\ length_N l = first).
    { assert (LT' : length_N ([s] ++ name) = length_N text) by (symmetry; exact LT).
      unfold pad_str, first. rewrite LT'. unfold text at 2 4 6 8. destruct (length_N text <? sp_width sp); [|exists [], name; repeat split].
      destruct (sp_align sp); cbn [app].
      - exists [], (name ++ repeat (sp_fill sp) (N.to_nat (sp_width sp - length_N text))). repeat split.
      - exists (repeat (sp_fill sp) (N.to_nat (sp_width sp - length_N text))), name. rewrite len_repeat. repeat split.
      - exists [], (name ++ repeat (sp_fill sp) (N.to_nat (sp_width sp - length_N text))). repeat split.
      - exists (repeat (sp_fill sp) (N.to_nat ((sp_width sp - length_N text) / 2))), (name ++ repeat (sp_fill sp) (N.to_nat (sp_width sp - length_N text - (sp_width sp - length_N text) / 2))). rewrite len_repeat. repeat split.
      - exists [], (name ++ repeat (sp_fill sp) (N.to_nat (sp_width sp - length_N text))). repeat split. }
    destruct PS as (l & r & P1 & P2 & LL).
    rewrite (put_at b2 (c ++ stored l) [Some " "%char] (stored r ++ z) [Some s]);
      [|unfold b2; rewrite array_set, P1, stored_app, <- !app_assoc; reflexivity|rewrite len_app, stored_len; lia|reflexivity].
    split.
    + apply inv_array; [exact V2|]. unfold b2. rewrite array_set, P1. rewrite !len_app, !stored_len. unfold length_N. cbn [length]. rewrite app_length. cbn [length]. lia.
    + unfold contents. rewrite array_set, size_set. unfold b2. rewrite size_set, S1, P2.
      replace ((c ++ stored l) ++ [Some s] ++ stored r ++ z) with ([] ++ (c ++ stored (l ++ s :: r)) ++ z) by (rewrite stored_app, <- !app_assoc; reflexivity).
      apply load_at; [reflexivity|]. rewrite len_app, stored_len. rewrite <- P2, LPT by (symmetry; exact LT). lia.
  - split; [exact V2|]. unfold contents, b2. rewrite array_set, size_set, S1.
    replace (c ++ stored (pad_str text sp) ++ z) with ([] ++ (c ++ stored (pad_str text sp)) ++ z) by (rewrite <- app_assoc; reflexivity).
    apply load_at; [reflexivity|]. rewrite len_app, stored_len, LPT by reflexivity. lia.
Qed.

(** ---- who throws ---- *)

(** The allocator refused [n] elements at most. *)
Definition refused (n : N) : Prop := exists b0 m, inv b0 /\ b_capacity b0 < m /\ m <= n /\ gr b0 m = Thrown b0.

Lemma reserve_refused b n b' : inv b -> n < 2 ^ 64 -> reserve gr b n = Thrown b' -> refused n.
Proof.
  intros V H E. unfold reserve in E. destruct (N.ltb_spec (b_capacity b) n) as [L|L]; [|discriminate].
  exists b, n. split; [exact V|]. split; [exact L|]. split; [lia|]. assert (G := grow_ok b n V L H). rewrite E in G. congruence.
Qed.
Lemma grow_refused b n b' : inv b -> n < 2 ^ 32 -> grow_buffer gr b n = Thrown b' -> refused (b_size b + n).
Proof.
  intros V H E. destruct (inv_base b V) as (A1 & A2 & A3). unfold grow_buffer, resize in E. rewrite wrap_small in E by lia.
  apply (reserve_refused b (b_size b + n) b' V); [lia|]. unfold reserve. destruct (if b_capacity b <? b_size b + n then _ else _); cbn [next] in E; congruence.
Qed.
Lemma refused_le n m : refused n -> n <= m -> refused m.
Proof. intros (b0 & k & R1 & R2 & R3 & R4) L. exists b0, k. repeat split; try assumption. lia. Qed.
Lemma put_thrown b i x b' : put_cells b i x <> Thrown b'.
Proof. unfold put_cells. destruct (store _ _ _); discriminate. Qed.

Lemma special_refused b sp sign nm b' : inv b -> sp_width sp < 2 ^ 32 -> length_N nm < 2 ^ 31 -> write_special gr b sp sign nm = Thrown b' ->
  refused (b_size b + N.max (sp_width sp) (length_N (sign_text sign ++ nm))).
Proof.
  intros V HW HN E. unfold write_special in E. cbv zeta in E.
  set (text := match sign with Some _ => " "%char :: nm | None => nm end) in E.
  assert (LT : length_N text = length_N (sign_text sign ++ nm)) by (unfold text; destruct sign; reflexivity).
  assert (LT2 : length_N text <= 1 + length_N nm) by (unfold text; destruct sign; unfold length_N; cbn [length]; lia).
  set (n := if length_N text <? sp_width sp then sp_width sp else length_N text) in E.
  assert (HNN : n <= N.max (sp_width sp) (length_N text)) by (unfold n; destruct (length_N text <? sp_width sp); lia).
  destruct (grow_buffer gr b n) as [b1|b1|] eqn:EG; cbn [next] in E.
  - destruct (put_cells b1 _ _) as [b2|b2|] eqn:EP; cbn [next] in E; [|destruct (put_thrown _ _ _ _ EP)|discriminate].
    destruct sign; [destruct (put_thrown _ _ _ _ E)|discriminate].
  - apply refused_le with (b_size b + n); [|lia]. apply (grow_refused b n b1 V); [lia|exact EG].
  - discriminate.
Qed.
(** The capacity asked for. *)
Variable enlarged : N -> N -> N.
Hypothesis grow_cap : forall b n b', inv b -> b_capacity b < n -> gr b n = Done b' -> b_capacity b' = enlarged (b_capacity b) n.
Definition reserved (capacity n : N) : N := if capacity <? n then enlarged capacity n else capacity.
Lemma reserve_cap b n b' : inv b -> reserve gr b n = Done b' -> b_capacity b' = reserved (b_capacity b) n.
Proof.
  intros V E. unfold reserve, reserved in *. destruct (N.ltb_spec (b_capacity b) n); [apply (grow_cap b n); assumption|congruence].
Qed.
Lemma grow_buffer_cap b n b' : inv b -> n < 2 ^ 32 -> grow_buffer gr b n = Done b' -> b_capacity b' = reserved (b_capacity b) (b_size b + n).
Proof.
  intros V H E. destruct (inv_base b V) as (A1 & A2 & A3). unfold grow_buffer, resize in E. rewrite wrap_small in E by lia.
  destruct (if b_capacity b <? b_size b + n then gr b (b_size b + n) else Done b) as [b1|b1|] eqn:ER; cbn [next] in E; [|discriminate|discriminate].
  injection E as <-. cbn [set_size b_capacity]. exact (reserve_cap b _ b1 V ER).
Qed.
Lemma put_cap b i x b' : put_cells b i x = Done b' -> b_capacity b' = b_capacity b.
Proof. unfold put_cells. destruct (store _ _ _); [|discriminate]. intros [= <-]. apply capacity_set. Qed.
Lemma special_cap b sp sign nm b' : inv b -> sp_width sp < 2 ^ 32 -> length_N nm < 2 ^ 31 -> write_special gr b sp sign nm = Done b' ->
  b_capacity b' = reserved (b_capacity b) (b_size b + N.max (sp_width sp) (length_N (sign_text sign ++ nm))).
Proof.
  intros V HW HN E. unfold write_special in E. cbv zeta in E.
  set (text := match sign with Some _ => " "%char :: nm | None => nm end) in E.
  assert (LT : length_N text = length_N (sign_text sign ++ nm)) by (unfold text; destruct sign; reflexivity).
  assert (LT2 : length_N text <= 1 + length_N nm) by (unfold text; destruct sign; unfold length_N; cbn [length]; lia).
  set (n := if length_N text <? sp_width sp then sp_width sp else length_N text) in E.
  assert (HNN : n = N.max (sp_width sp) (length_N text)) by (unfold n; destruct (N.ltb_spec (length_N text) (sp_width sp)); lia).
  destruct (grow_buffer gr b n) as [b1|b1|] eqn:EG; cbn [next] in E; [|discriminate|discriminate].
  apply grow_buffer_cap in EG; [|exact V|lia].
  destruct (put_cells b1 _ _) as [b2|b2|] eqn:EP; cbn [next] in E; [|discriminate|discriminate]. apply put_cap in EP. rewrite <- LT, <- HNN, <- EG, <- EP.
  destruct sign; [exact (put_cap _ _ _ _ E)|congruence].
Qed.
Lemma center_refused b sp n b' : inv b -> sp_width sp < 2 ^ 32 -> center lenient gr b sp n = Thrown b' -> refused (b_size b + sp_width sp).
Proof.
  intros V HW E. unfold center in E. cbv zeta in E. destruct (grow_buffer gr b (sp_width sp)) as [b1|b1|] eqn:EG; cbn [next] in E.
  - destruct (negb lenient && _); [discriminate|]. destruct (load _ _ _) as [s|]; [|discriminate].
    destruct (put_cells b1 _ _) as [b2|b2|] eqn:EP; cbn [next] in E; [|destruct (put_thrown _ _ _ _ EP)|discriminate].
    destruct (put_cells b2 _ _) as [b3|b3|] eqn:EP3; cbn [next] in E; [|destruct (put_thrown _ _ _ _ EP3)|discriminate].
    destruct (put_thrown _ _ _ _ E).
  - apply (grow_refused b _ b1 V HW EG).
  - discriminate.
Qed.
Lemma put_inv b i x b' : inv b -> put_cells b i x = Done b' -> inv b' /\ b_size b' = b_size b.
Proof.
  intros V E. unfold put_cells in E. destruct (store (array b) i x) as [cs|] eqn:ES; [|discriminate]. injection E as <-.
  rewrite size_set. split; [|reflexivity]. apply inv_array; [exact V|]. unfold store in ES. destruct (N.leb_spec (i + length_N x) (length_N (array b))) as [L|L]; [|discriminate].
  injection ES as <-. rewrite !len_app. rewrite len_firstn by lia. unfold length_N in *. rewrite skipn_length. lia.
Qed.
Lemma finish_refused b sp sign offset n b' : inv b -> sp_width sp < 2 ^ 32 -> sp_align sp = ACenter -> n + length_N (sign_text sign) < sp_width sp ->
  finish lenient gr b sp sign offset n = Thrown b' -> refused (b_size b + sp_width sp).
Proof.
  intros V HW AL HN E. unfold finish in E. cbv zeta in E. rewrite AL in E. cbn [andb] in E. destruct sign as [s|]; cbn [sign_text] in HN.
  - change (length_N [s]) with 1 in HN. destruct (get_cell b offset) as [d|]; [|discriminate]. destruct (put_cells b _ _) as [b1|b1|] eqn:EP; [|discriminate|discriminate].
    rewrite (proj2 (N.ltb_lt _ _)) in E by lia. cbv zeta in E. destruct (put_inv _ _ _ _ V EP) as [V1 S1]. rewrite <- S1. exact (center_refused b1 sp _ b' V1 HW E).
  - change (length_N []) with 0 in HN. rewrite (proj2 (N.ltb_lt _ _)) in E by lia. cbv zeta in E. exact (center_refused b sp _ b' V HW E).
Qed.

(** ---- write_double ---- *)

Definition left_width (sp : spec) (bits : N) : N := match sign_char sp bits with Some _ => sp_width sp - 1 | None => sp_width sp end.
Definition centered (sp : spec) (sign : option ascii) (body : bytes) : bytes :=
  let n := length_N (sign_text sign ++ body) in
  repeat (sp_fill sp) (N.to_nat ((sp_width sp - n) / 2)) ++ (sign_text sign ++ body)
  ++ repeat (sp_fill sp) (N.to_nat (sp_width sp - n - (sp_width sp - n) / 2)).
Definition wide (sp : spec) (bits : N) (body : bytes) : bool :=
  match sp_align sp with ACenter => length_N (sign_text (sign_char sp bits)) + length_N body <? sp_width sp | _ => false end.
Definition name_of (bits : N) (upper : bool) : bytes :=
  if is_nan bits then (if upper then B "NAN" else B "nan") else (if upper then B "INF" else B "inf").
(** snprintf succeeds. *)
Definition body_of (sp : spec) (bits : N) (type : ascii) (body : bytes) : Prop :=
  digits (sp_hash sp) (sp_precision sp) type (magnitude bits) = Some body /\ length_N (padded sp (left_width sp bits) body) <= INT_MAX.

Lemma float_plain t type upper : float_type t = Some (type, upper) -> plain_letter type.
Proof.
  unfold float_type, plain_letter. destruct (Ascii.eqb t NUL); [intros [= <- <-]; repeat split; discriminate|].
  destruct (existsb (Ascii.eqb t) (B "efga")) eqn:E1.
  - intros [= <- <-]. apply existsb_exists in E1 as (x & I & E). apply Ascii.eqb_eq in E. subst x.
    cbn in I. repeat (destruct I as [<-|I]; [repeat split; discriminate|]). contradiction.
  - destruct (existsb (Ascii.eqb t) (B "FEGA")) eqn:E2; [|discriminate].
    intros [= <- <-]. apply existsb_exists in E2 as (x & I & E). apply Ascii.eqb_eq in E. subst x.
    cbn in I. repeat (destruct I as [<-|I]; [repeat split; discriminate|]). contradiction.
Qed.

Lemma padded_body sp width body : length_N body <= length_N (padded sp width body).
Proof. rewrite padded_length. destruct (sp_align sp); lia. Qed.

Definition INT_MAX_value : INT_MAX = 2 ^ 31 - 1 := eq_refl.

Lemma write_double_ok b c sp bits : inv b -> contents b = Some c -> sp_width sp < 2 ^ 31 -> (special bits = false -> sp_align sp = ACenter -> lenient = true) ->
  match write_double digits lenient gr b sp bits with
  | Some (Done b') => inv b' /\ exists type upper, float_type (sp_type sp) = Some (type, upper)
      /\ if special bits then contents b' = Some (c ++ stored (pad_str (sign_text (sign_char sp bits) ++ name_of bits upper) sp))
           /\ b_capacity b' = reserved (b_capacity b) (b_size b + N.max (sp_width sp) (length_N (sign_text (sign_char sp bits) ++ name_of bits upper)))
         else exists body, body_of sp bits type body /\ exists x, contents b' = Some (c ++ x)
           /\ if wide sp bits body
              then length_N x = sp_width sp
                   /\ ((b_size b + sp_width sp <= b_capacity b \/ sign_char sp bits <> None) -> x = stored (centered sp (sign_char sp bits) body))
              else x = stored (laid_out sp (sign_char sp bits) (left_width sp bits) body) /\ b_size b' < b_capacity b'
                   /\ let c1 := match sign_char sp bits with Some _ => reserved (b_capacity b) (b_size b + N.max (sp_width sp) 1) | None => b_capacity b end in
                      let n := b_size b + length_N (laid_out sp (sign_char sp bits) (left_width sp bits) body) in
                      b_capacity b' = if n <? c1 then c1 else reserved c1 (n + 1)
  | Some (Thrown b') => inv b' /\ contents b' = Some c
      /\ (float_type (sp_type sp) = None
          \/ exists type upper, float_type (sp_type sp) = Some (type, upper)
             /\ if special bits then refused (b_size b + N.max (sp_width sp) (length_N (sign_text (sign_char sp bits) ++ name_of bits upper)))
                else ((~ exists body, body_of sp bits type body)
                      /\ (refused (b_size b + N.max (sp_width sp) 1) \/ exists b'', gr b' (b_capacity b' + 1) = Thrown b''))
                     \/ exists body, body_of sp bits type body /\ refused (b_size b + N.max (sp_width sp) (length_N (sign_text (sign_char sp bits) ++ body)) + 1))
  | _ => False
  end.
Proof.
  intros V C HW CE. destruct (contents_inv inv inv_base b c V C) as [_ LC]. destruct (inv_base b V) as (A1 & A2 & A3).
  unfold write_double. destruct (float_type (sp_type sp)) as [[type upper]|] eqn:FT; [|split; [exact V|]; split; [exact C|]; left; reflexivity].
  cbv zeta. destruct (special bits).
  { fold (name_of bits upper). assert (LN : length_N (name_of bits upper) = 3) by (unfold name_of; destruct (is_nan bits), upper; reflexivity).
    assert (Q := special_ok b c sp (sign_char sp bits) (name_of bits upper) V C ltac:(lia) ltac:(lia)).
    destruct (write_special gr b sp (sign_char sp bits) (name_of bits upper)) as [b'|b'|] eqn:EW; [| |exact Q].
    - destruct Q as [V' Q]. split; [exact V'|]. exists type, upper. split; [reflexivity|]. split; [exact Q|].
      exact (special_cap b sp (sign_char sp bits) (name_of bits upper) b' V ltac:(lia) ltac:(lia) EW).
    - destruct Q as [V' Q]. split; [exact V'|]. split; [exact Q|]. right. exists type, upper. split; [reflexivity|].
      assert (R := special_refused b sp (sign_char sp bits) (name_of bits upper) b' V ltac:(lia) ltac:(lia) EW). exact R. }
  (* the room for the sign *)
  set (sign := sign_char sp bits). set (lw := left_width sp bits). set (k := length_N (sign_text sign)).
  assert (LWE : lw = match sign with Some _ => sp_width sp - 1 | None => sp_width sp end) by reflexivity.
  assert (K1 : k <= 1) by (unfold k; destruct sign; cbn; lia).
  assert (ROOM : forall b1, inv b1 -> contents b1 = Some c -> b_size b1 = b_size b -> b_size b + k <= b_capacity b1 ->
      (b_capacity b1 = b_capacity b \/ b_size b + N.max (sp_width sp) 1 <= b_capacity b1) ->
      (sign <> None -> b_size b + N.max (sp_width sp) 1 <= b_capacity b1) ->
      match attempts digits lenient gr 200 b1 sp sign (b_size b1 + k) (format_string sp lw type) (format_arguments sp lw) (magnitude bits) with
      | Some (Done b') => inv b' /\ exists body, body_of sp bits type body /\ exists x, contents b' = Some (c ++ x)
           /\ if wide sp bits body
              then length_N x = sp_width sp /\ ((b_size b + sp_width sp <= b_capacity b \/ sign <> None) -> x = stored (centered sp sign body))
              else x = stored (laid_out sp sign lw body) /\ b_size b' < b_capacity b'
                   /\ let n := b_size b + length_N (laid_out sp sign lw body) in b_capacity b' = if n <? b_capacity b1 then b_capacity b1 else reserved (b_capacity b1) (n + 1)
      | Some (Thrown b') => inv b' /\ contents b' = Some c
          /\ ((~ exists body, body_of sp bits type body) /\ (refused (b_size b + N.max (sp_width sp) 1) \/ exists b'', gr b' (b_capacity b' + 1) = Thrown b'')
              \/ exists body, body_of sp bits type body /\ refused (b_size b + N.max (sp_width sp) (length_N (sign_text sign ++ body)) + 1))
      | _ => False
      end).
  { intros b1 V1 C1 S1 R1 R2 R3. destruct (inv_base b1 V1) as (B1 & B2 & B3).
    assert (EC := converted_ok sp lw type (magnitude bits) (float_plain _ _ _ FT)).
    assert (FAIL : converted digits (format_string sp lw type) (format_arguments sp lw) (magnitude bits) = Some None -> (~ exists body, body_of sp bits type body) ->
      match attempts digits lenient gr 200 b1 sp sign (b_size b1 + k) (format_string sp lw type) (format_arguments sp lw) (magnitude bits) with
      | Some (Done b') => inv b' /\ exists body, body_of sp bits type body /\ exists x, contents b' = Some (c ++ x)
           /\ if wide sp bits body
              then length_N x = sp_width sp /\ ((b_size b + sp_width sp <= b_capacity b \/ sign <> None) -> x = stored (centered sp sign body))
              else x = stored (laid_out sp sign lw body) /\ b_size b' < b_capacity b'
                   /\ let n := b_size b + length_N (laid_out sp sign lw body) in b_capacity b' = if n <? b_capacity b1 then b_capacity b1 else reserved (b_capacity b1) (n + 1)
      | Some (Thrown b') => inv b' /\ contents b' = Some c
          /\ ((~ exists body, body_of sp bits type body) /\ (refused (b_size b + N.max (sp_width sp) 1) \/ exists b'', gr b' (b_capacity b' + 1) = Thrown b'')
              \/ exists body, body_of sp bits type body /\ refused (b_size b + N.max (sp_width sp) (length_N (sign_text sign ++ body)) + 1))
      | _ => False
      end).
    { intros EF NB. destruct (attempts_fail c k sp sign _ _ _ EF 200 b1 0 V1 C1 ltac:(rewrite S1; exact R1) eq_refl (or_introl eq_refl)) as (b' & E & V' & C' & G).
      rewrite E. split; [exact V'|]. split; [exact C'|]. left. split; [exact NB|right; exact G]. }
    destruct (digits (sp_hash sp) (sp_precision sp) type (magnitude bits)) as [body|] eqn:ED.
    2:{ apply FAIL; [exact EC|]. intros (body & D & _). congruence. }
    destruct (SANE _ _ _ _ _ ED) as [NE HD]. unfold outcome_of in EC. destruct (N.ltb_spec INT_MAX (length_N (padded sp lw body))) as [LI|LI].
    { apply FAIL; [exact EC|]. intros (body' & D & L). rewrite ED in D. injection D as <-. fold lw in L. lia. }
    clear FAIL. assert (BO : body_of sp bits type body) by (split; [exact ED|exact LI]). rewrite INT_MAX_value in LI.
    assert (PB := padded_body sp lw body). assert (PL := padded_length sp lw body).
    destruct (attempts_fits b1 c k sp sign _ _ _ _ 198 V1 C1 ltac:(rewrite S1; exact R1) K1 EC ltac:(lia)) as [Q|Q].
    - destruct Q as (b2 & lead & rest & E & V2 & C2 & S2 & EA & LL & CAP & CAP2). change (Datatypes.S (Datatypes.S 198)) with 200%nat in E. rewrite E.
      unfold wide. fold sign. fold k.
      destruct (match sp_align sp with ACenter => k + length_N body <? sp_width sp | _ => false end) eqn:WD.
      + assert (AL : sp_align sp = ACenter) by (destruct (sp_align sp); discriminate || reflexivity).
        rewrite AL in WD. apply N.ltb_lt in WD.
        assert (Q := finish_center b2 sp sign c lead lw body rest (CE eq_refl AL) V2 C2 EA LL NE AL WD ltac:(lia)).
        destruct (finish lenient gr b2 sp sign (b_size b2 + length_N lead) (length_N (padded sp lw body))) as [b'|b'|] eqn:EF; [| |exact Q].
        * destruct Q as (V' & x & CX & LX & X). split; [exact V'|]. exists body. split; [exact BO|]. exists x. split; [exact CX|]. unfold wide. fold sign. fold k. rewrite AL, (proj2 (N.ltb_lt _ _)) by exact WD.
          split; [exact LX|]. intros H. apply X.
          assert (MONO : b_capacity b1 <= b_capacity b2).
          { destruct (N.ltb_spec (b_size b1 + k + length_N (padded sp lw body)) (b_capacity b1)) as [T|T]; [rewrite CAP2; lia|lia]. }
          assert (b_size b + sp_width sp <= b_capacity b1); [|lia].
          destruct H as [H|H]; [destruct R2; lia|specialize (R3 H); lia].
        * destruct Q as [V' C']. split; [exact V'|]. split; [exact C'|]. right. exists body. split; [exact BO|].
          apply refused_le with (b_size b2 + sp_width sp); [|lia].
          apply (finish_refused b2 sp sign (b_size b2 + length_N lead) (length_N (padded sp lw body)) b' V2 ltac:(lia) AL); [|exact EF].
          rewrite PL, AL. fold k. lia.
      + destruct (finish_ok b2 sp sign c lead lw body rest V2 ltac:(lia) EA LL NE HD) as (b' & EF & V' & C' & CP' & SZ').
        { intros AL. rewrite AL in WD. apply N.ltb_ge in WD. exact WD. }
        rewrite EF. split; [exact V'|]. exists body. split; [exact BO|]. eexists. split; [exact C'|]. unfold wide. fold sign. fold k. rewrite WD. split; [reflexivity|].
        assert (LO : length_N (laid_out sp sign lw body) = k + length_N (padded sp lw body))
          by (rewrite PL; unfold laid_out, k; cbv zeta; destruct (sp_align sp); rewrite ?len_app, ?len_repeat; lia).
        split; [lia|]. cbv zeta. rewrite CP', LO. rewrite S1 in CAP2. replace (b_size b + (k + length_N (padded sp lw body))) with (b_size b + k + length_N (padded sp lw body)) by lia.
        destruct (b_size b + k + length_N (padded sp lw body) <? b_capacity b1); [exact CAP2|].
        destruct CAP2 as (b0 & b3 & V0 & CP0 & RD & ->). rewrite <- CP0. exact (reserve_cap b0 _ b3 V0 RD).
    - destruct Q as (b' & E & V' & C' & CAP & LE & b0 & V0 & CAP0 & RT). change (Datatypes.S (Datatypes.S 198)) with 200%nat in E. rewrite E.
      split; [exact V'|]. split; [exact C'|]. right. exists body. split; [exact BO|].
      assert (RR := reserve_refused b0 (b_size b1 + k + length_N (padded sp lw body) + 1) b0 V0 ltac:(lia) RT). eapply refused_le; [exact RR|]. rewrite len_app. fold k. rewrite PL, S1.
      assert (LW : lw + k <= N.max (sp_width sp) 1) by (unfold lw, left_width, k; fold sign; destruct sign; cbn [sign_text]; [change (length_N [a]) with 1|change (length_N []) with 0]; lia).
      assert (1 <= length_N body) by (destruct body; [congruence|unfold length_N; cbn [length]; lia]).
      destruct (sp_align sp); lia. }
  destruct sign as [s|] eqn:ES.
  - assert (KS : k = 1) by reflexivity. rewrite wrap_small by lia.
    assert (R := reserve_ok b (b_size b + N.max (sp_width sp) 1) c V C ltac:(lia)).
    destruct (reserve gr b (b_size b + N.max (sp_width sp) 1)) as [b1|b1|] eqn:ER; [| |exact R].
    + destruct R as (V1 & C1 & S1 & N1).
      assert (Q := ROOM b1 V1 C1 S1 ltac:(lia) (or_intror N1) ltac:(intros; lia)). rewrite KS in Q.
      rewrite (reserve_cap b _ b1 V ER) in Q. rewrite LWE in Q |- *.
      destruct (attempts _ _ _ _ _ _ _ _ _ _ _) as [[b'|b'|]|]; [| |exact Q|exact Q].
      * destruct Q as [V' Q]. split; [exact V'|]. exists type, upper. split; [reflexivity|exact Q].
      * destruct Q as (V' & C' & Q). split; [exact V'|]. split; [exact C'|]. right. exists type, upper. split; [reflexivity|exact Q].
    + destruct R as [-> R]. split; [exact V|]. split; [exact C|]. right. exists type, upper. split; [reflexivity|].
      assert (RF := reserve_refused b (b_size b + N.max (sp_width sp) 1) b V ltac:(lia) ER).
      destruct (digits (sp_hash sp) (sp_precision sp) type (magnitude bits)) as [body|] eqn:ED; [|left; split; [intros (body & D & _); congruence|left; exact RF]].
      destruct (N.ltb_spec INT_MAX (length_N (padded sp lw body))) as [LI|LI];
        [left; split; [intros (body' & D & L); rewrite ED in D; injection D as <-; fold lw in L; lia|left; exact RF]|].
      right. exists body. split; [split; [exact ED|exact LI]|]. eapply refused_le; [exact RF|]. rewrite len_app. lia.
  - assert (KS : k = 0) by reflexivity.
    assert (Q := ROOM b V C eq_refl ltac:(lia) (or_introl eq_refl) ltac:(congruence)). rewrite KS, N.add_0_r in Q.
    rewrite LWE in Q |- *.
    destruct (attempts _ _ _ _ _ _ _ _ _ _ _) as [[b'|b'|]|]; [| |exact Q|exact Q].
    + destruct Q as [V' Q]. split; [exact V'|]. exists type, upper. split; [reflexivity|exact Q].
    + destruct Q as (V' & C' & Q). split; [exact V'|]. split; [exact C'|]. right. exists type, upper. split; [reflexivity|exact Q].
Qed.
End Ops.
End Library.
