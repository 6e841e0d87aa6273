From Verif Require Import Base Decimal JsonFmtModel JsonTextModel JsonTextSpec TskvProofs.

Section JsonInd.
Context (P : json -> Prop) (Hl : forall l, P (JLeaf l)) (Ho : forall ms, Forall (fun m => P (snd m)) ms -> P (JObj ms))
  (Ha : forall es, Forall P es -> P (JArr es)).
Fixpoint json_ind2 (t : json) : P t :=
  match t with
  | JLeaf l => Hl l
  | JObj ms => Ho ms ((fix go (l : list (bytes * json)) : Forall (fun m => P (snd m)) l :=
      match l with [] => Forall_nil _ | m :: l' => Forall_cons m (json_ind2 (snd m)) (go l') end) ms)
  | JArr es => Ha es ((fix go (l : list json) : Forall P l :=
      match l with [] => Forall_nil _ | m :: l' => Forall_cons m (json_ind2 m) (go l') end) es)
  end.
End JsonInd.

(** ** Strings *)

(** Reading one written character. *)
Definition char_read (c : ascii) (s : bytes) : option (ascii * bytes) :=
  match s with
  | [] => None
  | c :: s' =>
      if Ascii.eqb c """" then None
      else if Ascii.eqb c "\" then
        match s' with
        | e :: s'' =>
            match simple_escape e with
            | Some x => Some (x, s'')
            | None =>
                match s'' with
                | a :: b :: h :: l :: r' =>
                    match hex_digit a, hex_digit b, hex_digit h, hex_digit l with
                    | Some 0%N, Some 0%N, Some hn, Some ln =>
                        if Ascii.eqb e "u" && (hn <? 8)%N then Some (chr (16 * hn + ln), r') else None
                    | _, _, _, _ => None
                    end
                | _ => None
                end
            end
        | [] => None
        end
      else if (N_of_ascii c <? 32)%N then None else Some (c, s')
  end.

Lemma read_string_char d s : read_string s =
  match s with
  | c :: s' => if Ascii.eqb c """" then Some ([], s') else
      match char_read d s with Some (x, r) => match read_string r with Some (t, r') => Some (x :: t, r') | None => None end | None => None end
  | [] => None
  end.
Proof.
  destruct s as [|c s]; [reflexivity|]. cbn [read_string char_read]. destruct (Ascii.eqb c """"); [reflexivity|].
  destruct (Ascii.eqb c "\").
  - destruct s as [|e s]; [reflexivity|]. destruct (simple_escape e); [reflexivity|].
    destruct s as [|a [|b [|h [|l r]]]]; try reflexivity.
    destruct (hex_digit a) as [[|]|], (hex_digit b) as [[|]|], (hex_digit h), (hex_digit l); try reflexivity.
    destruct (Ascii.eqb e "u" && (n <? 8)%N); reflexivity.
  - destruct (N_of_ascii c <? 32)%N; reflexivity.
Qed.

Lemma json_char_read c r : match json_char c ++ r with x :: _ => Ascii.eqb x """" = false | [] => False end /\
  char_read c (json_char c ++ r) = Some (c, r).
Proof. destruct c as [[] [] [] [] [] [] [] []]; vm_compute; split; reflexivity. Qed.

Lemma read_written s r : read_string (flat_map json_char s ++ QUOTE :: r) = Some (s, r).
Proof.
  induction s as [|c s IH]; [reflexivity|]. cbn [flat_map]. rewrite <- app_assoc.
  destruct (json_char_read c (flat_map json_char s ++ QUOTE :: r)) as [H E].
  rewrite (read_string_char c). destruct (json_char c ++ flat_map json_char s ++ QUOTE :: r) as [|x u]; [destruct H|].
  rewrite H, E, IH. reflexivity.
Qed.

Definition visible (s : bytes) : Prop := Forall (fun c => (32 <= N_of_ascii c)%N) s.

Definition all_visible (s : bytes) : bool := forallb (fun c => 32 <=? N_of_ascii c)%N s.

Lemma all_visible_spec s : all_visible s = true -> visible s.
Proof. intros H. apply Forall_forall. intros c Hc. unfold all_visible in H. rewrite forallb_forall in H. apply N.leb_le, H, Hc. Qed.

Lemma json_char_visible c : visible (json_char c).
Proof. apply all_visible_spec. destruct c as [[] [] [] [] [] [] [] []]; vm_compute; reflexivity. Qed.

Lemma visible_app a b : visible a -> visible b -> visible (a ++ b).
Proof. intros. apply Forall_app. auto. Qed.

Lemma write_string_visible s : visible (write_string s).
Proof.
  constructor; [vm_compute; discriminate|]. apply visible_app; [|repeat constructor; vm_compute; discriminate].
  induction s as [|c s IH]; [constructor|]. cbn [flat_map]. apply visible_app; [apply json_char_visible|exact IH].
Qed.

Lemma digits_visible n : visible (dec n).
Proof.
  apply Forall_forall. intros c H. apply digits_are in H; [lia|lia].
Qed.

Lemma sdec_visible z : visible (sdec z).
Proof. destruct z; cbn [sdec]; try apply digits_visible. constructor; [vm_compute; discriminate|apply digits_visible]. Qed.

Lemma number_visible s : forallb number_char s = true -> visible s.
Proof.
  intros H. apply Forall_forall. intros c Hc. rewrite forallb_forall in H. specialize (H c Hc). revert H.
  unfold number_char. rewrite !orb_true_iff, !andb_true_iff, !N.leb_le, !N.eqb_eq. lia.
Qed.

Lemma join_visible l : Forall visible l -> visible (join l).
Proof.
  induction 1 as [|x l Hx Hl IH]; [constructor|]. cbn [join]. destruct l as [|y l]; [exact Hx|].
  apply visible_app; [exact Hx|]. constructor; [vm_compute; discriminate|exact IH].
Qed.

Lemma write_visible dbl t : (forall b, number_text (dbl b)) -> visible (write_json dbl t).
Proof.
  intros D. induction t as [l|ms IH|es IH] using json_ind2; cbn [write_json].
  - destruct l as [|[]| | | |]; cbn [write_leaf]; try (repeat constructor; vm_compute; discriminate).
    + apply sdec_visible.
    + apply digits_visible.
    + apply number_visible, D.
    + apply write_string_visible.
  - constructor; [vm_compute; discriminate|]. apply visible_app; [|repeat constructor; vm_compute; discriminate].
    apply join_visible. induction IH as [|m ms Hm Hms IHm]; [constructor|]. cbn [map]. constructor; [|exact IHm].
    apply visible_app; [apply write_string_visible|]. constructor; [vm_compute; discriminate|exact Hm].
  - constructor; [vm_compute; discriminate|]. apply visible_app; [|repeat constructor; vm_compute; discriminate].
    apply join_visible. induction IH as [|m ms Hm Hms IHm]; [constructor|]. cbn [map]. constructor; [exact Hm|exact IHm].
Qed.

Lemma one_line_lemma dbl nl t : (forall b, number_text (dbl b)) ->
  exists line, json_line dbl nl t = line ++ (if nl then [NL] else []) /\ forall c, In c line -> (32 <= N_of_ascii c)%N.
Proof.
  intros D. exists (write_json dbl t). split; [reflexivity|]. apply Forall_forall. exact (write_visible dbl t D).
Qed.

(** ** Reading back *)

(** What may follow a value. *)
Definition stops (r : bytes) : Prop := match r with [] => True | c :: _ => number_char c = false end.

Lemma read_number_all s r : forallb number_char s = true -> stops r -> read_number (s ++ r) = (s, r).
Proof.
  induction s as [|c s IH]; intros H S; cbn [app].
  - destruct r as [|c r]; [reflexivity|]. cbn [read_number]. cbn in S. rewrite S. reflexivity.
  - cbn [forallb] in H. apply andb_true_iff in H as [H1 H2]. cbn [read_number]. rewrite H1, IH by assumption. reflexivity.
Qed.

Lemma number_first c : number_char c = true -> Ascii.eqb c """" = false /\ Ascii.eqb c "{" = false /\ Ascii.eqb c "[" = false /\
  Ascii.eqb c "n" = false /\ Ascii.eqb c "t" = false /\ Ascii.eqb c "f" = false.
Proof. destruct c as [[] [] [] [] [] [] [] []]; vm_compute; intros H; try discriminate; repeat split. Qed.

Lemma read_number_value s r fuel : number_text s -> stops r -> (0 < fuel)%nat -> read_value fuel (s ++ r) = Some (TNumber s, r).
Proof.
  intros [Hn Hc] S F. destruct fuel as [|fuel]; [lia|]. destruct s as [|c s]; [contradiction|].
  pose proof Hc as Hc'. cbn [forallb] in Hc. apply andb_true_iff in Hc as [Hc _].
  destruct (number_first c Hc) as (E1 & E2 & E3 & E4 & E5 & E6).
  pose proof (read_number_all (c :: s) r Hc' S) as R. cbn [app] in R |- *. cbn [read_value]. rewrite E1, E2, E3, E4, E5, E6, R. reflexivity.
Qed.

Lemma dec_number n : number_text (dec n).
Proof.
  split; [apply notation_nonempty|]. apply forallb_forall. intros c H.
  pose proof (notation_digits 10 n) as D. rewrite Forall_forall in D. destruct (D ltac:(lia) c H) as (d & Hd & ->).
  unfold number_char. rewrite digit_code by lia. destruct (N.ltb_spec d 10); [|lia].
  apply orb_true_iff. left. apply orb_true_iff. left. apply orb_true_iff. left. apply orb_true_iff. left. apply orb_true_iff. left.
  apply andb_true_iff. split; apply N.leb_le; lia.
Qed.

Lemma sdec_number z : number_text (sdec z).
Proof.
  destruct z; cbn [sdec]; try apply dec_number. destruct (dec_number (N.pos p)) as [_ H].
  split; [discriminate|]. cbn [forallb]. rewrite H. reflexivity.
Qed.

Lemma read_string_value fuel s r : (0 < fuel)%nat -> read_value fuel (write_string s ++ r) = Some (TString s, r).
Proof.
  intros F. destruct fuel as [|fuel]; [lia|]. unfold write_string. cbn [app read_value].
  change (Ascii.eqb QUOTE """") with true. cbv iota. rewrite <- app_assoc. cbn [app]. rewrite read_written. reflexivity.
Qed.

Definition reads_value (dbl : N -> bytes) (t : json) : Prop :=
  forall r fuel, stops r -> (length (write_json dbl t) <= fuel)%nat -> read_value fuel (write_json dbl t ++ r) = Some (tree_of dbl t, r).

Lemma join_cons x y l : join (x :: y :: l) = x ++ ","%char :: join (y :: l).
Proof. reflexivity. Qed.

Lemma write_string_length s : (2 <= length (write_string s))%nat.
Proof. unfold write_string. cbn [length]. rewrite app_length. cbn. lia. Qed.

Lemma read_members_lemma dbl ms : ms <> [] -> Forall (fun m => reads_value dbl (snd m)) ms -> forall r fuel,
  (length (join (map (fun m => write_string (fst m) ++ ":"%char :: write_json dbl (snd m)) ms)) < fuel)%nat ->
  read_members fuel (join (map (fun m => write_string (fst m) ++ ":"%char :: write_json dbl (snd m)) ms) ++ "}"%char :: r) =
  Some (map (fun m => (fst m, tree_of dbl (snd m))) ms, r).
Proof.
  intros N H. induction H as [|[k v] ms Hm Hms IH]; [contradiction|]. clear N. intros r fuel F.
  destruct fuel as [|fuel]; [lia|]. cbn [map fst snd] in *.
  assert (K : forall u, skip [""""%char] ((write_string k ++ ":"%char :: u)) = Some (flat_map json_char k ++ QUOTE :: ":"%char :: u)).
  { intros u. unfold write_string. cbn [app skip]. change (Ascii.eqb """" QUOTE) with true. cbv iota. rewrite <- app_assoc. reflexivity. }
  destruct ms as [|m2 ms].
  - cbn [map join] in *. rewrite <- app_assoc. cbn [app read_members]. rewrite K, read_written. cbn [skip B list_ascii_of_string].
    change (Ascii.eqb ":" ":") with true. cbv iota. rewrite app_length in F. cbn [length] in F.
    rewrite (Hm ("}"%char :: r)); [|reflexivity|lia]. reflexivity.
  - cbn [map] in *. rewrite join_cons in *. rewrite <- !app_assoc. cbn [app read_members].
    rewrite K, read_written. cbn [skip B list_ascii_of_string].
    change (Ascii.eqb ":" ":") with true. cbv iota. rewrite !app_length in F. cbn [length] in F.
    rewrite (Hm (","%char :: join _ ++ "}"%char :: r)); [|reflexivity|lia].
    cbn [skip B list_ascii_of_string]. change (Ascii.eqb "," ",") with true. cbv iota.
    rewrite IH; [reflexivity|discriminate|]. pose proof (write_string_length k). match type of F with (_ + S ?x < _)%nat => change (x < fuel)%nat end. lia.
Qed.

Lemma read_elements_lemma dbl es : es <> [] -> Forall (reads_value dbl) es -> forall r fuel,
  (length (join (map (write_json dbl) es)) < fuel)%nat ->
  read_elements fuel (join (map (write_json dbl) es) ++ "]"%char :: r) = Some (map (tree_of dbl) es, r).
Proof.
  intros N H. induction H as [|v es Hm Hms IH]; [contradiction|]. clear N. intros r fuel F.
  destruct fuel as [|fuel]; [lia|]. cbn [map] in *.
  destruct es as [|m2 es].
  - cbn [map join] in *. cbn [read_elements]. rewrite (Hm ("]"%char :: r)); [|reflexivity|lia]. reflexivity.
  - cbn [map] in *. rewrite join_cons in *. rewrite <- !app_assoc. cbn [app read_elements].
    rewrite !app_length in F. cbn [length] in F. 
    rewrite (Hm (","%char :: join _ ++ "]"%char :: r)); [|reflexivity|lia].
    cbn [skip B list_ascii_of_string]. change (Ascii.eqb "," ",") with true. cbv iota.
    rewrite IH; [reflexivity|discriminate|]. lia.
Qed.

(** What a value's text starts with. *)
Lemma write_first dbl t : (forall b, number_text (dbl b)) -> exists c s, write_json dbl t = c :: s /\ c <> "]"%char.
Proof.
  intros D. destruct t as [l|ms|es]; cbn [write_json].
  - assert (X : forall s, number_text s -> exists c s', s = c :: s' /\ c <> "]"%char).
    { intros [|c s] [N H]; [contradiction|]. exists c, s. split; [reflexivity|]. intros ->. discriminate. }
    destruct l as [|[]| | | |]; cbn [write_leaf]; try (eexists; eexists; split; [reflexivity|discriminate]).
    + apply X, sdec_number.
    + apply X, dec_number.
    + apply X, D.
  - eexists; eexists; split; [reflexivity|discriminate].
  - eexists; eexists; split; [reflexivity|discriminate].
Qed.

Lemma read_back dbl t : (forall b, number_text (dbl b)) -> reads_value dbl t.
Proof.
  intros D. induction t as [l|ms IH|es IH] using json_ind2; intros r fuel S F.
  - cbn [write_json tree_of] in *. destruct l as [|[]| | | |]; cbn [write_leaf leaf_tree] in *.
    + destruct fuel; [cbn in F; lia|]. reflexivity.
    + destruct fuel; [cbn in F; lia|]. reflexivity.
    + destruct fuel; [cbn in F; lia|]. reflexivity.
    + apply read_number_value; [apply sdec_number|exact S|]. destruct (sdec_number z) as [N _]. destruct (sdec z); [contradiction|cbn in F; lia].
    + apply read_number_value; [apply dec_number|exact S|]. destruct (dec_number n) as [N _]. destruct (dec n); [contradiction|cbn in F; lia].
    + apply read_number_value; [apply D|exact S|]. destruct (D bits) as [N _]. destruct (dbl bits); [contradiction|cbn in F; lia].
    + apply read_string_value. pose proof (write_string_length s). lia.
  - cbn [write_json tree_of] in *. cbn [app length] in *. destruct fuel as [|fuel]; [lia|].
    rewrite <- app_assoc. cbn [app]. rewrite app_length in F. cbn [length] in F. cbn [read_value].
    change (Ascii.eqb "{" """") with false. change (Ascii.eqb "{" "{") with true. cbv iota.
    destruct ms as [|[k v] ms]; [reflexivity|].
    assert (Hs : forall u, skip (B "}") (join (map (fun m => write_string (fst m) ++ ":"%char :: write_json dbl (snd m)) ((k, v) :: ms)) ++ u) = None).
    { intros u. cbn [map fst snd]. destruct ms; reflexivity. }
    rewrite Hs. rewrite read_members_lemma; [reflexivity|discriminate|exact IH|lia].
  - cbn [write_json tree_of] in *. cbn [app length] in *. destruct fuel as [|fuel]; [lia|].
    rewrite <- app_assoc. cbn [app]. rewrite app_length in F. cbn [length] in F. cbn [read_value].
    change (Ascii.eqb "[" """") with false. change (Ascii.eqb "[" "{") with false. change (Ascii.eqb "[" "[") with true. cbv iota.
    destruct es as [|v es]; [reflexivity|].
    assert (Hs : forall u, skip (B "]") (join (map (write_json dbl) (v :: es)) ++ u) = None).
    { intros u. destruct (write_first dbl v D) as (c & s & E & N). cbn [map]. destruct es as [|v2 es]; cbn [map]; [cbn [join]|rewrite join_cons, <- app_assoc]; rewrite E;
        cbn [app skip B list_ascii_of_string]; rewrite (proj2 (Ascii.eqb_neq "]" c)) by congruence; reflexivity. }
    rewrite Hs. rewrite read_elements_lemma; [reflexivity|discriminate|exact IH|lia].
Qed.

Lemma read_json_lemma dbl t : (forall b, number_text (dbl b)) -> read_json (write_json dbl t) = Some (tree_of dbl t).
Proof.
  intros D. unfold read_json. pose proof (read_back dbl t D [] (length (write_json dbl t)) I (le_n _)) as H.
  rewrite app_nil_r in H. rewrite H. reflexivity.
Qed.
