(** Proofs about the reports of errors. *)
From Verif Require Import Base ParserModel ParserSpec ParserProofs ReportModel ReportSpec.

Lemma first_line_app a b : ~ In NL a -> first_line (a ++ NL :: b) = Some (a, b).
Proof.
  induction a as [|c a IH]; intros N; [reflexivity|]. cbn [app first_line]. destruct (Ascii.eqb_spec c NL) as [->|E]; [destruct N; left; reflexivity|].
  rewrite IH; [reflexivity|]. intros H. apply N. right. exact H.
Qed.
Lemma last_line_none a : ~ In NL a -> last_line a = None.
Proof.
  induction a as [|c a IH]; intros N; [reflexivity|]. cbn [last_line]. rewrite IH; [|intros H; apply N; right; exact H].
  destruct (Ascii.eqb_spec c NL) as [->|E]; [destruct N; left; reflexivity|reflexivity].
Qed.
Lemma last_line_app a b : ~ In NL b -> last_line (a ++ NL :: b) = Some (a, b).
Proof.
  intros N. induction a as [|c a IH]; cbn [app last_line]; [rewrite (last_line_none _ N); reflexivity|]. rewrite IH. reflexivity.
Qed.
Lemma caret_mark k : caret (repeat "~"%char k ++ B "^") = Some k.
Proof. induction k as [|k IH]; [reflexivity|]. cbn [repeat app caret]. rewrite IH. reflexivity. Qed.
Lemma mark_line k : ~ In NL (repeat "~"%char k ++ B "^").
Proof. intros H. apply in_app_or in H. destruct H as [H|[H|[]]]; [apply repeat_spec in H; discriminate H|discriminate H]. Qed.
Lemma reason_line f : ~ In NL (B "parser error: " ++ reason f).
Proof. destruct f; cbn; intros H; repeat (destruct H as [H|H]; [discriminate H|]); exact H. Qed.

Lemma report_read k pattern r : ~ In NL (B "parser error: " ++ r) ->
  read_report (e_detail (make_error k pattern r)) = Some (B "parser error: " ++ r, pattern, k).
Proof.
  intros N. unfold read_report. unfold make_error. cbn [e_detail].
  rewrite (app_assoc (B "parser error: ") r). cbn [app]. rewrite (first_line_app _ _ N), last_line_app by apply mark_line. rewrite caret_mark. reflexivity.
Qed.

Lemma lines_app a b : ~ In NL a -> lines (a ++ NL :: b) = a :: lines b.
Proof.
  induction a as [|c a IH]; intros N; [reflexivity|]. cbn [app lines]. destruct (Ascii.eqb_spec c NL) as [->|E]; [destruct N; left; reflexivity|].
  rewrite IH; [reflexivity|]. intros H. apply N. right. exact H.
Qed.
Lemma lines_one a : ~ In NL a -> lines a = [a].
Proof.
  induction a as [|c a IH]; intros N; [reflexivity|]. cbn [lines]. destruct (Ascii.eqb_spec c NL) as [->|E]; [destruct N; left; reflexivity|].
  rewrite IH; [reflexivity|]. intros H. apply N. right. exact H.
Qed.

Lemma below_lemma k pattern f : ~ In NL pattern -> (k <= length pattern)%nat -> caret_below (e_detail (make_error k pattern (reason f))) (nth_error pattern k).
Proof.
  intros N L. exists [B "parser error: " ++ reason f], pattern, (repeat "~"%char k ++ B "^"), k. cbn [e_detail make_error].
  split; [|split; [apply caret_mark|split; [reflexivity|exact L]]].
  rewrite (app_assoc (B "parser error: ")). cbn [app]. rewrite lines_app by apply reason_line. rewrite lines_app by exact N. rewrite lines_one by apply mark_line. reflexivity.
Qed.

(** The constructor throws what the first failing call throws. *)
Lemma first_thrown_lemma ld nd pattern fuel : forall p, 
  match tokenize_from ld nd fuel p with
  | None => first_thrown ld nd fuel pattern p = None
  | Some (Tokens _) => first_thrown ld nd fuel pattern p = Some Nothing
  | Some (Failed o) => exists p', first_thrown ld nd fuel pattern p = Some (throws pattern p' o)
  end.
Proof.
  induction fuel as [|fuel IH]; intros p; cbn [tokenize_from first_thrown]; [reflexivity|].
  destruct (next ld nd p) as [o p']. destruct o; try (exists p; reflexivity); [|reflexivity].
  specialize (IH p'). destruct (tokenize_from ld nd fuel p') as [[ts|o]|]; exact IH.
Qed.

Lemma accepted_lemma ld nd pattern : construct ld nd pattern = Some Nothing <-> exists ts, tokenize ld nd pattern = Some (Tokens ts).
Proof.
  unfold construct, tokenize. pose proof (first_thrown_lemma ld nd pattern (S (length pattern)) (parser_new pattern)) as H.
  destruct (tokenize_from ld nd (S (length pattern)) (parser_new pattern)) as [[ts|o]|] eqn:T.
  - split; [eauto|intros _; exact H].
  - destruct H as (p' & H). rewrite H. split; [|intros (ts & E); discriminate E].
    assert (NT : forall fuel p o', tokenize_from ld nd fuel p = Some (Failed o') -> (forall t, o' <> OToken t) /\ o' <> OEnd).
    { clear. induction fuel as [|fuel IH]; cbn [tokenize_from]; intros p o' E; [discriminate E|]. destruct (next ld nd p) as [o p']. destruct o.
      - destruct (tokenize_from ld nd fuel p') as [[ts|o]|] eqn:T; [discriminate E|injection E as <-; exact (IH _ _ T)|discriminate E].
      - discriminate E.
      - injection E as <-. split; discriminate.
      - injection E as <-. split; discriminate.
      - injection E as <-. split; discriminate.
      - injection E as <-. split; discriminate. }
    destruct (NT _ _ _ T) as (N1 & N2). intros E. destruct o as [t| |f k|[k|]| |]; try discriminate E; [destruct (N1 t eq_refl)|contradiction].
  - rewrite H. split; [discriminate|intros (ts & E); discriminate E].
Qed.

Lemma thrown_lemma ld nd pattern f k : tokenize ld nd pattern = Some (Failed (OError f k)) ->
  construct ld nd pattern = Some (Parser_error (make_error k pattern (reason f))).
Proof.
  intros E. unfold construct, tokenize in *. pose proof (first_thrown_lemma ld nd pattern (S (length pattern)) (parser_new pattern)) as H.
  rewrite E in H. destruct H as (p' & H). exact H.
Qed.

Lemma last_two {A} (a b c d : A) front x y : [a; b; c; d] = front ++ [x; y] -> x = c /\ y = d.
Proof.
  destruct front as [|f1 [|f2 [|f3 front]]]; cbn; intros E; [discriminate E|discriminate E|injection E as _ _ <- <-; auto|].
  injection E as _ _ _ E. destruct front as [|f4 [|f5 front]]; discriminate E.
Qed.
