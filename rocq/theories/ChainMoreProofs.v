(** Proofs about [fprintf] and long texts. *)
From Verif Require Import Base FmtModel FmtSpec FmtProofs ChainModel ChainProofs.
From Verif Require PrintfModel PrintfSpec PrintfSubProofs.
Open Scope N_scope.

Lemma long_text : exists s, length_N s = 2 ^ 31 /\ ~ In NUL s.
Proof.
  exists (repeat "x"%char (N.to_nat (2 ^ 31))). split; [rewrite length_N_repeat, N2Nat.id; reflexivity|].
  intros H. apply repeat_spec in H. discriminate H.
Qed.

Lemma fprintf_wrong : exists args, forall dbl, exists out,
  fprintf dbl (B "%s") args (File [] None) = Returned (File out None) (- 2 ^ 31)%Z /\ length_N out = 2 ^ 31.
Proof.
  destruct long_text as (s & L & NI). exists [ACString (Some (s ++ NUL :: []))]. intros dbl.
  destruct (PrintfSubProofs.string_ok dbl (PrintfSpec.Conversion None [] PrintfSpec.NoAmount None [] "s") [ACString (Some (s ++ NUL :: []))]
    (PrintfSpec.Wanted false 0 None (ACString (Some (s ++ NUL :: [])))) s) as (out & E & F).
  - repeat split; try exact I; try reflexivity; [constructor|left; reflexivity].
  - reflexivity.
  - reflexivity.
  - reflexivity.
  - split; [exact NI|]. exists []. reflexivity.
  - discriminate.
  - destruct F as (l & i & r & _ & _ & _ & _ & LO & _). cbn [PrintfSpec.wide PrintfSpec.precise app] in LO. rewrite L in LO.
    assert (LE : length_N out = 2 ^ 31) by (rewrite LO; reflexivity). exists out. split; [|exact LE].
    apply fprintf_wrap; [exact E|exact LE].
Qed.
