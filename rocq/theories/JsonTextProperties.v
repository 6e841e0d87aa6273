(** C56: the text of the JSON formatter. *)
From Verif Require Import Base Decimal JsonFmtModel JsonTextModel JsonTextSpec JsonTextProofs.

(** C56. The text of a document contains no control byte, so it is one line, followed by a newline exactly if that
    is configured. *)
Theorem C56_one_line : forall dbl nl t, (forall b, number_text (dbl b)) ->
  exists line, json_line dbl nl t = line ++ (if nl then [NL] else []) /\ forall c, In c line -> (32 <= N_of_ascii c)%N.
Proof. exact one_line_lemma. Qed.
Print Assumptions C56_one_line.

(** C56. Read as JSON, the text is the document: no value or key can add to its structure. *)
Theorem C56_reads_back : forall dbl t, (forall b, number_text (dbl b)) -> read_json (write_json dbl t) = Some (tree_of dbl t).
Proof. exact read_json_lemma. Qed.
Print Assumptions C56_reads_back.

Example C56_text_case :
  let t := JObj [(B "a" ++ [QUOTE], JLeaf (LStr (NL :: QUOTE :: B ",\" ++ [chr 1; chr 31; chr 200])));
                 (B "o", JObj []); (B "l", JArr [JLeaf LNull; JLeaf (LInt (-5)); JLeaf (LDouble 3)])] in
  write_json (fun _ => B "1.5") t =
    B "{" ++ QUOTE :: B "a\" ++ QUOTE :: QUOTE :: B ":" ++ QUOTE :: B "\n\" ++ QUOTE :: B ",\\\u0001\u001F" ++ chr 200 :: QUOTE :: B ","
      ++ QUOTE :: B "o" ++ QUOTE :: B ":{}," ++ QUOTE :: B "l" ++ QUOTE :: B ":[null,-5,1.5]}" /\
  read_json (write_json (fun _ => B "1.5") t) = Some (tree_of (fun _ => B "1.5") t) /\ number_text (B "1.5").
Proof. vm_compute. repeat split; discriminate. Qed.
