(** C20, C21, C55: the console sink. *)
From Verif Require Import Base Decimal ConsoleModel ConsoleSpec ConsoleProofs.

(** C20. The bytes of a record: nothing if the filter denies it ... *)
Theorem C20_denied : forall filter tty color formatted,
  emit_bytes filter tty color formatted = None <-> filter = Deny.
Proof. exact line_text_lemma. Qed.
Print Assumptions C20_denied.

(** ... the formatted text and a newline if the stream is no terminal or the colour is the default ... *)
Theorem C20_plain_line : forall filter tty color formatted b,
  tty = false \/ color = default_color -> emit_bytes filter tty color formatted = Some b -> b = formatted ++ [chr 10].
Proof. exact plain_line_lemma. Qed.
Print Assumptions C20_plain_line.

(** ... and otherwise ESC [ code m, the text, ESC [ 0 m and a newline. *)
Theorem C20_coloured_line : forall filter color formatted b,
  color <> default_color -> emit_bytes filter true color formatted = Some b ->
  b = (chr 27 :: B "[" ++ sdec (code color) ++ B "m") ++ formatted ++ (chr 27 :: B "[0m") ++ [chr 10].
Proof. exact coloured_line_lemma. Qed.
Print Assumptions C20_coloured_line.
Example C20_line_case : emit_bytes Neutral true red (B "x") = Some (chr 27 :: B "[31mx" ++ chr 27 :: B "[0m" ++ [chr 10]) /\
  emit_bytes Accept false red (B "x") = Some (B "x" ++ [chr 10]) /\ emit_bytes Deny true red (B "x") = None.
Proof. vm_compute. repeat split. Qed.

(** C20. For every schedule of any threads using one mutex, each stream holds whole texts in the order in
    which they got the mutex; only the last one may be unfinished, and none is when no emit is running. *)
Theorem C20_whole_lines : forall l acts w evs s,
  one_lock l acts -> run init acts = Some (w, evs) ->
  whole_texts (w_out w s) (texts s evs) /\
  ((forall t, w_thread w t = TIdle) -> w_out w s = concat (texts s evs)).
Proof. exact whole_lines_lemma. Qed.
Print Assumptions C20_whole_lines.

(** C20. Each thread's texts are written in its order, none twice, and all of them once it is idle. *)
Theorem C20_thread_order : forall l acts w evs t,
  one_lock l acts -> run init acts = Some (w, evs) ->
  is_prefix (taken t evs) (begun t evs) /\ is_prefix (finished t evs) (taken t evs) /\
  (w_thread w t = TIdle -> finished t evs = begun t evs /\ taken t evs = begun t evs).
Proof. exact thread_order_lemma. Qed.
Print Assumptions C20_thread_order.

(** C20. While an emit is running, some thread can make a step of its emit. *)
Theorem C20_no_deadlock : forall l acts w evs,
  one_lock l acts -> run init acts = Some (w, evs) -> (exists t, w_thread w t <> TIdle) ->
  exists a w' e, (forall t q, a <> Begin t q) /\ step w a = Some (w', e).
Proof. exact progress_lemma. Qed.
Print Assumptions C20_no_deadlock.

Definition case_acts : list act :=
  [Begin 1 (Request 0 false (B "ab")); Begin 2 (Request 0 false (B "c")); Begin 3 (Request 0 true (B "d"));
   Take 2; Put 2; Done 2; Take 1; Put 1; Begin 2 (Request 0 false (B "e")); Put 1; Done 1; Take 3; Put 3; Done 3; Take 2].
Example C20_case : exists w evs, one_lock 0 case_acts /\ run init case_acts = Some (w, evs) /\
  w_out w false = B "cab" /\ texts false evs = [B "c"; B "ab"; B "e"] /\ w_out w true = B "d".
Proof.
  eexists _, _. split; [|split; [vm_compute; reflexivity|repeat split]].
  intros t q H. repeat (destruct H as [H|H]; [inversion H; subst; reflexivity|]). destruct H.
Qed.

(** C21. The colour of a record is that of the last call concerning it, or the default. *)
Theorem C21_last_call_wins : forall R (severity : R -> Z) calls r,
  built_mapping R severity calls r =
  match find (concerns severity r) (rev calls) with Some x => colour_given r x | None => default_color end.
Proof. exact mapping_lemma. Qed.
Print Assumptions C21_last_call_wins.
Example C21_case :
  let m := built_mapping Z (fun s => s) [BySeverity 1%Z red; ByFunction (fun s => if Z.eqb s 3 then green else default_color);
             BySeverity 2%Z yellow; BySeverity 2%Z blue] in
  m 1%Z = default_color /\ m 2%Z = blue /\ m 3%Z = green.
Proof. vm_compute. repeat split. Qed.

(** C55 (the full statement: messages written to the standard streams by the library's components do not
    intermix) is false for the console sink together with the development handler, which has its own mutex. *)
Theorem C55_two_mutexes_refuted : exists acts w evs a b,
  run init acts = Some (w, evs) /\ (forall t, w_thread w t = TIdle) /\
  begun 1 evs = [a] /\ begun 2 evs = [b] /\ q_stream a = false /\ q_stream b = false /\
  w_out w false <> q_bytes a ++ q_bytes b /\ w_out w false <> q_bytes b ++ q_bytes a.
Proof. exact two_mutexes_lemma. Qed.
Print Assumptions C55_two_mutexes_refuted.
