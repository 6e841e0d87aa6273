(** C47, C67, C68: string views. *)
From Verif Require Import Base StringViewModel StringViewSpec StringViewProofs.
Open Scope N_scope.

Definition case_view : view := View (Some (B "hello world")) 5.
Example case_shows : shows case_view (B "hello").
Proof. exact (shows_bytes (B "hello") (B " world")). Qed.

(** C47. Indexing gives the byte at that place of the viewed bytes, and std::out_of_range beyond them. *)
Theorem C47_index : forall v bs i, shows v bs ->
  match nth_error bs (N.to_nat i) with Some c => index v i = Done c | None => index v i = OutOfRange end.
Proof. exact index_lemma. Qed.
Print Assumptions C47_index.
Example C47_index_case : shows case_view (B "hello") /\ index case_view 4 = Done "o"%char /\ index case_view 5 = OutOfRange.
Proof. split; [exact case_shows|]. split; reflexivity. Qed.

(** C47. [substr] shows at most [count] of the bytes from [pos] on; std::out_of_range if [pos] is beyond the end. *)
Theorem C47_substr : forall v bs pos count, shows v bs ->
  if pos <=? N.of_nat (length bs)
  then exists w, substr v pos count = Done w /\ shows w (firstn (N.to_nat count) (skipn (N.to_nat pos) bs))
  else substr v pos count = OutOfRange.
Proof. exact substr_lemma. Qed.
Print Assumptions C47_substr.
Example C47_substr_case : substr case_view 1 3 = Done (View (Some (B "ello world")) 3) /\ substr case_view 5 npos = Done (View (Some (B " world")) 0)
  /\ substr case_view 6 0 = OutOfRange /\ substr view_empty 0 npos = Done view_empty.
Proof. repeat split; vm_compute; reflexivity. Qed.

(** C47. Views are equal exactly when they show the same bytes, wherever these are. *)
Theorem C47_equal : forall v w a b, shows v a -> shows w b -> exists r, view_eq v w = Done r /\ (r = true <-> a = b).
Proof. exact eq_lemma. Qed.
Print Assumptions C47_equal.
Example C47_equal_case : shows (view_string (B "hello")) (B "hello") /\ view_eq case_view (view_string (B "hello")) = Done true
  /\ view_eq case_view (view_string (B "hella")) = Done false /\ view_eq view_empty (view_string []) = Done true.
Proof. split; [exact (shows_bytes (B "hello") [NUL])|]. repeat split; vm_compute; reflexivity. Qed.

(** C47. [operator<] is a strict total order: irreflexive, transitive, and of two views exactly one is less or both are
    equal. *)
Theorem C47_order : forall u v w a b c, shows u a -> shows v b -> shows w c ->
  view_lt u u = Done false
  /\ (view_lt u v = Done true -> view_lt v w = Done true -> view_lt u w = Done true)
  /\ ((view_eq u v = Done true /\ view_lt u v = Done false /\ view_lt v u = Done false)
      \/ (view_eq u v = Done false /\ view_lt u v = Done true /\ view_lt v u = Done false)
      \/ (view_eq u v = Done false /\ view_lt u v = Done false /\ view_lt v u = Done true)).
Proof. exact order_lemma. Qed.
Print Assumptions C47_order.
Example C47_order_case : view_lt (view_string (B "hell")) case_view = Done true /\ view_lt case_view (view_string (B "help")) = Done true
  /\ view_lt (view_string (B "hell")) (view_string (B "help")) = Done true.
Proof. repeat split; vm_compute; reflexivity. Qed.

(** C47. A view of a std::string shows its characters; [to_string] copies what the view shows. *)
Theorem C47_string : forall s v bs, shows (view_string s) s /\ (shows v bs -> to_string v = Done bs).
Proof. intros. split; [apply string_lemma|apply to_string_lemma]. Qed.
Print Assumptions C47_string.
Example C47_string_case : to_string case_view = Done (B "hello") /\ to_string view_empty = Done [].
Proof. split; reflexivity. Qed.

(** C67. For texts of bytes below 128 [operator<] is the order of std::string. *)
Theorem C67_ascii : forall v w a b, shows v a -> shows w b -> ascii_only a -> ascii_only b ->
  exists r, view_lt v w = Done r /\ (r = true <-> string_before a b).
Proof. exact string_order_lemma. Qed.
Print Assumptions C67_ascii.
Example C67_ascii_case : shows case_view (B "hello") /\ shows (view_string (B "help")) (B "help") /\ ascii_only (B "hello") /\ ascii_only (B "help")
  /\ string_before (B "hello") (B "help").
Proof.
  refine (conj case_shows (conj (string_lemma _) (conj _ (conj _ _)))).
  - repeat (apply Forall_cons; [vm_compute; reflexivity|]). apply Forall_nil.
  - repeat (apply Forall_cons; [vm_compute; reflexivity|]). apply Forall_nil.
  - cbn. right; split; [reflexivity|]. right; split; [reflexivity|]. right; split; [reflexivity|]. left. vm_compute. reflexivity.
Qed.
(** C67. Refuted for other bytes: they are before all ASCII characters, in std::string behind them. *)
Theorem C67_high_refuted : exists a b, string_before a b /\ view_lt (view_string a) (view_string b) = Done false
  /\ view_lt (view_string b) (view_string a) = Done true.
Proof. exists (B "z"), [chr 195; chr 169]. split; [left; vm_compute; reflexivity|]. split; vm_compute; reflexivity. Qed.
Print Assumptions C67_high_refuted.

(** C68. A literal gives a view of its text. *)
Theorem C68_literal : forall s, shows (view_array (s ++ [NUL])) s.
Proof. intros s. exact (array_lemma s NUL). Qed.
Print Assumptions C68_literal.
Example C68_literal_case : view_array (B "hi" ++ [NUL]) = View (Some (B "hi" ++ [NUL])) 2.
Proof. reflexivity. Qed.
(** C68. Refuted for a buffer: all of it but its last byte is shown, not the C string it holds. *)
Theorem C68_buffer_refuted : forall s junk last, exists bs, shows (view_array (s ++ [NUL] ++ junk ++ [last])) bs /\ bs = s ++ [NUL] ++ junk /\ bs <> s.
Proof.
  intros s junk last. exists (s ++ [NUL] ++ junk). split; [|split; [reflexivity|]].
  - unfold view_array. rewrite !app_length. cbn [length].
    replace (N.of_nat (length s + (1 + (length junk + 1))) - 1) with (N.of_nat (length (s ++ [NUL] ++ junk))) by (rewrite !app_length; cbn [length]; lia).
    replace (s ++ [NUL] ++ junk ++ [last]) with ((s ++ [NUL] ++ junk) ++ [last]) by (rewrite <- !app_assoc; reflexivity). constructor.
  - intros E. apply (f_equal (@length ascii)) in E. rewrite app_length in E. cbn [length app] in E. lia.
Qed.
Print Assumptions C68_buffer_refuted.
