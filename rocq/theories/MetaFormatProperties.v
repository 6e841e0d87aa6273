(** C48, C70-C72: patterns parsed at compile time and the facade.
    In every theorem [dbl] is the text of a double for a specification: they hold for every such function. *)
From Verif Require Import Base FmtModel FmtSpec MetaFormatModel MetaFormatSpec MetaFormatProofs.
From Verif Require StringViewModel.
Open Scope N_scope.

(** C48. Whatever pattern without NUL and arguments compile, the run-time formatter gives the same text. The full
    property has no hypotheses on the values and on the pattern. *)
Theorem C48_same_partial : forall dbl pattern args r, precompiled dbl pattern args = Some r -> ~ In NUL pattern ->
  Forall proper args -> Forall (fun v => ~ treated_differently v) args ->
  write dbl pattern (map make_value args) = r.
Proof. exact same_text. Qed.
Print Assumptions C48_same_partial.
Definition case_values : list value :=
  [VCString (Some (B "[::]" ++ [NUL])); VString (B "esafronov"); VLong (- 2 ^ 63); VUshort 80; VChar "x"; VRef (B "GET POST") 3].
Example C48_same_case : Forall proper case_values /\ Forall (fun v => ~ treated_differently v) case_values /\
  forall dbl, precompiled dbl (B "{} - {} [{}] {} '{}' {}.") case_values
    = Some (Ok (B "[::] - esafronov [-9223372036854775808] 80 'x' GET."))
  /\ precompiled dbl (B "{{{}}} {}") case_values = Some (Ok (B "{[::]} esafronov")).
Proof.
  split; [|split; [|intros; split; vm_compute; reflexivity]]; unfold case_values;
    repeat (apply Forall_cons; [|]); try apply Forall_nil; cbn [proper treated_differently]; try exact I; try lia; try tauto.
  - cbn. tauto.
  - vm_compute. discriminate.
Qed.

(** C48. The exceptions in the hypotheses are exactly those: every such value is written differently. *)
Theorem C48_only_those : forall dbl v, proper v -> treated_differently v ->
  precompiled dbl (B "{}") [v] <> Some (write dbl (B "{}") [make_value v]).
Proof. exact different. Qed.
Print Assumptions C48_only_those.
Example C48_only_those_case : proper (VSchar 5) /\ treated_differently (VSchar 5) /\ proper (VRef (B "xyz") 0) /\ treated_differently (VRef (B "xyz") 0) /\
  ~ treated_differently (VRef [NUL] 0) /\ forall dbl, write dbl (B "{}") [make_value (VSchar 5)] = Ok [chr 5].
Proof. cbn. split; [lia|]. split; [exact I|]. split; [lia|]. split; [split; [reflexivity|discriminate]|]. split; [tauto|]. intros. vm_compute. reflexivity. Qed.

(** C48 is false of booleans, explicitly signed or unsigned characters and empty references. *)
Theorem C48_promoted_refuted : forall dbl,
  (precompiled dbl (B "{}") [VBool true] = Some (Ok (B "1")) /\ write dbl (B "{}") (map make_value [VBool true]) = Ok (B "true"))
  /\ (precompiled dbl (B "{}") [VUchar 65] = Some (Ok (B "65")) /\ write dbl (B "{}") (map make_value [VUchar 65]) = Ok (B "A"))
  /\ (precompiled dbl (B "{}") [VSchar 65] = Some (Ok (B "65")) /\ write dbl (B "{}") (map make_value [VSchar 65]) = Ok (B "A"))
  /\ (exists m, precompiled dbl (B "{}") [VRef m 0] = Some (Ok []) /\ write dbl (B "{}") (map make_value [VRef m 0]) = Ok (B "secret")).
Proof.
  intros. split; [|split; [|split]].
  - split; vm_compute; reflexivity.
  - split; vm_compute; reflexivity.
  - split; vm_compute; reflexivity.
  - exists (B "secret" ++ [NUL]). split; vm_compute; reflexivity.
Qed.
Print Assumptions C48_promoted_refuted.

(** C48 is false of null pointers: the run-time formatter refuses them. *)
Theorem C48_null_refuted : forall dbl, precompiled dbl (B "{}") [VCString None] = Some Undefined
  /\ write dbl (B "{}") (map make_value [VCString None]) = Error ENullString.
Proof. intros. split; vm_compute; reflexivity. Qed.
Print Assumptions C48_null_refuted.

(** C48 is false of patterns with a NUL: the run-time formatter stops there. *)
Theorem C48_nul_refuted : exists pattern, forall dbl, precompiled dbl pattern [VInt 1] = Some (Ok (B "a" ++ [NUL] ++ B "1"))
  /\ write dbl pattern (map make_value [VInt 1]) = Ok (B "a").
Proof. exists (B "a" ++ [NUL] ++ B "{}"). intros. split; vm_compute; reflexivity. Qed.
Print Assumptions C48_nul_refuted.

(** C70. What compiles: texts and bare placeholders, with an argument for every placeholder and another one for every
    brace of the text. *)
Theorem C70_accepts : forall dbl pattern args, (exists r, precompiled dbl pattern args = Some r) <->
  exists ps, Forall bare ps /\ pattern = format_text ps /\ (placeholders ps + braces ps <= length args)%nat.
Proof. exact accepts. Qed.
Print Assumptions C70_accepts.
Example C70_accepts_case : format_text [Text (B "a{b}"); Next None] = B "a{{b}}{}" /\
  (placeholders [Text (B "a{b}"); Next None] + braces [Text (B "a{b}"); Next None] = 3)%nat /\
  forall dbl, precompiled dbl (B "a{{b}}{}") [VInt 1; VInt 2; VInt 3] = Some (Ok (B "a{b}1"))
    /\ precompiled dbl (B "a{{b}}{}") [VInt 1; VInt 2] = None /\ precompiled dbl (B "{:d}") [VInt 1] = None.
Proof. split; [reflexivity|]. split; [reflexivity|]. intros. split; [|split]; vm_compute; reflexivity. Qed.

(** C70. Without braces in the text, an argument for every placeholder is enough. The full property allows braces. *)
Theorem C70_matching_partial : forall dbl ps args, Forall bare ps -> braces ps = 0%nat -> length args = placeholders ps ->
  exists r, precompiled dbl (format_text ps) args = Some r.
Proof.
  exact (fun dbl ps args F E L => proj2 (accepts dbl (format_text ps) args) (ex_intro _ ps (conj F (conj eq_refl
    (eq_ind_r (fun b => (placeholders ps + b <= length args)%nat) (eq_ind_r (fun n => (placeholders ps + 0 <= n)%nat)
      (Nat.eq_le_incl _ _ (Nat.add_0_r _)) L) E))))).
Qed.
Print Assumptions C70_matching_partial.
Example C70_matching_case : Forall bare [Text (B "a "); Next None; Text (B "."); Next None] /\
  braces [Text (B "a "); Next None; Text (B "."); Next None] = 0%nat /\
  forall dbl, precompiled dbl (B "a {}.{}") [VInt 1; VInt 2] = Some (Ok (B "a 1.2")).
Proof. split; [repeat (apply Forall_cons; [exact I|]); apply Forall_nil|]. split; [reflexivity|]. intros. vm_compute. reflexivity. Qed.

(** C70 is false of patterns with a brace in the text. *)
Theorem C70_braces_refuted : exists ps (args : list value), Forall bare ps /\ length args = placeholders ps
  /\ forall dbl, precompiled dbl (format_text ps) args = None /\ write dbl (format_text ps) (map make_value args) = Ok (B "{1}").
Proof.
  exists [Text (B "{"); Next None; Text (B "}")], [VInt 1]. split; [repeat (apply Forall_cons; [exact I|]); apply Forall_nil|].
  split; [reflexivity|]. intros. split; vm_compute; reflexivity.
Qed.
Print Assumptions C70_braces_refuted.

(** C70. In fact it is false of all of them. *)
Theorem C70_braces_never : forall dbl ps args, Forall bare ps -> length args = placeholders ps -> (0 < braces ps)%nat ->
  precompiled dbl (format_text ps) args = None.
Proof.
  exact (fun dbl ps args F L G => refuses dbl ps args F (eq_ind_r (fun n => (n < placeholders ps + braces ps)%nat)
    (Nat.lt_add_pos_r _ _ G) L)).
Qed.
Print Assumptions C70_braces_never.
Example C70_braces_case : Forall bare [Text (B "{"); Next None; Text (B "}")] /\ (0 < braces [Text (B "{"); Next None; Text (B "}")])%nat
  /\ format_text [Text (B "{"); Next None; Text (B "}")] = B "{{{}}}"
  /\ forall dbl, precompiled dbl (B "{{{}}}") [VInt 1] = None /\ write dbl (B "{{{}}}") (map make_value [VInt 1]) = Ok (B "{1}").
Proof.
  split; [repeat (apply Forall_cons; [exact I|]); apply Forall_nil|]. split; [vm_compute; lia|]. split; [reflexivity|].
  intros. split; vm_compute; reflexivity.
Qed.

(** C71. A pattern without NUL with a NUL behind it (a literal, a std::string): its bytes are what is formatted. The full
    property is for every view. *)
Theorem C71_text_partial : forall dbl s m args, ~ In NUL s -> args <> [] ->
  let v := StringViewModel.View (Some (s ++ NUL :: m)) (length_N s) in
  facade_log dbl v args = Logged v (write dbl s (map make_value args)).
Proof. exact facade_text. Qed.
Print Assumptions C71_text_partial.
Example C71_text_case : forall dbl, l_text (facade_log dbl (StringViewModel.view_string (B "{}-{}")) [VInt 1; VString (B "a")]) = Ok (B "1-a")
  /\ StringViewModel.view_string (B "{}-{}") = StringViewModel.View (Some (B "{}-{}" ++ NUL :: [])) (length_N (B "{}-{}")).
Proof. intros. split; vm_compute; reflexivity. Qed.

(** C71. In fact the size of the view does not matter: the bytes up to the first NUL in memory are formatted, be they in front of the end of the view or behind it. *)
Theorem C71_size_ignored : forall dbl s m size args, ~ In NUL s -> args <> [] ->
  facade_log dbl (StringViewModel.View (Some (s ++ NUL :: m)) size) args =
    Logged (StringViewModel.View (Some (s ++ NUL :: m)) size) (write dbl s (map make_value args)).
Proof. exact facade_any. Qed.
Print Assumptions C71_size_ignored.
Example C71_size_ignored_case : forall dbl, l_text (facade_log dbl (StringViewModel.View (Some (B "{} and more" ++ [NUL])) 2) [VInt 1]) = Ok (B "1 and more").
Proof. intros. vm_compute. reflexivity. Qed.

(** C71. Without arguments every view is its own text. *)
Theorem C71_no_arguments : forall dbl s m,
  let v := StringViewModel.View (Some (s ++ m)) (length_N s) in facade_log dbl v [] = Logged v (Ok s).
Proof. exact facade_plain. Qed.
Print Assumptions C71_no_arguments.
Example C71_no_arguments_case : forall dbl,
  l_text (facade_log dbl (StringViewModel.View (Some (B "{}!garbage")) 3) []) = Ok (B "{}!").
Proof. intros. vm_compute. reflexivity. Qed.

(** C71 is false of views into something longer: the bytes behind the view are formatted as well, or memory is read
    beyond its object; and of patterns with a NUL: the rest is lost. *)
Theorem C71_view_refuted : forall dbl,
  (exists m size, l_text (facade_log dbl (StringViewModel.View (Some m) size) [VInt 1]) = Ok (B "1 secret") /\ firstn (N.to_nat size) m = B "{}")
  /\ (exists m size, l_text (facade_log dbl (StringViewModel.View (Some m) size) [VInt 1]) = Undefined /\ firstn (N.to_nat size) m = B "{}")
  /\ (exists s, l_text (facade_log dbl (StringViewModel.view_string s) [VInt 1]) = Ok (B "a")
       /\ write dbl (B "{}") (map make_value [VInt 1]) = Ok (B "1") /\ s = B "a" ++ [NUL] ++ B "{}").
Proof.
  intros. split; [|split].
  - exists (B "{} secret" ++ [NUL]), 2. split; vm_compute; reflexivity.
  - exists (B "{}"), 2. split; vm_compute; reflexivity.
  - eexists. split; [|split; [vm_compute; reflexivity|reflexivity]]. vm_compute. reflexivity.
Qed.
Print Assumptions C71_view_refuted.

(** C72. The wrapped logger is told the pattern as it was given. The full property is for precompiled patterns too. *)
Theorem C72_pattern_partial : forall dbl v args, l_pattern (facade_log dbl v args) = v.
Proof. intros dbl v [|a args]; reflexivity. Qed.
Print Assumptions C72_pattern_partial.

(** C72 is false of precompiled patterns. *)
Theorem C72_precompiled_refuted : exists pattern args, forall dbl, exists r,
  facade_log_precompiled dbl pattern args = Some r /\ l_text r = Ok (B "a 1") /\ StringViewModel.v_size (l_pattern r) <> length_N pattern.
Proof.
  exists (B "a {}"), [VInt 1]. intros. eexists. split; [vm_compute; reflexivity|]. split; [reflexivity|]. vm_compute. discriminate.
Qed.
Print Assumptions C72_precompiled_refuted.

(** C72. The logger is then always told an empty pattern. *)
Theorem C72_precompiled_empty : forall dbl pattern args r, facade_log_precompiled dbl pattern args = Some r ->
  StringViewModel.v_size (l_pattern r) = 0.
Proof.
  intros dbl pattern [|a args] r; [discriminate|]. unfold facade_log_precompiled. destruct (precompiled dbl pattern (a :: args)) as [t|]; [|discriminate].
  intros E. injection E as <-. reflexivity.
Qed.
Print Assumptions C72_precompiled_empty.
Example C72_precompiled_case : forall dbl, exists r, facade_log_precompiled dbl (B "a {}") [VInt 1] = Some r
  /\ l_text r = Ok (B "a 1") /\ StringViewModel.v_size (l_pattern r) = 0.
Proof. intros. eexists. split; [vm_compute; reflexivity|]. split; reflexivity. Qed.
