(** Properties of wrappers as objects. *)
From Verif Require Import Base Values WrapperModel WrapperSpec WrapperProofs WrapperEndProofs.

(** The library as it is compiled with libstdc++ and a Boost that has small_vector. *)
Definition usual : library := Library 15 16.

Ltac expected_case :=
  first [ eapply Expected_make; [reflexivity|let E := fresh in intros ? E; first [discriminate E|inversion E; subst; discriminate]]
        | eapply Expected_copy; reflexivity
        | eapply Expected_move; reflexivity
        | eapply Expected_destroy; discriminate ].

(** C129. Wrappers that are neither copied nor moved: whatever loggers and wrappers are made, wrapped and destroyed, and at
    whatever addresses, each log call shows the attributes of its wrappers as they were given, outermost first. *)
Theorem C129_kept : forall lib ops m outs, Forall keeps ops -> expects nobody ops m outs ->
  exists s, run lib init ops = Some (s, outs).
Proof. exact keeps_lemma. Qed.
Print Assumptions C129_kept.

(** Two wrappers, one around the other, with a text too long to be inside a string; the address of the outer one is used again. *)
Definition case_inner : attribute_list := [(B "host", VString (B "node-17.example.org")); (B "pid", VInt 42%Z)].
Definition case_outer : attribute_list := [(B "user", VString (B "alice"))].
Definition case_other : attribute_list := [(B "user", VString (B "mallory"))].
Definition case_kept : list op :=
  [Make 0 None case_inner; Make 1 (Some 0) case_outer; Log 1; Destroy 1; Make 1 (Some 0) case_other; Log 1; Log 0].
Example C129_kept_case :
  Forall keeps case_kept /\
  (exists m, expects nobody case_kept m [[case_outer; case_inner]; [case_other; case_inner]; [case_inner]]) /\
  option_map snd (run usual init case_kept) = Some [[case_outer; case_inner]; [case_other; case_inner]; [case_inner]].
Proof.
  split; [repeat constructor|]. split; [|vm_compute; reflexivity]. eexists. unfold case_kept.
  eapply (Expects_cons _ _ _ []); [expected_case|]. eapply (Expects_cons _ _ _ []); [expected_case|].
  eapply (Expects_cons _ _ _ [_]); [apply Expected_log; eapply Shows_more; [reflexivity|apply Shows_last; reflexivity]|].
  eapply (Expects_cons _ _ _ []); [expected_case|]. eapply (Expects_cons _ _ _ []); [expected_case|].
  eapply (Expects_cons _ _ _ [_]); [apply Expected_log; eapply Shows_more; [reflexivity|apply Shows_last; reflexivity]|].
  eapply (Expects_cons _ _ _ [_]); [apply Expected_log; apply Shows_last; reflexivity|]. apply Expects_nil.
Qed.

(** C129. Copies and moves too are as expected, as long as nobody shows a text after the wrapper that it belongs to has been
    destroyed, or has been moved while the text was inside of it. *)
Theorem C129_orderly : forall lib ops m outs, orderlies lib nobody (fun w => w) ops -> expects nobody ops m outs ->
  exists s, run lib init ops = Some (s, outs).
Proof. exact orderly_lemma. Qed.
Print Assumptions C129_orderly.

(** A copy of a copy, used while the first wrapper lives. *)
Definition case_copies : list op := [Make 0 None case_outer; Copy 0 1; Copy 1 2; Destroy 1; Log 2; Destroy 2; Log 0].
Example C129_orderly_case :
  orderlies usual nobody (fun w => w) case_copies /\
  (exists m, expects nobody case_copies m [[case_outer]; [case_outer]]) /\
  option_map snd (run usual init case_copies) = Some [[case_outer]; [case_outer]].
Proof.
  split; [|split; [|vm_compute; reflexivity]].
  - unfold case_copies.
    eapply Orderlies_cons; [exact I|expected_case|]. eapply Orderlies_cons; [exact I|expected_case|].
    eapply Orderlies_cons; [exact I|expected_case|].
    eapply Orderlies_cons; [|expected_case|].
    { intros [|[|[|x]]] A H; cbn in *; congruence. }
    eapply Orderlies_cons; [exact I|apply Expected_log; apply Shows_last; reflexivity|].
    eapply Orderlies_cons; [|expected_case|].
    { intros [|[|[|x]]] A H; cbn in *; congruence. }
    eapply Orderlies_cons; [exact I|apply Expected_log; apply Shows_last; reflexivity|]. apply Orderlies_nil.
  - eexists. unfold case_copies. do 4 (eapply (Expects_cons _ _ _ []); [expected_case|]).
    eapply (Expects_cons _ _ _ [_]); [apply Expected_log; apply Shows_last; reflexivity|].
    eapply (Expects_cons _ _ _ []); [expected_case|].
    eapply (Expects_cons _ _ _ [_]); [apply Expected_log; apply Shows_last; reflexivity|]. apply Expects_nil.
Qed.

(** C129, refuted for copies that outlive their original. [wrapper_t] has the copy constructor the compiler makes (include/blackhole/wrapper.hpp:10-13 declares none): it copies the
    attributes and also the views, which still show the texts of the original. After the original has been destroyed (a
    std::vector of wrappers that grows does this to all of them), logging through the copy reads dead memory. *)
Theorem C129_copy_refuted : exists ops m outs, expects nobody ops m outs /\ run usual init ops = None.
Proof.
  exists [Make 0 None case_outer; Copy 0 1; Destroy 0; Log 1]. do 2 eexists. split; [|vm_compute; reflexivity].
  do 3 (eapply (Expects_cons _ _ _ []); [expected_case|]).
  eapply (Expects_cons _ _ _ [_]); [apply Expected_log; apply Shows_last; reflexivity|]. apply Expects_nil.
Qed.
Print Assumptions C129_copy_refuted.

(** C129, refuted: when another wrapper is then made at the address of the original (the next request on the same stack), records
    logged through the copy carry the attributes of that stranger. *)
Theorem C129_stranger_refuted : exists ops m p q s,
  expects nobody ops m [[p]] /\ run usual init ops = Some (s, [[q]]) /\
  p = [(B "user", VString (B "alice"))] /\ q = [(B "user", VString (B "mallo"))].
Proof.
  exists [Make 0 None case_outer; Copy 0 1; Destroy 0; Make 0 None case_other; Log 1]. do 4 eexists.
  split; [|split; [vm_compute; reflexivity|split; reflexivity]].
  do 4 (eapply (Expects_cons _ _ _ []); [expected_case|]).
  eapply (Expects_cons _ _ _ [_]); [apply Expected_log; apply Shows_last; reflexivity|]. apply Expects_nil.
Qed.
Print Assumptions C129_stranger_refuted.

(** C130. With std::vector (no small_vector), moving wrappers is safe: for every program that does not copy them, every log call
    shows what the wrappers were given, wherever they have been moved. *)
Theorem C130_vector : forall longest ops m outs, Forall no_copy ops -> expects nobody ops m outs ->
  exists s, run (Library longest 0) init ops = Some (s, outs).
Proof. exact vector_lemma. Qed.
Print Assumptions C130_vector.

Definition case_moves : list op := [Make 0 None case_outer; Move 0 1; Log 1; Log 0; Destroy 0; Move 1 2; Destroy 1; Log 2].
Lemma case_moves_expected : exists m, expects nobody case_moves m [[case_outer]; [[]]; [case_outer]].
Proof.
  eexists. unfold case_moves. do 2 (eapply (Expects_cons _ _ _ []); [expected_case|]).
  do 2 (eapply (Expects_cons _ _ _ [_]); [apply Expected_log; apply Shows_last; reflexivity|]).
  do 3 (eapply (Expects_cons _ _ _ []); [expected_case|]).
  eapply (Expects_cons _ _ _ [_]); [apply Expected_log; apply Shows_last; reflexivity|]. apply Expects_nil.
Qed.
Example C130_vector_case :
  Forall no_copy case_moves /\ (exists m, expects nobody case_moves m [[case_outer]; [[]]; [case_outer]]) /\
  option_map snd (run (Library 15 0) init case_moves) = Some [[case_outer]; [[]]; [case_outer]].
Proof. split; [repeat constructor|]. split; [exact case_moves_expected|vm_compute; reflexivity]. Qed.

(** C130. With small_vector too, for attributes that stay where they are: more of them than fit into the wrapper, or all of their
    names and texts too long to be inside a string. *)
Theorem C130_portable : forall lib ops m outs, Forall no_copy ops ->
  Forall (fun o => match o with Make _ _ l => portable lib l | _ => True end) ops ->
  expects nobody ops m outs -> exists s, run lib init ops = Some (s, outs).
Proof. exact stays_lemma. Qed.
Print Assumptions C130_portable.

(** Seventeen attributes; and one with a long name. *)
Definition case_many : attribute_list := repeat (B "k", VString (B "v")) 17.
Definition case_long : attribute_list := [(B "a-rather-long-attribute-name", VUint 7)].
Definition case_carried : list op := [Make 0 None case_many; Make 1 (Some 0) case_long; Move 1 2; Destroy 1; Log 2; Move 0 3; Log 3].
Example C130_portable_case :
  Forall no_copy case_carried /\
  Forall (fun o => match o with Make _ _ l => portable usual l | _ => True end) case_carried /\
  (exists m, expects nobody case_carried m [[case_long; case_many]; [case_many]]) /\
  option_map snd (run usual init case_carried) = Some [[case_long; case_many]; [case_many]].
Proof.
  split; [repeat constructor|]. split.
  { unfold case_carried. constructor; [left; cbn; lia|]. constructor; [right; constructor; [split; cbn; [lia|exact I]|constructor]|].
    repeat constructor. }
  split; [|vm_compute; reflexivity]. eexists. unfold case_carried.
  do 4 (eapply (Expects_cons _ _ _ []); [expected_case|]).
  eapply (Expects_cons _ _ _ [_]); [apply Expected_log; eapply Shows_more; [reflexivity|apply Shows_last; reflexivity]|].
  eapply (Expects_cons _ _ _ []); [expected_case|].
  eapply (Expects_cons _ _ _ [_]); [apply Expected_log; apply Shows_last; reflexivity|]. apply Expects_nil.
Qed.

(** C130. With small_vector every other wrapper is broken by moving it: if its attributes are inside of it and one of their names is
    inside its string, the first log call after the move is undefined behaviour. *)
Theorem C130_moved : forall lib src dst l, src <> dst -> length l <= l_elements lib ->
  Exists (fun a : attribute => 0 < length (fst a) <= l_text lib) l ->
  run lib init [Make src None l; Move src dst; Log dst] = None.
Proof. exact moved_lemma. Qed.
Print Assumptions C130_moved.

Example C130_moved_case :
  length case_inner <= l_elements usual /\ Exists (fun a : attribute => 0 < length (fst a) <= l_text usual) case_inner /\
  run usual init [Make 0 None case_inner; Move 0 1; Log 1] = None.
Proof. split; [cbn; lia|]. split; [apply Exists_cons_hd; cbn; lia|vm_compute; reflexivity]. Qed.

(** C130, refuted: [wrapper_t] has the move constructor the compiler makes, which moves the attributes into the new wrapper but keeps the views of
    the places where they were ([recordbuf_t] makes new views, src/recordbuf.hpp:87-90). A wrapper returned from a function
    without elision is broken this way. *)
Theorem C130_move_refuted : exists ops m outs, Forall no_copy ops /\ expects nobody ops m outs /\ run usual init ops = None.
Proof.
  exists [Make 0 None case_outer; Move 0 1; Log 1]. do 2 eexists. split; [repeat constructor|]. split; [|vm_compute; reflexivity].
  do 2 (eapply (Expects_cons _ _ _ []); [expected_case|]).
  eapply (Expects_cons _ _ _ [_]); [apply Expected_log; apply Shows_last; reflexivity|]. apply Expects_nil.
Qed.
Print Assumptions C130_move_refuted.

(** C131. The attributes themselves are always kept: whatever is made, copied, moved and destroyed, nothing is freed twice, and each
    wrapper owns a list equal to the one it should have. (What is wrong in C129 and C130 are the views.) *)
Theorem C131_stored : forall lib ops m outs, expects nobody ops m outs -> Forall no_log ops ->
  exists s, run lib init ops = Some (s, []) /\
    forall w, match m w with
              | None => s_wrappers s w = None
              | Some (inner, l) => exists x es, s_wrappers s w = Some x /\ w_inner x = inner /\
                                     s_elements s (w_home x) = Some es /\ elements_list (s_texts s) es = Some l
              end.
Proof. exact stored_lemma. Qed.
Print Assumptions C131_stored.

Definition case_owned : list op := [Make 0 None case_inner; Copy 0 1; Destroy 0; Move 1 0].
Example C131_stored_case :
  Forall no_log case_owned /\
  (exists m, expects nobody case_owned m [] /\ m 0 = Some (None, case_inner) /\ m 1 = Some (None, [])) /\
  match run usual init case_owned with
  | Some (s, _) => match s_wrappers s 0 with
                   | Some x => match s_elements s (w_home x) with Some es => elements_list (s_texts s) es = Some case_inner | None => False end
                   | None => False
                   end
  | None => False
  end.
Proof.
  split; [repeat constructor|]. split; [|vm_compute; reflexivity]. eexists. split.
  - unfold case_owned. do 4 (eapply (Expects_cons _ _ _ []); [expected_case|]). apply Expects_nil.
  - split; reflexivity.
Qed.

(** C131. Nothing is leaked: when all wrappers have been destroyed, nothing they allocated is left. *)
Theorem C131_no_leak : forall lib ops s outs, run lib init ops = Some (s, outs) -> (forall w, s_wrappers s w = None) ->
  (forall b, s_texts s b = None) /\ (forall b, s_elements s (Buffer b) = None).
Proof. exact leak_lemma. Qed.
Print Assumptions C131_no_leak.

(** Texts and elements on the heap, with none inside, for a library that keeps nothing inside. *)
Definition case_freed : list op := [Make 0 None case_inner; Copy 0 1; Move 0 2; Destroy 0; Destroy 2; Destroy 1].
Example C131_no_leak_case :
  match run (Library 0 0) init (firstn 2 case_freed) with
  | Some (s, _) => s_texts s 1 = Some (B "node-17.example.org") /\ s_elements s (Buffer 3) <> None
  | None => False
  end /\
  match run (Library 0 0) init case_freed with
  | Some (s, _) => (s_wrappers s 0, s_wrappers s 1, s_wrappers s 2) = (None, None, None) /\ map (s_texts s) (seq 0 9) = repeat None 9
  | None => False
  end.
Proof. vm_compute. repeat split; discriminate. Qed.
