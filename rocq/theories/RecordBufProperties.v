(** C07: buffered records. *)
From Verif Require Import Base Values RecordBufModel RecordBufSpec RecordBufProofs.

(** C07. For every history of copies, moves, destructions and arbitrary changes or releases of the
    application's memory, and whatever fits inline, nothing undefined happens and every observation of
    a buffered record is the snapshot taken when it was copied. *)
Theorem C07_snapshot_observed : forall fits app ops s outs,
  srun (sinit app) ops s outs ->
  exists w l, run fits (init app) ops = Some (w, l) /\ map fst l = outs.
Proof. exact snapshot_lemma. Qed.
Print Assumptions C07_snapshot_observed.

(** C07. A record that holds nothing (default constructed or moved from) must not be moved from: the
    assertion fails. *)
Theorem C07_moved_from_undefined : forall fits app ops s outs w l src dst,
  srun (sinit app) ops s outs -> run fits (init app) ops = Some (w, l) ->
  s_obj s src = Some Nothing -> s_obj s dst = None -> step fits w (MoveConstruct src dst) = None.
Proof. exact moved_from_undefined_lemma. Qed.
Print Assumptions C07_moved_from_undefined.

(** The way of a record through the asynchronous sink: a temporary (1) made from the original, moved
    into a queue cell (0), moved out by the worker into its local (2), while the application's buffers
    are overwritten and released. A long text lives on the heap, a short one inline. *)
Definition case_app : nat -> option bytes := fun a =>
  match a with
  | 0 => Some (B "xx-hello-yy")
  | 1 => Some (B "a message that does not fit inline")
  | 2 => Some (B "key")
  | 3 => Some (B "lazy text")
  | _ => None
  end.
Definition case_view : rview :=
  RView (View (PApp 0) 3 5) (View (PApp 1) 0 34) 2 77 9
    [[(View (PApp 2) 0 3, WInt (-1)); (View (PApp 2) 1 2, WFun (PApp 3))]; []; [(View (PApp 2) 0 1, WString (View (PApp 1) 2 7))]].
Definition case_record : record :=
  Rec (B "hello") (B "a message that does not fit inline") 2 77 9
    [[(B "key", VInt (-1)); (B "ey", VString (B "lazy text")); (B "k", VString (B "message"))]].
Definition case_ops : list op :=
  [NewEmpty 0; NewEmpty 2; Copy 1 case_view; MoveAssign 1 0; Destroy 1; AppWrite 0 None; AppWrite 1 (Some (B "???")); AppWrite 2 None;
   AppWrite 3 None; Observe 0 5; MoveAssign 0 2; Observe 2 6; Destroy 0; Observe 2 6].
Definition case_fits (p : payload) : bool :=
  match p with Text s => length s <=? 15 | Elems e => length e <=? 16 end.

Lemma case_snapshot : Snapshot case_app case_view case_record.
Proof.
  apply (Snapshot_intro _ _ _ 2%Z 77%Z 9%N _ (B "hello") (B "a message that does not fit inline")
    [[(B "key", VInt (-1)); (B "ey", VString (B "lazy text"))]; []; [(B "k", VString (B "message"))]]).
  - exact (Shows_app case_app 0 (B "xx-") (B "hello") (B "-yy") eq_refl).
  - exact (Shows_app case_app 1 [] (B "a message that does not fit inline") [] eq_refl).
  - repeat constructor; cbn.
    + exact (Shows_app case_app 2 [] (B "key") [] eq_refl).
    + exact (Shows_app case_app 2 (B "k") (B "ey") [] eq_refl).
    + exact (Shows_app case_app 2 [] (B "k") (B "ey") eq_refl).
    + exact (Shows_app case_app 1 (B "a ") (B "message") (B " that does not fit inline") eq_refl).
Qed.

Example C07_case :
  (exists s, srun (sinit case_app) case_ops s [case_record; case_record; case_record] /\ s_obj s 1 = None /\ s_obj s 0 = None) /\
  (exists w, run case_fits (init case_app) case_ops = Some (w, [(case_record, 5%N); (case_record, 6%N); (case_record, 6%N)])).
Proof.
  split; [|eexists; vm_compute; reflexivity].
  eexists. split.
  - eapply R_silent; [apply S_new; reflexivity|].
    eapply R_silent; [apply S_new; reflexivity|].
    eapply R_silent; [apply S_copy; [reflexivity|exact case_snapshot]|].
    eapply R_silent; [eapply S_move_assign; [discriminate|reflexivity|reflexivity]|].
    eapply R_silent; [eapply S_destroy; reflexivity|].
    do 4 (eapply R_silent; [apply S_app|]).
    eapply R_out; [apply S_observe; reflexivity|].
    eapply R_silent; [eapply S_move_assign; [discriminate|reflexivity|reflexivity]|].
    eapply R_out; [apply S_observe; reflexivity|].
    eapply R_silent; [eapply S_destroy; reflexivity|].
    eapply R_out; [apply S_observe; reflexivity|].
    apply R_nil.
  - split; reflexivity.
Qed.

(** After the first move the temporary (1) holds nothing; moving from it again fails. *)
Example C07_moved_from_case :
  let ops := [NewEmpty 0; NewEmpty 2; Copy 1 case_view; MoveAssign 1 0] in
  (exists s, srun (sinit case_app) ops s [] /\ s_obj s 1 = Some Nothing /\ s_obj s 7 = None) /\
  option_map (fun x => match step case_fits (fst x) (MoveConstruct 1 7) with None => true | Some _ => false end)
    (run case_fits (init case_app) ops) = Some true.
Proof.
  split; [|vm_compute; reflexivity]. eexists. split.
  - eapply R_silent; [apply S_new; reflexivity|].
    eapply R_silent; [apply S_new; reflexivity|].
    eapply R_silent; [apply S_copy; [reflexivity|exact case_snapshot]|].
    eapply R_silent; [eapply S_move_assign; [discriminate|reflexivity|reflexivity]|].
    apply R_nil.
  - split; reflexivity.
Qed.

(** C07 as stated includes the thread ids. The light-weight process id of a buffered record is that of
    whoever asks: copied by thread [c], it shows [d] when thread [d] reads it. *)
Theorem C07_lwp_refuted : exists app v r (c d : N),
  Snapshot app v r /\ record_lwp c = c /\ c <> d /\
  exists w, run case_fits (init app) [Copy 1 v; Observe 1 d] = Some (w, [(r, d)]).
Proof.
  exists case_app, case_view, case_record, 1%N, 2%N.
  split; [exact case_snapshot|]. split; [reflexivity|]. split; [discriminate|].
  eexists; vm_compute; reflexivity.
Qed.
Print Assumptions C07_lwp_refuted.
