(** Properties of code of the user within log calls. *)
From Verif Require Import Base ReenterModel ReenterSpec ReenterProofs ReenterMoreProofs.

(** ** C141: filters, messages and handlers run without any lock held. *)
Theorem C141_deadlock : forall u objects fuel cs, quiet u ->
  exec u fuel (start objects) cs <> Deadlock /\ exec u fuel (start objects) cs <> Terminated.
Proof. exact no_deadlock. Qed.
Print Assumptions C141_deadlock.

Theorem C141_unlocked : forall u objects fuel cs s, quiet u -> ends (exec u fuel (start objects) cs) s ->
  s_held s = [] /\ forall k e held, In (k, e, held) (s_trace s) -> asked e = true -> held = [].
Proof. exact unlocked. Qed.
Print Assumptions C141_unlocked.

(** Filter 0 logs to the other logger, message 1 replaces the handlers of the logger it is for, and handler 7 replaces its filter and throws. Message 2 logs, and does not
    catch what is thrown by filter 4, which cannot be copied. *)
Definition case_user : user :=
  User (fun e => match e with
                 | AskFilter O => [Log 1 0]
                 | Supply 1 => [Replace 0 2 [9]]
                 | Supply 2 => [Replace 0 4 [9]; Log 0 0]
                 | Handle 7 => [SetFilter 0 3; Assign 1 0]
                 | _ => []
                 end) (fun _ => false) (fun e => match e with Handle 7 | CopyFilter 4 => true | _ => false end) (fun f => negb (Nat.eqb f 5)).
Definition case_objects : list (fid * list hid) := [(0, [7; 8]); (5, [6])]%nat.
Definition case_log : list cmd := [Log 0 1].
Example C141_case : quiet case_user /\
  match exec case_user 4 (start case_objects) case_log with
  | Done s => s_cells s = [2; 2]%nat /\ s_objects s 2 = Some (3, [9])%nat /\ s_objects s 0 = None /\ s_objects s 1 = None /\ length (s_trace s) = 15%nat
  | _ => False
  end.
Proof. split; [split; [|split]; repeat split|]. vm_compute. repeat split; reflexivity. Qed.

(** The filter's copy constructor runs within the lock of the logger's object: one that logs to the same logger never returns. *)
Theorem C141_copy_refuted : exists u objects, (forall f, silent u (DropFilter f)) /\ (forall h, silent u (DropHandler h)) /\
  exec u 5 (start objects) [Log 0 0] = Deadlock.
Proof. exists (User (fun e => match e with CopyFilter _ => [Log 0 0] | _ => [] end) (fun _ => false) (fun _ => false) (fun _ => true)), [(0, [0])]%nat. split; [repeat split|]. split; [repeat split|reflexivity]. Qed.
Print Assumptions C141_copy_refuted.

(** The old filter is destroyed within the lock of the logger's object when a new one is set: a destructor that logs to the same logger never returns. *)
Theorem C141_old_refuted : exists u objects, (forall f, u_code u (CopyFilter f) = []) /\ (forall h, silent u (DropHandler h)) /\
  exec u 5 (start objects) [SetFilter 0 1] = Deadlock.
Proof. exists (User (fun e => match e with DropFilter _ => [Log 0 0] | _ => [] end) (fun _ => false) (fun _ => false) (fun _ => true)), [(0, [0])]%nat. split; [repeat split|]. split; [repeat split|reflexivity]. Qed.
Print Assumptions C141_old_refuted.

(** The old handlers are destroyed within the lock of the logger when another logger is assigned to it: a destructor that logs to the same logger never returns. *)
Theorem C141_handlers_refuted : exists u objects, (forall f, u_code u (CopyFilter f) = []) /\ (forall f, silent u (DropFilter f)) /\
  exec u 5 (start objects) [Replace 0 1 [1%nat]] = Deadlock.
Proof. exists (User (fun e => match e with DropHandler O => [Log 0 0] | _ => [] end) (fun _ => false) (fun _ => false) (fun _ => true)), [(0, [0])]%nat. split; [repeat split|]. split; [repeat split|reflexivity]. Qed.
Print Assumptions C141_handlers_refuted.

(** Destructors that throw end the program: a log call that throws, made by the destructor of a handler, as well. *)
Theorem C141_throwing_refuted : exists u objects, (forall f, u_code u (CopyFilter f) = []) /\ (forall f, silent u (DropFilter f)) /\
  (forall h, u_throws u (DropHandler h) = false) /\ exec u 5 (start objects) [Replace 0 1 [1%nat]] = Terminated.
Proof.
  exists (User (fun e => match e with DropHandler O => [Log 1 0] | _ => [] end) (fun _ => false) (fun e => match e with AskFilter _ => true | _ => false end) (fun _ => true)), [(0, [0]); (1, [])]%nat.
  split; [repeat split|]. split; [repeat split|]. split; [repeat split|reflexivity].
Qed.
Print Assumptions C141_throwing_refuted.

(** ** C142: what a call of a log function uses lives until it ends. *)
Theorem C142_alive : forall u objects fuel cs, known u (length objects) cs -> exec u fuel (start objects) cs <> Undefined.
Proof. exact alive. Qed.
Print Assumptions C142_alive.

Theorem C142_owners : forall u objects fuel cs s, known u (length objects) cs -> ends (exec u fuel (start objects) cs) s ->
  s_held s = [] /\ forall o, s_objects s o <> None <-> In o (s_cells s).
Proof. exact exact_owners. Qed.
Print Assumptions C142_owners.

Theorem C142_call : forall u objects fuel before s l m k s' o f hs,
  known u (length objects) (before ++ [Log l m]) -> ends (exec u fuel (start objects) before) s ->
  nth_error (s_cells s) l = Some o -> s_objects s o = Some (f, hs) ->
  exec u (S k) s [Log l m] = Done s' ->
  exists ext rest, s_trace s' = s_trace s ++ ext /\
    at_level k ext = CopyFilter f :: AskFilter f :: (if u_accepts u f then Supply m :: map Handle hs else []) ++ DropFilter f :: rest /\
    (rest = [] \/ exists f', rest = map DropHandler hs ++ [DropFilter f']).
Proof. exact whole_call. Qed.
Print Assumptions C142_call.

Theorem C142_thrown : forall u objects fuel before s l m k s' o f hs,
  known u (length objects) (before ++ [Log l m]) -> ends (exec u fuel (start objects) before) s ->
  nth_error (s_cells s) l = Some o -> s_objects s o = Some (f, hs) ->
  exec u (S k) s [Log l m] = Threw s' ->
  exists ext body rest, s_trace s' = s_trace s ++ ext /\ at_level k ext = body ++ rest /\
    (body = [CopyFilter f] \/ body = [CopyFilter f; AskFilter f; DropFilter f] \/ (u_accepts u f = true /\ body = [CopyFilter f; AskFilter f; Supply m; DropFilter f])) /\
    (rest = [] \/ exists f', rest = map DropHandler hs ++ [DropFilter f']).
Proof. exact thrown_call. Qed.
Print Assumptions C142_thrown.

Example C142_thrown_case :
  match exec case_user 4 (start case_objects) [Log 0 2] with
  | Threw s => at_level 3 (s_trace s) = [CopyFilter 0; AskFilter 0; Supply 2; DropFilter 0; DropHandler 7; DropHandler 8; DropFilter 0]%nat /\
      s_cells s = [2; 1]%nat /\ s_objects s 2 = Some (4, [9])%nat /\ s_objects s 0 = None
  | _ => False
  end.
Proof. vm_compute. repeat split; reflexivity. Qed.

Example C142_case : known case_user (length case_objects) ([] ++ case_log) /\ exec case_user 3 (start case_objects) [] = Done (start case_objects) /\
  match exec case_user 4 (start case_objects) case_log with
  | Done s => at_level 3 (s_trace s) =
      [CopyFilter 0; AskFilter 0; Supply 1; Handle 7; Handle 8; DropFilter 0; DropHandler 7; DropHandler 8; DropFilter 0]%nat
  | _ => False
  end.
Proof.
  split; [split|].
  - repeat constructor.
  - intros e. destruct e as [f|f|[|f]|[|[|[|m]]]|h|h]; try (cbn; repeat constructor; fail). do 8 (destruct h as [|h]; [cbn; repeat constructor|]). constructor.
  - split; vm_compute; reflexivity.
Qed.
