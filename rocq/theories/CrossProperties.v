(** Properties of several threads in root loggers. *)
From Verif Require Import Base ReenterModel CrossModel CrossSpec CrossProofs.

(** ** C146: threads that log do not wait for each other for ever. *)
Theorem C146_progress : forall u filters handlers programs sched s, modest u -> xrun u (xstart filters handlers programs) sched = Some s -> ~ deadlocked u s.
Proof. exact progress_lemma. Qed.
Print Assumptions C146_progress.

Theorem C146_short : forall u filters handlers programs sched s x t, modest u -> xrun u (xstart filters handlers programs) sched = Some s -> x_holder s x = Some t ->
  exists k s', (1 <= k <= 3)%nat /\ xrun u s (repeat t k) = Some s' /\ x_holder s' x = None.
Proof. exact short_lemma. Qed.
Print Assumptions C146_short.

Theorem C146_turn : forall u filters handlers programs sched s t, modest u -> xrun u (xstart filters handlers programs) sched = Some s -> unfinished s t -> xstep u s t = None ->
  exists t' k s' s'', t' <> t /\ (1 <= k <= 3)%nat /\ xrun u s (repeat t' k) = Some s' /\ xstep u s' t = Some s''.
Proof. exact turn_lemma. Qed.
Print Assumptions C146_turn.

Theorem C146_exclusive : forall u filters handlers programs sched s t, modest u -> xrun u (xstart filters handlers programs) sched = Some s ->
  match x_threads s t with
  | UCopy l _ :: _ | USet l _ :: _ => x_holder s (OfObject l) = Some t
  | UEvent e :: _ => within e = false -> forall x, x_holder s x <> Some t
  | UCmd _ :: _ | UTake _ :: _ => forall x, x_holder s x <> Some t
  | UDrop x :: _ => x_holder s x = Some t
  | [] => forall x, x_holder s x <> Some t
  end.
Proof. exact exclusive_lemma. Qed.
Print Assumptions C146_exclusive.

(** Handlers, filters and messages of each of two loggers log to the other or set its filter; both threads log to both; thread 1 waits for the lock of object 1. *)
Definition busy_user : xuser := XUser (fun e => match e with XAsk 0 => [XSet 1 5] | XSupply _ => [XSet 0 6] | XHandle 0 => [XLog 1 3] | XDropCopy 1 => [XLog 0 3] | _ => [] end)%nat (fun f => Nat.ltb f 5).
Example C146_case : modest busy_user /\ exists s, xrun busy_user (xstart (fun l => l) (fun l => [l]) (fun t => match t with 0 | 1 => [XLog 0 7; XLog 1 8] | _ => [] end)%nat)
    (repeat 0 11 ++ repeat 1 11 ++ [0; 0; 0])%nat = Some s /\ xstep busy_user s 1 = None /\ unfinished s 1 /\ x_holder s (OfObject 1) = Some 0%nat /\
  exists s', xrun busy_user s [0; 0; 1]%nat = Some s'.
Proof. split; [intros f; split; reflexivity|]. eexists. split; [vm_compute; reflexivity|]. split; [reflexivity|]. split; [discriminate|]. split; [reflexivity|]. eexists. vm_compute. reflexivity. Qed.

(** Finding: two threads that set filters of different loggers wait for each other for ever, if the filter that is replaced logs to the other logger when it is destroyed:
    each thread has the lock of one object, within which the old filter is destroyed (src/root.cpp:143-145), and waits for the other one. Each thread alone comes to
    its end, so that nothing shows as long as the two do not meet. *)
Theorem C146_cross_refuted : exists u filters handlers programs sched s, xrun u (xstart filters handlers programs) sched = Some s /\ deadlocked u s /\
  forall t, exists k s', xrun u (xstart filters handlers programs) (repeat t k) = Some s' /\ x_threads s' t = [].
Proof. exact cross_lemma. Qed.
Print Assumptions C146_cross_refuted.
