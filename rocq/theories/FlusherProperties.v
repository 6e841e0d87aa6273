(** C13, C14, C15: flush policies and size strings. *)
From Verif Require Import Base FlusherModel FlusherSpec FlusherProofs.
Open Scope N_scope.

(** C13. The policy asks for a flush exactly at every N-th non-empty write. *)
Theorem C13_repeat_flush_exact : forall threshold sizes i n,
  threshold < 2 ^ 64 -> nth_error sizes i = Some n ->
  nth_error (fst (flusher_run (FRepeat (repeat_new threshold)) sizes)) i
    = Some (if negb (n =? 0) && (nonempty_writes (firstn (S i) sizes) mod limit_of threshold =? 0) then Flush else Idle).
Proof. exact repeat_flush_exact_lemma. Qed.
Print Assumptions C13_repeat_flush_exact.

(** C13. After any history of writes at most N-1 records are unflushed. *)
Theorem C13_repeat_unflushed_bound : forall threshold sizes,
  threshold < 2 ^ 64 ->
  nonempty_writes (unflushed (combine sizes (fst (flusher_run (FRepeat (repeat_new threshold)) sizes))))
    < limit_of threshold.
Proof. exact repeat_unflushed_bound_lemma. Qed.
Print Assumptions C13_repeat_unflushed_bound.

Example C13_case :
  fst (flusher_run (FRepeat (repeat_new 3)) [5; 7; 0; 9; 1; 1; 1]) = [Idle; Idle; Idle; Flush; Idle; Idle; Flush]
  /\ 3 < 2 ^ 64 /\ limit_of 3 = 3.
Proof. repeat split. Qed.

(** C14. A flush is requested exactly by the writes that make the byte total cross a multiple of N. *)
Theorem C14_bytes_flush_exact : forall threshold sizes i n,
  threshold < 2 ^ 64 ->
  (forall m, In m sizes -> m + limit_of threshold <= 2 ^ 64) ->
  nth_error sizes i = Some n ->
  nth_error (fst (flusher_run (FBytes (bytecount_new threshold)) sizes)) i
    = Some (if total (firstn i sizes) / limit_of threshold <? total (firstn (S i) sizes) / limit_of threshold
            then Flush else Idle).
Proof. exact bytes_flush_exact_lemma. Qed.
Print Assumptions C14_bytes_flush_exact.

(** C14. After any history fewer than N bytes are unflushed. *)
Theorem C14_bytes_unflushed_bound : forall threshold sizes,
  threshold < 2 ^ 64 ->
  (forall m, In m sizes -> m + limit_of threshold <= 2 ^ 64) ->
  total (unflushed (combine sizes (fst (flusher_run (FBytes (bytecount_new threshold)) sizes))))
    < limit_of threshold.
Proof. exact bytes_unflushed_bound_lemma. Qed.
Print Assumptions C14_bytes_unflushed_bound.

(** C14. Without the no-overflow hypothesis the bound fails: the 64-bit sum wraps. *)
Theorem C14_bytes_unflushed_overflow_refuted : exists threshold sizes,
  threshold < 2 ^ 64 /\ (forall m, In m sizes -> m < 2 ^ 64) /\
  limit_of threshold <=
  total (unflushed (combine sizes (fst (flusher_run (FBytes (bytecount_new threshold)) sizes)))).
Proof. exact bytes_unflushed_overflow_lemma. Qed.
Print Assumptions C14_bytes_unflushed_overflow_refuted.

Example C14_case :
  fst (flusher_run (FBytes (bytecount_new 1024)) [10; 1000; 14; 1023; 1; 100500; 2; 875])
    = [Idle; Idle; Flush; Idle; Flush; Flush; Idle; Flush]
  /\ (forall m, In m [10; 1000; 14; 1023; 1; 100500; 2; 875] -> m + limit_of 1024 <= 2 ^ 64).
Proof.
  split; [reflexivity|]. intros m Hm.
  repeat (destruct Hm as [<-|Hm]; [vm_compute; discriminate|]). destruct Hm.
Qed.

(** C15. Every number with a known unit (or none) denotes number times multiplier, when that fits. *)
Theorem C15_parse_value : forall s n m,
  Denotes s n m -> n < 2 ^ 64 -> n * m < 2 ^ 64 -> parse_dunit s = DOk (n * m).
Proof. exact parse_dunit_value_lemma. Qed.
Print Assumptions C15_parse_value.

(** C15. Nothing else is accepted: an accepted string is a number that fits and a known unit. *)
Theorem C15_parse_sound : forall s v,
  parse_dunit s = DOk v -> exists n m, Denotes s n m /\ n < 2 ^ 64 /\ v = (n * m) mod 2 ^ 64.
Proof. exact parse_dunit_sound_lemma. Qed.
Print Assumptions C15_parse_sound.

Theorem C15_parse_reject : forall s,
  (forall n m, Denotes s n m -> 2 ^ 64 <= n) -> forall v, parse_dunit s <> DOk v.
Proof. exact parse_dunit_reject_lemma. Qed.
Print Assumptions C15_parse_reject.

(** The number a digit string denotes is unique, so [C15_parse_value] determines the result. *)
Theorem C15_numeral_unique : forall s n1 n2, Numeral s n1 -> Numeral s n2 -> n1 = n2.
Proof. exact numeral_unique_lemma. Qed.
Print Assumptions C15_numeral_unique.

(** C15 as stated (accepted strings denote their product) is false: large products wrap silently. *)
Theorem C15_parse_wraps_refuted : exists s n m v,
  Denotes s n m /\ n < 2 ^ 64 /\ parse_dunit s = DOk v /\ v <> n * m.
Proof. exact parse_dunit_wraps_lemma. Qed.
Print Assumptions C15_parse_wraps_refuted.

Example C15_case : parse_dunit (B "10MB") = DOk 10000000 /\ Denotes (B "10MB") 10 (10 ^ 6)
  /\ parse_dunit (B "17179869184GiB") = DOk 0 /\ parse_dunit (B "1024Hz") = DUnknownUnit (B "Hz")
  /\ parse_dunit (B "MB") = DBadCast.
Proof.
  split; [reflexivity|]. split; [|repeat split].
  exists (B "10"), (B "MB"). split; [reflexivity|]. split; [|constructor].
  apply (numeral_snoc (B "1") 1 0); [apply (numeral_one 1)|]; reflexivity.
Qed.
