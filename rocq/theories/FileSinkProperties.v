(** C16, C17, C53: the file sink. *)
From Verif Require Import Base FlusherModel FlusherSpec FileSinkModel FileSinkSpec FileSinkProofs.

(** C16. Whatever others do to the path at any moment, as long as no write fails: every record whose emit
    returned is in exactly one file, whole, on its own line, in order; emits that threw left nothing.
    ([before]: the previous contents of the file.) *)
Theorem C16_whole_lines : forall c s0 acts s k ts,
  fs_ok s0 -> Forall gentle acts -> run c s0 None acts = (s, k, ts) ->
  exists files, length files = length (returned acts ts) /\
    forall f, (f < f_new s)%nat -> exists before, ((f < f_new s0)%nat -> before = f_data s0 f) /\
      handed s k f = before ++ concat (map line (assigned f files (returned acts ts))).
Proof. exact whole_lines_lemma. Qed.
Print Assumptions C16_whole_lines.

(** C16, C17. When others touch the path only between emits and an open file keeps its inode number: no
    emit fails, the bytes handed over are those of the ideal sink, which writes to the file named by the
    path (rotation) or to the first file (no rotation); after destruction they are all in the files. *)
Theorem C16_lines_in_order : forall c s0 acts s k ts f,
  fs_ok s0 -> Forall calm_action acts -> inodes_kept (c_stat c) s0 acts ->
  run c s0 None acts = (s, k, ts) ->
  Forall (fun threw => threw = false) ts /\
  handed s k f = f_data (i_fs (ideal_run (c_stat c) s0 acts)) f /\
  f_data (destroy s k) f = f_data (i_fs (ideal_run (c_stat c) s0 acts)) f.
Proof. exact lines_in_order_lemma. Qed.
Print Assumptions C16_lines_in_order.

(** C17. A crash at any point, flushing every [n] records: each file has lost less than [n] records (0
    stands for the largest count), the last ones. *)
Theorem C17_crash_records : forall c s0 acts s k ts f n,
  (n < 2 ^ 64)%N -> c_flusher c = FRepeat (repeat_new n) ->
  fs_ok s0 -> Forall calm_action acts -> inodes_kept (c_stat c) s0 acts ->
  run c s0 None acts = (s, k, ts) ->
  exists safe lost, f_data (i_fs (ideal_run (c_stat c) s0 acts)) f = safe ++ concat (map line lost) /\
    is_prefix safe (f_data s f) /\ is_prefix (f_data s f) (safe ++ concat (map line lost)) /\
    (N.of_nat (length lost) < limit_of n)%N.
Proof. exact crash_records_lemma. Qed.
Print Assumptions C17_crash_records.

(** C17. A crash at any point, flushing every [n] bytes: each file has lost less than [n] bytes, the last
    ones. The bound on the records keeps the 64-bit counter from wrapping. *)
Theorem C17_crash_bytes : forall c s0 acts s k ts f n,
  (n < 2 ^ 64)%N -> c_flusher c = FBytes (bytecount_new n) ->
  fs_ok s0 -> Forall calm_action acts -> inodes_kept (c_stat c) s0 acts ->
  messages_satisfy (fun m => N.of_nat (length (line m)) + limit_of n <= 2 ^ 64)%N acts ->
  run c s0 None acts = (s, k, ts) ->
  exists missing, f_data (i_fs (ideal_run (c_stat c) s0 acts)) f = f_data s f ++ missing /\
    (N.of_nat (length missing) < limit_of n)%N.
Proof. exact crash_bytes_lemma. Qed.
Print Assumptions C17_crash_bytes.

(** File 0 at the path; two records; the file is rotated away; two more records go to a new file. *)
Definition case_acts : list action :=
  [Emit (B "a") (calm 1 20 0); Emit (B "bb") (calm 1 21 3); Ext XUnlink; Emit (B "ccc") (calm 1 22 0);
   Emit (B "d") (calm 1 23 1)].
Definition case_fs : fs := FS (Some 0%nat) (fun _ => B "old|") (fun _ => 1%N) (fun _ => 10%N) 1.
Example C16_case : forall c, c = Config true (FRepeat (repeat_new 3)) \/ c = Config true (FBytes (bytecount_new 9)) ->
  exists s k ts, run c case_fs None case_acts = (s, k, ts) /\
    f_data (destroy s k) 0 = B "old|a" ++ [NL] ++ B "bb" ++ [NL] /\
    f_data (destroy s k) 1 = B "ccc" ++ [NL] ++ B "d" ++ [NL] /\ f_data s 1 = B "c".
Proof. intros c [-> | ->]; eexists _, _, _; (split; [vm_compute; reflexivity|]); repeat split. Qed.

(** The hypotheses hold of it. *)
Example C16_case_hypotheses : fs_ok case_fs /\ Forall calm_action case_acts /\ inodes_kept true case_fs case_acts /\
  messages_satisfy (fun m => N.of_nat (length (line m)) + limit_of 9 <= 2 ^ 64)%N case_acts.
Proof.
  split; [intros f E; cbn in *; injection E as <-; lia|].
  split; [repeat (apply Forall_cons; [cbn; try exact I; eexists _, _, _; reflexivity|]); constructor|]. split.
  - intros a1 a2 E f g.
    assert (L : (length a1 <= 5)%nat) by (apply (f_equal (@length action)) in E; rewrite app_length in E; cbn in E; lia).
    assert (A : a1 = firstn (length a1) case_acts) by (rewrite E, firstn_app, firstn_all, Nat.sub_diag; cbn; symmetry; apply app_nil_r).
    rewrite A. clear A E. destruct (length a1) as [|[|[|[|[|[|]]]]]]; [..|lia]; vm_compute; congruence.
  - intros m o [E|[E|[E|[E|[E|[]]]]]]; inversion E; subst; vm_compute; discriminate.
Qed.

(** C17's hypotheses hold of it as well; a crash behind the last record costs the second file one record of the two, or less. *)
Example C17_case : (3 < 2 ^ 64)%N /\ (9 < 2 ^ 64)%N /\ limit_of 3 = 3%N /\
  (exists s k ts, run (Config true (FRepeat (repeat_new 3))) case_fs None case_acts = (s, k, ts) /\
     f_data (i_fs (ideal_run true case_fs case_acts)) 1 = B "ccc" ++ [NL] ++ B "d" ++ [NL] /\ f_data s 1 = B "c") /\
  exists s k ts, run (Config true (FBytes (bytecount_new 9))) case_fs None case_acts = (s, k, ts) /\
     f_data (i_fs (ideal_run true case_fs case_acts)) 1 = f_data s 1 ++ B "cc" ++ [NL] ++ B "d" ++ [NL].
Proof.
  split; [lia|]. split; [lia|]. split; [reflexivity|]. split; eexists _, _, _; (split; [vm_compute; reflexivity|]); [split|]; vm_compute; reflexivity.
Qed.

(** C16 (the full statement: a record is never written to a file that was renamed away before the record
    was emitted) is false if the path changes between the open and the stat of a new backend: the sink
    remembers the inode number of the other file and keeps writing to the old one, for ever. *)
Theorem C16_rotation_race_refuted : exists c s0 m o s1 k1,
  c_stat c = true /\ fs_ok s0 /\ no_write_failure o /\ emit c s0 None m o = (s1, Some k1, false) /\
  f_path s1 = Some 1%nat /\ f_ino s1 1%nat <> f_ino s1 0%nat /\
  forall ms s2 k2 ts, run c s1 (Some k1) (calm_emits ms) = (s2, k2, ts) ->
    f_path s2 = Some 1%nat /\ f_data (destroy s2 k2) 1%nat = [] /\
    f_data (destroy s2 k2) 0%nat = line m ++ concat (map line ms).
Proof. exact rotation_race_lemma. Qed.
Print Assumptions C16_rotation_race_refuted.

(** C16. Nor does the sink notice a file of the same inode number on another device (a new mount). *)
Theorem C16_other_device_refuted : exists c s0 acts s k ts m1 m2,
  c_stat c = true /\ fs_ok s0 /\ Forall calm_action acts /\ run c s0 None acts = (s, k, ts) /\
  f_path (destroy s k) = Some 1%nat /\ f_dev s 0%nat <> f_dev s 1%nat /\
  acts = [Emit m1 (calm 0 0 0); Ext (XCreate 2 10 []); Emit m2 (calm 0 0 0)] /\
  f_data (destroy s k) 1%nat = [] /\ f_data (destroy s k) 0%nat = line m1 ++ line m2.
Proof. exact other_device_lemma. Qed.
Print Assumptions C16_other_device_refuted.

(** C53 (the full statement: after a failed write, emits succeed again once the device accepts data) is
    false: one failed write, and every later emit throws although nothing fails any more. *)
Theorem C53_recovers_after_failure_refuted : exists c s0 m o s1 k1,
  fs_ok s0 /\ emit c s0 None m o = (s1, Some k1, true) /\ o_write o = IoFail 0 0 /\
  forall acts s2 k2 ts, Forall calm_action acts -> run c s1 (Some k1) acts = (s2, k2, ts) ->
    Forall (fun threw => threw = true) ts /\ f_data (destroy s2 k2) 0%nat = [].
Proof. exact failed_once_lemma. Qed.
Print Assumptions C53_recovers_after_failure_refuted.

(** C53. In general, without rotation: a failed stream never writes again, whatever the circumstances. *)
Theorem C53_failed_stays_failed : forall c acts s k s' k' ts,
  k_bad k = true -> k_inode k = None -> (k_file k < f_new s)%nat ->
  run c s (Some k) acts = (s', k', ts) ->
  k' = Some k /\ Forall (fun threw => threw = true) ts /\ forall f, (f < f_new s)%nat -> f_data s' f = f_data s f.
Proof. exact failed_stays_failed_lemma. Qed.
Print Assumptions C53_failed_stays_failed.
Example C53_case :
  let '(s1, k1, t1) := emit (Config false (FRepeat (repeat_new 1))) case_fs None (B "x")
      (Circ [] None [] (Some (1, 12)%N) [] (IoOk 1) (IoFail 1 0)) in
  t1 = true /\ f_data s1 0 = B "old|x" ++ [NL] /\
  let '(s2, k2, t2) := run (Config false (FRepeat (repeat_new 1))) s1 k1 [Ext XUnlink; Emit (B "y") (calm 0 0 0)] in
  t2 = [true] /\ f_data s2 0 = B "old|x" ++ [NL].
Proof. vm_compute. repeat split. Qed.
