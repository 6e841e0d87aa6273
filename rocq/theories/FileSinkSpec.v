(** What the files should hold. *)
From Verif Require Import Base FlusherModel FlusherSpec FileSinkModel.

Definition is_prefix {A} (a b : list A) : Prop := exists rest, b = a ++ rest.

(** A record on its line. *)
Definition line (message : bytes) : bytes := message ++ [chr 10].

(** Nothing fails and nobody interferes during an emit (the stream may write early as it likes). A file
    created by the open gets device [dev] and inode number [ino]. *)
Definition calm (dev ino : N) (spill : nat) : circumstances :=
  Circ [] None [] (Some (dev, ino)) [] (IoOk spill) (IoOk 0).

(** Calm histories. *)
Definition calm_action (a : action) : Prop :=
  match a with Ext _ => True | Emit _ o => exists dev ino spill, o = calm dev ino spill end.

(** The ideal sink: no buffering; a record goes to the file the path names at that moment (rotation by
    stat), or to the file opened by the first record (no rotation). [i_open]: the file written last. *)
Record ideal := Ideal { i_fs : fs; i_open : option fid }.

Definition ideal_target (stat : bool) (x : ideal) : option fid :=
  match stat, i_open x with
  | false, Some f => Some f
  | _, _ => f_path (i_fs x)
  end.

Definition write_to (s : fs) (f : fid) (m : bytes) : fs :=
  FS (f_path s) (fun g => if Nat.eqb g f then f_data s f ++ line m else f_data s g) (f_dev s) (f_ino s) (f_new s).

Definition ideal_step (stat : bool) (x : ideal) (a : action) : ideal :=
  match a with
  | Ext e => Ideal (apply_external (i_fs x) e) (i_open x)
  | Emit m o =>
      match ideal_target stat x with
      | Some f => Ideal (write_to (i_fs x) f m) (Some f)
      | None =>
          let ids := match o_open o with Some p => p | None => (0, 0)%N end in
          let s := apply_external (i_fs x) (XCreate (fst ids) (snd ids) []) in
          Ideal (write_to s (f_new (i_fs x)) m) (Some (f_new (i_fs x)))
      end
  end.

Definition ideal_run (stat : bool) (s : fs) (acts : list action) : ideal :=
  fold_left (ideal_step stat) acts (Ideal s None).

(** An open file keeps its inode number to itself: whenever the path names another file than the one the
    sink has open, the inode numbers differ. True when both are on one file system. *)
Definition inode_kept (x : ideal) : Prop :=
  forall f g, i_open x = Some f -> f_path (i_fs x) = Some g -> f_ino (i_fs x) f = f_ino (i_fs x) g -> f = g.
Definition inodes_kept (stat : bool) (s : fs) (acts : list action) : Prop :=
  forall acts1 acts2, acts = acts1 ++ acts2 -> inode_kept (ideal_run stat s acts1).

(** The path names an existing file, if any. *)
Definition fs_ok (s : fs) : Prop := forall f, f_path s = Some f -> (f < f_new s)%nat.

(** Bytes handed over for a file: those in it and those in the stream's buffer. *)
Definition handed (s : fs) (k : option backend) (f : fid) : bytes :=
  f_data s f ++ match k with Some k0 => if Nat.eqb (k_file k0) f then k_pending k0 else [] | None => [] end.

(** No write or flush fails (opening and stat may fail, others may interfere at any point). *)
Definition no_write_failure (o : circumstances) : Prop :=
  o_close o = None /\ (exists n, o_write o = IoOk n) /\ (exists n, o_flush o = IoOk n).

(** The records whose emit returned normally, in order. *)
Fixpoint returned (acts : list action) (threw : list bool) : list bytes :=
  match acts, threw with
  | Ext _ :: acts', _ => returned acts' threw
  | Emit m _ :: acts', b :: threw' => (if b then [] else [m]) ++ returned acts' threw'
  | _, _ => []
  end.

(** The records of a list assigned to file [f]. *)
Fixpoint assigned (f : fid) (files : list fid) (ms : list bytes) : list bytes :=
  match files, ms with
  | g :: files', m :: ms' => (if Nat.eqb g f then [m] else []) ++ assigned f files' ms'
  | _, _ => []
  end.

Definition gentle (a : action) : Prop := match a with Ext _ => True | Emit _ o => no_write_failure o end.

(** The records of a history satisfy [P]. *)
Definition messages_satisfy (P : bytes -> Prop) (acts : list action) : Prop := forall m o, In (Emit m o) acts -> P m.
