(** The file sink (src/sink/file.cpp, src/sink/file.hpp, src/sink/file/rotate) on a small file system. *)
From Verif Require Import Base FlusherModel.

(** Files are identified by a number that is never reused (unlike an inode number). *)
Definition fid := nat.

(** The part of the file system that matters: the file the sink's path names, and for every file its
    contents, device and inode number. [f_new]: the next unused identity. *)
Record fs := FS {
  f_path : option fid;
  f_data : fid -> bytes;
  f_dev : fid -> N;
  f_ino : fid -> N;
  f_new : fid
}.

Definition upd {A} (f : nat -> A) (k : nat) (v : A) : nat -> A := fun x => if Nat.eqb x k then v else f x.

(** What others may do to the path: remove or rename away the file, put another existing file in its
    place, create a new file there. Other writers of the files are not modelled. *)
Inductive external := XUnlink | XReplace (f : fid) | XCreate (dev ino : N) (data : bytes).

Definition create_file (s : fs) (dev ino : N) (data : bytes) : fs :=
  FS (Some (f_new s)) (upd (f_data s) (f_new s) data) (upd (f_dev s) (f_new s) dev) (upd (f_ino s) (f_new s) ino) (S (f_new s)).

Definition apply_external (s : fs) (x : external) : fs :=
  match x with
  | XUnlink => FS None (f_data s) (f_dev s) (f_ino s) (f_new s)
  | XReplace f => if Nat.ltb f (f_new s) then FS (Some f) (f_data s) (f_dev s) (f_ino s) (f_new s) else s
  | XCreate dev ino data => create_file s dev ino data
  end.
Definition externals (s : fs) (xs : list external) : fs := fold_left apply_external xs s.

Definition append (s : fs) (f : fid) (b : bytes) : fs :=
  FS (f_path s) (upd (f_data s) f (f_data s f ++ b)) (f_dev s) (f_ino s) (f_new s).

(** src/sink/file.hpp:24-48 [backend_t] with the [std::ofstream] it owns: the open file, the bytes in the
    stream's buffer, the stream's bad bit, the inode number kept by the rotation policy
    (src/sink/file/rotate/stat.hpp:17-18; [None]: src/sink/file/rotate/null.hpp), the flush policy. *)
Record backend := Backend {
  k_file : fid;
  k_pending : bytes;
  k_bad : bool;
  k_inode : option N;
  k_flusher : flusher_t
}.

(** The options of the sink (src/sink/file.cpp:161-209): rotation by stat or none, and the flusher every
    backend starts with. *)
Record config := Config { c_stat : bool; c_flusher : flusher_t }.

(** Outcome of writing the stream's buffer: all well, with some first bytes already in the file; or a
    failed write(2) after some bytes, some others kept in the buffer. *)
Inductive io := IoOk (spilled : nat) | IoFail (written kept : nat).

(** Everything outside the sink's control during one emit: what others do before each system call, and
    how the calls end. *)
Record circumstances := Circ {
  o_before_stat : list external;   (* before the stat of should_rotate *)
  o_close : option nat;            (* closing the old stream: all written, or only so many bytes (error ignored) *)
  o_before_open : list external;
  o_open : option (N * N);         (* opening succeeds (device and inode number if a file is created), or fails *)
  o_before_stat2 : list external;  (* between open and the stat of the new rotation policy *)
  o_write : io;
  o_flush : io
}.

(** src/sink/file/rotate/stat.hpp:34-39 and null.hpp:14-16 [should_rotate]. Only the inode number is compared. *)
Definition should_rotate (s : fs) (k : backend) : bool :=
  match k_inode k with
  | None => false
  | Some i => match f_path s with Some g => negb (f_ino s g =? i)%N | None => true end
  end.

(** Destruction of the stream (erase, src/sink/file.cpp:136, and the destructor of the sink): the buffer
    is written; a failure is ignored. *)
Definition close_backend (s : fs) (k : backend) (o : option nat) : fs :=
  append s (k_file k) (match o with None => k_pending k | Some n => firstn n (k_pending k) end).

(** src/sink/file.cpp:143-150 [create_backend]: open in append mode (creating the file if the path names
    none), then the rotation policy stats the path (stat.hpp:21-32, throwing if there is no file). *)
Definition create_backend (c : config) (s : fs) (o : circumstances) : fs * option backend :=
  match o_open o with
  | None => (s, None)
  | Some (dev, ino) =>
      let s1 := match f_path s with Some _ => s | None => create_file s dev ino [] end in
      match f_path s1 with
      | None => (s1, None)
      | Some f =>
          let s2 := externals s1 (o_before_stat2 o) in
          if c_stat c then
            match f_path s2 with
            | None => (s2, None)
            | Some g => (s2, Some (Backend f [] false (Some (f_ino s2 g)) (c_flusher c)))
            end
          else (s2, Some (Backend f [] false None (c_flusher c)))
      end
  end.

(** src/sink/file.cpp:127-141 [backend]: the backend to write to, or an exception. *)
Definition find_backend (c : config) (s : fs) (k : option backend) (o : circumstances) : fs * option backend :=
  match k with
  | None => create_backend c (externals s (o_before_open o)) o
  | Some k0 =>
      let s1 := externals s (o_before_stat o) in
      if should_rotate s1 k0
      then create_backend c (externals (close_backend s1 k0 (o_close o)) (o_before_open o)) o
      else (s1, Some k0)
  end.

(** Moving the buffer to the file, as far as it goes. Returns whether the stream threw. *)
Definition push (s : fs) (k : backend) (o : io) : fs * backend * bool :=
  match o with
  | IoOk n => (append s (k_file k) (firstn n (k_pending k)),
               Backend (k_file k) (skipn n (k_pending k)) (k_bad k) (k_inode k) (k_flusher k), false)
  | IoFail n kept => (append s (k_file k) (firstn n (k_pending k)),
               Backend (k_file k) (firstn kept (skipn n (k_pending k))) true (k_inode k) (k_flusher k), true)
  end.

(** src/sink/file.hpp:41-47 [backend_t::write]. The stream throws on the bad bit (src/sink/file.cpp:88), and
    once bad every operation throws without writing. *)
Definition backend_write (s : fs) (k : backend) (message : bytes) (o : circumstances) : fs * backend * bool :=
  if k_bad k then (s, k, true)
  else
    let k1 := Backend (k_file k) (k_pending k ++ message ++ [NL]) false (k_inode k) (k_flusher k) in
    let '(s2, k2, threw) := push s k1 (o_write o) in
    if threw then (s2, k2, true)
    else
      let '(r, fl) := flusher_update (k_flusher k2) (N.of_nat (length message) + 1) in
      let k3 := Backend (k_file k2) (k_pending k2) false (k_inode k2) fl in
      match r with
      | Idle => (s2, k3, false)
      | Flush => push s2 k3 (match o_flush o with IoOk _ => IoOk (length (k_pending k3)) | IoFail n j => IoFail n j end)
      end.

(** src/sink/file.cpp:152-157 [emit] (under the sink's mutex, so emits of several threads happen one after
    the other). The only filename is the sink's path (src/sink/file.cpp:122-125). *)
Definition emit (c : config) (s : fs) (k : option backend) (message : bytes) (o : circumstances) : fs * option backend * bool :=
  match find_backend c s k o with
  | (s1, None) => (s1, None, true)
  | (s1, Some k1) => let '(s2, k2, threw) := backend_write s1 k1 message o in (s2, Some k2, threw)
  end.

(** A history: emits and external events between them. *)
Inductive action := Ext (x : external) | Emit (message : bytes) (o : circumstances).

Definition step (c : config) (s : fs) (k : option backend) (a : action) : fs * option backend * list bool :=
  match a with
  | Ext x => (apply_external s x, k, [])
  | Emit m o => let '(s', k', threw) := emit c s k m o in (s', k', [threw])
  end.

(** Returns which emits threw, in order. *)
Fixpoint run (c : config) (s : fs) (k : option backend) (acts : list action) : fs * option backend * list bool :=
  match acts with
  | [] => (s, k, [])
  | a :: acts' =>
      let '(s1, k1, t1) := step c s k a in
      let '(s2, k2, t2) := run c s1 k1 acts' in (s2, k2, t1 ++ t2)
  end.

(** Destruction of the sink with no I/O error. *)
Definition destroy (s : fs) (k : option backend) : fs :=
  match k with None => s | Some k0 => close_backend s k0 None end.
