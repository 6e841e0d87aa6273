(** [attribute::value_t] as an object in memory: construction, copies, moves, assignment and destruction of src/attribute.cpp:53-151, with the
    [std::string] and the [boost::variant] inside it. *)
From Verif Require Import Base Values.

(** Addresses of [value_t] objects. *)
Definition oid := nat.

(** [std::string] of libstdc++ with the C++11 ABI: the characters inside the object or in a block of the heap. *)
Inductive text := Inside (s : bytes) | Block (b : nat).

(** Blocks: their characters and their capacity; the next unused one. Blocks are never used again after they have been freed (an allocator may
    do so). *)
Record heap := Heap { h_blocks : nat -> option (bytes * nat); h_next : nat }.

(** include/blackhole/attribute.hpp:103-106 and src/attribute.hpp:9-16: the variant in the storage. Alternatives other than the string own nothing.
    (No constructor of [value_t] takes a function, include/blackhole/attribute.hpp:110-143.) *)
Inductive stored := Plain (v : value) | Owned (t : text).

Record state := State { s_heap : heap; s_objects : oid -> option stored }.

Definition upd {A} (f : nat -> A) (k : nat) (v : A) : nat -> A := fun x => if Nat.eqb x k then v else f x.

(** What an operation ends with: [std::bad_alloc], or undefined behaviour. *)
Inductive res (A : Type) := Good (a : A) | Threw | Undefined.
Arguments Good {A} a. Arguments Threw {A}. Arguments Undefined {A}.

Definition add_block (h : heap) (s : bytes) (cap : nat) : text * heap :=
  (Block (h_next h), Heap (upd (h_blocks h) (h_next h) (Some (s, cap))) (S (h_next h))).
Definition set_block (h : heap) (b : nat) (c : option (bytes * nat)) : heap := Heap (upd (h_blocks h) b c) (h_next h).

Section Library.
(** How many characters a string keeps inside itself (15 for libstdc++). *)
Variable inside : nat.

(** The characters of a string; [None] if its block is gone. *)
Definition text_bytes (h : heap) (t : text) : option bytes :=
  match t with Inside s => Some s | Block b => option_map fst (h_blocks h b) end.

(** Construction of a string of these characters; [ok]: whether the heap has memory. *)
Definition make_text (ok : bool) (h : heap) (s : bytes) : res (text * heap) :=
  if length s <=? inside then Good (Inside s, h) else if ok then Good (add_block h s (length s)) else Threw.

(** The copy assignment of a string (libstdc++ [_M_assign]): the characters go where there is room for them, or to a new block, of twice the old
    capacity at least ([_M_create]), and then the old one is freed. *)
Definition assign_text (ok : bool) (h : heap) (dst : text) (s : bytes) : res (text * heap) :=
  match dst with
  | Inside _ =>
      if length s <=? inside then Good (Inside s, h) else if ok then Good (add_block h s (Nat.max (length s) (2 * inside))) else Threw
  | Block b =>
      match h_blocks h b with
      | None => Undefined
      | Some (_, cap) =>
          if length s <=? cap then Good (Block b, set_block h b (Some (s, cap)))
          else if ok then Good (add_block (set_block h b None) s (Nat.max (length s) (2 * cap))) else Threw
      end
  end.

(** The move constructor of a string: the block, or a copy of the characters inside; the source is left empty. *)
Definition move_text (src : text) : text * text := (src, Inside []).

(** The move assignment of a string: characters inside are copied to where the destination has its own; a block is taken over, and the source gets that of
    the destination, if there is one. The source is then cleared. *)
Definition move_assign_text (h : heap) (dst src : text) : res (text * text * heap) :=
  match src, dst with
  | Inside s, Inside _ => Good (Inside s, Inside [], h)
  | Inside s, Block b =>
      match h_blocks h b with
      | Some (_, cap) => if length s <=? cap then Good (Block b, Inside [], set_block h b (Some (s, cap))) else Undefined
      | None => Undefined
      end
  | Block c, Inside _ => Good (Block c, Inside [], h)
  | Block c, Block b =>
      match h_blocks h b with
      | Some (_, cap) => Good (Block c, Block b, set_block h b (Some ([], cap)))
      | None => Undefined
      end
  end.

(** The destructor of a string. *)
Definition free_text (h : heap) (t : text) : res heap :=
  match t with
  | Inside _ => Good h
  | Block b => match h_blocks h b with Some _ => Good (set_block h b None) | None => Undefined end
  end.

(** The variant's destructor (src/attribute.cpp:121-123). *)
Definition free (h : heap) (x : stored) : res heap :=
  match x with Plain _ => Good h | Owned t => free_text h t end.

(** src/attribute.cpp:53-111, :153-156 (AttributeModel has the conversions). *)
Definition make (ok : bool) (h : heap) (v : value) : res (stored * heap) :=
  match v with
  | VString s => match make_text ok h s with Good (t, h1) => Good (Owned t, h1) | Threw => Threw | Undefined => Undefined end
  | _ => Good (Plain v, h)
  end.

(** src/attribute.cpp:113-115. *)
Definition copy (ok : bool) (h : heap) (x : stored) : res (stored * heap) :=
  match x with
  | Plain v => Good (Plain v, h)
  | Owned t =>
      match text_bytes h t with
      | None => Undefined
      | Some s => match make_text ok h s with Good (t1, h1) => Good (Owned t1, h1) | Threw => Threw | Undefined => Undefined end
      end
  end.

(** src/attribute.cpp:117-119: the new value, and what is left of the old. *)
Definition move (x : stored) : stored * stored :=
  match x with
  | Plain v => (Plain v, Plain v)
  | Owned t => let '(t1, t2) := move_text t in (Owned t1, Owned t2)
  end.

(** The copy assignment of [boost::variant], for src/attribute.cpp:127: between strings it is that of the string; else the new alternative is
    copied aside, the old one destroyed, and the copy moved in. *)
Definition assign (ok : bool) (h : heap) (dst src : stored) : res (stored * heap) :=
  match src, dst with
  | Owned t, Owned d =>
      match text_bytes h t with
      | None => Undefined
      | Some s => match assign_text ok h d s with Good (t1, h1) => Good (Owned t1, h1) | Threw => Threw | Undefined => Undefined end
      end
  | _, _ =>
      match copy ok h src with
      | Good (x, h1) => match free h1 dst with Good h2 => Good (x, h2) | Threw => Threw | Undefined => Undefined end
      | Threw => Threw
      | Undefined => Undefined
      end
  end.

(** The move assignment of [boost::variant], for src/attribute.cpp:135: the destination, and what is left in the source. *)
Definition move_assign (h : heap) (dst src : stored) : res (stored * stored * heap) :=
  match src, dst with
  | Owned t, Owned d =>
      match move_assign_text h d t with Good (t1, t2, h1) => Good (Owned t1, Owned t2, h1) | Threw => Threw | Undefined => Undefined end
  | _, _ => match free h dst with Good h1 => let '(x, y) := move src in Good (x, y, h1) | Threw => Threw | Undefined => Undefined end
  end.

(** src/attribute.cpp:141-151: what a visitor is shown. *)
Definition show (h : heap) (x : stored) : option value :=
  match x with Plain v => Some v | Owned t => option_map VString (text_bytes h t) end.

(** What a program does with values. [ok]: whether the heap has memory, should it be asked. *)
Inductive op :=
| New (o : oid) (v : value) (ok : bool)
| NewCopy (src dst : oid) (ok : bool)
| NewMove (src dst : oid)
| Assign (src dst : oid) (ok : bool)
| AssignMove (src dst : oid)
| Destroy (o : oid)
| Show (o : oid).

(** What the program notices. *)
Inductive out := Done | BadAlloc | Saw (v : value).

Definition dead (s : state) (o : oid) : bool := match s_objects s o with None => true | Some _ => false end.

Definition put (s : state) (o : oid) (r : res (stored * heap)) : option (state * out) :=
  match r with
  | Good (x, h) => Some (State h (upd (s_objects s) o (Some x)), Done)
  | Threw => Some (s, BadAlloc)
  | Undefined => None
  end.

(** One operation; [None]: undefined behaviour (also: of an object that does not exist, or construction over one that does).
    src/attribute.cpp:126, 134: an assignment to itself does nothing. *)
Definition step (s : state) (p : op) : option (state * out) :=
  match p with
  | New o v ok => if dead s o then put s o (make ok (s_heap s) v) else None
  | NewCopy src dst ok =>
      match s_objects s src with
      | Some x => if dead s dst then put s dst (copy ok (s_heap s) x) else None
      | None => None
      end
  | NewMove src dst =>
      match s_objects s src with
      | Some x =>
          if dead s dst then
            let '(y, z) := move x in Some (State (s_heap s) (upd (upd (s_objects s) src (Some z)) dst (Some y)), Done)
          else None
      | None => None
      end
  | Assign src dst ok =>
      match s_objects s src, s_objects s dst with
      | Some x, Some d => if dst =? src then Some (s, Done) else put s dst (assign ok (s_heap s) d x)
      | _, _ => None
      end
  | AssignMove src dst =>
      match s_objects s src, s_objects s dst with
      | Some x, Some d =>
          if dst =? src then Some (s, Done)
          else match move_assign (s_heap s) d x with
               | Good (y, z, h) => Some (State h (upd (upd (s_objects s) src (Some z)) dst (Some y)), Done)
               | Threw => Some (s, BadAlloc)
               | Undefined => None
               end
      | _, _ => None
      end
  | Destroy o =>
      match s_objects s o with
      | Some x => match free (s_heap s) x with
                  | Good h => Some (State h (upd (s_objects s) o None), Done)
                  | _ => None
                  end
      | None => None
      end
  | Show o => match s_objects s o with
              | Some x => match show (s_heap s) x with Some v => Some (s, Saw v) | None => None end
              | None => None
              end
  end.

(** A whole program, and what it noticed. *)
Fixpoint run (s : state) (ps : list op) : option (state * list out) :=
  match ps with
  | [] => Some (s, [])
  | p :: ps' =>
      match step s p with
      | None => None
      | Some (s1, x) => match run s1 ps' with Some (s2, xs) => Some (s2, x :: xs) | None => None end
      end
  end.
End Library.

Definition init : state := State (Heap (fun _ => None) 0) (fun _ => None).
