(** Wrappers of loggers as objects in memory: include/blackhole/wrapper.hpp and src/wrapper.cpp, with the strings
    and vectors they own and the views they keep of them. *)
From Verif Require Import Base Values.

(** Addresses of [wrapper_t] objects. *)
Definition wid := nat.

(** The standard library and Boost: the longest text a [std::string] keeps inside itself (15 for libstdc++), and
    how many elements an [attributes_t] keeps inside itself (include/blackhole/attributes.hpp:45-49: 16 if there is
    a small_vector, none for std::vector). *)
Record library := Library { l_text : nat; l_elements : nat }.

(** [std::string]: the characters inside the object, or in a block of the heap, with the size. *)
Inductive text := Inside (s : bytes) | Block (b : nat) (size : nat).

(** [value_t] (include/blackhole/attribute.hpp:68-88): everything but strings is kept as it is. (No constructor of
    [value_t] takes a function.) *)
Inductive stored := Plain (v : value) | Owned (t : text).

(** include/blackhole/attributes.hpp:43 [attribute_t]. *)
Record element := Element { e_name : text; e_value : stored }.

(** Where the elements of an [attributes_t] are: inside the wrapper, or in a block of the heap. *)
Inductive home := Within (w : wid) | Buffer (b : nat).

(** What a [string_view] made of a [std::string] points to: the characters inside the name or the value of an
    element, or a block. And its length. *)
Inductive part := Name | Content.
Inductive pointer := ToInside (h : home) (i : nat) (p : part) | ToBlock (b : nat).
Record tview := TView { t_at : pointer; t_size : nat }.

(** include/blackhole/attribute.hpp:181-213 [view_t] of a [value_t]. *)
Inductive vview := Now (v : value) | Seen (t : tview).

(** include/blackhole/wrapper.hpp:10-13 [wrapper_t]: the logger it wraps ([None]: some logger that is no wrapper),
    the place of its elements, and [attributes_view]. *)
Record wrapper := Wrapper { w_inner : option wid; w_home : home; w_views : list (tview * vview) }.

(** Texts on the heap, elements, wrappers; the next unused block; the number of wrappers ever made. Blocks are never
    used again after they have been freed (an allocator may do so). *)
Record state := State {
  s_texts : nat -> option bytes;
  s_elements : home -> option (list element);
  s_wrappers : wid -> option wrapper;
  s_next : nat;
  s_count : nat
}.

Definition upd {A} (f : nat -> A) (k : nat) (v : A) : nat -> A := fun x => if Nat.eqb x k then v else f x.
Definition home_eqb (a b : home) : bool :=
  match a, b with Within x, Within y => Nat.eqb x y | Buffer x, Buffer y => Nat.eqb x y | _, _ => false end.
Definition hset (f : home -> option (list element)) (h : home) (v : option (list element)) : home -> option (list element) :=
  fun x => if home_eqb x h then v else f x.

(** The heap of texts. *)
Definition heap := ((nat -> option bytes) * nat)%type.

(** Construction of a [std::string]. *)
Definition make_text (lib : library) (m : heap) (s : bytes) : text * heap :=
  if length s <=? l_text lib then (Inside s, m)
  else (Block (snd m) (length s), (upd (fst m) (snd m) (Some s), S (snd m))).

(** src/attribute.cpp:53-111: construction of a [value_t] (AttributeModel has the conversions). *)
Definition make_stored (lib : library) (m : heap) (v : value) : stored * heap :=
  match v with
  | VString s => let '(t, m1) := make_text lib m s in (Owned t, m1)
  | _ => (Plain v, m)
  end.

Fixpoint make_elements (lib : library) (m : heap) (l : attribute_list) : list element * heap :=
  match l with
  | [] => ([], m)
  | (k, v) :: l' =>
      let '(n, m1) := make_text lib m k in
      let '(x, m2) := make_stored lib m1 v in
      let '(es, m3) := make_elements lib m2 l' in
      (Element n x :: es, m3)
  end.

(** The characters of a [std::string]; [None] if its block is gone. *)
Definition text_bytes (texts : nat -> option bytes) (t : text) : option bytes :=
  match t with Inside s => Some s | Block b _ => texts b end.
Definition stored_value (texts : nat -> option bytes) (x : stored) : option value :=
  match x with
  | Plain v => Some v
  | Owned t => option_map VString (text_bytes texts t)
  end.
Fixpoint elements_list (texts : nat -> option bytes) (es : list element) : option attribute_list :=
  match es with
  | [] => Some []
  | e :: es' =>
      match text_bytes texts (e_name e), stored_value texts (e_value e), elements_list texts es' with
      | Some k, Some v, Some l => Some ((k, v) :: l)
      | _, _, _ => None
      end
  end.

(** Destruction of strings, values (src/attribute.cpp:121-123) and elements. [None]: freed twice. *)
Definition free_text (texts : nat -> option bytes) (t : text) : option (nat -> option bytes) :=
  match t with
  | Inside _ => Some texts
  | Block b _ => match texts b with Some _ => Some (upd texts b None) | None => None end
  end.
Definition free_stored (texts : nat -> option bytes) (x : stored) : option (nat -> option bytes) :=
  match x with Plain _ => Some texts | Owned t => free_text texts t end.
Fixpoint free_elements (texts : nat -> option bytes) (es : list element) : option (nat -> option bytes) :=
  match es with
  | [] => Some texts
  | e :: es' =>
      match free_text texts (e_name e) with
      | None => None
      | Some t1 => match free_stored t1 (e_value e) with None => None | Some t2 => free_elements t2 es' end
      end
  end.

(** [string_view] of a [std::string] that is a part of element [i] at [h]. *)
Definition view_text (h : home) (i : nat) (p : part) (t : text) : tview :=
  match t with
  | Inside s => TView (ToInside h i p) (length s)
  | Block b size => TView (ToBlock b) size
  end.
(** src/attribute.cpp:21-32, 248-250: [view_t] of a [value_t]. *)
Definition view_stored (h : home) (i : nat) (x : stored) : vview :=
  match x with Plain v => Now v | Owned t => Seen (view_text h i Content t) end.
(** src/wrapper.cpp:12-15. *)
Fixpoint view_elements (h : home) (i : nat) (es : list element) : list (tview * vview) :=
  match es with
  | [] => []
  | e :: es' => (view_text h i Name (e_name e), view_stored h i (e_value e)) :: view_elements h (S i) es'
  end.

(** Where [attributes_t] puts that many elements of wrapper [w], given an unused block. *)
Definition place (lib : library) (w : wid) (n block : nat) : home :=
  if n <=? l_elements lib then Within w else Buffer block.

(** src/wrapper.cpp:8-16, the constructor. The argument passed by value and moved into [storage] is built there at once. *)
Definition make (lib : library) (s : state) (w : wid) (inner : option wid) (l : attribute_list) : state :=
  let '(es, (texts, next)) := make_elements lib (s_texts s, s_next s) l in
  let h := place lib w (length es) next in
  State texts (hset (s_elements s) h (Some es))
        (upd (s_wrappers s) w (Some (Wrapper inner h (view_elements h 0 es)))) (S next) (S (s_count s)).

(** The implicit copy constructor of [wrapper_t]: the elements are copied with src/attribute.cpp:113-115, the views
    are copied as they are. *)
Definition copy (lib : library) (s : state) (src dst : wid) : option state :=
  match s_wrappers s src with
  | None => None
  | Some x =>
      match s_elements s (w_home x) with
      | None => None
      | Some es =>
          match elements_list (s_texts s) es with
          | None => None
          | Some l =>
              let '(es', (texts, next)) := make_elements lib (s_texts s, s_next s) l in
              let h := place lib dst (length es') next in
              Some (State texts (hset (s_elements s) h (Some es'))
                          (upd (s_wrappers s) dst (Some (Wrapper (w_inner x) h (w_views x)))) (S next) (S (s_count s)))
          end
      end
  end.

(** The implicit move constructor of [wrapper_t]. A vector on the heap is taken over; elements inside the wrapper are
    moved one by one with src/attribute.cpp:117-119 (a string gives up its block, or its characters are copied), and those of
    the source are destroyed. The views are moved as they are. The source is left without elements and views. *)
Definition move (s : state) (src dst : wid) : option state :=
  match s_wrappers s src with
  | None => None
  | Some x =>
      match s_elements s (w_home x) with
      | None => None
      | Some es =>
          let h := match w_home x with Buffer b => Buffer b | Within _ => Within dst end in
          Some (State (s_texts s) (hset (hset (s_elements s) h (Some es)) (Within src) (Some []))
                      (upd (upd (s_wrappers s) src (Some (Wrapper (w_inner x) (Within src) [])))
                           dst (Some (Wrapper (w_inner x) h (w_views x))))
                      (s_next s) (S (s_count s)))
      end
  end.

(** The implicit destructor. *)
Definition destroy (s : state) (w : wid) : option state :=
  match s_wrappers s w with
  | None => None
  | Some x =>
      match s_elements s (w_home x) with
      | None => None
      | Some es =>
          match free_elements (s_texts s) es with
          | None => None
          | Some texts => Some (State texts (hset (s_elements s) (w_home x) None) (upd (s_wrappers s) w None) (s_next s) (s_count s))
          end
      end
  end.

(** Reading through a view: what is in memory there now; [None] if there is nothing alive, or too little. *)
Definition part_of (p : part) (e : element) : option text :=
  match p with Name => Some (e_name e) | Content => match e_value e with Owned t => Some t | Plain _ => None end end.
Definition take (n : nat) (s : bytes) : option bytes := if n <=? length s then Some (firstn n s) else None.
Definition read (s : state) (v : tview) : option bytes :=
  if t_size v =? 0 then Some [] else
  match t_at v with
  | ToBlock b => match s_texts s b with Some c => take (t_size v) c | None => None end
  | ToInside h i p =>
      match s_elements s h with
      | Some es =>
          match nth_error es i with
          | Some e => match part_of p e with Some (Inside c) => take (t_size v) c | _ => None end
          | None => None
          end
      | None => None
      end
  end.
Definition read_value (s : state) (v : vview) : option value :=
  match v with Now x => Some x | Seen t => option_map VString (read s t) end.
Fixpoint read_views (s : state) (l : list (tview * vview)) : option attribute_list :=
  match l with
  | [] => Some []
  | (n, v) :: l' =>
      match read s n, read_value s v, read_views s l' with
      | Some k, Some x, Some r => Some ((k, x) :: r)
      | _, _, _ => None
      end
  end.

(** src/wrapper.cpp:18-31 [log]: the lists the wrappers add to the pack, outermost first, as whoever gets the record reads
    them; [None]: undefined behaviour (a dead wrapper or dead text is used, or wrappers wrap each other for ever). *)
Fixpoint log (fuel : nat) (s : state) (w : wid) : option attribute_pack :=
  match fuel, s_wrappers s w with
  | S fuel', Some x =>
      match read_views s (w_views x) with
      | None => None
      | Some l =>
          match w_inner x with
          | None => Some [l]
          | Some v => match log fuel' s v with Some r => Some (l :: r) | None => None end
          end
      end
  | _, _ => None
  end.

(** What a program does with wrappers. *)
Inductive op :=
| Make (w : wid) (inner : option wid) (l : attribute_list)
| Copy (src dst : wid)
| Move (src dst : wid)
| Destroy (w : wid)
| Log (w : wid).

Definition dead (s : state) (w : wid) : bool := match s_wrappers s w with None => true | Some _ => false end.

(** One operation; [None]: undefined behaviour (also: construction over a living wrapper, or around a dead one). *)
Definition step (lib : library) (s : state) (o : op) : option (state * list attribute_pack) :=
  match o with
  | Make w inner l =>
      if dead s w && match inner with None => true | Some v => negb (dead s v) end
      then Some (make lib s w inner l, []) else None
  | Copy src dst => if dead s dst then option_map (fun s' => (s', [])) (copy lib s src dst) else None
  | Move src dst => if dead s dst then option_map (fun s' => (s', [])) (move s src dst) else None
  | Destroy w => option_map (fun s' => (s', [])) (destroy s w)
  | Log w => option_map (fun p => (s, [p])) (log (s_count s) s w)
  end.

(** A whole program: what each of its log calls showed. *)
Fixpoint run (lib : library) (s : state) (ops : list op) : option (state * list attribute_pack) :=
  match ops with
  | [] => Some (s, [])
  | o :: ops' =>
      match step lib s o with
      | None => None
      | Some (s1, out) => match run lib s1 ops' with Some (s2, outs) => Some (s2, out ++ outs) | None => None end
      end
  end.

Definition init : state := State (fun _ => None) (fun _ => None) (fun _ => None) 0 0.
