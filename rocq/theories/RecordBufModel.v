(** Owned records: src/recordbuf.hpp, with the storage they and their views live in. *)
From Verif Require Import Base Values.

(** Addresses of [recordbuf_t] objects and of heap blocks. *)
Definition obj := nat.

(** The three owned containers of a [recordbuf_t] (src/recordbuf.hpp:106-108). *)
Inductive field := Msg | Fmt | Att.

(** Where a container keeps its elements: inside the object (small strings, small vectors), or in a
    heap block. *)
Inductive loc := Inline (o : obj) (f : field) | Heap (b : nat).

(** Contents of a container: the characters of a [std::string] or the elements of an [attributes_t]. *)
Inductive payload := Text (s : bytes) | Elems (l : list attribute).

(** What a [string_view] can point to: the characters of an owned string, the key or the string value
    of an owned attribute, or memory of the application. *)
Inductive place := PText (l : loc) | PKey (l : loc) (i : nat) | PVal (l : loc) (i : nat) | PApp (a : nat).

(** include/blackhole/stdext/string_view.hpp: pointer (place and offset) and length. *)
Record sview := View { v_place : place; v_off : nat; v_len : nat }.

(** include/blackhole/attribute.hpp:181-213 [view_t] with pointers. A lazily formatted value refers to
    a function object of the application, which writes the text found at that place. *)
Inductive vview :=
| WNull | WBool (b : bool) | WInt (z : Z) | WUint (n : N) | WDouble (bits : N) | WString (v : sview) | WFun (p : place).

(** src/record.hpp:8-20 [record_t::inner_t] of a record made by a log call, references followed. *)
Record rview := RView {
  rv_message : sview; rv_formatted : sview; rv_severity : Z; rv_timestamp : Z; rv_tid : N;
  rv_attributes : list (list (sview * vview))
}.

(** src/record.hpp:8-20 [record_t::inner_t] inside a [recordbuf_t]: references are to the [message.view],
    [formatted.view] and [pack] members of some [recordbuf_t] object. *)
Record inner := Inner { i_message : obj; i_formatted : obj; i_severity : Z; i_timestamp : Z; i_tid : N; i_attributes : obj }.

(** src/recordbuf.hpp:76-113. The three [owned_pair]s (where the data is, and the view), the pack (each
    element a reference to the [attributes.view] of some object) and the raw storage ([None]: never
    initialised). *)
Record rbuf := RBuf {
  b_loc : field -> loc;
  b_msgv : sview; b_fmtv : sview; b_attv : list (sview * vview);
  b_pack : list obj;
  b_inner : option inner
}.

(** Owned storage, live objects, application memory, next unused heap block. *)
Record world := World {
  w_mem : loc -> option payload;
  w_bufs : obj -> option rbuf;
  w_app : nat -> option bytes;
  w_next : nat
}.

Definition field_eqb (a b : field) : bool :=
  match a, b with Msg, Msg | Fmt, Fmt | Att, Att => true | _, _ => false end.
Definition loc_eqb (a b : loc) : bool :=
  match a, b with
  | Inline o f, Inline o' f' => Nat.eqb o o' && field_eqb f f'
  | Heap x, Heap y => Nat.eqb x y
  | _, _ => false
  end.
Definition mset (m : loc -> option payload) (l : loc) (p : option payload) : loc -> option payload :=
  fun x => if loc_eqb x l then p else m x.
Definition upd {A} (f : nat -> A) (k : nat) (v : A) : nat -> A := fun x => if Nat.eqb x k then v else f x.
Definition fset (g : field -> loc) (f : field) (l : loc) : field -> loc := fun x => if field_eqb x f then l else g x.

Definition bind {A B} (x : option A) (k : A -> option B) : option B := match x with Some a => k a | None => None end.
Notation "'let?' x ':=' e 'in' k" := (bind e (fun x => k)) (at level 200, x pattern, right associativity).

Fixpoint traverse {A B} (f : A -> option B) (l : list A) : option (list B) :=
  match l with
  | [] => Some []
  | x :: l' => let? y := f x in let? r := traverse f l' in Some (y :: r)
  end.

(** The characters at a place; [None] if the storage is gone. *)
Definition place_bytes (w : world) (p : place) : option bytes :=
  match p with
  | PText l => match w_mem w l with Some (Text s) => Some s | _ => None end
  | PKey l i => match w_mem w l with Some (Elems e) => option_map fst (nth_error e i) | _ => None end
  | PVal l i =>
      match w_mem w l with
      | Some (Elems e) => match nth_error e i with Some (_, VString s) => Some s | _ => None end
      | _ => None
      end
  | PApp a => w_app w a
  end.

(** include/blackhole/stdext/string_view.hpp [to_string]: reading through a view; outside the storage it
    is undefined. *)
Definition view_bytes (w : world) (v : sview) : option bytes :=
  match place_bytes w (v_place v) with
  | Some s => if v_off v + v_len v <=? length s then Some (firstn (v_len v) (skipn (v_off v) s)) else None
  | None => None
  end.

(** src/recordbuf.hpp:24-42 [into_owned_t]. *)
Definition into_owned (w : world) (v : vview) : option value :=
  match v with
  | WNull => Some VNull
  | WBool b => Some (VBool b)
  | WInt z => Some (VInt z)
  | WUint n => Some (VUint n)
  | WDouble d => Some (VDouble d)
  | WString s => option_map VString (view_bytes w s)
  | WFun p => option_map VString (place_bytes w p)
  end.

(** src/recordbuf.hpp:193-206 [flatten]. *)
Definition flatten (w : world) (pack : list (list (sview * vview))) : option (list attribute) :=
  traverse (fun kv => let? k := view_bytes w (fst kv) in let? v := into_owned w (snd kv) in Some (k, v)) (concat pack).

(** src/recordbuf.hpp:52-60 [view_of<std::string>::from]. *)
Definition view_of_text (m : loc -> option payload) (l : loc) : option sview :=
  match m l with Some (Text s) => Some (View (PText l) 0 (length s)) | _ => None end.

(** src/attribute.cpp (conversion of a stored value to its view): strings are viewed in place. Stored
    functions do not occur here because [flatten] renders them. *)
Definition view_of_value (l : loc) (i : nat) (v : value) : vview :=
  match v with
  | VNull => WNull
  | VBool b => WBool b
  | VInt z => WInt z
  | VUint n => WUint n
  | VDouble d => WDouble d
  | VString s => WString (View (PVal l i) 0 (length s))
  | VFun _ => WFun (PVal l i)
  end.

(** src/recordbuf.hpp:62-72 [view_of<attributes_t>::from]. *)
Fixpoint views_from (l : loc) (i : nat) (e : list attribute) : list (sview * vview) :=
  match e with
  | [] => []
  | (k, v) :: e' => (View (PKey l i) 0 (length k), view_of_value l i v) :: views_from l (S i) e'
  end.
Definition view_of_attributes (m : loc -> option payload) (l : loc) : option (list (sview * vview)) :=
  match m l with Some (Elems e) => Some (views_from l 0 e) | _ => None end.

Definition empty_payload (f : field) : payload := match f with Att => Elems [] | _ => Text [] end.

(** Construction of a [std::string] or [attributes_t] holding [p] as field [f] of object [o]: inside the
    object if [fits p] (an implementation choice: small string size, small_vector capacity), else in a
    fresh heap block. *)
Definition container_new (fits : payload -> bool) (m : loc -> option payload) (next : nat) (o : obj) (f : field) (p : payload)
  : (loc -> option payload) * nat * loc :=
  if fits p then (mset m (Inline o f) (Some p), next, Inline o f)
  else (mset m (Heap next) (Some p), S next, Heap next).

(** Move construction of field [f] of [dst] from field [f] of [src] kept at [ls]: a heap block is taken
    over, inline elements are moved; the source is left empty. Returns memory and both locations. *)
Definition container_move (m : loc -> option payload) (f : field) (src dst : obj) (ls : loc)
  : (loc -> option payload) * loc * loc :=
  match ls with
  | Heap b => (mset m (Inline src f) (Some (empty_payload f)), Inline src f, Heap b)
  | Inline _ _ => (mset (mset m (Inline dst f) (m ls)) (Inline src f) (Some (empty_payload f)), Inline src f, Inline dst f)
  end.

(** Move assignment: a heap block is taken over and the destination's own block released; inline
    elements are moved into the destination's present storage. *)
Definition container_move_assign (m : loc -> option payload) (f : field) (src : obj) (ls ld : loc)
  : (loc -> option payload) * loc * loc :=
  match ls with
  | Heap b =>
      let m1 := match ld with Heap d => mset m (Heap d) None | Inline _ _ => m end in
      (mset m1 (Inline src f) (Some (empty_payload f)), Inline src f, Heap b)
  | Inline _ _ => (mset (mset m ld (m ls)) (Inline src f) (Some (empty_payload f)), Inline src f, ld)
  end.

(** Operations on records. *)
Inductive op :=
| NewEmpty (o : obj)                     (* default construction *)
| Copy (o : obj) (r : rview)             (* construction from a record *)
| MoveConstruct (src dst : obj)
| MoveAssign (src dst : obj)
| Destroy (o : obj)
| AppWrite (a : nat) (s : option bytes)  (* the application changes or releases its own memory *)
| Observe (o : obj) (lwp : N).           (* the record is read through [into_view] by the thread with this id *)

(** src/recordbuf.hpp:119. *)
Definition new_empty (fits : payload -> bool) (w : world) (o : obj) : option world :=
  let '(m1, n1, l1) := container_new fits (w_mem w) (w_next w) o Msg (Text []) in
  let '(m2, n2, l2) := container_new fits m1 n1 o Fmt (Text []) in
  let '(m3, n3, l3) := container_new fits m2 n2 o Att (Elems []) in
  let? mv := view_of_text m1 l1 in
  let? fv := view_of_text m2 l2 in
  let? av := view_of_attributes m3 l3 in
  Some (World m3 (upd (w_bufs w) o (Some (RBuf (fun f => match f with Msg => l1 | Fmt => l2 | Att => l3 end) mv fv av [] None)))
              (w_app w) n3).

(** src/recordbuf.hpp:124-138. *)
Definition copy_record (fits : payload -> bool) (w : world) (o : obj) (r : rview) : option world :=
  let? message := view_bytes w (rv_message r) in
  let? formatted := view_bytes w (rv_formatted r) in
  let? attributes := flatten w (rv_attributes r) in
  let '(m1, n1, l1) := container_new fits (w_mem w) (w_next w) o Msg (Text message) in
  let '(m2, n2, l2) := container_new fits m1 n1 o Fmt (Text formatted) in
  let '(m3, n3, l3) := container_new fits m2 n2 o Att (Elems attributes) in
  let? mv := view_of_text m1 l1 in
  let? fv := view_of_text m2 l2 in
  let? av := view_of_attributes m3 l3 in
  Some (World m3
    (upd (w_bufs w) o (Some (RBuf (fun f => match f with Msg => l1 | Fmt => l2 | Att => l3 end) mv fv av [o]
      (Some (Inner o o (rv_severity r) (rv_timestamp r) (rv_tid r) o)))))
    (w_app w) n3).

(** [pack.back() = attributes.view] after [BOOST_ASSERT(pack.size() == 1)]: src/recordbuf.hpp:149-150, 168-169. *)
Definition repoint_pack (pack : list obj) (o : obj) : option (list obj) :=
  match pack with [_] => Some [o] | _ => None end.

(** src/recordbuf.hpp:152-155, 171-174: the references of the copied raw storage. *)
Definition repoint_inner (i : option inner) (o : obj) : option inner :=
  option_map (fun i => Inner o o (i_severity i) (i_timestamp i) (i_tid i) o) i.

(** src/recordbuf.hpp:142-156 with :87-90 for the three pairs. Moving a vector leaves it empty. *)
Definition move_construct (w : world) (src dst : obj) : option world :=
  let? rb := w_bufs w src in
  let '(m1, s1, d1) := container_move (w_mem w) Msg src dst (b_loc rb Msg) in
  let? mv := view_of_text m1 d1 in
  let '(m2, s2, d2) := container_move m1 Fmt src dst (b_loc rb Fmt) in
  let? fv := view_of_text m2 d2 in
  let '(m3, s3, d3) := container_move m2 Att src dst (b_loc rb Att) in
  let? av := view_of_attributes m3 d3 in
  let? pack := repoint_pack (b_pack rb) dst in
  let src' := RBuf (fun f => match f with Msg => s1 | Fmt => s2 | Att => s3 end) (b_msgv rb) (b_fmtv rb) (b_attv rb) [] (b_inner rb) in
  let dst' := RBuf (fun f => match f with Msg => d1 | Fmt => d2 | Att => d3 end) mv fv av pack (repoint_inner (b_inner rb) dst) in
  Some (World m3 (upd (upd (w_bufs w) src (Some src')) dst (Some dst')) (w_app w) (w_next w)).

(** src/recordbuf.hpp:160-178 with :93-101 for the three pairs ([view] of the source is moved from too). *)
Definition move_assign (w : world) (src dst : obj) : option world :=
  if Nat.eqb src dst then Some w else
  let? rb := w_bufs w src in
  let? rd := w_bufs w dst in
  let '(m1, s1, d1) := container_move_assign (w_mem w) Msg src (b_loc rb Msg) (b_loc rd Msg) in
  let? mv := view_of_text m1 d1 in
  let '(m2, s2, d2) := container_move_assign m1 Fmt src (b_loc rb Fmt) (b_loc rd Fmt) in
  let? fv := view_of_text m2 d2 in
  let '(m3, s3, d3) := container_move_assign m2 Att src (b_loc rb Att) (b_loc rd Att) in
  let? av := view_of_attributes m3 d3 in
  let? pack := repoint_pack (b_pack rb) dst in
  let src' := RBuf (fun f => match f with Msg => s1 | Fmt => s2 | Att => s3 end) (b_msgv rb) (b_fmtv rb) [] [] (b_inner rb) in
  let dst' := RBuf (fun f => match f with Msg => d1 | Fmt => d2 | Att => d3 end) mv fv av pack (repoint_inner (b_inner rb) dst) in
  Some (World m3 (upd (upd (w_bufs w) src (Some src')) dst (Some dst')) (w_app w) (w_next w)).

(** Destruction (implicit): all storage of the object goes away. *)
Definition destroy (w : world) (o : obj) : option world :=
  let? rb := w_bufs w o in
  let free m f := mset (mset m (Inline o f) None) (b_loc rb f) None in
  Some (World (free (free (free (w_mem w) Msg) Fmt) Att) (upd (w_bufs w) o None) (w_app w) (w_next w)).

(** src/record.cpp:40-74 on src/recordbuf.hpp:180-182 [into_view], every reference and view followed. *)
Definition observe_attribute (w : world) (kv : sview * vview) : option attribute :=
  let? k := view_bytes w (fst kv) in
  let? v := into_owned w (snd kv) in
  Some (k, v).

Definition observe (w : world) (o : obj) : option record :=
  let? rb := w_bufs w o in
  let? i := b_inner rb in
  let? om := w_bufs w (i_message i) in
  let? message := view_bytes w (b_msgv om) in
  let? of := w_bufs w (i_formatted i) in
  let? formatted := view_bytes w (b_fmtv of) in
  let? oa := w_bufs w (i_attributes i) in
  let? attributes := traverse (fun p => let? x := w_bufs w p in traverse (observe_attribute w) (b_attv x)) (b_pack oa) in
  Some (Rec message formatted (i_severity i) (i_timestamp i) (i_tid i) attributes).

(** src/record.cpp:56-62 [record_t::lwp]: the id of the thread that asks, whatever the record. *)
Definition record_lwp (current : N) : N := current.

(** One operation; [None]: undefined behaviour or a failed assertion. Observations are returned. *)
Definition step (fits : payload -> bool) (w : world) (x : op) : option (world * option (record * N)) :=
  match x with
  | NewEmpty o => match w_bufs w o with None => option_map (fun w' => (w', None)) (new_empty fits w o) | Some _ => None end
  | Copy o r => match w_bufs w o with None => option_map (fun w' => (w', None)) (copy_record fits w o r) | Some _ => None end
  | MoveConstruct src dst =>
      match w_bufs w dst with None => option_map (fun w' => (w', None)) (move_construct w src dst) | Some _ => None end
  | MoveAssign src dst => option_map (fun w' => (w', None)) (move_assign w src dst)
  | Destroy o => option_map (fun w' => (w', None)) (destroy w o)
  | AppWrite a s => Some (World (w_mem w) (w_bufs w) (upd (w_app w) a s) (w_next w), None)
  | Observe o lwp => option_map (fun r => (w, Some (r, record_lwp lwp))) (observe w o)
  end.

(** A whole history and everything observed in it. *)
Fixpoint run (fits : payload -> bool) (w : world) (ops : list op) : option (world * list (record * N)) :=
  match ops with
  | [] => Some (w, [])
  | x :: ops' =>
      let? (w', out) := step fits w x in
      let? (w'', outs) := run fits w' ops' in
      Some (w'', match out with Some r => r :: outs | None => outs end)
  end.

Definition init (app : nat -> option bytes) : world := World (fun _ => None) (fun _ => None) app 0.
